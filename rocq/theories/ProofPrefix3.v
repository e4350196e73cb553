(* C66: simple prefix codes, and the whole description. *)
From Coq Require Import ZArith List Bool Lia ZifyBool ZifyNat.
From Verif Require Import GoBase GoLoop Bits ModelBitReader ModelUtil ModelEntropy SpecBitReader SpecCodes SpecUtil SpecGrammar SpecEntropy SpecDist SpecPrefix.
From Verif Require Import ProofBitReader ProofBitReader2 ProofReads ProofCodes ProofUtil ProofGrammar ProofHybrid ProofVLC ProofAlias ProofDist ProofPrefix ProofPrefix2.
Import ListNotations.
Open Scope Z_scope.

Lemma log_alphabet a : 2 <= a <= 2 ^ 16 -> CeilLog1p (a - 1) = Z.log2_up a /\ 0 <= Z.log2_up a <= 16.
Proof.
  intros H. assert (B : 0 <= Z.log2_up a <= 16).
  { split; [apply Z.log2_up_nonneg|]. change 16 with (Z.log2_up (2 ^ 16)). now apply Z.log2_up_le_mono. }
  split; [|exact B]. rewrite CeilLog1p_len by lia. rewrite Z.log2_up_eqn by lia. destruct (Z.eqb_spec (a - 1) 0); [lia|].
  replace (Z.pred a) with (a - 1) by lia. lia.
Qed.
Lemma exact_syms n L : 0 <= L <= 16 -> exact (readMany n (u32 L)) (c_list n (c_fixed (Z.to_nat L))).
Proof.
  intros H. rewrite u32_small by lia. induction n as [|n IH]; [apply exact_ret|]. cbn [readMany c_list].
  apply exact_bind; [apply exact_bits; lia|]. intros v (c & _ & Hv). apply exact_bind; [exact IH|]. intros t _.
  assert (v < 2 ^ 16) by (eapply Z.lt_le_trans; [apply Hv|apply Z.pow_le_mono_r; lia]).
  rewrite i32_small by (cbn in *; lia). apply exact_ret.
Qed.
Lemma syms_length {A} n (R : code A) c l : c_list n R c l -> length l = n.
Proof.
  revert c l. induction n as [|n IH]; intros c l; cbn [c_list]; [intros [_ ->]; reflexivity|].
  intros (? & ? & v & _ & _ & ? & ? & t & _ & Ht & _ & ->). cbn [length]. f_equal. exact (IH _ _ Ht).
Qed.
Lemma sort_up l : sortZ l = fold_right insert_up [] l.
Proof.
  induction l as [|x l IH]; [reflexivity|]. cbn [sortZ fold_right]. rewrite IH. generalize (fold_right insert_up [] l). intros r.
  induction r as [|y r IHr]; [reflexivity|]. cbn [insertZ insert_up]. destruct (Z.leb_spec x y), (Z.ltb_spec y x); try lia; [reflexivity|]. now rewrite IHr.
Qed.

(* The table of a simple code *)
Definition dist_of (x : prefix_table) : SymDist :=
  match x with
  | [(_, a)] => PrefixDist None a
  | [(_, a); (_, b)] => PrefixDist (Some (mkVLC 1 [(a, 1); (b, 1)])) 0
  | [(_, a); (_, b); (_, c)] => PrefixDist (Some (mkVLC 2 [(a, 1); (b, 2); (a, 1); (c, 2)])) 0
  | [([_], a); (_, b); (_, c); (_, d)] =>
      PrefixDist (Some (mkVLC 3 [(a, 1); (b, 2); (a, 1); (c, 3); (a, 1); (b, 2); (a, 1); (d, 3)])) 0
  | [(_, a); (_, b); (_, c); (_, d)] => PrefixDist (Some (mkVLC 2 [(a, 2); (c, 2); (b, 2); (d, 2)])) 0
  | _ => PrefixDist None 0
  end.
Lemma table2 a b : NewVLCTableWithSymbols 1 [1; 1; 0; 0] [a; b; 0; 0] = Ok (mkVLC 1 [(a, 1); (b, 1)]). Proof. reflexivity. Qed.
Lemma table3 a b c : NewVLCTableWithSymbols 2 [1; 2; 2; 0] [a; b; c; 0] = Ok (mkVLC 2 [(a, 1); (b, 2); (a, 1); (c, 2)]). Proof. reflexivity. Qed.
Lemma table4 a b c d : NewVLCTableWithSymbols 3 [1; 2; 3; 3] [a; b; c; d] =
  Ok (mkVLC 3 [(a, 1); (b, 2); (a, 1); (c, 3); (a, 1); (b, 2); (a, 1); (d, 3)]). Proof. reflexivity. Qed.
Lemma table4' a b c d : NewVLCTableWithSymbols 2 [2; 2; 2; 2] [a; b; c; d] = Ok (mkVLC 2 [(a, 2); (c, 2); (b, 2); (d, 2)]). Proof. reflexivity. Qed.
Lemma insert_up_length x l : length (insert_up x l) = S (length l).
Proof. induction l as [|y l IH]; [reflexivity|]. cbn [insert_up]. destruct (y <? x); cbn [length]; lia. Qed.
Lemma exact_lift {A} (m : RM A) v : (forall s, m s = (Ok v, s)) -> exact m (c_ret v).
Proof. intros H. apply (exact_eq (rret v)); [intros s; rewrite H; reflexivity|apply exact_ret]. Qed.
Lemma seq_iff_assoc {A B C} (m : RM C) (R : code A) (S : A -> code B) (T : B -> code C) :
  exact m (c_seq R (fun x => c_seq (S x) T)) -> exact m (c_seq (c_seq R S) T).
Proof. apply exact_iff. intros c v. symmetry. apply seq_assoc. Qed.
Lemma seq_iff_ret {A B} (m : RM B) (a : A) (T : A -> code B) : exact m (T a) -> exact m (c_seq (c_ret a) T).
Proof. apply exact_iff. intros c v. symmetry. apply seq_ret. Qed.
Lemma list1 (l : list Z) : length l = 1%nat -> l = [nth 0 l 0].
Proof. destruct l as [|? [|? ?]]; try discriminate. reflexivity. Qed.
Lemma list2 (l : list Z) : length l = 2%nat -> l = [nth 0 l 0; nth 1 l 0].
Proof. destruct l as [|? [|? [|? ?]]]; try discriminate. reflexivity. Qed.
Lemma list3 (l : list Z) : length l = 3%nat -> l = [nth 0 l 0; nth 1 l 0; nth 2 l 0].
Proof. destruct l as [|? [|? [|? [|? ?]]]]; try discriminate. reflexivity. Qed.
Lemma list4 (l : list Z) : length l = 4%nat -> l = [nth 0 l 0; nth 1 l 0; nth 2 l 0; nth 3 l 0].
Proof. destruct l as [|? [|? [|? [|? [|? ?]]]]]; try discriminate. reflexivity. Qed.
Lemma simple_exact a : 2 <= a <= 2 ^ 16 -> exact (populateSimplePrefix (Z.log2_up a)) (c_seq (simple_code a) (fun x => c_ret (dist_of x))).
Proof.
  intros Ha. destruct (log_alphabet a Ha) as [_ HL]. unfold populateSimplePrefix, simple_code. apply seq_iff_assoc.
  apply exact_bind; [apply exact_bits; lia|]. intros n (cn & _ & Hn). change (2 ^ Z.of_nat 2) with 4 in Hn.
  assert (C : n = 0 \/ n = 1 \/ n = 2 \/ n = 3) by lia.
  destruct C as [->|[->|[->| ->]]].
  - change (0 =? 0) with true. cbn match. apply seq_iff_assoc. change (Z.to_nat (0 + 1)) with 1%nat. change (0 + 1 =? 4) with false.
    apply exact_bind; [now apply exact_syms|]. intros l (cl & Hl). apply syms_length in Hl. rewrite (list1 l Hl). cbn [nth].
    apply seq_iff_ret. apply exact_lift. intros s. reflexivity.
  - change (1 =? 0) with false. change (1 =? 1) with true. cbn match. apply seq_iff_assoc. change (Z.to_nat (1 + 1)) with 2%nat. change (1 + 1 =? 4) with false.
    apply exact_bind; [now apply exact_syms|]. intros l (cl & Hl). apply syms_length in Hl. rewrite (list2 l Hl). cbn [nth]. generalize (nth 0 l 0) (nth 1 l 0). intros x y.
    apply seq_iff_ret. apply exact_lift. intros s. unfold rbind, rlift, rret. cbn [dist_of].
    destruct (Z.ltb_spec y x); rewrite table2; [rewrite Z.min_r, Z.max_l by lia|rewrite Z.min_l, Z.max_r by lia]; reflexivity.
  - change (2 =? 0) with false. change (2 =? 1) with false. change (2 =? 2) with true. cbn match. apply seq_iff_assoc. change (Z.to_nat (2 + 1)) with 3%nat. change (2 + 1 =? 4) with false.
    apply exact_bind; [now apply exact_syms|]. intros l (cl & Hl). apply syms_length in Hl. rewrite (list3 l Hl). cbn [nth]. generalize (nth 0 l 0) (nth 1 l 0) (nth 2 l 0). intros z x y.
    apply seq_iff_ret. apply exact_lift. intros s. unfold rbind, rlift, rret. cbn [dist_of].
    destruct (Z.ltb_spec y x); rewrite table3; [rewrite Z.min_r, Z.max_l by lia|rewrite Z.min_l, Z.max_r by lia]; reflexivity.
  - change (3 =? 0) with false. change (3 =? 1) with false. change (3 =? 2) with false. cbn match. apply seq_iff_assoc. change (Z.to_nat (3 + 1)) with 4%nat. change (3 + 1 =? 4) with true.
    apply exact_bind; [now apply exact_syms|]. intros l (cl & Hl). apply syms_length in Hl. apply seq_iff_assoc.
    cbn match. apply exact_bind; [apply exact_bool|]. intros b _. destruct b.
    + rewrite (list4 l Hl). cbn [nth]. generalize (nth 0 l 0) (nth 1 l 0) (nth 2 l 0) (nth 3 l 0). intros z u x y.
      apply seq_iff_ret. apply exact_lift. intros s. unfold rbind, rlift, rret. cbn [dist_of].
      destruct (Z.ltb_spec y x); rewrite table4; [rewrite Z.min_r, Z.max_l by lia|rewrite Z.min_l, Z.max_r by lia]; reflexivity.
    + apply seq_iff_ret. rewrite <- sort_up.
      assert (Hs : length (sortZ l) = 4%nat). { rewrite sort_up, (list4 l Hl). cbn [fold_right]. now rewrite !insert_up_length. }
      rewrite (list4 l Hl) at 1. cbn match. generalize dependent (sortZ l). intros r Hr. rewrite (list4 r Hr). cbn [combine].
      apply exact_lift. intros s. unfold rbind, rlift, rret. rewrite table4'. reflexivity.
Qed.

(* What a description yields: a distribution whose symbols are read by the
   codewords of the table. *)
Definition decodes_with (v : SymDist) (x : prefix_table) : Prop :=
  forall st, exact_ahead 15 (distReadSymbol v st) (fun c r => In (c, fst r) x /\ snd r = st).
Lemma decodes_vlc k t d x : (k <= 15)%nat -> exact_ahead k (GetVLC t) (fun c v => In (c, v) x) -> decodes_with (PrefixDist (Some t) d) x.
Proof.
  intros Hk H st. cbn [distReadSymbol]. apply (ahead_more k); [lia|].
  eapply ahead_iff; [|apply (ahead_bind k _ (fun v => rret (v, st)) _ (fun v => c_ret (v, st)) H); intros v _; apply ahead_ret].
  intros c [v st']. cbn [fst snd]. split.
  - intros (c1 & c2 & w & -> & Hi & -> & E). injection E as -> ->. rewrite app_nil_r. auto.
  - intros [Hi ->]. exists c, [], v. rewrite app_nil_r. split; [reflexivity|]. split; [exact Hi|]. split; reflexivity.
Qed.
Lemma decodes_const a : decodes_with (PrefixDist None a) [([], a)].
Proof.
  intros st. cbn [distReadSymbol]. eapply ahead_iff; [|apply ahead_ret]. intros c [v st']. cbn [In fst snd]. unfold c_ret. split.
  - intros [-> E]. injection E as -> ->. auto.
  - intros [[E|[]] ->]. injection E as <- <-. auto.
Qed.
Ltac small n := let H := fresh in intros ? H; match type of H with 0 <= ?x < _ =>
  assert (0 <= x < n) as C by exact H; clear H end.
Ltac cases8 := match goal with |- forall x, 0 <= x < ?n -> @?P x =>
  let x := fresh "x" in let H := fresh in intros x H;
  let C := fresh in assert (C : x = 0 \/ x = 1 \/ x = 2 \/ x = 3 \/ x = 4 \/ x = 5 \/ x = 6 \/ x = 7) by lia;
  repeat (destruct C as [->|C]; [try (exfalso; lia)|]); [..|subst x; try (exfalso; lia)] end.
Lemma vlc_in B table (x : prefix_table) : (B <= 3)%nat -> length table = Z.to_nat (2 ^ Z.of_nat B) ->
  Forall (fun e => (length (fst e) <= B)%nat /\ forall y, 0 <= y < 2 ^ Z.of_nat B -> zbits (length (fst e)) y = fst e ->
     nth (Z.to_nat y) table (0, 0) = (snd e, Z.of_nat (length (fst e)))) x ->
  (forall y, 0 <= y < 2 ^ Z.of_nat B -> let '(v, l) := nth (Z.to_nat y) table (0, 0) in
     0 <= l <= Z.of_nat B /\ In (zbits (Z.to_nat l) y, v) x) ->
  exact_ahead B (GetVLC (mkVLC (Z.of_nat B) table)) (fun c v => In (c, v) x).
Proof.
  intros HB Hl H1 H2. apply ahead_vlc; [lia|exact Hl| |exact H2]. intros c v Hi. rewrite Forall_forall in H1. exact (H1 _ Hi).
Qed.
Ltac entry := split; [cbn; lia|]; cbn [fst snd length]; cases8; intros E; cbn in E; (discriminate E || reflexivity).
Ltac row := cases8; cbn; (split; [lia|tauto]).
Lemma simple_decodes a c x : simple_code a c x -> decodes_with (dist_of x) x.
Proof.
  intros (c1 & c2 & n & -> & _ & H). destruct (n =? 0); [|destruct (n =? 1); [|destruct (n =? 2)]].
  - destruct H as (? & ? & l & _ & _ & _ & ->). apply decodes_const.
  - destruct H as (? & ? & l & _ & _ & _ & ->). cbn [dist_of]. apply (decodes_vlc 1); [lia|]. apply (vlc_in 1); [lia|reflexivity| |].
    + change (2 ^ Z.of_nat 1) with 2. repeat apply Forall_cons; try apply Forall_nil; entry.
    + change (2 ^ Z.of_nat 1) with 2. row.
  - destruct H as (? & ? & l & _ & _ & _ & ->). cbn [dist_of]. apply (decodes_vlc 2); [lia|]. apply (vlc_in 2); [lia|reflexivity| |].
    + change (2 ^ Z.of_nat 2) with 4. repeat apply Forall_cons; try apply Forall_nil; entry.
    + change (2 ^ Z.of_nat 2) with 4. row.
  - destruct H as (? & ? & l & _ & Hl & ? & ? & b & _ & _ & H). apply syms_length in Hl. destruct b.
    + destruct H as [_ ->]. cbn [dist_of]. apply (decodes_vlc 3); [lia|]. apply (vlc_in 3); [lia|reflexivity| |].
      * change (2 ^ Z.of_nat 3) with 8. repeat apply Forall_cons; try apply Forall_nil; entry.
      * change (2 ^ Z.of_nat 3) with 8. row.
    + destruct H as [_ ->].
      assert (Hs : length (fold_right insert_up [] l) = 4%nat) by (rewrite (list4 l Hl); cbn [fold_right]; now rewrite !insert_up_length).
      generalize dependent (fold_right insert_up [] l). intros r Hr. rewrite (list4 r Hr). cbn [combine dist_of].
      apply (decodes_vlc 2); [lia|]. apply (vlc_in 2); [lia|reflexivity| |].
      * change (2 ^ Z.of_nat 2) with 4. repeat apply Forall_cons; try apply Forall_nil; entry.
      * change (2 ^ Z.of_nat 2) with 4. row.
Qed.
Lemma head2 (P : Z -> Prop) c h : c_fixed 2 c h -> 0 <= h < 4. Proof. intros [_ H]. exact H. Qed.
Lemma prefix_complete a c x : 1 <= a <= 2 ^ 16 -> prefix_code a c x ->
  exists v, reads_ahead 5 (NewPrefixSymbolDistributionWithReader a) c v /\ decodes_with v x.
Proof.
  intros Ha. unfold prefix_code, NewPrefixSymbolDistributionWithReader. destruct (Z.eqb_spec a 1) as [->|N].
  - intros [-> ->]. exists (PrefixDist None 0). split; [|apply decodes_const]. apply (proj1 (ahead_ret 5 (PrefixDist None 0))). split; reflexivity.
  - destruct (log_alphabet a ltac:(lia)) as [-> HL]. intros (c1 & c2 & h & -> & Hh & H).
    pose proof (proj2 Hh) as Hh4. change (2 ^ Z.of_nat 2) with 4 in Hh4.
    assert (R1 : reads_ahead (5 + length c2) (ReadBits 2) c1 h) by exact (proj1 (ahead_of (5 + length c2) _ _ (exact_bits 2 2 eq_refl ltac:(lia))) c1 h Hh).
    assert (G : forall v, reads_ahead 5 (if h =? 1 then populateSimplePrefix (Z.log2_up a)
        else t <- populateComplexPrefix a h ;; rret (PrefixDist (Some t) 0)) c2 v ->
      reads_ahead 5 (hskip <- ReadBits 2 ;; if hskip =? 1 then populateSimplePrefix (Z.log2_up a)
        else t <- populateComplexPrefix a hskip ;; rret (PrefixDist (Some t) 0)) (c1 ++ c2) v).
    { intros v R2 s d p Hr Hb Hp. apply bits_at_app in Hb. destruct Hb as [B1 B2]. rewrite app_length in Hp.
      destruct (R1 s d p Hr B1 ltac:(lia)) as (s1 & E1 & Hr1). destruct (R2 s1 d _ Hr1 B2 ltac:(lia)) as (s2 & E2 & Hr2).
      exists s2. unfold rbind at 1. rewrite E1. split; [exact E2|]. now rewrite app_length, Nat.add_assoc. }
    destruct (Z.eqb_spec h 1) as [->|Nh].
    + exists (dist_of x). split; [|exact (simple_decodes _ _ _ H)]. apply G. apply (proj1 (ahead_of 5 _ _ (simple_exact a ltac:(lia)))).
      exists c2, [], x. rewrite app_nil_r. split; [reflexivity|]. split; [exact H|]. split; reflexivity.
    + assert (HA : a = Z.of_nat (Z.to_nat a)) by lia. rewrite HA in H.
      destruct (complex_complete (Z.to_nat a) h c2 x ltac:(lia) ltac:(lia) H) as (t & ls & -> & R2 & Hx). rewrite <- HA in R2.
      exists (PrefixDist (Some t) 0). split; [|apply (decodes_vlc 15); [lia|exact Hx]]. apply G.
      intros s d p Hr Hb Hp. destruct (R2 s d p Hr Hb Hp) as (s1 & E1 & Hr1). exists s1. unfold rbind. rewrite E1. split; [reflexivity|exact Hr1].
Qed.
Lemma prefix_sound a s d p v s' : 1 <= a <= 2 ^ 16 -> reader_at s d p -> NewPrefixSymbolDistributionWithReader a s = (Ok v, s') ->
  exists c x, bits_at d p c /\ prefix_code a c x /\ reader_at s' d (p + length c) /\ decodes_with v x.
Proof.
  intros Ha Hr. unfold prefix_code, NewPrefixSymbolDistributionWithReader. destruct (Z.eqb_spec a 1) as [->|N].
  - intros E. pose proof (proj2 (exact_ret (PrefixDist None 0)) s d p Hr) as H. rewrite E in H. destruct H as (c & Hb & [-> ->] & Hr').
    exists [], [([], 0)]. split; [exact Hb|]. split; [split; reflexivity|]. split; [exact Hr'|apply decodes_const].
  - destruct (log_alphabet a ltac:(lia)) as [-> HL]. unfold rbind at 1. intros E.
    pose proof (proj2 (exact_bits 2 2 eq_refl ltac:(lia)) s d p Hr) as H1. destruct (ReadBits 2 s) as [[h| |] s1]; [|discriminate|discriminate].
    destruct H1 as (c1 & B1 & Hh & Hr1). pose proof (proj2 Hh) as Hh4. change (2 ^ Z.of_nat 2) with 4 in Hh4.
    assert (G : forall c2 x, bits_at d (p + length c1) c2 -> (if h =? 1 then simple_code a else complex_code a h) c2 x -> reader_at s' d (p + length c1 + length c2) -> decodes_with v x ->
      exists c x, bits_at d p c /\ c_seq (c_fixed 2) (fun h => if h =? 1 then simple_code a else complex_code a h) c x /\ reader_at s' d (p + length c) /\ decodes_with v x).
    { intros c2 x B2 H2 Hr2 Hx. exists (c1 ++ c2), x. split; [apply bits_at_app; auto|]. split; [exists c1, c2, h; auto|].
      split; [now rewrite app_length, Nat.add_assoc|exact Hx]. }
    destruct (Z.eqb_spec h 1) as [->|Nh].
    + pose proof (proj2 (simple_exact a ltac:(lia)) s1 d _ Hr1) as H2. rewrite E in H2. destruct H2 as (c2 & B2 & (c3 & c4 & x & -> & Hx & -> & ->) & Hr2).
      rewrite app_nil_r in *. apply (G c3 x B2 Hx Hr2). exact (simple_decodes _ _ _ Hx).
    + unfold rbind in E. assert (HA : a = Z.of_nat (Z.to_nat a)) by lia. rewrite HA in E.
      destruct (populateComplexPrefix _ h s1) as [[t| |] s2] eqn:E2; [|discriminate|discriminate]. injection E as <- <-.
      destruct (complex_sound (Z.to_nat a) h s1 d _ t s2 ltac:(lia) ltac:(lia) Hr1 E2) as (c2 & ls & B2 & H2 & Hr2 & Hx). rewrite <- HA in H2.
      apply (G c2 (canon ls) B2 H2 Hr2). apply (decodes_vlc 15); [lia|exact Hx].
Qed.
