(* Properties of the passes of HF coefficients: C102. *)
From Coq Require Import ZArith List Bool Lia Arith Permutation Sorted ZifyBool ZifyNat.
From Verif Require Import GoBase GoLoop GoMatrix Bits ModelBitReader ModelUtil ModelEntropy ModelToc ModelHF ModelHFCoeff ModelHFGroup ModelHFPass.
From Verif Require Import SpecCodes SpecBitReader SpecHF SpecToc SpecGrammar SpecDist SpecStream SpecSymbols SpecHFGroup SpecHFPass.
From Verif Require Import ProofReads ProofCodes ProofGrammar ProofToc ProofOrder ProofModDecode ProofHFPass ProofSymbols PropFrame PropHF PropStream PropSymbols PropHFGroup.
Import ListNotations.
Open Scope Z_scope.

(* ---- C102: scan orders and codes of a pass from bits ---- *)
(* A pass whose bits are the set of orders that are sent, the permutations of
   the natural orders of this set and an entropy code is read as these orders
   and this code, and the reader is left where the pass ends.  The results are
   in the form that C101 asks for. *)
Theorem C102_pass_partial : forall sort hc np natural order h c s d p,
  sorts_positions sort -> (forall o, 0 <= o <= 12 -> natural_order o (natural o)) ->
  0 < hb_numClusters hc <= 16 -> 0 < np -> 495 * 16 * np < 2 ^ 29 ->
  pass_bits natural order (495 * hb_numClusters hc * np) h c ->
  reader_at s d p -> bits_at d p c -> (p + length c + 15 <= 8 * length d)%nat ->
  exists os e s', NewHFPass sort hc np s = (Ok (os, e), s') /\
    (forall o k, 0 <= o <= 12 -> (k < 3)%nat -> obind (slice_get os o) (fun r => slice_get r (Z.of_nat k)) = Ok (order o k)) /\
    (forall o k, 0 <= o <= 12 -> (k < 3)%nat -> scan_order (fst (order_cells o)) (snd (order_cells o)) (order o k)) /\
    stream_of h e /\ fresh e /\ proper_header h /\ reader_at s' d (p + length c).
Proof.
  intros sort hc np natural order h c s d p Hs Hn Hcl Hnp Hmax (used & uc & pc & hcb & Hu & Hp & Hh & Hd & ->) Hr Hb Hk.
  apply bits_at_app in Hb. destruct Hb as [Hb1 Hb]. apply bits_at_app in Hb. destruct Hb as [Hb2 Hb3]. rewrite !app_length in *.
  assert (XU : exact (ReadU32 95 0 19 0 0 0 0 13) (c_u32 95 0 19 0 0 0 0 13)) by (apply (exact_u32 95 0 19 0 0 0 0 13); u32_side).
  destruct (proj1 XU _ _ Hu s d p Hr Hb1) as (s1 & E1 & R1).
  unfold NewHFPass. erewrite rbind_ok by exact E1.
  assert (FB : Forall (fun b => 0 <= b <= 12) orderIDs) by (unfold orderIDs; repeat constructor; lia).
  set (res := map (fun o => [order o 0%nat; order o 1%nat; order o 2%nat]) orderIDs).
  assert (O : exists s2, (if negb (used =? 0) then
              rbind (NewEntropyStreamWithReaderAndNumDists 8) (fun stream s =>
                match readOrders sort used orderIDs (stream, s) with
                | (Ok o, (e, s')) => if negb (ValidateFinalState e) then (Err, s') else (Ok o, s')
                | (Err, (_, s')) => (Err, s')
                | (Panic, (_, s')) => (Panic, s')
                end)
            else rlift (plainOrders sort orderIDs)) s1 = (Ok res, s2) /\ reader_at s2 d (p + length uc + length pc) /\ Forall (fun o => forall c, (c < 3)%nat -> good_order order o c) orderIDs).
  { destruct (Z.eqb_spec used 0) as [->|Nu]; cbn [negb].
    - destruct Hp as [-> HO]. destruct (orders_plain sort natural order orderIDs Hs Hn FB HO) as [E F]. exists s1. unfold rlift. rewrite E. cbn [length]. rewrite Nat.add_0_r. split; [reflexivity|]. split; [exact R1|exact F].
    - destruct Hp as (ph & l & sc & x & phc & Hph & Hpd & HO & Hl & Hsy & Hx & ->). apply bits_at_app in Hb2. destruct Hb2 as [Hb4 Hb5]. rewrite app_length in *.
      destruct (C83_nested_partial 8 false ltac:(lia) phc ph Hph) as (e & [S1 S2] & R). destruct (R s1 d _ R1 Hb4 ltac:(lia)) as (s2 & E2 & R2).
      assert (Ha : (ahead ph <= 15)%nat) by (unfold ahead; destruct (hd_codes ph); lia).
      destruct (C96_values_partial ph 0 e l sc x s2 d _ (header_proper cluster_map 8 _ phc ph (good_map_code 2) Hph Hpd) S1 S2 (fun _ => or_introl eq_refl) Hsy Hl R2 Hb5 ltac:(lia)) as (ss & Z0 & Z1 & Z2 & Z3).
      destruct (orders_read sort natural used order Hs Hn orderIDs FB l ss HO Z1) as [E3 F3]. rewrite Z0 in E3. exists (snd (ss (length l))).
      erewrite rbind_ok by exact E2. rewrite E3. destruct (ss (length l)) as [e' s']. cbn [fst snd] in *. rewrite Z3. replace (match ss_x x with None => true | Some n => n =? 1245184 end) with true by (destruct Hx as [->| ->]; reflexivity). cbn [negb].
      split; [reflexivity|]. split; [rewrite Nat.add_assoc; exact Z2|exact F3]. }
  destruct O as (s2 & E2 & R2 & F2). erewrite rbind_ok by exact E2.
  assert (NC : numContexts hc np = 495 * hb_numClusters hc * np).
  { unfold numContexts. assert (0 <= 495 * np < 2 ^ 31) by lia. assert (0 <= 495 * np * hb_numClusters hc < 2 ^ 31) by (clear - Hcl Hnp Hmax; nia). rewrite (i32_small (495 * np)) by lia. rewrite i32_small by lia. ring. }
  rewrite NC. destruct (C83_nested_partial (495 * hb_numClusters hc * np) false ltac:(nia) hcb h Hh) as (e & [S1 S2] & R). destruct (R s2 d _ R2 Hb3 ltac:(lia)) as (s3 & E3 & R3).
  exists res, e, s3. split; [erewrite rbind_ok by exact E3; reflexivity|].
  assert (K : forall o, 0 <= o <= 12 -> nth_error orderIDs (Z.to_nat o) = Some o).
  { intros o Ho. assert (X : exists n, o = Z.of_nat n /\ (n <= 12)%nat) by (exists (Z.to_nat o); lia). destruct X as (n & -> & Hn'). rewrite Nat2Z.id. clear - Hn'. do 13 (destruct n as [|n]; [reflexivity|]). lia. }
  split; [|split; [|split; [exact S1|split; [exact S2|split; [exact (header_proper _ _ _ _ _ (good_map_code 2) Hh Hd)|replace (p + (length uc + (length pc + length hcb)))%nat with (p + length uc + length pc + length hcb)%nat by lia; exact R3]]]]].
  - intros o k Ho Hk'. unfold slice_get at 1. destruct (Z.ltb_spec o 0); [lia|]. unfold res. rewrite (map_nth_error _ _ _ (K o Ho)). cbn [obind]. destruct k as [|[|[|k]]]; [reflexivity..|lia].
  - intros o k Ho Hk'. rewrite Forall_forall in F2. apply (F2 o); [|exact Hk']. eapply nth_error_In. exact (K o Ho).
Qed.
Print Assumptions C102_pass_partial.

(* Every choice of orders that keep the LF corner in place can be sent. *)
Lemma permuted (natural l : list (Z * Z)) k : NoDup natural -> Permutation natural l -> 0 <= k <= Z.of_nat (length natural) -> firstn (Z.to_nat k) l = firstn (Z.to_nat k) natural ->
  exists perm, Permutation (iota (Z.of_nat (length natural))) perm /\ firstn (Z.to_nat k) perm = iota k /\ l = reorder natural perm.
Proof.
  intros ND P Hk F. set (n := Z.of_nat (length natural)) in *. set (f := fun i => nth (Z.to_nat i) natural (0, 0)).
  assert (E : forall j, (j <= length natural)%nat -> map f (iota (Z.of_nat j)) = firstn j natural).
  { intros j Hj. unfold iota. rewrite Nat2Z.id, map_map. apply nth_ext with (d := (0, 0)) (d' := (0, 0)); [rewrite map_length, seq_length, firstn_length; lia|].
    intros i Hi. rewrite map_length, seq_length in Hi. rewrite (nth_indep _ (0, 0) (f (Z.of_nat 0))) by (rewrite map_length, seq_length; lia). rewrite (map_nth (fun x => f (Z.of_nat x))), seq_nth by lia. unfold f. rewrite Nat2Z.id. cbn [Nat.add].
    rewrite <- (firstn_skipn j natural) at 1. apply app_nth1. rewrite firstn_length. lia. }
  assert (P' : Permutation l (map f (iota n))) by (unfold n; rewrite E, firstn_all by lia; symmetry; exact P).
  apply Permutation_map_inv in P'. destruct P' as (perm & El & Pp). exists perm. split; [exact Pp|]. split; [|exact El].
  assert (B : forall i, In i perm -> 0 <= i < n).
  { intros i Hi. apply (Permutation_in _ (Permutation_sym Pp)) in Hi. unfold iota in Hi. apply in_map_iff in Hi. destruct Hi as (j & <- & Hj). apply in_seq in Hj. lia. }
  assert (INJ : forall a b, (forall i, In i a -> 0 <= i < n) -> (forall i, In i b -> 0 <= i < n) -> map f a = map f b -> a = b).
  { clear - ND. intros a. induction a as [|x a IH]; intros [|y b] Ha Hb M; [reflexivity|discriminate..|]. injection M as M1 M2. f_equal; [|apply IH; [firstorder|firstorder|exact M2]].
    pose proof (Ha x (or_introl eq_refl)). pose proof (Hb y (or_introl eq_refl)). assert (Z.to_nat x = Z.to_nat y); [|lia]. apply (proj1 (NoDup_nth natural (0, 0)) ND); [lia|lia|exact M1]. }
  apply INJ.
  - intros i Hi. apply B. rewrite <- (firstn_skipn (Z.to_nat k) perm). apply in_or_app. left. exact Hi.
  - intros i Hi. unfold iota in Hi. apply in_map_iff in Hi. destruct Hi as (j & <- & Hj). apply in_seq in Hj. lia.
  - rewrite <- firstn_map, <- El, F. rewrite <- (Z2Nat.id k) at 2 by lia. symmetry. apply E. lia.
Qed.
Definition keeps_corner (o : Z) (natural l : list (Z * Z)) : Prop :=
  Permutation natural l /\ firstn (Z.to_nat (fst (order_cells o) * snd (order_cells o))) l = firstn (Z.to_nat (fst (order_cells o) * snd (order_cells o))) natural.
Lemma toc_ctx_range x : 0 <= x -> 0 <= toc_ctx x < 8.
Proof. intros H. unfold toc_ctx. pose proof (Z.log2_up_nonneg (x + 1)). lia. Qed.
Definition plain_symbol (v : Z * Z) : Prop := 0 <= fst v < 8 /\ 0 <= snd v < 2 ^ 31.
Lemma order_sendable o natural l : 0 <= o <= 12 -> natural_order o natural -> keeps_corner o natural l ->
  exists sy perm, order_symbols (Z.of_nat (length natural)) sy perm /\ l = reorder natural perm /\ Forall plain_symbol sy /\ Z.of_nat (length sy) <= 65537.
Proof.
  intros Ho N [P F]. destruct (natural_is isort o natural isort_ok Ho N) as [_ (ND & LEN & _)]. set (k := fst (order_cells o) * snd (order_cells o)) in *. set (size := Z.of_nat (length natural)) in *.
  assert (D : 1 <= k <= 1024).
  { subst k. clear - Ho. assert (X : exists n, o = Z.of_nat n /\ (n <= 12)%nat) by (exists (Z.to_nat o); lia). destruct X as (n & -> & Hn). do 13 (destruct n as [|n]; [cbn; lia|]). lia. }
  assert (S64 : size / 64 = k) by (rewrite LEN, Z.mul_comm; apply Z.div_mul; lia).
  destruct (permuted natural l k ND P ltac:(fold size; lia) F) as (perm & P1 & P2 & E). fold size in P1.
  destruct (C16_every_permutation_has_a_code size k perm ltac:(lia) P1 P2) as (cs & C1 & C2 & C3 & _).
  eexists. exists perm. split; [exists cs; rewrite S64; split; [exact C1|split; [lia|split; [reflexivity|symmetry; exact C3]]]|]. split; [exact E|].
  assert (LS : forall pv, length (lehmer_symbols pv cs) = length cs) by (clear; induction cs as [|a t IHt]; intros pv; [reflexivity|cbn; f_equal; apply IHt]).
  split; [|cbn [length]; rewrite LS; lia]. constructor; [split; cbn [fst snd]; [apply toc_ctx_range; lia|lia]|].
  assert (R : Forall (fun c => 0 <= c < size - k) cs) by (apply lehmer_range; [lia|exact C1]). clear - R D LEN. assert (Hp : 0 <= 0) by lia. revert Hp. generalize 0 at 2 3 as pv.
  induction R as [|c cs Hc R IH]; intros pv Hp; [constructor|]. cbn [lehmer_symbols]. constructor; [split; cbn [fst snd]; [apply toc_ctx_range; lia|lia]|]. apply IH. lia.
Qed.
Lemma orders_sendable natural order t : (forall o, 0 <= o <= 12 -> natural_order o (natural o)) -> (forall o c, 0 <= o <= 12 -> keeps_corner o (natural o) (order o c)) ->
  Forall (fun b => 0 <= fst b <= 12) t -> exists sy, orders_send natural 8191 order t sy /\ Forall plain_symbol sy /\ Z.of_nat (length sy) <= 65537 * Z.of_nat (length t) /\ (t <> [] -> sy <> []).
Proof.
  intros Hn Ho F. induction F as [|[o c] t Hb F (sy & S1 & S2 & S3 & S4)]; [exists []; split; [constructor|]; split; [constructor|]; split; [cbn; lia|congruence]|]. cbn [fst] in Hb.
  destruct (order_sendable o (natural o) (order o c) Hb (Hn o Hb) (Ho o c Hb)) as (s1 & perm & O1 & O2 & O3 & O4). exists (s1 ++ sy).
  split; [apply (os_sent natural 8191 order o c t perm s1 sy)|].
  - clear - Hb. assert (X : exists n, o = Z.of_nat n /\ (n <= 12)%nat) by (exists (Z.to_nat o); lia). destruct X as (n & -> & Hn). do 13 (destruct n as [|n]; [reflexivity|]). lia.
  - exact O1.
  - exact O2.
  - exact S1.
  - split; [apply Forall_app; split; assumption|]. rewrite app_length. split; [change (length ((o, c) :: t)) with (S (length t)); lia|]. intros _. destruct O1 as (cs & _ & _ & -> & _). discriminate.
Qed.
Theorem C102_sendable : forall natural order contexts, (forall o, 0 <= o <= 12 -> natural_order o (natural o)) -> (forall o c, 0 <= o <= 12 -> keeps_corner o (natural o) (order o c)) -> 0 < contexts ->
  exists h c, pass_bits natural order contexts h c.
Proof.
  intros natural order contexts Hn Ho Hc. assert (FB : Forall (fun b => 0 <= fst b <= 12) all_orders) by (apply Forall_forall; intros b Hb; unfold all_orders in Hb; apply in_flat_map in Hb; destruct Hb as (o & H1 & H2);
    assert (0 <= o <= 12) by (clear - H1; cbn [In] in H1; lia); destruct H2 as [<-|[<-|[<-|[]]]]; assumption).
  destruct (orders_sendable natural order all_orders Hn Ho FB) as (sy & S1 & S2 & S3 & S4).
  destruct (wide_sent 8 ltac:(lia)) as (phc & H8). destruct (wide_proper 8 ltac:(lia)) as [D8 P8].
  destruct (wide_sent (Z.to_nat contexts) ltac:(lia)) as (hc & Hh). destruct (wide_proper (Z.to_nat contexts) ltac:(lia)) as [D P]. rewrite Z2Nat.id in Hh by lia.
  destruct (C96_sendable (wide_header 8) 0 sy P8 (S4 ltac:(discriminate))) as (sc & x & X1 & _ & X2).
  { eapply Forall_impl; [|exact S2]. intros [ctx v] [H1 H2]. apply wide_sendable; [exact H1|exact H2]. }
  eexists. eexists. exists 8191. eexists. eexists. exists hc. split; [exists 3%nat, 8191; cbn; split; [lia|]; split; [lia|]; split; reflexivity|].
  split; [|split; [exact Hh|split; [exact D|reflexivity]]]. cbn [Z.eqb]. exists (wide_header 8), sy, sc, x, phc. split; [exact H8|]. split; [exact D8|]. split; [exact S1|].
  split; [change (length all_orders) with 39%nat in S3; lia|]. split; [exact X1|]. split; [|reflexivity]. right. exact X2.
Qed.
Print Assumptions C102_sendable.

(* The 8x8 order with its last two positions exchanged for the first channel,
   the other orders natural *)
Definition nat_of (o : Z) : list (Z * Z) := match getNaturalOrder isort o with Ok l => l | _ => [] end.
Definition swapped (l : list (Z * Z)) : list (Z * Z) := firstn 62 l ++ rev (skipn 62 l).
Definition ex_order (o : Z) (c : nat) : list (Z * Z) := if (o =? 0) && (c =? 0)%nat then swapped (nat_of o) else nat_of o.
Lemma nat_of_ok o : 0 <= o <= 12 -> natural_order o (nat_of o) /\ getNaturalOrder isort o = Ok (nat_of o).
Proof.
  intros Ho. destruct (C42_natural_order o isort Ho isort_ok) as (l & E & S & _ & I & _). unfold nat_of. rewrite E. split; [|reflexivity]. split; [exact S|exact I].
Qed.
Example C102_example : (exists h c, pass_bits nat_of ex_order (495 * hb_numClusters ex_hc * 1) h c) /\ ex_order 0 0 <> nat_of 0 /\ nth 62 (ex_order 0 0) (0, 0) = (7, 7) /\ nth 63 (ex_order 0 0) (0, 0) = (7, 6).
Proof.
  split.
  - apply C102_sendable; [intros o Ho; exact (proj1 (nat_of_ok o Ho))| |reflexivity]. intros o c Ho. unfold ex_order. destruct (Z.eqb_spec o 0) as [->|]; [|split; reflexivity]. destruct c as [|c]; [|split; reflexivity]. cbn [andb Nat.eqb].
    unfold swapped. split; [rewrite <- (firstn_skipn 62 (nat_of 0)) at 1; apply Permutation_app_head, Permutation_rev|vm_compute; reflexivity].
  - split; [|vm_compute; auto]. intros E. apply (f_equal (fun l => nth 62 l (0, 0))) in E. vm_compute in E. discriminate.
Qed.
