(* Lemmas about the passes of HF coefficients. *)
From Coq Require Import ZArith List Bool Lia Arith Permutation Sorted ZifyBool ZifyNat.
From Verif Require Import GoBase GoLoop GoMatrix Bits ModelBitReader ModelUtil ModelEntropy ModelToc ModelHF ModelHFCoeff ModelHFGroup ModelHFPass.
From Verif Require Import SpecCodes SpecBitReader SpecHF SpecToc SpecGrammar SpecDist SpecStream SpecSymbols SpecHFGroup SpecHFPass.
From Verif Require Import ProofReads ProofGrammar ProofToc ProofOrder ProofModDecode PropFrame PropHF.
Import ListNotations.
Open Scope Z_scope.

(* ---- the natural order is unique ---- *)
Lemma sorted_unique {A} (R : A -> A -> Prop) : (forall a b, R a b -> ~ R b a) -> forall l l', StronglySorted R l -> StronglySorted R l' -> (forall p, In p l <-> In p l') -> l = l'.
Proof.
  intros AS. assert (IR : forall a, ~ R a a) by (intros a H; exact (AS a a H H)). induction l as [|a l IH]; intros l' S S' E.
  - destruct l' as [|b l']; [reflexivity|]. exfalso. apply (E b). left. reflexivity.
  - destruct l' as [|b l']; [exfalso; apply (E a); left; reflexivity|]. inversion S as [|? ? S1 S2]; subst. inversion S' as [|? ? S1' S2']; subst. rewrite Forall_forall in S2, S2'.
    assert (a = b).
    { destruct (proj1 (E a) (or_introl eq_refl)) as [K|K]; [congruence|]. destruct (proj2 (E b) (or_introl eq_refl)) as [K'|K']; [congruence|]. exfalso. exact (AS a b (S2 b K') (S2' a K)). }
    subst b. f_equal. apply IH; [exact S1|exact S1'|]. intros p. split; intros Hp.
    + destruct (proj1 (E p) (or_intror Hp)) as [<-|K]; [exfalso; exact (IR a (S2 a Hp))|exact K].
    + destruct (proj2 (E p) (or_intror Hp)) as [<-|K]; [exfalso; exact (IR a (S2' a Hp))|exact K].
Qed.
Lemma lex_asym a b : lex a b -> ~ lex b a.
Proof. unfold lex. lia. Qed.
Lemma natural_asym h w a b : natural_before h w a b -> ~ natural_before h w b a.
Proof.
  unfold natural_before. pose proof (lex_asym a b). pose proof (lex_asym (SpecHF.zigzag h w a) (SpecHF.zigzag h w b)). tauto.
Qed.
Lemma natural_is sort o l : sorts_positions sort -> 0 <= o <= 12 -> natural_order o l -> getNaturalOrder sort o = Ok l /\ scan_order (fst (order_cells o)) (snd (order_cells o)) l.
Proof.
  intros Hs Ho [N1 N2]. destruct (C42_natural_order o sort Ho Hs) as (l' & E & S & SC & I & _). assert (l = l').
  { apply (sorted_unique _ (natural_asym _ _) l l' N1 S). intros p. rewrite N2. symmetry. apply I. }
  subst l'. split; [exact E|exact SC].
Qed.

(* ---- permutations from symbols ---- *)
Lemma code_seq_read cs : forall prev ss, Forall (fun c => 0 <= c < 2 ^ 32) cs -> gives_m 0 ss (lehmer_symbols prev cs) -> code_seq (length cs) prev (ss 0%nat) = (Ok cs, ss (length cs)).
Proof.
  induction cs as [|c cs IH]; intros prev ss F G; [reflexivity|]. inversion F as [|? ? F1 F2]; subst. cbn [length code_seq lehmer_symbols] in *.
  erewrite ebind_intro by exact (G 0%nat _ _ eq_refl). replace (u32 c) with c by (symmetry; unfold u32; apply Z.mod_small; lia).
  pose proof (IH c (fun k => ss (S k)) F2 (fun j cx v Hj => G (S j) cx v Hj)) as E. cbv beta in E. erewrite ebind_intro by exact E. reflexivity.
Qed.
Lemma lehmer_range n cs : n <= 2 ^ 32 -> lehmer_ok n cs -> Forall (fun c => 0 <= c < n) cs.
Proof.
  revert n. induction cs as [|c cs IH]; intros n Hn H; [constructor|]. destruct H as [H1 H2]. constructor; [exact H1|]. eapply Forall_impl; [|exact (IH (n - 1) ltac:(lia) H2)]. cbv beta. lia.
Qed.
Lemma order_read used b c natural l perm ss : 0 <= b <= 12 -> Z.testbit used b = true -> scan_order (fst (order_cells b)) (snd (order_cells b)) natural ->
  order_symbols (Z.of_nat (length natural)) l perm -> gives_m 0 ss l -> c = reorder natural perm ->
  readOrder used b natural (ss 0%nat) = (Ok c, ss (length l)) /\ scan_order (fst (order_cells b)) (snd (order_cells b)) c.
Proof.
  intros Hb Tb Sc (cs & Lo & Ll & -> & ->) G ->. unfold readOrder.
  assert (T : negb (Z.land used (Z.shiftl 1 b) =? 0) = true).
  { destruct (Z.eqb_spec (Z.land used (Z.shiftl 1 b)) 0) as [E|]; [|reflexivity]. exfalso. apply (f_equal (fun z => Z.testbit z b)) in E. rewrite Z.land_spec, Z.shiftl_spec, Z.sub_diag, Tb, Z.bits_0 in E by lia. discriminate. }
  rewrite T. set (size := Z.of_nat (length natural)) in *.
  assert (D : 1 <= fst (order_cells b) <= 32 /\ 1 <= snd (order_cells b) <= 32).
  { assert (X : exists n, b = Z.of_nat n /\ (n <= 12)%nat) by (exists (Z.to_nat b); lia). destruct X as (n & -> & Hn). do 13 (destruct n as [|n]; [cbn; lia|]). lia. }
  assert (B : 64 <= size <= 65536) by (destruct Sc as (_ & L & _); fold size in L; rewrite L; clear - D; nia).
  assert (S64 : 0 <= size / 64 <= size) by (split; [apply Z.div_pos; lia|apply Z.div_le_upper_bound; lia]).
  assert (R : Forall (fun c => 0 <= c < size - size / 64) cs) by (apply lehmer_range; [lia|exact Lo]). set (n := length cs) in *.
  assert (RP : readPermutation size (size / 64) (ss 0%nat) = (Ok (lehmer_decode (iota size) (full_code size (size / 64) cs)), ss (S (length (lehmer_symbols 0 cs))))).
  { assert (LS : forall pv, length (lehmer_symbols pv cs) = n) by (unfold n; clear; induction cs as [|a t IHt]; intros pv; [reflexivity|cbn; f_equal; apply IHt]).
    rewrite LS. assert (U : u32 (Z.of_nat n) = Z.of_nat n) by (unfold u32; apply Z.mod_small; lia).
    eapply perm_fwd; [lia|lia|exact (G 0%nat _ _ eq_refl)|rewrite U; lia| |exact Lo|rewrite U; lia].
    rewrite U, Nat2Z.id. refine (code_seq_read cs 0 (fun k => ss (S k)) _ (fun j cx v Hj => G (S j) cx v Hj)). eapply Forall_impl; [|exact R]. cbv beta. lia. }
  erewrite ebind_intro by exact RP.
  destruct (C42_signalled_order _ _ natural (ss 0%nat) _ _ (proj1 D) (proj2 D) Sc RP) as (r & Er & _ & Sr & _).
  assert (Er' : r = reorder natural (lehmer_decode (iota size) (full_code size (size / 64) cs))).
  { clear - Er. revert r Er. induction (lehmer_decode (iota size) (full_code size (size / 64) cs)) as [|p ps IH]; intros r E; cbn [applyPerm] in E; [injection E as <-; reflexivity|].
    destruct (slice_get natural p) as [a| |] eqn:Ea; cbn [obind] in E; try discriminate. destruct (applyPerm natural ps) as [r'| |]; cbn [obind] in E; try discriminate. injection E as <-. cbn [reorder map]. f_equal; [|apply IH; reflexivity].
    unfold slice_get in Ea. destruct (p <? 0); [discriminate|]. destruct (nth_error natural (Z.to_nat p)) eqn:En; [|discriminate]. injection Ea as <-. symmetry. apply nth_error_nth. exact En. }
  unfold hlift. rewrite Er, Er'. split; [reflexivity|]. rewrite <- Er'. exact Sr.
Qed.
Lemma order_natural used b natural st : 0 <= b -> Z.testbit used b = false -> readOrder used b natural st = (Ok natural, st).
Proof.
  intros Hb Tb. unfold readOrder. assert (E : Z.land used (Z.shiftl 1 b) = 0).
  { apply Z.bits_inj'. intros k Hk. rewrite Z.land_spec, Z.shiftl_spec, Z.bits_0 by lia. destruct (Z.eq_dec k b) as [->|N]; [rewrite Tb; reflexivity|]. replace (Z.testbit 1 (k - b)) with false; [apply andb_false_r|].
    destruct (Z.ltb_spec (k - b) 0); [symmetry; apply Z.testbit_neg_r; lia|]. symmetry. change 1 with (2 ^ 0). apply Z.pow2_bits_false. lia. }
  rewrite E. reflexivity.
Qed.
Section Orders.
Context (sort : (Z * Z -> Z * Z -> Z) -> list (Z * Z) -> list (Z * Z)) (natural : Z -> list (Z * Z)) (used : Z) (order : Z -> nat -> list (Z * Z))
  (Hs : sorts_positions sort) (Hn : forall o, 0 <= o <= 12 -> natural_order o (natural o)).
Definition good_order (o : Z) (c : nat) : Prop := scan_order (fst (order_cells o)) (snd (order_cells o)) (order o c).
Lemma one_order o c t l ss : 0 <= o <= 12 -> orders_send natural used order ((o, c) :: t) l -> gives_m 0 ss l ->
  exists l1 l2, l = l1 ++ l2 /\ readOrder used o (natural o) (ss 0%nat) = (Ok (order o c), ss (length l1)) /\ good_order o c /\ orders_send natural used order t l2 /\ gives_m 0 (fun k => ss (length l1 + k)%nat) l2.
Proof.
  intros Ho H G. destruct (natural_is sort o _ Hs Ho (Hn o Ho)) as [_ Sc]. inversion H as [|? ? ? ? T E R|? ? ? perm l1 l2 T OS E R]; subst.
  - exists [], l. split; [reflexivity|]. rewrite order_natural by (lia || exact T). split; [rewrite E; reflexivity|]. split; [unfold good_order; rewrite E; exact Sc|]. split; [exact R|exact G].
  - destruct (gives_app _ _ _ _ G) as [G1 G2]. exists l1, l2. split; [reflexivity|]. destruct (order_read used o _ (natural o) l1 perm ss Ho T Sc OS G1 eq_refl) as [E1 E2]. rewrite E. split; [exact E1|]. split; [unfold good_order; rewrite E; exact E2|]. split; [exact R|exact G2].
Qed.
Lemma orders_read bs : Forall (fun b => 0 <= b <= 12) bs -> forall l ss, orders_send natural used order (flat_map (fun o => [(o, 0); (o, 1); (o, 2)]%nat) bs) l -> gives_m 0 ss l ->
  readOrders sort used bs (ss 0%nat) = (Ok (map (fun o => [order o 0%nat; order o 1%nat; order o 2%nat]) bs), ss (length l)) /\ Forall (fun o => forall c, (c < 3)%nat -> good_order o c) bs.
Proof.
  intros HB. induction HB as [|o bs Ho HB IH]; intros l ss H G; [inversion H; subst; split; [reflexivity|constructor]|].
  cbn [flat_map app] in H. destruct (natural_is sort o _ Hs Ho (Hn o Ho)) as [En _].
  destruct (one_order _ _ _ _ _ Ho H G) as (l0 & r0 & -> & E0 & S0 & H0 & G0). destruct (one_order _ _ _ _ _ Ho H0 G0) as (l1 & r1 & -> & E1 & S1 & H1 & G1). destruct (one_order _ _ _ _ _ Ho H1 G1) as (l2 & r2 & -> & E2 & S2 & H2 & G2).
  destruct (IH _ _ H2 G2) as [E3 F3]. cbv beta in E1, E2, E3. rewrite !Nat.add_0_r in *. split.
  - cbn [readOrders map]. erewrite ebind_intro by (unfold hlift; rewrite En; reflexivity). erewrite ebind_intro by exact E0. erewrite ebind_intro by exact E1. erewrite ebind_intro by exact E2. erewrite ebind_intro by exact E3.
    unfold eret. rewrite !app_length. reflexivity.
  - constructor; [|exact F3]. intros c Hc. destruct c as [|[|[|c]]]; [exact S0|exact S1|exact S2|lia].
Qed.
End Orders.
Lemma orders_plain sort natural order bs : sorts_positions sort -> (forall o, 0 <= o <= 12 -> natural_order o (natural o)) -> Forall (fun b => 0 <= b <= 12) bs ->
  orders_send natural 0 order (flat_map (fun o => [(o, 0); (o, 1); (o, 2)]%nat) bs) [] ->
  plainOrders sort bs = Ok (map (fun o => [order o 0%nat; order o 1%nat; order o 2%nat]) bs) /\ Forall (fun o => forall c, (c < 3)%nat -> good_order order o c) bs.
Proof.
  intros Hs Hn HB. induction HB as [|o bs Ho HB IH]; intros H; [split; [reflexivity|constructor]|]. destruct (natural_is sort o _ Hs Ho (Hn o Ho)) as [En Sc].
  cbn [flat_map app] in H. assert (P : forall o c t, orders_send natural 0 order ((o, c) :: t) [] -> order o c = natural o /\ orders_send natural 0 order t []).
  { clear. intros o c t H. inversion H as [|? ? ? ? T E R|? ? ? perm l1 l2 T OS E R]; subst; [split; assumption|]. rewrite Z.bits_0 in T. discriminate. }
  apply P in H. destruct H as [E0 H]. apply P in H. destruct H as [E1 H]. apply P in H. destruct H as [E2 H]. destruct (IH H) as [E3 F3]. cbn [plainOrders map]. rewrite En. cbn [obind]. rewrite E3. cbn [obind].
  split; [rewrite E0, E1, E2; reflexivity|]. constructor; [|exact F3]. intros c Hc. unfold good_order. destruct c as [|[|[|c]]]; [rewrite E0; exact Sc|rewrite E1; exact Sc|rewrite E2; exact Sc|lia].
Qed.
