(* Lemmas about the sections of frames that are read one after the other. *)
From Coq Require Import ZArith List Bool Arith Lia Reals ZifyBool ZifyNat.
From Verif Require Import GoBase GoLoop GoMatrix Bits ModelBitReader ModelModFrame SpecBitReader SpecCodes SpecModFrame SpecVarFrame.
From Verif Require Import ProofReads ProofCodes ProofModFrame.
Import ListNotations.
Open Scope Z_scope.

(* m reads the bits c to a value with P. *)
Definition reads_to {A} (m : RM A) (c : list bool) (P : A -> Prop) : Prop :=
  forall s d p, reader_at s d p -> bits_at d p c -> (p + length c + 15 <= 8 * length d)%nat ->
  exists v s', m s = (Ok v, s') /\ P v /\ reader_at s' d (p + length c).

Lemma slot_bits_cons rs i c parts j : slot_bits rs ((i, c) :: parts) j = (if (slot rs i =? j)%nat then c else []) ++ slot_bits rs parts j.
Proof. unfold slot_bits. cbn [filter fst]. destruct (slot rs i =? j)%nat; reflexivity. Qed.
Lemma same_slots rs rs' : length rs' = length rs -> (forall i, slot rs' i = slot rs i) /\ forall parts j, slot_bits rs' parts j = slot_bits rs parts j.
Proof. intros E. unfold slot_bits, slot. rewrite E. split; reflexivity. Qed.
Lemma slot_reader rs i s : nth_error rs (slot rs i) = Some s -> Z.of_nat i < 2 ^ 32 -> getBitreader rs (Z.of_nat i) = Ok (Z.of_nat (slot rs i), s).
Proof.
  unfold slot, getBitreader. intros N B. destruct (length rs <=? 1)%nat.
  - change 0 with (Z.of_nat 0). rewrite (slice_get_err _ _ _ N). reflexivity.
  - rewrite u32_small by lia. rewrite (slice_get_err _ _ _ N). reflexivity.
Qed.
Lemma nth_error_set {A} (l : list A) n a b : nth_error l n = Some b -> nth_error (list_set l n a) n = Some a.
Proof. revert n. induction l as [|x l IH]; intros [|n] H; cbn in *; try congruence. apply IH, H. Qed.

Lemma section_step {A} (m : RM A) P i c parts rs : Z.of_nat i < 2 ^ 32 -> reads_to m c P -> pending rs ((i, c) :: parts) ->
  exists v rs', onSection (Z.of_nat i) m rs = (Ok v, rs') /\ P v /\ length rs' = length rs /\ pending rs' parts.
Proof.
  intros Hi R H. destruct (H (i, c) (or_introl eq_refl)) as (s & d & p & N & Hr & Hb & Hk). cbn [fst] in *.
  rewrite slot_bits_cons, Nat.eqb_refl in Hb, Hk. rewrite app_length in Hk. apply bits_at_app in Hb. destruct Hb as [B1 B2].
  destruct (R s d p Hr B1 ltac:(lia)) as (v & s' & E & HP & Hr'). exists v, (list_set rs (slot rs i) s').
  split; [exact (section_at _ _ _ _ _ _ _ (slot_reader rs i s N Hi) N E)|]. split; [exact HP|]. split; [apply list_set_length|].
  destruct (same_slots rs (list_set rs (slot rs i) s') (list_set_length _ _ _)) as [S1 S2].
  intros q Hq. rewrite S1, S2. specialize (H q (or_intror Hq)). rewrite slot_bits_cons in H.
  destruct (Nat.eqb_spec (slot rs i) (slot rs (fst q))) as [Ee|Ne].
  - rewrite <- Ee in *. exists s', d, (p + length c)%nat. split; [exact (nth_error_set _ _ _ _ N)|]. split; [exact Hr'|]. split; [exact B2|lia].
  - destruct H as (s1 & d1 & p1 & N1 & H1). exists s1, d1, p1. split; [rewrite nth_error_list_set by congruence; exact N1|exact H1].
Qed.

Lemma groups_step {A} (f : nat -> list BR -> Outcome A * list BR) (m : nat -> RM A) (P : nat -> A -> Prop) (idx : nat -> nat) (code : nat -> list bool) l rest :
  (forall g rs, In g l -> f g rs = onSection (Z.of_nat (idx g)) (m g) rs) -> (forall g, In g l -> Z.of_nat (idx g) < 2 ^ 32 /\ reads_to (m g) (code g) (P g)) ->
  forall rs, pending rs (map (fun g => (idx g, code g)) l ++ rest) ->
  exists vs rs', forGroups f l rs = (map Ok vs, rs') /\ Forall2 P l vs /\ length rs' = length rs /\ pending rs' rest.
Proof.
  induction l as [|g l IH]; intros Hf Hm rs H.
  - exists [], rs. split; [reflexivity|]. split; [constructor|]. split; [reflexivity|exact H].
  - cbn [map app] in H. destruct (Hm g (or_introl eq_refl)) as [Hi Hg]. destruct (section_step (m g) (P g) _ _ _ rs Hi Hg H) as (v & rs1 & E1 & P1 & L1 & H1).
    destruct (IH (fun g' rs' I => Hf g' rs' (or_intror I)) (fun g' I => Hm g' (or_intror I)) rs1 H1) as (vs & rs2 & E2 & P2 & L2 & H2).
    exists (v :: vs), rs2. cbn [forGroups]. rewrite (Hf g rs (or_introl eq_refl)), E1, E2. split; [reflexivity|]. split; [constructor; assumption|]. split; [congruence|exact H2].
Qed.
