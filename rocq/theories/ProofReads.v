(* Composition lemmas for [reads] and [yields]. *)
From Coq Require Import ZArith List Bool Lia Arith.
From Verif Require Import GoBase ModelBitReader SpecBitReader Bits ProofBitReader ProofBitReader2.
Import ListNotations.
Open Scope Z_scope.

Lemma bits_at_app d p a b : bits_at d p (a ++ b) <-> bits_at d p a /\ bits_at d (p + length a) b.
Proof.
  unfold bits_at. rewrite app_length. split.
  - intros [Hl H]. split; split; try lia.
    + intros i Hi. rewrite H by lia. now rewrite app_nth1.
    + intros i Hi. rewrite <- Nat.add_assoc, H by lia. rewrite app_nth2 by lia. f_equal. lia.
  - intros [[Hl1 H1] [Hl2 H2]]. split; [lia|]. intros i Hi.
    destruct (lt_dec i (length a)).
    + rewrite H1 by lia. now rewrite app_nth1.
    + rewrite app_nth2 by lia. rewrite <- H2 by lia. f_equal. lia.
Qed.

Lemma bits_at_field d p c : bits_at d p c -> field_at d p (length c) (bz c).
Proof.
  intros [Hl H]. split.
  - split; [apply bz_nonneg|apply bz_bound].
  - intros i Hi. rewrite nth_bz, H; auto.
Qed.

Lemma field_bits_at d p n v : (p + n <= 8 * length d)%nat -> field_at d p n v -> bits_at d p (zbits n v).
Proof.
  intros Hl [Hv H]. split; rewrite zbits_length; auto.
  intros i Hi. rewrite nth_zbits by auto. now rewrite H.
Qed.

Lemma reads_ret {A} (v : A) : reads (rret v) [] v.
Proof. intros s d p H _. exists s. split; auto. cbn [length]. now rewrite Nat.add_0_r. Qed.

Lemma reads_bind {A B} (m : RM A) (f : A -> RM B) a b v w :
  reads m a v -> reads (f v) b w -> reads (rbind m f) (a ++ b) w.
Proof.
  intros Hm Hf s d p Hr Hb. apply bits_at_app in Hb. destruct Hb as [Ha Hb].
  destruct (Hm s d p Hr Ha) as (s1 & H1 & Hr1).
  destruct (Hf s1 d _ Hr1 Hb) as (s2 & H2 & Hr2).
  exists s2. unfold rbind. rewrite H1. split; auto.
  rewrite app_length, Nat.add_assoc. auto.
Qed.

Lemma reads_bind0 {A B} (m : RM A) (f : A -> RM B) a v w :
  reads m a v -> reads (f v) [] w -> reads (rbind m f) a w.
Proof. intros. rewrite <- (app_nil_r a). eapply reads_bind; eauto. Qed.

Lemma reads_bits c n : n = Z.of_nat (length c) -> n <= 64 -> reads (ReadBits n) c (bz c).
Proof.
  intros -> Hn s d p Hr Hb.
  destruct (readbits_field s d p (length c) Hr ltac:(lia)) as (v & s' & H & Hf & Hr' & _).
  { destruct Hb; lia. }
  exists s'. split; auto. rewrite H. do 2 f_equal.
  eapply field_at_unique; eauto. now apply bits_at_field.
Qed.

Lemma reads_zbits k n v : n = Z.of_nat k -> n <= 64 -> 0 <= v < 2 ^ n -> reads (ReadBits n) (zbits k v) v.
Proof.
  intros -> Hn Hv. rewrite <- (bz_zbits_small k v) at 2 by auto.
  apply reads_bits; auto. now rewrite zbits_length.
Qed.

Lemma reads_zero : reads (ReadBits 0) [] 0.
Proof. intros s d p H _. exists s. split; auto. cbn [length]. now rewrite Nat.add_0_r. Qed.

Lemma reads_bool b : reads ReadBool [b] b.
Proof.
  intros s d p Hr [Hl Hb]. cbn [length] in *.
  destruct (readBit_field s d p Hr ltac:(lia)) as (s' & H & Hr' & _).
  exists s'. split; auto. unfold ReadBool, rbind. rewrite H.
  specialize (Hb O ltac:(lia)). rewrite Nat.add_0_r in Hb. cbn in Hb. subst b.
  now destruct (stream_bit d p).
Qed.

(* yields *)
Lemma yields_ret {A} (v : A) (P : A -> Prop) : P v -> yields (rret v) P.
Proof. intros H s d p Hr. cbn. split; auto. exists p. auto. Qed.

Lemma yields_err {A} (P : A -> Prop) : yields rerr P.
Proof. intros s d p Hr. exact I. Qed.

Lemma yields_bind {A B} (m : RM A) (f : A -> RM B) P Q :
  yields m P -> (forall v, P v -> yields (f v) Q) -> yields (rbind m f) Q.
Proof.
  intros Hm Hf s d p Hr. specialize (Hm s d p Hr). unfold rbind.
  destruct (m s) as [[v| |] s1]; auto.
  destruct Hm as (Hv & q & Hq & Hr1). specialize (Hf v Hv s1 d q Hr1).
  destruct (f v s1) as [[w| |] s2]; auto.
  destruct Hf as (Hw & q2 & Hq2 & Hr2). split; auto. exists q2. split; auto. lia.
Qed.

Lemma yields_weaken {A} (m : RM A) (P Q : A -> Prop) :
  yields m P -> (forall v, P v -> Q v) -> yields m Q.
Proof.
  intros Hm HPQ s d p Hr. specialize (Hm s d p Hr).
  destruct (m s) as [[v| |] s1]; auto. destruct Hm; auto.
Qed.

Lemma yields_bits n : 0 <= n -> yields (ReadBits n) (fun v => 0 <= v < 2 ^ n /\ n <= 64).
Proof.
  intros Hn s d p Hr. destruct (Z_gt_dec n 64).
  - rewrite ReadBits_big by lia. exact I.
  - rewrite <- (Z2Nat.id n) by lia.
    destruct (le_lt_dec (p + Z.to_nat n) (8 * length d)).
    + destruct (readbits_field s d p (Z.to_nat n) Hr ltac:(lia) l) as (v & s' & -> & Hf & Hr' & _).
      split; [destruct Hf; split; auto; lia|]. exists (p + Z.to_nat n)%nat. split; auto. lia.
    + destruct (readbits_short s d p (Z.to_nat n) Hr ltac:(lia) l) as (s' & ->). exact I.
Qed.

Lemma yields_bool : yields ReadBool (fun _ => True).
Proof.
  intros s d p Hr. destruct (le_lt_dec (8 * length d) p).
  - destruct (reader_at_good _ _ _ Hr) as (Hg & Hd & El).
    assert (E : bits_left s = []).
    { rewrite El. apply skipn_all2. rewrite bytes_bits_length. lia. }
    unfold ReadBool, rbind. rewrite (readBit_err s Hg E). exact I.
  - destruct (readBit_field s d p Hr l) as (s' & H & Hr' & _).
    unfold ReadBool, rbind. rewrite H. cbn. split; auto. exists (p + 1)%nat. split; auto. lia.
Qed.
