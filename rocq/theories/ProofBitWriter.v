From Coq Require Import ZArith List Bool Lia Arith ZifyBool ZifyNat.
From Verif Require Import GoBase ModelBitReader ModelBitWriter SpecBitReader SpecCodes Bits
  ProofBitReader ProofBitReader2 ProofReads ProofCodes.
Import ListNotations.
Open Scope Z_scope.

Definition w_bits (w : BW) : list bool :=
  bytes_bits (bw_data w) ++ zbits (Z.to_nat (bw_bits w)) (bw_curr w).
Definition w_ok (w : BW) : Prop :=
  Forall byte (bw_data w) /\ 0 <= bw_bits w < 8 /\ 0 <= bw_curr w < 2 ^ bw_bits w.

Lemma zbits_snoc k z (b : bool) : 0 <= z < 2 ^ Z.of_nat k ->
  zbits (S k) (z + (if b then 2 ^ Z.of_nat k else 0)) = zbits k z ++ [b].
Proof.
  intros Hz. rewrite <- (zbits_bz (zbits k z ++ [b])).
  rewrite app_length, zbits_length. cbn [length]. rewrite Nat.add_1_r. f_equal.
  rewrite bz_app, zbits_length, bz_zbits_small by auto. cbn [bz]. destruct b; lia.
Qed.

Lemma WriteBit_ok bit w : w_ok w -> w_ok (WriteBit bit w) /\
  w_bits (WriteBit bit w) = w_bits w ++ [negb (bit =? 0)].
Proof.
  intros (Hd & Hb & Hc). unfold WriteBit.
  set (curr := if bit =? 0 then bw_curr w else Z.lor (bw_curr w) (u8 (Z.shiftl 1 (bw_bits w)))).
  assert (Ec : curr = bw_curr w + if negb (bit =? 0) then 2 ^ bw_bits w else 0).
  { unfold curr. destruct (bit =? 0); cbn [negb]; [lia|].
    assert (2 ^ bw_bits w <= 2 ^ 7) by (apply Z.pow_le_mono_r; lia).
    assert (0 < 2 ^ bw_bits w) by (apply pow2_pos; lia).
    rewrite Z.shiftl_1_l, u8_small by lia.
    rewrite <- Z.shiftl_1_l. rewrite lor_shift_add by lia. rewrite ?Z.shiftl_1_l. lia. }
  assert (Hcur : 0 <= curr < 2 ^ (bw_bits w + 1)).
  { rewrite Z.pow_add_r by lia. rewrite Ec. destruct (negb _); lia. }
  assert (Ez : zbits (S (Z.to_nat (bw_bits w))) curr = zbits (Z.to_nat (bw_bits w)) (bw_curr w) ++ [negb (bit =? 0)]).
  { rewrite Ec. rewrite <- (Z2Nat.id (bw_bits w)) at 2 by lia. apply zbits_snoc. now rewrite Z2Nat.id by lia. }
  destruct (Z.eqb_spec (bw_bits w + 1) 8) as [E|E].
  - split.
    + split; [|cbn; lia]. apply Forall_app. split; auto. constructor; auto.
      unfold byte. rewrite E in Hcur. exact Hcur.
    + unfold w_bits. cbn [bw_data bw_bits bw_curr]. rewrite bytes_bits_app.
      change (zbits (Z.to_nat 0) 0) with (@nil bool). rewrite app_nil_r, <- app_assoc, <- Ez.
      replace (S (Z.to_nat (bw_bits w))) with 8%nat by lia.
      unfold bytes_bits at 2. cbn [flat_map]. now rewrite app_nil_r.
  - split.
    + split; [auto|]. split; [cbn [bw_bits]; lia|auto].
    + unfold w_bits. cbn [bw_data bw_bits bw_curr].
      replace (Z.to_nat (bw_bits w + 1)) with (S (Z.to_nat (bw_bits w))) by lia.
      now rewrite Ez, app_assoc.
Qed.

Lemma writeBitsFrom_ok val k : forall i w, w_ok w -> w_ok (writeBitsFrom val i k w) /\
  w_bits (writeBitsFrom val i k w) = w_bits w ++ zbits k (val / 2 ^ Z.of_nat i).
Proof.
  induction k; intros i w Hw.
  - cbn. rewrite app_nil_r. auto.
  - cbn [writeBitsFrom].
    set (bit := u8 _). destruct (WriteBit_ok bit w Hw) as [H1 H2].
    destruct (IHk (S i) (WriteBit bit w) H1) as [H3 H4]. split; auto.
    rewrite H4, H2. cbn [zbits]. rewrite <- app_assoc. cbn [app]. do 2 f_equal.
    + unfold bit. rewrite Z.shiftr_div_pow2 by lia. rewrite land1. change (2 ^ 1) with 2.
      rewrite Zmod_odd. destruct (Z.odd _); reflexivity.
    + f_equal. rewrite Nat2Z.inj_succ, Z.pow_succ_r by lia. rewrite Z.mul_comm.
      rewrite Z.div_div; try lia.
Qed.

Lemma WriteBits_ok val n w : w_ok w -> w_ok (WriteBits val n w) /\
  w_bits (WriteBits val n w) = w_bits w ++ zbits n val.
Proof.
  intros H. destruct (writeBitsFrom_ok val n 0 w H) as [H1 H2]. split; auto.
  unfold WriteBits. rewrite H2. change (2 ^ Z.of_nat 0) with 1. now rewrite Z.div_1_r.
Qed.

Lemma u8Exp_all : forallb (fun v => (u8Exp 64 0 (Z.of_nat v) =? Z.to_nat (Z.log2 (Z.of_nat v)))%nat) (seq 1 255) = true.
Proof. vm_compute. reflexivity. Qed.

Lemma u8Exp_ok v : 1 <= v <= 255 -> u8Exp 64 0 v = Z.to_nat (Z.log2 v).
Proof.
  intros Hv. pose proof u8Exp_all as H. rewrite forallb_forall in H.
  specialize (H (Z.to_nat v)). rewrite in_seq in H. specialize (H ltac:(lia)).
  apply Nat.eqb_eq in H. rewrite Z2Nat.id in H by lia. auto.
Qed.

Lemma WriteU8_ok v w : 0 <= v <= 255 -> w_ok w -> exists c, u8_code c v /\
  w_ok (WriteU8 v w) /\ w_bits (WriteU8 v w) = w_bits w ++ c.
Proof.
  intros Hv Hw. unfold WriteU8. destruct (Z.eqb_spec v 0) as [->|H].
  - exists [false]. split; [constructor|]. apply (WriteBit_ok 0 w Hw).
  - rewrite u8Exp_ok by lia. cbv zeta.
    pose proof (Z.log2_spec v ltac:(lia)) as [Hl Hu]. pose proof (Z.log2_nonneg v).
    assert (Z.log2 v < 8) by (apply Z.log2_lt_pow2; lia).
    rewrite Z.pow_succ_r in Hu by lia.
    assert (2 ^ Z.log2 v <= 2 ^ 7) by (apply Z.pow_le_mono_r; lia).
    set (n := Z.to_nat (Z.log2 v)) in *.
    assert (En : Z.of_nat n = Z.log2 v) by (unfold n; lia).
    exists (true :: zbits 3 (Z.of_nat n) ++ zbits n (v - 2 ^ Z.of_nat n)). split.
    + replace v with (2 ^ Z.of_nat n + (v - 2 ^ Z.of_nat n)) at 2 by lia.
      constructor; rewrite ?En; lia.
    + destruct (WriteBit_ok 1 w Hw) as [W1 B1].
      destruct (WriteBits_ok (Z.of_nat n) 3 _ W1) as [W2 B2].
      rewrite Z.shiftl_1_l, i64_small by (rewrite En; lia). rewrite u64_small by (rewrite En; lia).
      destruct (WriteBits_ok (v - 2 ^ Z.of_nat n) n _ W2) as [W3 B3].
      split; auto. rewrite B3, B2, B1. cbn [Z.eqb negb]. rewrite <- !app_assoc. reflexivity.
Qed.

Fixpoint ops_code (l : list wop) (c : list bool) : Prop :=
  match l with
  | [] => c = []
  | WField v n :: t => exists c', c = zbits n v ++ c' /\ ops_code t c'
  | WByte v :: t => exists c1 c', c = c1 ++ c' /\ u8_code c1 v /\ ops_code t c'
  end.

Lemma write_all_ok l : Forall wop_ok l -> forall w, w_ok w -> exists c, ops_code l c /\
  w_ok (write_all l w) /\ w_bits (write_all l w) = w_bits w ++ c.
Proof.
  induction 1 as [|o l Ho Hl IH]; intros w Hw.
  - exists []. cbn. rewrite app_nil_r. auto.
  - destruct o as [v n|v]; cbn [write_all].
    + destruct (WriteBits_ok v n w Hw) as [W1 B1]. destruct (IH _ W1) as (c & Hc & W2 & B2).
      exists (zbits n v ++ c). split; [cbn; eauto|]. split; auto. now rewrite B2, B1, app_assoc.
    + destruct (WriteU8_ok v w Ho Hw) as (c1 & Hc1 & W1 & B1).
      destruct (IH _ W1) as (c & Hc & W2 & B2).
      exists (c1 ++ c). split; [cbn; eauto 10|]. split; auto. now rewrite B2, B1, app_assoc.
Qed.

Lemma read_all_ok l : Forall wop_ok l -> forall c, ops_code l c -> reads (read_all l) c (map wop_value l).
Proof.
  induction 1 as [|o l Ho Hl IH]; intros c Hc.
  - cbn in *. subst c. apply reads_ret.
  - destruct o as [v n|v]; cbn [read_all map wop_value].
    + destruct Hc as (c' & -> & Hc). destruct Ho as [Hn Hv]. eapply reads_bind.
      * apply reads_zbits with (v := v); auto. lia.
      * eapply reads_bind0; [apply IH; auto|]. apply reads_ret.
    + destruct Hc as (c1 & c' & -> & Hc1 & Hc). eapply reads_bind.
      * apply ReadU8_reads; eauto.
      * eapply reads_bind0; [apply IH; auto|]. apply reads_ret.
Qed.

Lemma Bytes_ok w : w_ok w -> Forall is_byte (Bytes w) /\
  exists z, bytes_bits (Bytes w) = w_bits w ++ z /\ (length z < 8)%nat.
Proof.
  intros (Hd & Hb & Hc). unfold Bytes, w_bits.
  destruct (Z.ltb_spec 0 (bw_bits w)) as [H|H].
  - assert (2 ^ bw_bits w <= 2 ^ 8) by (apply Z.pow_le_mono_r; lia). split.
    + apply Forall_app. split; auto. constructor; auto. unfold is_byte. lia.
    + exists (zbits (8 - Z.to_nat (bw_bits w)) (bw_curr w / 2 ^ bw_bits w)). split.
      * rewrite bytes_bits_app, <- app_assoc. f_equal.
        unfold bytes_bits. cbn [flat_map]. rewrite app_nil_r.
        replace 8%nat with (Z.to_nat (bw_bits w) + (8 - Z.to_nat (bw_bits w)))%nat at 1 by lia.
        rewrite zbits_app, Z2Nat.id by lia. reflexivity.
      * rewrite zbits_length. lia.
  - split; auto. exists []. replace (bw_bits w) with 0 by lia. cbn [Z.to_nat zbits length].
    rewrite !app_nil_r. split; auto. lia.
Qed.

Lemma bits_at_prefix d c z : bytes_bits d = c ++ z -> bits_at d 0 c.
Proof.
  intros E. pose proof (bytes_bits_length d) as Hl. rewrite E, app_length in Hl.
  split; [lia|]. intros i Hi. cbn [Nat.add]. rewrite <- nth_bytes_bits, E. now rewrite app_nth1.
Qed.

Lemma write_read_round_trip l : Forall wop_ok l ->
  exists s' q, let d := Bytes (write_all l NewBitWriter) in
    read_all l (NewBitStreamReader d) = (Ok (map wop_value l), s') /\
    reader_at s' d q /\ (8 * length d < q + 8)%nat.
Proof.
  intros Hl. destruct (write_all_ok l Hl NewBitWriter) as (c & Hc & W & B).
  { repeat split; cbn; try lia. constructor. }
  cbn in B. destruct (Bytes_ok _ W) as (Hb & z & Hz & Hlz). rewrite B in Hz.
  destruct (read_all_ok l Hl c Hc _ _ _ (reader_at_new _ Hb) (bits_at_prefix _ _ _ Hz)) as (s' & H & Hr).
  exists s', (0 + length c)%nat. cbv zeta. split; auto. split; auto.
  pose proof (bytes_bits_length (Bytes (write_all l NewBitWriter))) as Hlen.
  rewrite Hz, app_length in Hlen. lia.
Qed.
