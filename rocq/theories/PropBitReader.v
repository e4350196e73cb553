(* Property theorems C01-C04: reading, splitting, peeking, skipping bits. *)
From Coq Require Import ZArith List Bool Lia.
From Verif Require Import GoBase ModelBitReader SpecBitReader Bits ProofBitReader ProofBitReader2.
Import ListNotations.
Open Scope Z_scope.

(* C01: a read of n bits returns the n-bit field at the current position and
   advances position and counter by n; it fails exactly when n bits are not
   available; n > 64 is refused without touching the reader. *)
Theorem C01_read_bits :
  forall s d p n, reader_at s d p ->
  ((n <= 64)%nat -> (p + n <= 8 * length d)%nat ->
     exists v s', ReadBits (Z.of_nat n) s = (Ok v, s') /\ field_at d p n v /\
       reader_at s' d (p + n) /\ br_count s' = u64 (br_count s + Z.of_nat n)) /\
  ((n <= 64)%nat -> (8 * length d < p + n)%nat ->
     exists s', ReadBits (Z.of_nat n) s = (Err, s')) /\
  ((64 < n)%nat -> ReadBits (Z.of_nat n) s = (Err, s)).
Proof.
  intros s d p n H. split; [|split].
  - intros; now apply readbits_field.
  - intros; now apply readbits_short with d p.
  - intros; apply ReadBits_big; lia.
Qed.
Print Assumptions C01_read_bits.

(* Every reader the constructor returns is positioned at bit 0. *)
Theorem C01_start : forall d, Forall is_byte d -> reader_at (NewBitStreamReader d) d 0.
Proof. exact reader_at_new. Qed.
Print Assumptions C01_start.

(* Single-bit reads (readBit, ReadBool). *)
Theorem C01_read_bit :
  forall s d p, reader_at s d p ->
  ((p < 8 * length d)%nat -> exists s',
     readBit s = (Ok (if stream_bit d p then 1 else 0), s') /\
     ReadBool s = (Ok (stream_bit d p), s') /\
     reader_at s' d (p + 1) /\ br_count s' = u64 (br_count s + 1)) /\
  (p = (8 * length d)%nat -> readBit s = (Err, s) /\ ReadBool s = (Err, s)).
Proof.
  intros s d p Hr. split.
  - intros Hp. destruct (readBit_field s d p Hr Hp) as (s' & H & H1 & H2).
    exists s'. unfold ReadBool, rbind. rewrite H. destruct (stream_bit d p); auto.
  - intros Hp. destruct (reader_at_good _ _ _ Hr) as (Hg & Hd & El).
    assert (E : bits_left s = []).
    { rewrite El. apply skipn_all2. rewrite bytes_bits_length. lia. }
    unfold ReadBool, rbind. rewrite (readBit_err s Hg E). auto.
Qed.
Print Assumptions C01_read_bit.

Example C01_example :
  reader_at (mkBR [0xA5; 0x3C; 0xFF] 1 3 0xA5 3) [0xA5; 0x3C; 0xFF] 3 /\
  ReadBits 11 (mkBR [0xA5; 0x3C; 0xFF] 1 3 0xA5 3) =
    (Ok 1940, mkBR [0xA5; 0x3C; 0xFF] 2 6 0x3C 14) /\
  field_at [0xA5; 0x3C; 0xFF] 3 11 1940.
Proof.
  split; [|split].
  - unfold reader_at, is_byte. cbn. repeat split; try lia; auto.
    repeat constructor; lia.
  - reflexivity.
  - split; [cbn; lia|]. intros i Hi. do 11 (destruct i as [|i]; [reflexivity|]). lia.
Qed.

(* C02: splitting a read. *)
Theorem C02_split :
  forall s d p a b v s1, reader_at s d p -> (a + b <= 64)%nat ->
  ReadBits (Z.of_nat (a + b)) s = (Ok v, s1) ->
  exists va vb s2 s3,
    ReadBits (Z.of_nat a) s = (Ok va, s2) /\ ReadBits (Z.of_nat b) s2 = (Ok vb, s3) /\
    v = va + 2 ^ Z.of_nat a * vb /\ 0 <= va < 2 ^ Z.of_nat a /\ 0 <= vb < 2 ^ Z.of_nat b /\
    reader_at s1 d (p + (a + b)) /\ reader_at s3 d (p + (a + b)) /\ br_count s3 = br_count s1.
Proof.
  intros s d p a b v s1 Hr Hab Hrd.
  assert (Hav : (p + (a + b) <= 8 * length d)%nat).
  { destruct (le_lt_dec (p + (a + b)) (8 * length d)); auto.
    destruct (readbits_short s d p (a + b) Hr Hab l) as (x & Hx). congruence. }
  destruct (readbits_field s d p (a + b) Hr Hab Hav) as (v0 & s0 & H0 & Hf & Hr1 & Hc1).
  rewrite Hrd in H0. injection H0 as <- <-.
  destruct (readbits_field s d p a Hr ltac:(lia) ltac:(lia)) as (va & s2 & H2 & Hfa & Hr2 & Hc2).
  destruct (readbits_field s2 d (p + a) b Hr2 ltac:(lia) ltac:(lia)) as (vb & s3 & H3 & Hfb & Hr3 & Hc3).
  exists va, vb, s2, s3. split; auto. split; auto.
  destruct Hf as [Hv Bv], Hfa as [Ha Ba], Hfb as [Hb Bb].
  assert (Hpa : 0 < 2 ^ Z.of_nat a) by (apply pow2_pos; lia).
  assert (Hsum : v = va + 2 ^ Z.of_nat a * vb).
  { apply (field_at_unique d p (a + b)); [now split|]. split.
    - rewrite Nat2Z.inj_add, Z.pow_add_r by lia. nia.
    - intros i Hi. rewrite <- lor_shift_add by lia. rewrite Z.lor_spec.
      destruct (le_lt_dec a i).
      + rewrite Z.shiftl_spec by lia.
        replace (Z.of_nat i - Z.of_nat a) with (Z.of_nat (i - a)) by lia.
        rewrite Bb by lia. replace (p + a + (i - a))%nat with (p + i)%nat by lia.
        rewrite <- (Z.mod_small va (2 ^ Z.of_nat a)) by auto.
        rewrite Z.mod_pow2_bits_high by lia. reflexivity.
      + rewrite Ba by lia. rewrite Z.shiftl_spec_low by lia. apply orb_false_r. }
  split; auto. split; auto. split; auto. split; auto. split.
  - now rewrite Nat.add_assoc.
  - rewrite Hc3, Hc2, Hc1, u64_add_add. f_equal. lia.
Qed.
Print Assumptions C02_split.

(* Two readers at the same bit of the same data are indistinguishable by
   reads, whatever their internal caches hold. *)
Theorem C02_position_determines_reads :
  forall s s' d p n, reader_at s d p -> reader_at s' d p -> (n <= 64)%nat ->
  match ReadBits (Z.of_nat n) s, ReadBits (Z.of_nat n) s' with
  | (Ok v, t), (Ok v', t') => v = v' /\ reader_at t d (p + n) /\ reader_at t' d (p + n)
  | (Err, _), (Err, _) => True
  | _, _ => False
  end.
Proof.
  intros s s' d p n Hr Hr' Hn. destruct (le_lt_dec (p + n) (8 * length d)).
  - destruct (readbits_field s d p n Hr Hn l) as (v & t & -> & Hf & Ht & _).
    destruct (readbits_field s' d p n Hr' Hn l) as (v' & t' & -> & Hf' & Ht' & _).
    split; auto. eapply field_at_unique; eauto.
  - destruct (readbits_short s d p n Hr Hn l) as (t & ->).
    destruct (readbits_short s' d p n Hr' Hn l) as (t' & ->). exact I.
Qed.
Print Assumptions C02_position_determines_reads.

Example C02_example :
  exists s1 s2 s3, let s := mkBR [0xA5; 0x3C; 0xFF] 1 3 0xA5 3 in
  ReadBits 11 s = (Ok 1940, s1) /\ ReadBits 4 s = (Ok 4, s2) /\ ReadBits 7 s2 = (Ok 121, s3) /\
  1940 = 4 + 2 ^ 4 * 121.
Proof. do 3 eexists. repeat split; reflexivity. Qed.

(* C03: a successful peek returns what the read would return and leaves the
   reader literally unchanged; the end query never changes the reader and is
   true exactly at the end. *)
Theorem C03_peek :
  forall s d p n, reader_at s d p -> (n <= 64)%nat ->
  ((p + n <= 8 * length d)%nat -> exists v, ShowBits (Z.of_nat n) s = (Ok v, s) /\ field_at d p n v /\
     exists s', ReadBits (Z.of_nat n) s = (Ok v, s')) /\
  ((8 * length d < p + n)%nat -> exists s', ShowBits (Z.of_nat n) s = (Err, s')).
Proof.
  intros s d p n Hr Hn. destruct (reader_at_good _ _ _ Hr) as (Hg & Hd & El). split; intros Hp.
  - destruct (readbits_field s d p n Hr Hn Hp) as (v & s' & H & Hf & _).
    exists v. split; [|split; eauto].
    rewrite ShowBits_ok; auto; try lia.
    2:{ rewrite (reader_at_left_len _ _ _ Hr). lia. }
    f_equal. f_equal. rewrite Nat2Z.id, El.
    eapply field_at_unique; [|exact Hf]. now apply firstn_field.
  - destruct (readbits_short s d p n Hr Hn Hp) as (s' & H).
    exists s'. unfold ShowBits. replace (u32 (Z.of_nat n)) with (Z.of_nat n).
    2:{ unfold u32. rewrite Z.mod_small; lia. }
    now rewrite H.
Qed.
Print Assumptions C03_peek.

Theorem C03_at_end :
  forall s d p, reader_at s d p -> AtEnd s = ((p =? 8 * length d)%nat, s).
Proof.
  intros s d p Hr. destruct (reader_at_good _ _ _ Hr) as (Hg & Hd & El).
  rewrite AtEnd_spec by auto. f_equal.
  pose proof (reader_at_left_len _ _ _ Hr) as Hl. pose proof Hr as (_ & _ & Hle & _).
  destruct (bits_left s); cbn [length] in Hl.
  - symmetry. apply Nat.eqb_eq. lia.
  - symmetry. apply Nat.eqb_neq. lia.
Qed.
Print Assumptions C03_at_end.

Example C03_example :
  let s := mkBR [0xA5; 0x3C; 0xFF] 1 3 0xA5 3 in
  ShowBits 11 s = (Ok 1940, s) /\ AtEnd s = (false, s) /\
  AtEnd (mkBR [0xA5] 1 0 0xA5 8) = (true, mkBR [0xA5] 1 0 0xA5 8).
Proof. repeat split. Qed.

(* Finding: a peek that fails (not enough bits) is not undone: the reader
   has lost its position. *)
Theorem C03_failed_peek_refuted :
  exists s d p n, reader_at s d p /\ (n <= 64)%nat /\ fst (ShowBits (Z.of_nat n) s) = Err /\
    forall q, reader_at (snd (ShowBits (Z.of_nat n) s)) d q -> q <> p.
Proof.
  exists (NewBitStreamReader [1; 2]), [1; 2], O, 24%nat.
  split; [apply reader_at_new; repeat constructor; unfold is_byte; lia|].
  split; [lia|]. split; [reflexivity|].
  intros q (_ & _ & _ & Hpos & _). cbn in Hpos. intros ->. cbn in Hpos. discriminate.
Qed.
Print Assumptions C03_failed_peek_refuted.

(* C04: skipping available bits = reading them, for positions. *)
Theorem C04_skip_bits :
  forall s d p n, reader_at s d p -> Z.of_nat n < 2 ^ 32 -> (p + n <= 8 * length d)%nat ->
  exists s', SkipBits (Z.of_nat n) s = (Ok tt, s') /\ reader_at s' d (p + n).
Proof. exact SkipBits_at. Qed.
Print Assumptions C04_skip_bits.

(* Whole bytes: exact as long as 8*k does not wrap in uint32.  Missing from
   the full claim: byte counts of 2^29 and more (refuted below). *)
Theorem C04_skip_bytes_partial :
  forall s d p k, reader_at s d p -> Z.of_nat k < 2 ^ 29 -> (p + 8 * k <= 8 * length d)%nat ->
  exists s', Skip (Z.of_nat k) s = (Ok (Z.of_nat k), s') /\ reader_at s' d (p + 8 * k).
Proof.
  intros s d p k Hr Hk Hp. unfold Skip, rbind.
  assert (u32 (Z.shiftl (Z.of_nat k) 3) = Z.of_nat (8 * k)) as ->.
  { rewrite Z.shiftl_mul_pow2 by lia. unfold u32. rewrite Z.mod_small; lia. }
  destruct (SkipBits_at s d p (8 * k) Hr ltac:(lia) Hp) as (s' & -> & H).
  exists s'. split; auto.
Qed.
Print Assumptions C04_skip_bytes_partial.

(* Finding: skipping 2^29 bytes reports success and skips nothing, whatever
   the stream. *)
Theorem C04_skip_bytes_refuted :
  forall s, Skip (2 ^ 29) s = (Ok (2 ^ 29), s).
Proof. intros s. reflexivity. Qed.
Print Assumptions C04_skip_bytes_refuted.

(* Finding: skipping past the end of the stream reports success. *)
Theorem C04_skip_past_end_refuted :
  exists s d p n, reader_at s d p /\ (8 * length d < p + n)%nat /\ fst (SkipBits (Z.of_nat n) s) = Ok tt.
Proof.
  exists (NewBitStreamReader [1; 2]), [1; 2], O, 80%nat.
  split; [apply reader_at_new; repeat constructor; unfold is_byte; lia|].
  split; [cbn; lia|]. reflexivity.
Qed.
Print Assumptions C04_skip_past_end_refuted.

Example C04_example :
  exists s', let s := mkBR [0xA5; 0x3C; 0xFF] 1 3 0xA5 3 in
  SkipBits 11 s = (Ok tt, s') /\ ReadBits 4 s' = (Ok 12, snd (ReadBits 4 s')) /\
  ReadBits 15 s = (Ok (1940 + 2 ^ 11 * 12), snd (ReadBits 15 s)).
Proof. eexists. repeat split; reflexivity. Qed.
