(* Lemmas about the bit reader model. *)
From Coq Require Import ZArith List Bool Lia ZifyBool ZifyNat.
From Verif Require Import GoBase Bits ModelBitReader.
Import ListNotations.
Open Scope Z_scope.

Definition byte (b : Z) : Prop := 0 <= b < 256.

(* Abstraction: the bits the reader has not delivered yet. *)
Definition bits_left (s : BR) : list bool :=
  (if br_index s =? 0 then [] else skipn (Z.to_nat (br_index s)) (zbits 8 (br_cur s)))
  ++ bytes_bits (skipn (br_pos s) (br_data s)).

(* Reachable reader states over byte data. *)
Definition wf (s : BR) : Prop :=
  Forall byte (br_data s) /\ 0 <= br_index s < 8 /\ byte (br_cur s) /\
  (br_pos s <= length (br_data s))%nat /\
  (br_index s <> 0 ->
   (0 < br_pos s)%nat /\ nth_error (br_data s) (br_pos s - 1) = Some (br_cur s)).

Lemma wf_new d : Forall byte d -> wf (NewBitStreamReader d).
Proof. intros; unfold wf, byte; cbn; repeat split; auto; try lia; contradiction. Qed.

Lemma bits_left_new d : bits_left (NewBitStreamReader d) = bytes_bits d.
Proof. reflexivity. Qed.

Lemma skipn_nth_cons {A} (l : list A) n b :
  nth_error l n = Some b -> skipn n l = b :: skipn (S n) l.
Proof.
  revert n; induction l; intros [|n] H; cbn in *; try discriminate.
  - congruence.
  - apply IHl in H. exact H.
Qed.

Lemma nth_error_none_skipn {A} (l : list A) n : nth_error l n = None -> skipn n l = [].
Proof. intros H. apply nth_error_None in H. now apply skipn_all2. Qed.

Definition same_data (s s' : BR) : Prop := br_data s' = br_data s.

(* Invariant relating a partially finished ReadBits to the bits left at its
   start. *)
Definition inv (s0 : BR) (k r : Z) (s : BR) : Prop :=
  0 <= k /\ (Z.to_nat k <= length (bits_left s0))%nat /\
  r = bz (firstn (Z.to_nat k) (bits_left s0)) /\
  bits_left s = skipn (Z.to_nat k) (bits_left s0) /\
  wf s /\ same_data s0 s /\ br_count s = u64 (br_count s0 + k) /\
  0 <= br_count s < 2 ^ 64.

Lemma u8_small z : 0 <= z < 256 -> u8 z = z.
Proof. intros. unfold u8. apply Z.mod_small. change (2^8) with 256. lia. Qed.

Lemma mask_u8 k : 0 <= k < 8 -> u8 (u8 (Z.shiftl 1 k) - 1) = 2 ^ k - 1.
Proof.
  intros. rewrite Z.shiftl_mul_pow2 by lia. rewrite Z.mul_1_l.
  assert (1 <= 2 ^ k <= 128).
  { split. pose proof (pow2_pos k); lia.
    change 128 with (2^7). apply Z.pow_le_mono_r; lia. }
  rewrite (u8_small (2^k)) by lia. apply u8_small; lia.
Qed.

Lemma u64_add_add a b c : u64 (u64 (a + b) + c) = u64 (a + (b + c)).
Proof. unfold u64. rewrite Zplus_mod_idemp_l. f_equal. lia. Qed.

Lemma u64_range z : 0 <= u64 z < 2 ^ 64.
Proof. unfold u64. apply Z.mod_pos_bound. reflexivity. Qed.

Lemma firstn_add {A} n m (l : list A) : firstn (n + m) l = firstn n l ++ firstn m (skipn n l).
Proof.
  revert l; induction n; intros l; [reflexivity|].
  destruct l; cbn [Nat.add firstn skipn app]. now rewrite firstn_nil.
  now rewrite IHn.
Qed.

Lemma skipn_add {A} n m (l : list A) : skipn (n + m) l = skipn m (skipn n l).
Proof.
  revert l; induction n; intros l; [reflexivity|].
  destruct l; cbn [Nat.add skipn]. now rewrite skipn_nil. apply IHn.
Qed.

Lemma firstn_app_exact {A} (a b : list A) : firstn (length a) (a ++ b) = a.
Proof. rewrite firstn_app, Nat.sub_diag, firstn_all. cbn. apply app_nil_r. Qed.

Lemma skipn_app_exact {A} (a b : list A) : skipn (length a) (a ++ b) = b.
Proof. rewrite skipn_app, Nat.sub_diag, skipn_all. reflexivity. Qed.

(* Advance the invariant by a chunk of bits. *)
Lemma inv_advance s0 k r s c s' :
  inv s0 k r s ->
  (exists rest, bits_left s = c ++ rest /\ bits_left s' = rest) ->
  wf s' -> same_data s s' ->
  br_count s' = u64 (br_count s + Z.of_nat (length c)) ->
  inv s0 (k + Z.of_nat (length c)) (r + 2 ^ k * bz c) s'.
Proof.
  intros (Hk & Hlen & Hr & Hl & Hwf & Hsd & Hc & Hcr) (rest & E1 & E2) Hwf' Hsd' Hc'.
  assert (Hsk : skipn (Z.to_nat k) (bits_left s0) = c ++ rest) by congruence.
  assert (Hlen2 : length (skipn (Z.to_nat k) (bits_left s0)) = (length c + length rest)%nat)
    by (rewrite Hsk, app_length; lia).
  rewrite skipn_length in Hlen2.
  unfold inv. replace (Z.to_nat (k + Z.of_nat (length c))) with (Z.to_nat k + length c)%nat by lia.
  rewrite firstn_add, skipn_add, Hsk, firstn_app_exact, skipn_app_exact, bz_app.
  rewrite firstn_length, Nat.min_l by lia.
  rewrite Z2Nat.id by lia.
  refine (conj _ (conj _ (conj _ (conj _ (conj _ (conj _ (conj _ _))))))); auto; try lia.
  - unfold same_data in *; congruence.
  - rewrite Hc', Hc. apply u64_add_add.
  - rewrite Hc'. apply u64_range.
Qed.

Lemma wf_intro s : Forall byte (br_data s) -> 0 <= br_index s < 8 -> byte (br_cur s) ->
  (br_pos s <= length (br_data s))%nat ->
  (br_index s <> 0 ->
   (0 < br_pos s)%nat /\ nth_error (br_data s) (br_pos s - 1) = Some (br_cur s)) -> wf s.
Proof. unfold wf; auto. Qed.

Lemma nth_some_lt {A} (l : list A) n a : nth_error l n = Some a -> (S n <= length l)%nat.
Proof. intros H. apply nth_error_Some. congruence. Qed.

Lemma inv_init s : wf s -> 0 <= br_count s < 2^64 -> inv s 0 0 s.
Proof.
  intros H Hc. unfold inv. cbn [Z.to_nat firstn skipn bz].
  refine (conj _ (conj _ (conj _ (conj _ (conj _ (conj _ (conj _ _))))))); auto; try lia.
  - unfold same_data; auto.
  - rewrite Z.add_0_r. unfold u64. rewrite Z.mod_small; auto.
Qed.

Lemma drain_inv s bits : wf s -> 0 <= br_count s < 2^64 -> 1 <= bits <= 64 ->
  let '((k, r), s1) := drainCur bits s in
  inv s k r s1 /\ k <= bits /\ k < 8 /\ (k = bits \/ br_index s1 = 0).
Proof.
  intros Hwf Hc Hb. unfold drainCur.
  destruct (Z.eqb_spec (br_index s) 0) as [Hi|Hi].
  - split; [|lia]. apply inv_init; auto.
  - pose proof Hwf as (Hd & Hidx & Hcur & Hpos & Hlast).
    set (btr := if 8 - br_index s <? bits then 8 - br_index s else bits).
    assert (Hbtr : 1 <= btr <= 8 - br_index s /\ btr <= bits /\ (btr = bits \/ btr = 8 - br_index s)).
    { unfold btr. destruct (Z.ltb_spec (8 - br_index s) bits); lia. }
    rewrite mask_u8 by lia. rewrite land_ones_mod by lia.
    rewrite Z.shiftr_div_pow2 by lia.
    set (c := zbits (Z.to_nat btr) (br_cur s / 2 ^ br_index s)).
    assert (Hlc : length c = Z.to_nat btr) by apply zbits_length.
    assert (Hnew : u8 (br_index s + btr) mod 8 = if br_index s + btr =? 8 then 0 else br_index s + btr).
    { rewrite u8_small by lia. destruct (Z.eqb_spec (br_index s + btr) 8) as [->|].
      reflexivity. apply Z.mod_small; lia. }
    split.
    2:{ repeat split; try lia. cbn [br_index set_index]. rewrite Hnew.
        destruct (Z.eqb_spec (br_index s + btr) 8); lia. }
    pose proof (inv_advance s 0 0 s c
      (set_index (u8 (br_index s + btr) mod 8) (add_count btr s)) (inv_init s Hwf Hc)) as H.
    rewrite Hlc, Z2Nat.id, Z.add_0_l, Z.pow_0_r, Z.mul_1_l, Z.add_0_l in H by lia.
    unfold c in H. rewrite bz_zbits, Z2Nat.id in H by lia.
    apply H; clear H.
    + exists (skipn (Z.to_nat btr) (bits_left s)). split.
      * rewrite <- (firstn_skipn (Z.to_nat btr) (bits_left s)) at 1. f_equal.
        unfold bits_left. destruct (Z.eqb_spec (br_index s) 0); [lia|].
        rewrite firstn_app, skipn_length, zbits_length.
        replace (Z.to_nat btr - (8 - Z.to_nat (br_index s)))%nat with O by lia.
        cbn [firstn]. rewrite app_nil_r.
        rewrite skipn_zbits by lia. rewrite Z2Nat.id by lia.
        rewrite firstn_zbits by lia. reflexivity.
      * unfold bits_left at 2. destruct (Z.eqb_spec (br_index s) 0); [lia|].
        unfold bits_left, set_index, add_count; cbn [br_index br_cur br_pos br_data].
        rewrite Hnew. rewrite skipn_app, skipn_length, zbits_length.
        replace (Z.to_nat btr - (8 - Z.to_nat (br_index s)))%nat with O by lia.
        cbn [skipn]. f_equal.
        destruct (Z.eqb_spec (br_index s + btr) 8).
        -- cbn [Z.eqb]. symmetry. apply skipn_all2. rewrite skipn_length, zbits_length. lia.
        -- destruct (Z.eqb_spec (br_index s + btr) 0); [lia|].
           replace (Z.to_nat (br_index s + btr)) with (Z.to_nat (br_index s) + Z.to_nat btr)%nat by lia.
           now rewrite skipn_add.
    + apply wf_intro; cbn; auto. rewrite Hnew. destruct (Z.eqb_spec (br_index s + btr) 8); lia.
    + reflexivity.
    + reflexivity.
Qed.

Lemma read1_ok s b s1 : stream_read1 s = (Ok b, s1) ->
  nth_error (br_data s) (br_pos s) = Some b /\
  s1 = mkBR (br_data s) (S (br_pos s)) (br_index s) (br_cur s) (br_count s).
Proof.
  unfold stream_read1. destruct (nth_error _ _) eqn:E; intros [= <- <-]; auto.
Qed.

Lemma bits_left_read1 s b : br_index s = 0 -> nth_error (br_data s) (br_pos s) = Some b ->
  bits_left s = zbits 8 b ++ bytes_bits (skipn (S (br_pos s)) (br_data s)).
Proof.
  intros Hi Hn. unfold bits_left. rewrite Hi. cbn [Z.eqb app].
  now rewrite (skipn_nth_cons _ _ _ Hn).
Qed.

Lemma bits_left_eof s : br_index s = 0 -> nth_error (br_data s) (br_pos s) = None ->
  bits_left s = [].
Proof.
  intros Hi Hn. unfold bits_left. rewrite Hi, (nth_error_none_skipn _ _ Hn). reflexivity.
Qed.

Lemma nth_byte s b : wf s -> nth_error (br_data s) (br_pos s) = Some b -> byte b.
Proof.
  intros (Hd & _) Hn. apply nth_error_In in Hn. rewrite Forall_forall in Hd. auto.
Qed.

Lemma inv_r_range s0 k r s : inv s0 k r s -> 0 <= r < 2 ^ k.
Proof.
  intros (Hk & Hl & -> & _). split; [apply bz_nonneg|].
  pose proof (bz_bound (firstn (Z.to_nat k) (bits_left s0))) as H.
  rewrite firstn_length, Nat.min_l in H by lia. now rewrite Z2Nat.id in H by lia.
Qed.

Lemma readFull_inv fuel : forall s0 bits k r s,
  inv s0 k r s -> k <= bits <= 64 -> bits - k < 8 + 8 * Z.of_nat fuel ->
  (k = bits \/ br_index s = 0) ->
  match readFull fuel bits k r s with
  | (Ok (k', r'), s') => inv s0 k' r' s' /\ k' <= bits /\ bits - k' < 8 /\ (k' = bits \/ br_index s' = 0)
  | (Err, s') => Z.of_nat (length (bits_left s0)) < bits /\ wf s' /\ same_data s0 s'
  | (Panic, _) => False
  end.
Proof.
  induction fuel; intros s0 bits k r s Hinv Hk Hf Hor.
  - cbn [readFull]. destruct (Z.ltb_spec (bits - k) 8); [|lia]. refine (conj Hinv _); lia.
  - cbn [readFull]. destruct (Z.ltb_spec (bits - k) 8).
    { refine (conj Hinv _); lia. }
    destruct Hor as [|Hi]; [lia|].
    pose proof Hinv as (Hk0 & Hl0 & Hr & Hl & Hwf & Hsd & Hc & Hcr).
    unfold stream_read1. destruct (nth_error (br_data s) (br_pos s)) eqn:En.
    + pose proof (nth_byte _ _ Hwf En) as Hb. unfold byte in Hb.
      assert (E : Z.lor r (u64 (Z.shiftl z k)) = r + 2 ^ k * bz (zbits 8 z)).
      { pose proof (inv_r_range _ _ _ _ Hinv).
        assert (0 < 2 ^ k) by (apply pow2_pos; lia).
        assert (u64 (Z.shiftl z k) = Z.shiftl z k) as ->.
        { unfold u64. apply Z.mod_small. rewrite Z.shiftl_mul_pow2 by lia.
          split; [nia|]. apply Z.lt_le_trans with (256 * 2 ^ k); [nia|].
          change 256 with (2^8). rewrite <- Z.pow_add_r by lia. apply Z.pow_le_mono_r; lia. }
        rewrite lor_shift_add by lia. rewrite bz_zbits_small by (change (2 ^ Z.of_nat 8) with 256; lia). reflexivity. }
      rewrite E.
      replace (k + 8) with (k + Z.of_nat (length (zbits 8 z))) by (rewrite zbits_length; lia).
      apply IHfuel.
      * eapply inv_advance; [exact Hinv| | | |].
        -- exists (bytes_bits (skipn (S (br_pos s)) (br_data s))). split.
           ++ apply bits_left_read1; auto.
           ++ unfold bits_left, add_count; cbn [br_index br_pos br_data]. rewrite Hi. reflexivity.
        -- destruct Hwf as (?&?&?&?&?). pose proof (nth_some_lt _ _ _ En). apply wf_intro; cbn; auto. lia.
        -- reflexivity.
        -- rewrite zbits_length. reflexivity.
      * rewrite zbits_length. lia.
      * rewrite zbits_length. lia.
      * right. cbn. exact Hi.
    + assert (Hn : bits_left s = []) by (apply bits_left_eof; auto).
      split; [|split]; auto.
      assert (length (skipn (Z.to_nat k) (bits_left s0)) = O) by (rewrite <- Hl, Hn; reflexivity).
      rewrite skipn_length in *. lia.
Qed.

Lemma readTail_inv s0 bits k r s :
  inv s0 k r s -> k <= bits <= 64 -> bits - k < 8 -> (k = bits \/ br_index s = 0) ->
  match readTail bits k r s with
  | (Ok v, s') => inv s0 bits v s'
  | (Err, s') => Z.of_nat (length (bits_left s0)) < bits /\ wf s' /\ same_data s0 s'
  | (Panic, _) => False
  end.
Proof.
  intros Hinv Hk Hf Hor. unfold readTail.
  destruct (Z.ltb_spec 0 (bits - k)).
  2:{ replace bits with k by lia. auto. }
  destruct Hor as [|Hi]; [lia|].
  pose proof Hinv as (Hk0 & Hl0 & Hr & Hl & Hwf & Hsd & Hc & Hcr).
  unfold stream_read1. destruct (nth_error (br_data s) (br_pos s)) eqn:En.
  - pose proof (nth_byte _ _ Hwf En) as Hb. unfold byte in Hb.
    set (rem := bits - k) in *.
    rewrite mask_u8 by lia. rewrite land_ones_mod by lia.
    set (c := zbits (Z.to_nat rem) z).
    assert (Hlc : length c = Z.to_nat rem) by apply zbits_length.
    assert (E : Z.lor r (u64 (Z.shiftl (z mod 2 ^ rem) k)) = r + 2 ^ k * bz c).
    { pose proof (inv_r_range _ _ _ _ Hinv).
      assert (0 < 2 ^ k) by (apply pow2_pos; lia).
      assert (0 <= z mod 2 ^ rem < 2 ^ rem) by (apply Z.mod_pos_bound, pow2_pos; lia).
      assert (u64 (Z.shiftl (z mod 2^rem) k) = Z.shiftl (z mod 2^rem) k) as ->.
      { unfold u64. apply Z.mod_small. rewrite Z.shiftl_mul_pow2 by lia.
        split; [nia|]. apply Z.lt_le_trans with (2^rem * 2 ^ k); [nia|].
        rewrite <- Z.pow_add_r by lia. apply Z.pow_le_mono_r; lia. }
      rewrite lor_shift_add by lia. unfold c. rewrite bz_zbits, Z2Nat.id by lia. reflexivity. }
    rewrite E.
    replace bits with (k + Z.of_nat (length c)) at 1 by lia.
    eapply inv_advance; [exact Hinv| | | |].
    + exists (skipn (Z.to_nat rem) (zbits 8 z) ++ bytes_bits (skipn (S (br_pos s)) (br_data s))). split.
      * rewrite (bits_left_read1 s z) by auto. rewrite app_assoc. f_equal.
        rewrite <- (firstn_skipn (Z.to_nat rem) (zbits 8 z)) at 1. f_equal.
        unfold c. apply firstn_zbits; lia.
      * unfold bits_left, add_count, set_index, set_cur; cbn [br_index br_pos br_data br_cur].
        destruct (Z.eqb_spec rem 0); [lia|]. reflexivity.
    + destruct Hwf as (?&?&?&?&?). pose proof (nth_some_lt _ _ _ En). apply wf_intro; cbn; auto; try lia. intros _. split; [lia|]. now rewrite Nat.sub_0_r.
    + reflexivity.
    + rewrite Hlc, Z2Nat.id by lia. reflexivity.
  - assert (Hn : bits_left s = []) by (apply bits_left_eof; auto).
    split; [|split]; auto.
    assert (length (skipn (Z.to_nat k) (bits_left s0)) = O) by (rewrite <- Hl, Hn; reflexivity).
    rewrite skipn_length in *. lia.
Qed.

(* Main refinement lemma for ReadBits. *)
Lemma ReadBits_inv s n : wf s -> 0 <= br_count s < 2^64 -> 0 <= n <= 64 ->
  match ReadBits n s with
  | (Ok v, s') => inv s n v s'
  | (Err, s') => Z.of_nat (length (bits_left s)) < n /\ wf s' /\ same_data s s'
  | (Panic, _) => False
  end.
Proof.
  intros Hwf Hc Hn. unfold ReadBits.
  destruct (Z.eqb_spec n 0) as [->|]. { now apply inv_init. }
  destruct (Z.ltb_spec 64 n); [lia|].
  pose proof (drain_inv s n Hwf Hc ltac:(lia)) as Hd.
  destruct (drainCur n s) as [[k r] s1]. destruct Hd as (Hinv & Hk & Hk8 & Hor).
  pose proof Hinv as (Hk0 & _).
  pose proof (readFull_inv 8 s n k r s1 Hinv ltac:(lia) ltac:(lia) Hor) as Hf.
  destruct (readFull 8 n k r s1) as [[[k' r']| |] s2]; auto.
  destruct Hf as (Hinv' & ? & ? & ?).
  pose proof (readTail_inv s n k' r' s2 Hinv' ltac:(lia) ltac:(lia) ltac:(auto)) as Ht.
  destruct (readTail n k' r' s2) as [[v| |] s3]; auto.
Qed.

(* Well-formed reader with a counter in range: the states the API produces. *)
Definition good (s : BR) : Prop := wf s /\ 0 <= br_count s < 2 ^ 64.

Lemma good_new d : Forall byte d -> good (NewBitStreamReader d).
Proof. intros; split; [apply wf_new; auto|cbn; lia]. Qed.

Lemma ReadBits_ok s n : good s -> 0 <= n <= 64 -> n <= Z.of_nat (length (bits_left s)) ->
  exists s', ReadBits n s = (Ok (bz (firstn (Z.to_nat n) (bits_left s))), s') /\
    bits_left s' = skipn (Z.to_nat n) (bits_left s) /\ good s' /\
    br_data s' = br_data s /\ br_count s' = u64 (br_count s + n).
Proof.
  intros [Hwf Hc] Hn Hl. pose proof (ReadBits_inv s n Hwf Hc Hn) as H.
  destruct (ReadBits n s) as [[v| |] s'].
  - destruct H as (? & ? & -> & ? & ? & ? & ? & ?). exists s'. unfold good, same_data in *. auto 10.
  - lia.
  - contradiction.
Qed.

Lemma ReadBits_err s n : good s -> 0 <= n <= 64 -> Z.of_nat (length (bits_left s)) < n ->
  exists s', ReadBits n s = (Err, s').
Proof.
  intros [Hwf Hc] Hn Hl. pose proof (ReadBits_inv s n Hwf Hc Hn) as H.
  destruct (ReadBits n s) as [[v| |] s'].
  - destruct H as (? & ? & _). lia.
  - eauto.
  - contradiction.
Qed.

Lemma ReadBits_big s n : 64 < n -> ReadBits n s = (Err, s).
Proof.
  intros. unfold ReadBits. destruct (Z.eqb_spec n 0); [lia|].
  destruct (Z.ltb_spec 64 n); [reflexivity|lia].
Qed.

(* The form used by the round-trip proofs. *)
Lemma ReadBits_app s a b : good s -> bits_left s = a ++ b -> (length a <= 64)%nat ->
  exists s', ReadBits (Z.of_nat (length a)) s = (Ok (bz a), s') /\ bits_left s' = b /\ good s' /\
    br_data s' = br_data s /\ br_count s' = u64 (br_count s + Z.of_nat (length a)).
Proof.
  intros Hg E Hl.
  destruct (ReadBits_ok s (Z.of_nat (length a)) Hg ltac:(lia)) as (s' & H & H1 & H2).
  { rewrite E, app_length. lia. }
  rewrite Nat2Z.id, E, firstn_app_exact in H. rewrite Nat2Z.id, E, skipn_app_exact in H1. eauto.
Qed.

Lemma ReadBits_zbits s k z b : good s -> bits_left s = zbits k z ++ b -> (k <= 64)%nat ->
  0 <= z < 2 ^ Z.of_nat k ->
  exists s', ReadBits (Z.of_nat k) s = (Ok z, s') /\ bits_left s' = b /\ good s' /\
    br_data s' = br_data s.
Proof.
  intros Hg E Hl Hz.
  destruct (ReadBits_app s (zbits k z) b Hg E) as (s' & H & H1 & H2 & H3 & _).
  { now rewrite zbits_length. }
  rewrite zbits_length, bz_zbits_small in H by auto. eauto.
Qed.

(* readBit *)
Lemma readBit_ok s b t : good s -> bits_left s = b :: t ->
  exists s', readBit s = (Ok (if b then 1 else 0), s') /\ bits_left s' = t /\ good s' /\
    br_data s' = br_data s /\ br_count s' = u64 (br_count s + 1).
Proof.
  intros [Hwf Hc] E. pose proof Hwf as (Hd & Hidx & Hcur & Hpos & Hlast). unfold readBit.
  assert (Htest : forall c i, 0 <= i < 8 -> byte c ->
     negb (Z.land c (Z.shiftl 1 i) =? 0) = Z.testbit c i).
  { intros c i Hi Hbc. rewrite Z.shiftl_1_l.
    destruct (Z.testbit c i) eqn:Et.
    - destruct (Z.eqb_spec (Z.land c (2^i)) 0) as [H0|]; auto.
      assert (Z.testbit (Z.land c (2^i)) i = true).
      { rewrite Z.land_spec, Et, Z.pow2_bits_true by lia. reflexivity. }
      rewrite H0, Z.bits_0 in H. discriminate.
    - assert (Z.land c (2^i) = 0) as ->; [|reflexivity].
      apply Z.bits_inj'; intros j Hj. rewrite Z.land_spec, Z.bits_0.
      destruct (Z.eqb_spec i j) as [<-|Hne].
      + rewrite Et. reflexivity.
      + rewrite Z.pow2_bits_false by lia. apply andb_false_r. }
  assert (Hsk : forall c i, 0 <= i < 8 -> byte c ->
     skipn (Z.to_nat i) (zbits 8 c) = Z.testbit c i ::
       (if u8 (i + 1) mod 8 =? 0 then [] else skipn (Z.to_nat (u8 (i+1) mod 8)) (zbits 8 c))).
  { intros c i Hi Hbc.
    assert (Hodd : forall j, 0 <= j -> Z.odd (c / 2 ^ j) = Z.testbit c j).
    { intros j Hj. rewrite <- Z.shiftr_div_pow2 by lia. rewrite <- Z.bit0_odd, Z.shiftr_spec by lia. f_equal. }
    rewrite skipn_zbits by lia. rewrite Z2Nat.id by lia.
    destruct (8 - Z.to_nat i)%nat eqn:E8; [lia|].
    change (zbits (S n) (c / 2 ^ i)) with (Z.odd (c / 2 ^ i) :: zbits n (c / 2 ^ i / 2)).
    rewrite Hodd by lia. f_equal.
    rewrite u8_small by lia.
    destruct (Z.eqb_spec ((i+1) mod 8) 0) as [E0|E0].
    - assert (i = 7) by (destruct (Z.eq_dec i 7); auto; rewrite Z.mod_small in E0; lia).
      subst. cbn in E8. injection E8 as <-. reflexivity.
    - assert ((i + 1) mod 8 = i + 1) as -> by
        (destruct (Z.eq_dec i 7) as [Ei|Ei]; [rewrite Ei in E0; exfalso; apply E0; reflexivity|apply Z.mod_small; lia]).
      rewrite skipn_zbits by lia.
      replace (8 - Z.to_nat (i + 1))%nat with n by lia.
      rewrite Z.div_div by (try apply pow2_pos; lia). f_equal. f_equal.
      rewrite Z2Nat.id by lia. rewrite Z.pow_add_r by lia. reflexivity. }
  destruct (Z.eqb_spec (br_index s) 0) as [Hi|Hi].
  - unfold stream_read1. destruct (nth_error (br_data s) (br_pos s)) eqn:En.
    2:{ rewrite bits_left_eof in E by auto. discriminate. }
    pose proof (nth_byte _ _ Hwf En) as Hb.
    rewrite (bits_left_read1 s z) in E by auto.
    unfold set_cur; cbn [br_index br_cur br_data br_pos br_count]. rewrite Hi, Htest by (auto; lia).
    specialize (Hsk z 0 ltac:(lia) Hb). cbn [Z.to_nat skipn] in Hsk.
    rewrite Hsk in E. cbn [app] in E. pose proof (f_equal (hd false) E) as Eb; pose proof (f_equal (@tl bool) E) as Et; cbn [hd tl] in Eb, Et.
    eexists. rewrite Eb. split; [reflexivity|]. split; [|split; [|split; reflexivity]].
    + rewrite <- Et. unfold bits_left, add_count, set_index; cbn [br_index br_cur br_data br_pos].
      reflexivity.
    + pose proof (nth_some_lt _ _ _ En). split; [apply wf_intro; cbn [br_data br_index br_cur br_pos add_count set_index]; auto; try (cbn; lia)|]. intros _. split; [lia|]. cbn [Nat.sub]. now rewrite Nat.sub_0_r. cbn [add_count br_count]. apply u64_range.
  - specialize (Hsk (br_cur s) (br_index s) Hidx Hcur).
    unfold bits_left in E. destruct (Z.eqb_spec (br_index s) 0); [lia|].
    rewrite Hsk in E. cbn [app] in E. pose proof (f_equal (hd false) E) as Eb; pose proof (f_equal (@tl bool) E) as Et; cbn [hd tl] in Eb, Et.
    rewrite Htest by auto. rewrite Eb.
    eexists. split; [reflexivity|]. split; [|split; [|split; reflexivity]].
    + rewrite <- Et. unfold bits_left, add_count, set_index; cbn [br_index br_cur br_data br_pos].
      reflexivity.
    + split; [apply wf_intro; cbn [br_data br_index br_cur add_count set_index]; auto|].
      * rewrite u8_small by lia. apply Z.mod_pos_bound. lia.
      * cbn [add_count br_count]. apply u64_range.
Qed.

Lemma readBit_err s : good s -> bits_left s = [] -> readBit s = (Err, s).
Proof.
  intros [Hwf Hc] E. pose proof Hwf as (Hd & Hidx & Hcur & Hpos & Hlast). unfold readBit.
  unfold bits_left in E. destruct (Z.eqb_spec (br_index s) 0) as [Hi|Hi].
  - unfold stream_read1. destruct (nth_error (br_data s) (br_pos s)) eqn:En; auto.
    rewrite (skipn_nth_cons _ _ _ En) in E. cbn in E. discriminate.
  - apply app_eq_nil in E. destruct E as [E _].
    assert (length (skipn (Z.to_nat (br_index s)) (zbits 8 (br_cur s))) = O) by (rewrite E; auto).
    rewrite skipn_length, zbits_length in H. lia.
Qed.

Lemma ReadBool_ok s b t : good s -> bits_left s = b :: t ->
  exists s', ReadBool s = (Ok b, s') /\ bits_left s' = t /\ good s' /\ br_data s' = br_data s.
Proof.
  intros Hg E. destruct (readBit_ok s b t Hg E) as (s' & H & H1 & H2 & H3 & _).
  exists s'. unfold ReadBool, rbind. rewrite H. destruct b; auto.
Qed.
