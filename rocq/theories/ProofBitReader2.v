(* Link between the abstraction to bit lists and bit positions; peeking and
   skipping. *)
From Coq Require Import ZArith List Bool Lia ZifyBool ZifyNat.
From Verif Require Import GoBase Bits ModelBitReader ProofBitReader SpecBitReader.
Import ListNotations.
Open Scope Z_scope.
Ltac Zify.zify_post_hook ::= Z.div_mod_to_equations.

Lemma nth_bz l i : Z.testbit (bz l) (Z.of_nat i) = nth i l false.
Proof.
  revert i; induction l as [|b l IH]; intros i.
  - cbn [bz]. rewrite Z.bits_0. now destruct i.
  - destruct i; cbn [bz nth].
    + cbn [Z.of_nat]. rewrite Z.bit0_odd, Z.odd_add_mul_2. now destruct b.
    + rewrite Nat2Z.inj_succ. rewrite <- IH.
      rewrite <- Z.div2_bits by lia.
      apply (f_equal (fun z => Z.testbit z (Z.of_nat i))). destruct b.
      * symmetry; apply (Z.div_unique _ 2 _ 1); lia.
      * symmetry; apply (Z.div_unique _ 2 _ 0); lia.
Qed.

Lemma nth_zbits k z i : (i < k)%nat -> nth i (zbits k z) false = Z.testbit z (Z.of_nat i).
Proof.
  intros. rewrite <- nth_bz, bz_zbits. rewrite Z.mod_pow2_bits_low by lia. reflexivity.
Qed.

Lemma nth_bytes_bits d : forall k, nth k (bytes_bits d) false = stream_bit d k.
Proof.
  induction d as [|b d IH]; intros k.
  - unfold stream_bit. destruct (k / 8)%nat; cbn [nth bytes_bits flat_map]; rewrite Z.bits_0; now destruct k.
  - unfold bytes_bits. cbn [flat_map].
    destruct (Nat.ltb_spec k 8).
    + rewrite app_nth1 by (rewrite zbits_length; lia). rewrite nth_zbits by lia.
      unfold stream_bit. rewrite (Nat.div_small k 8), (Nat.mod_small k 8) by lia. reflexivity.
    + rewrite app_nth2 by (rewrite zbits_length; lia). rewrite zbits_length.
      change (flat_map (zbits 8) d) with (bytes_bits d). rewrite IH. unfold stream_bit.
      replace (k / 8)%nat with (S ((k - 8) / 8)) by lia.
      replace (k mod 8)%nat with ((k - 8) mod 8)%nat by lia. reflexivity.
Qed.

Lemma skipn_bytes_bits n d : skipn (8 * n) (bytes_bits d) = bytes_bits (skipn n d).
Proof.
  revert d; induction n; intros d; [reflexivity|].
  destruct d; [now rewrite !skipn_nil|].
  replace (8 * S n)%nat with (8 + 8 * n)%nat by lia. rewrite skipn_add.
  exact (IHn d).
Qed.

(* wf/good states are exactly the positioned readers. *)
Lemma good_reader_at s : good s ->
  exists p, reader_at s (br_data s) p /\ bits_left s = skipn p (bytes_bits (br_data s)).
Proof.
  intros [(Hd & Hi & Hc & Hp & Hl) Hcnt]. unfold reader_at, is_byte, bits_left.
  destruct (Z.eqb_spec (br_index s) 0) as [E|E].
  - exists (8 * br_pos s)%nat.
    replace ((8 * br_pos s) mod 8)%nat with O by lia.
    refine (conj (conj Hd (conj eq_refl (conj _ (conj _ (conj _ (conj _ (conj _ _))))))) _); auto; try lia.
    cbn [app]. symmetry. apply skipn_bytes_bits.
  - destruct (Hl E) as (Hp0 & Hlast).
    exists (8 * (br_pos s - 1) + Z.to_nat (br_index s))%nat.
    refine (conj (conj Hd (conj eq_refl (conj _ (conj _ (conj _ (conj _ (conj _ _))))))) _); auto; try lia.
    + intros _. replace ((8 * (br_pos s - 1) + Z.to_nat (br_index s)) / 8)%nat with (br_pos s - 1)%nat by lia.
      symmetry. now apply nth_error_nth.
    + rewrite skipn_add, skipn_bytes_bits. rewrite (skipn_nth_cons _ _ _ Hlast).
      replace (S (br_pos s - 1)) with (br_pos s) by lia.
      unfold bytes_bits at 2. cbn [flat_map].
      rewrite skipn_app, zbits_length.
      replace (Z.to_nat (br_index s) - 8)%nat with O by lia. reflexivity.
Qed.

Lemma nth_error_nth' {A} (l : list A) n d : (n < length l)%nat -> nth_error l n = Some (nth n l d).
Proof. apply nth_error_nth'. Qed.

Lemma reader_at_good s d p : reader_at s d p ->
  good s /\ br_data s = d /\ bits_left s = skipn p (bytes_bits d).
Proof.
  intros (Hd & <- & Hp & Hpos & Hi & Hc & Hcur & Hcnt).
  assert (Hwf : wf s).
  { apply wf_intro; auto; try lia.
    intros Hne. split; [lia|]. rewrite Hcur by lia.
    replace (br_pos s - 1)%nat with (p / 8)%nat by lia. apply nth_error_nth'. lia. }
  split; [split; auto|split; auto].
  unfold bits_left. destruct (Z.eqb_spec (br_index s) 0) as [E|E].
  - replace p with (8 * br_pos s)%nat by lia. symmetry. apply skipn_bytes_bits.
  - replace p with (8 * (br_pos s - 1) + Z.to_nat (br_index s))%nat by lia.
    rewrite skipn_add, skipn_bytes_bits.
    destruct Hwf as (_ & _ & _ & _ & Hl). destruct (Hl E) as (Hp0 & Hlast).
    rewrite (skipn_nth_cons _ _ _ Hlast).
    replace (S (br_pos s - 1)) with (br_pos s) by lia.
    unfold bytes_bits at 2. cbn [flat_map]. rewrite skipn_app, zbits_length.
    replace (Z.to_nat (br_index s) - 8)%nat with O by lia. reflexivity.
Qed.

Lemma reader_at_left_len s d p : reader_at s d p ->
  length (bits_left s) = (8 * length d - p)%nat.
Proof.
  intros H. destruct (reader_at_good _ _ _ H) as (_ & _ & E).
  rewrite E, skipn_length, bytes_bits_length. lia.
Qed.

(* If a good reader over d has exactly the bits after p left it is at p. *)
Lemma good_at s d p : good s -> br_data s = d -> (p <= 8 * length d)%nat ->
  bits_left s = skipn p (bytes_bits d) -> reader_at s d p.
Proof.
  intros Hg <- Hp E. destruct (good_reader_at s Hg) as (q & Hq & Eq).
  assert (length (skipn p (bytes_bits (br_data s))) = length (skipn q (bytes_bits (br_data s)))) by congruence.
  rewrite !skipn_length, !bytes_bits_length in H.
  assert (q <= 8 * length (br_data s))%nat by (unfold reader_at in Hq; tauto).
  replace p with q by lia. auto.
Qed.

Lemma firstn_field d p n : (p + n <= 8 * length d)%nat ->
  field_at d p n (bz (firstn n (skipn p (bytes_bits d)))).
Proof.
  intros H. split.
  - split; [apply bz_nonneg|].
    pose proof (bz_bound (firstn n (skipn p (bytes_bits d)))) as Hb.
    rewrite firstn_length, skipn_length, bytes_bits_length, Nat.min_l in Hb by lia. auto.
  - intros i Hi. rewrite nth_bz, <- nth_bytes_bits.
    rewrite <- (firstn_skipn p (bytes_bits d)) at 2.
    rewrite app_nth2 by (rewrite firstn_length; lia).
    rewrite firstn_length, bytes_bits_length, Nat.min_l by lia.
    replace (p + i - p)%nat with i by lia.
    rewrite <- (firstn_skipn n (skipn p (bytes_bits d))) at 2.
    rewrite app_nth1; [reflexivity|]. rewrite firstn_length, skipn_length, bytes_bits_length. lia.
Qed.

Lemma field_at_unique d p n v w : field_at d p n v -> field_at d p n w -> v = w.
Proof.
  intros [Hv Bv] [Hw Bw].
  rewrite <- (Z.mod_small v (2 ^ Z.of_nat n)) by auto.
  rewrite <- (Z.mod_small w (2 ^ Z.of_nat n)) by auto.
  apply Z.bits_inj'; intros i Hi.
  destruct (Z.ltb_spec i (Z.of_nat n)).
  - rewrite !Z.mod_pow2_bits_low by lia. rewrite <- (Z2Nat.id i) by lia.
    rewrite Bv, Bw by lia. reflexivity.
  - rewrite !Z.mod_pow2_bits_high by lia. reflexivity.
Qed.

(* C01 *)
Lemma readbits_field s d p n : reader_at s d p -> (n <= 64)%nat -> (p + n <= 8 * length d)%nat ->
  exists v s', ReadBits (Z.of_nat n) s = (Ok v, s') /\ field_at d p n v /\
    reader_at s' d (p + n) /\ br_count s' = u64 (br_count s + Z.of_nat n).
Proof.
  intros Hr Hn Hp. destruct (reader_at_good _ _ _ Hr) as (Hg & Hd & El).
  destruct (ReadBits_ok s (Z.of_nat n) Hg ltac:(lia)) as (s' & H & H1 & H2 & H3 & H4).
  { rewrite (reader_at_left_len _ _ _ Hr). lia. }
  rewrite Nat2Z.id, El in H, H1.
  eexists _, s'. split; [exact H|]. split; [now apply firstn_field|]. split; auto.
  apply good_at; auto; try congruence. now rewrite H1, skipn_add.
Qed.

Lemma readbits_short s d p n : reader_at s d p -> (n <= 64)%nat -> (8 * length d < p + n)%nat ->
  exists s', ReadBits (Z.of_nat n) s = (Err, s').
Proof.
  intros Hr Hn Hp. destruct (reader_at_good _ _ _ Hr) as (Hg & Hd & El).
  pose proof Hr as (_ & _ & Hle & _). apply ReadBits_err; auto; try lia. rewrite (reader_at_left_len _ _ _ Hr). lia.
Qed.

Lemma reader_at_new d : Forall is_byte d -> reader_at (NewBitStreamReader d) d 0.
Proof.
  intros H. unfold reader_at, is_byte. cbn. repeat split; auto; try lia.
Qed.

(* readBit = ReadBits 1 *)
Lemma br_eta s s' : br_data s = br_data s' -> br_pos s = br_pos s' -> br_index s = br_index s' ->
  br_cur s = br_cur s' -> br_count s = br_count s' -> s = s'.
Proof. destruct s, s'; cbn; intros; subst; auto. Qed.

Lemma readBit_field s d p : reader_at s d p -> (p < 8 * length d)%nat ->
  exists s', readBit s = (Ok (if stream_bit d p then 1 else 0), s') /\
    reader_at s' d (p + 1) /\ br_count s' = u64 (br_count s + 1).
Proof.
  intros Hr Hp. destruct (reader_at_good _ _ _ Hr) as (Hg & Hd & El).
  assert (E : bits_left s = stream_bit d p :: skipn (S p) (bytes_bits d)).
  { rewrite El. apply skipn_nth_cons. rewrite <- nth_bytes_bits. apply nth_error_nth'.
    rewrite bytes_bits_length. lia. }
  destruct (readBit_ok s _ _ Hg E) as (s' & H & H1 & H2 & H3 & H4).
  exists s'. split; [exact H|]. split; auto.
  apply good_at; auto; try congruence; try lia. rewrite H1. f_equal. lia.
Qed.

(* C03 *)
Lemma ReadBits_data s n : wf s -> 0 <= br_count s < 2 ^ 64 -> 0 <= n <= 64 ->
  br_data (snd (ReadBits n s)) = br_data s.
Proof.
  intros Hw Hc Hn. pose proof (ReadBits_inv s n Hw Hc Hn) as H.
  destruct (ReadBits n s) as [[v| |] s']; cbn.
  - destruct H as (_&_&_&_&_&H&_). exact H.
  - destruct H as (_&_&H). exact H.
  - contradiction.
Qed.

Lemma ShowBits_ok s n : good s -> 0 <= n <= 64 -> n <= Z.of_nat (length (bits_left s)) ->
  ShowBits n s = (Ok (bz (firstn (Z.to_nat n) (bits_left s))), s).
Proof.
  intros Hg Hn Hl. destruct (ReadBits_ok s n Hg Hn Hl) as (s' & H & H1 & H2 & H3 & H4).
  unfold ShowBits. replace (u32 n) with n by (unfold u32; rewrite Z.mod_small; lia).
  rewrite H. f_equal. apply br_eta; cbn; auto.
Qed.

Lemma AtEnd_spec s : good s ->
  AtEnd s = (match bits_left s with [] => true | _ => false end, s).
Proof.
  intros Hg. unfold AtEnd. destruct (bits_left s) as [|b t] eqn:E.
  - destruct Hg as [(Hd & Hidx & Hc & Hp & Hl) Hcnt].
    assert (Hi : br_index s = 0).
    { destruct (Z.eq_dec (br_index s) 0); auto. unfold bits_left in E.
      destruct (Z.eqb_spec (br_index s) 0); [lia|]. apply app_eq_nil in E. destruct E as [E _].
      assert (length (skipn (Z.to_nat (br_index s)) (zbits 8 (br_cur s))) = O) by (rewrite E; auto).
      rewrite skipn_length, zbits_length in H. lia. }
    assert (En : nth_error (br_data s) (br_pos s) = None).
    { destruct (nth_error (br_data s) (br_pos s)) eqn:En; auto.
      unfold bits_left in E. rewrite Hi in E. cbn [Z.eqb app] in E.
      rewrite (skipn_nth_cons _ _ _ En) in E. discriminate. }
    unfold ShowBits, ReadBits. change (u32 1) with 1. cbn [Z.eqb Z.ltb Z.compare Pos.compare Pos.compare_cont].
    unfold drainCur. rewrite Hi. cbn [Z.eqb readFull Z.sub Z.add Z.opp Z.ltb Z.compare Pos.compare Pos.compare_cont readTail].
    unfold readTail. cbn [Z.sub Z.add Z.opp Z.ltb Z.compare]. unfold stream_read1. rewrite En. reflexivity.
  - rewrite ShowBits_ok; auto; try lia. rewrite E. cbn [length]. lia.
Qed.

(* C04 *)
Lemma skipTail_ok n : forall s, good s -> (n <= length (bits_left s))%nat ->
  exists s', skipTail n s = (Ok tt, s') /\ bits_left s' = skipn n (bits_left s) /\ good s' /\
    br_data s' = br_data s.
Proof.
  induction n; intros s Hg Hl.
  - exists s. auto.
  - destruct (bits_left s) as [|b t] eqn:E; [cbn in Hl; lia|].
    destruct (readBit_ok s b t Hg E) as (s1 & H & H1 & H2 & H3 & _).
    destruct (IHn s1 H2) as (s2 & H4 & H5 & H6 & H7).
    { rewrite H1. cbn in Hl. lia. }
    exists s2. cbn [skipTail]. unfold rbind. rewrite H. split; auto. rewrite H5, H1.
    split; auto. split; auto. congruence.
Qed.

Lemma nth_skipn {A} (l : list A) n i d : nth i (skipn n l) d = nth (n + i) l d.
Proof.
  revert l; induction n; intros l; [reflexivity|]. destruct l; cbn [skipn Nat.add].
  - now destruct i.
  - apply IHn.
Qed.

Lemma nth_firstn {A} (l : list A) n i d : (i < n)%nat -> nth i (firstn n l) d = nth i l d.
Proof.
  revert l i; induction n; intros l i H; [lia|]. destruct l; [reflexivity|].
  destruct i; [reflexivity|]. cbn. apply IHn. lia.
Qed.

Lemma SkipBits_at s d p n : reader_at s d p -> (Z.of_nat n < 2 ^ 32) -> (p + n <= 8 * length d)%nat ->
  exists s', SkipBits (Z.of_nat n) s = (Ok tt, s') /\ reader_at s' d (p + n).
Proof.
  intros Hr Hn Hp. unfold SkipBits.
  assert (Hu : u32 (Z.of_nat n / 8 * 8) = Z.of_nat n / 8 * 8) by (unfold u32; apply Z.mod_small; lia).
  rewrite Hu.
  set (k := (n / 8)%nat).
  assert (Hk : Z.of_nat n / 8 = Z.of_nat k) by lia. rewrite Hk.
  pose proof Hr as (Hd & Hda & Hp8 & Hpos & Hi & Hc & Hcur & Hcnt).
  assert (Hmid : exists s1,
    (if 0 <? Z.of_nat k then
       match stream_read (Z.to_nat (Z.of_nat k)) s with
       | (Ok got, s1) => (Ok tt, set_cur (nth (Z.to_nat (Z.of_nat k - 1)) got 0) s1)
       | (_, s1) => (Err, s1)
       end
     else (Ok tt, s)) = (Ok tt, s1) /\ reader_at s1 d (p + 8 * k)).
  { destruct (Z.ltb_spec 0 (Z.of_nat k)).
    - rewrite Nat2Z.id. unfold stream_read. rewrite Hda, Hpos.
      destruct (Nat.leb_spec (length d) ((p + 7) / 8)); [lia|].
      eexists; split; [reflexivity|].
      assert (Hlen : length (firstn k (skipn ((p + 7) / 8) d)) = k)
        by (rewrite firstn_length, skipn_length; lia).
      unfold reader_at; cbn [set_cur br_data br_pos br_index br_cur br_count].
      rewrite Hlen.
      assert (Hlast : nth (Z.to_nat (Z.of_nat k - 1)) (firstn k (skipn ((p + 7) / 8) d)) 0
                      = nth ((p + 7) / 8 + (k - 1)) d 0).
      { rewrite nth_firstn by lia. rewrite nth_skipn. f_equal. lia. }
      rewrite Hlast.
      refine (conj Hd (conj eq_refl (conj _ (conj _ (conj _ (conj _ (conj _ _))))))); try lia.
      + rewrite Forall_forall in Hd. apply Hd. apply nth_In. lia.
      + intros Hne. f_equal. lia.
    - exists s. split; auto. replace (p + 8 * k)%nat with p by lia. auto. }
  destruct Hmid as (s1 & -> & Hr1).
  destruct (reader_at_good _ _ _ Hr1) as (Hg1 & Hd1 & El1).
  destruct (skipTail_ok (Z.to_nat (Z.of_nat n - Z.of_nat k * 8)) s1 Hg1) as (s2 & H & H1 & H2 & H3).
  { rewrite (reader_at_left_len _ _ _ Hr1). lia. }
  exists s2. split; auto. apply good_at; auto; try congruence.
  rewrite H1, El1, <- skipn_add. f_equal. lia.
Qed.
