(* Property theorems C36, C55, C56: ICC contexts and block shuffles,
   upsampling weights, ICC reconstruction. *)
From Coq Require Import ZArith List Bool Lia Arith Permutation.
From Verif Require Import GoBase GoLoop ModelBitReader ModelUtil ModelICC SpecBitReader SpecCodes SpecICC ProofCodes ProofICC.
Import ListNotations.
Open Scope Z_scope.

(* C36: contexts *)
Theorem C36_icc_context :
  forall buf i, Forall is_byte buf -> 0 <= i <= Z.of_nat (length buf) ->
  exists c, GetICCContext buf i = Ok c /\ 0 <= c < 41 /\
    (i <= 128 -> c = 0) /\
    (128 < i -> exists a b, c = 1 + a + 8 * b /\
       kind1 (nth (Z.to_nat (i - 1)) buf 0) a /\ kind2 (nth (Z.to_nat (i - 2)) buf 0) b).
Proof.
  intros buf i Hb Hi. destruct (Z_le_gt_dec i 128).
  - exists 0. split; [unfold GetICCContext; destruct (Z.leb_spec i 128); [reflexivity|lia]|].
    split; [lia|]. split; [auto|lia].
  - destruct (context_ok buf i Hb ltac:(lia)) as (a & b & E & H1 & H2).
    exists (1 + a + 8 * b). split; [exact E|]. split; [eapply kind_range; eauto|]. split; [lia|].
    intros _. eauto.
Qed.
Print Assumptions C36_icc_context.

Example C36_context_example :
  GetICCContext (repeat 0 128 ++ [65; 255]) 130 = Ok (1 + 6 + 8 * 0) /\ kind1 255 6 /\ kind2 65 0.
Proof. split; [reflexivity|]. split; constructor; lia. Qed.

(* C36: width 2, every length below 2^29 *)
Theorem C36_shuffle2 :
  forall b, Z.of_nat (length b) < 2 ^ 29 ->
  exists r, shuffle b 2 = Ok r /\ deinterleaved b r 2 ((length b + 1) / 2) /\ Permutation b r.
Proof. exact shuffle_width2. Qed.
Print Assumptions C36_shuffle2.

(* C36: width 4 *)
Theorem C36_shuffle4_partial :
  forall b, Z.of_nat (length b) < 2 ^ 29 ->
  (length b <= 4 \/ length b mod 4 = 0 \/ length b mod 4 = 3)%nat ->
  exists r, shuffle b 4 = Ok r /\ deinterleaved b r 4 ((length b + 3) / 4) /\ Permutation b r.
Proof. intros b H1 H2. apply shuffle_width4; tauto. Qed.
Print Assumptions C36_shuffle4_partial.

(* Finding: for all other lengths the width-4 shuffle panics. *)
Theorem C36_shuffle4_refuted :
  forall b, Z.of_nat (length b) < 2 ^ 29 -> (4 < length b)%nat ->
  (length b mod 4 = 1 \/ length b mod 4 = 2)%nat -> shuffle b 4 = Panic.
Proof. exact shuffle_width4_panics. Qed.
Print Assumptions C36_shuffle4_refuted.

Example C36_shuffle_example :
  shuffle [1; 2; 3; 4; 5] 2 = Ok [1; 4; 2; 5; 3] /\
  shuffle [1; 2; 3; 4; 5; 6; 7] 4 = Ok [1; 3; 5; 7; 2; 4; 6] /\
  shuffle [1; 2; 3; 4; 5; 6] 4 = Panic.
Proof. repeat split. Qed.

(* C55: entry (ky,kx,iy,ix) of the k-fold kernel comes from the symmetric
   matrix of order 5k/2 stored as an upper triangle, taps being counted from
   the nearer end; the index is inside the table, and distinct unordered tap
   pairs use distinct entries. *)
Theorem C55_upsampling_index :
  forall k ky kx iy ix, k = 2 \/ k = 4 \/ k = 8 ->
  0 <= ky < k -> 0 <= kx < k -> 0 <= iy < 5 -> 0 <= ix < 5 ->
  upIndex k ky kx iy ix = sym_index (5 * k / 2) (tap k ky iy) (tap k kx ix) /\
  0 <= upIndex k ky kx iy ix < (5 * k / 2) * (5 * k / 2 + 1) / 2.
Proof.
  intros k ky kx iy ix Hk H1 H2 H3 H4.
  pose proof (upIndex_sym k ky kx iy ix Hk H1 H2 H3 H4) as E. split; [exact E|]. rewrite E.
  assert (B : forall p t, 0 <= p < k -> 0 <= t < 5 -> 0 <= tap k p t < 5 * k / 2).
  { intros p t Hp Ht. unfold tap. destruct Hk as [-> |[-> | ->]];
    match goal with |- context [?a / 2] => let v := eval compute in (a / 2) in change (a / 2) with v end; lia. }
  apply sym_index_bound; apply B; auto.
Qed.
Print Assumptions C55_upsampling_index.

Theorem C55_upsampling_symmetric :
  forall (tbl : list Z) k ky kx iy ix, k = 2 \/ k = 4 \/ k = 8 ->
  Z.of_nat (length tbl) = (5 * k / 2) * (5 * k / 2 + 1) / 2 ->
  0 <= ky < k -> 0 <= kx < k -> 0 <= iy < 5 -> 0 <= ix < 5 ->
  exists w, upWeight tbl k ky kx iy ix = Ok w /\
    upWeight tbl k kx ky ix iy = Ok w /\
    upWeight tbl k (k - 1 - ky) kx (4 - iy) ix = Ok w /\
    upWeight tbl k ky (k - 1 - kx) iy (4 - ix) = Ok w.
Proof.
  intros tbl k ky kx iy ix Hk Hl H1 H2 H3 H4.
  destruct (C55_upsampling_index k ky kx iy ix Hk H1 H2 H3 H4) as [E B].
  assert (M : forall p t, tap k (k - 1 - p) (4 - t) = tap k p t) by (intros; unfold tap; lia).
  unfold upWeight. exists (nth (Z.to_nat (upIndex k ky kx iy ix)) tbl 0).
  assert (G : forall z, z = upIndex k ky kx iy ix -> slice_get tbl z = Ok (nth (Z.to_nat (upIndex k ky kx iy ix)) tbl 0)).
  { intros z ->. apply slice_get_ok. lia. }
  split; [now apply G|]. split; [apply G|split; apply G].
  - rewrite (upIndex_sym k kx ky ix iy), E by auto. unfold sym_index. now rewrite Z.min_comm, Z.max_comm.
  - rewrite (upIndex_sym k (k - 1 - ky) kx (4 - iy) ix), E by (auto; lia). now rewrite M.
  - rewrite (upIndex_sym k ky (k - 1 - kx) iy (4 - ix)), E by (auto; lia). now rewrite M.
Qed.
Print Assumptions C55_upsampling_symmetric.

Theorem C55_upsampling_distinct :
  forall k ky kx iy ix ky' kx' iy' ix', k = 2 \/ k = 4 \/ k = 8 ->
  0 <= ky < k -> 0 <= kx < k -> 0 <= iy < 5 -> 0 <= ix < 5 ->
  0 <= ky' < k -> 0 <= kx' < k -> 0 <= iy' < 5 -> 0 <= ix' < 5 ->
  upIndex k ky kx iy ix = upIndex k ky' kx' iy' ix' ->
  (tap k ky iy = tap k ky' iy' /\ tap k kx ix = tap k kx' ix') \/
  (tap k ky iy = tap k kx' ix' /\ tap k kx ix = tap k ky' iy').
Proof.
  intros k ky kx iy ix ky' kx' iy' ix' Hk A1 A2 A3 A4 B1 B2 B3 B4 E.
  rewrite !upIndex_sym in E by auto.
  assert (B : forall p t, 0 <= p < k -> 0 <= t < 5 -> 0 <= tap k p t < 5 * k / 2).
  { intros p t Hp Ht. unfold tap. destruct Hk as [-> |[-> | ->]];
    match goal with |- context [?a / 2] => let v := eval compute in (a / 2) in change (a / 2) with v end; lia. }
  eapply sym_index_inj; eauto.
Qed.
Print Assumptions C55_upsampling_distinct.

Example C55_example : upIndex 8 7 3 4 4 = 19 /\ tap 8 7 4 = 0 /\ tap 8 3 4 = 19 /\ upIndex 8 3 4 4 0 = 209.
Proof. repeat split. Qed.

(* C56: reconstruction inverts the encoding.  Profiles of 5..40 bytes and of
   129..131 bytes are excluded, and so are tag counts above 2^31-2. *)
Theorem C56_icc_short :
  forall P size zero, varint size (Z.of_nat (length P)) -> varint zero 0 ->
  (length P <= 128)%nat -> (41 <= length P \/ length P <= 4)%nat -> Forall is_byte P ->
  icc_encoding P (size ++ zero ++ residuals P (length P)) /\
  GetDecodedICC (size ++ zero ++ residuals P (length P)) = Ok P.
Proof. intros. split; [now constructor|]. now apply decoded_short. Qed.
Print Assumptions C56_icc_short.

Theorem C56_icc_roundtrip_partial :
  forall P, Forall is_byte P -> (132 <= length P)%nat -> Z.of_nat (length P) < 2 ^ 30 -> nth 128 P 0 < 127 ->
  (exists e, icc_encoding P e) /\
  forall size csize tc num, varint size (Z.of_nat (length P)) ->
  varint csize (Z.of_nat (length (tc ++ [0; 1] ++ num))) ->
  varint tc (be32 (skipn 128 P) + 1) -> varint num (Z.of_nat (length P - 132)) ->
  GetDecodedICC (size ++ csize ++ (tc ++ [0; 1] ++ num) ++ residuals P 128 ++ skipn 132 P) = Ok P.
Proof.
  intros P HP H1 H2 H3. split.
  - assert (HS : Forall is_byte (skipn 128 P)).
    { pose proof HP as HP'. rewrite <- (firstn_skipn 128 P) in HP'. now apply Forall_app in HP'. }
    assert (0 <= be32 (skipn 128 P)).
    { unfold be32. pose proof (byte_nth _ 0 HS). pose proof (byte_nth _ 1 HS). pose proof (byte_nth _ 2 HS).
      pose proof (byte_nth _ 3 HS). unfold is_byte in *. lia. }
    destruct (varint_exists (Z.of_nat (length P)) ltac:(lia)) as (size & Hs).
    destruct (varint_exists (be32 (skipn 128 P) + 1) ltac:(lia)) as (tc & Ht).
    destruct (varint_exists (Z.of_nat (length P - 132)) ltac:(lia)) as (num & Hn).
    destruct (varint_exists (Z.of_nat (length (tc ++ [0; 1] ++ num))) ltac:(lia)) as (csize & Hc).
    eexists. eapply enc_tags; eauto.
  - intros size csize tc num Hs Hc Ht Hn. now apply decoded_tags.
Qed.
Print Assumptions C56_icc_roundtrip_partial.

(* Finding: with tag count code 0 (no tag list) the commands behind it are
   never run: everything after byte 128 comes out as zero. *)
Theorem C56_icc_no_tags_refuted :
  forall P size csize num, Forall is_byte P -> (129 <= length P)%nat -> Z.of_nat (length P) < 2 ^ 30 ->
  varint size (Z.of_nat (length P)) -> varint csize (Z.of_nat (length ([0; 1] ++ num))) ->
  varint num (Z.of_nat (length P - 128)) ->
  let e := size ++ csize ++ ([0; 1] ++ num) ++ residuals P 128 ++ skipn 128 P in
  icc_encoding P e /\ GetDecodedICC e = Ok (firstn 128 P ++ repeat 0 (length P - 128)).
Proof.
  intros P size csize num HP H1 H2 Hs Hc Hn e. split; [now constructor|]. now apply decoded_raw.
Qed.
Print Assumptions C56_icc_no_tags_refuted.

(* Finding: every encoding of a profile of 5..40 bytes panics. *)
Theorem C56_icc_tiny_refuted :
  forall P size zero, Forall is_byte P -> (5 <= length P <= 40)%nat ->
  varint size (Z.of_nat (length P)) -> varint zero 0 ->
  let e := size ++ zero ++ residuals P (length P) in
  icc_encoding P e /\ GetDecodedICC e = Panic.
Proof.
  intros P size zero HP Hl Hs Hz e. split; [constructor; auto; lia|].
  apply (decoded_small_panics size zero _ (length P)); auto.
  - rewrite residuals_length. lia.
  - rewrite residuals_length. lia.
  - apply residuals_bytes.
Qed.
Print Assumptions C56_icc_tiny_refuted.

(* Finding: tag code 21 indexes one past the table of tag names; a command
   section reaching beyond the data panics too. *)
Theorem C56_icc_panics_refuted :
  GetDecodedICC ([144; 1] ++ [3] ++ [1; 21; 0] ++ repeat 0 128) = Panic /\ GetDecodedICC [0; 5] = Panic.
Proof. split; vm_compute; reflexivity. Qed.
Print Assumptions C56_icc_panics_refuted.

Definition icc_sample : list Z :=
  [0; 0; 0; 134] ++ repeat 7 36 ++ [83; 71; 73; 32] ++ repeat 1 84 ++ [0; 0; 0; 0; 9; 8].
Example C56_example :
  length icc_sample = 134%nat /\ Forall is_byte icc_sample /\
  GetDecodedICC ([134; 1] ++ [4] ++ ([1] ++ [0; 1] ++ [2]) ++ residuals icc_sample 128 ++ skipn 132 icc_sample)
  = Ok icc_sample.
Proof.
  split; [reflexivity|]. split; [apply Forall_forall; intros x Hx; cbn in Hx; unfold is_byte;
    repeat (destruct Hx as [<-|Hx]; [lia|]); tauto|].
  vm_compute. reflexivity.
Qed.
