(* Properties of the noise generator: C93, C94. *)
From Coq Require Import ZArith List Bool Lia Arith ZifyBool ZifyNat.
From Verif Require Import GoBase GoLoop GoMatrix ModelNoise SpecNoise ProofNoise.
Import ListNotations.
Open Scope Z_scope.

(* ---- C93: the generator ---- *)
(* n numbers from nextLong *)
Fixpoint draws (n : nat) (xs : XorShiro) : Outcome (list Z * XorShiro) :=
  match n with
  | O => Ok ([], xs)
  | S n' => obind (nextLong xs) (fun r => obind (draws n' (snd r)) (fun q => Ok (fst r :: fst q, snd q)))
  end.
Lemma draws_ok a b n : forall k xs, drawn a b k xs -> exists xs', draws n xs = Ok (map (long (stf a b)) (seq k n), xs') /\ drawn a b (k + n) xs'.
Proof.
  induction n as [|n IH]; intros k xs D; cbn [draws]; [exists xs; rewrite Nat.add_0_r; auto|].
  destruct (next_ok a b k xs D) as (x1 & E & D1). rewrite E. cbn [obind fst snd]. destruct (IH (S k) x1 D1) as (x2 & E2 & D2). rewrite E2. cbn [obind fst snd seq map].
  exists x2. split; [reflexivity|]. replace (k + S n)%nat with (S k + n)%nat by lia. exact D2.
Qed.
Lemma long_det a b st n : generator a b st -> long st n = long (stf a b) n.
Proof. intros G. unfold long. rewrite (generator_det a b st G) by (apply Nat.mod_upper_bound; lia). reflexivity. Qed.
Lemma half_det a b st n : generator a b st -> half st n = half (stf a b) n.
Proof. intros G. unfold half. rewrite (long_det a b st _ G). reflexivity. Qed.

(* The generator of the standard with given seeds exists, and the numbers are
   its numbers, however they are drawn: one by one, or as 32-bit halves into a
   slice of any even length. *)
Theorem C93_generator_exists : forall seed0 seed1, exists st, generator seed0 seed1 st.
Proof. intros a b. exists (stf a b). apply stf_generator. Qed.
Print Assumptions C93_generator_exists.
Theorem C93_numbers : forall seed0 seed1 st, generator seed0 seed1 st ->
  exists xs, NewXorShiroWith2Seeds seed0 seed1 = Ok xs /\
  forall n, exists xs', draws n xs = Ok (map (long st) (seq 0 n), xs') /\
  forall m bits, length bits = (2 * m)%nat -> exists xs'', fill xs' bits = Ok (map (half st) (seq (2 * n) (2 * m)), xs'') /\
  forall k, exists xs''', draws k xs'' = Ok (map (long st) (seq (n + m) k), xs''').
Proof.
  intros a b st G. eexists. split; [apply new_ok|]. intros n. destruct (draws_ok a b n 0 _ (drawn_0 a b)) as (x1 & E1 & D1). exists x1.
  split; [rewrite E1; f_equal; f_equal; apply map_ext; intros; symmetry; apply long_det, G|]. intros m bits L. cbn [plus] in D1. destruct (fill_ok a b m n x1 bits D1 L) as (x2 & E2 & D2). exists x2.
  split; [rewrite E2; f_equal; f_equal; apply map_ext; intros; symmetry; apply half_det, G|]. intros k. destruct (draws_ok a b k (n + m) x2 D2) as (x3 & E3 & _). exists x3.
  rewrite E3. f_equal. f_equal. apply map_ext. intros. symmetry. apply long_det, G.
Qed.
Print Assumptions C93_numbers.
(* Finding: a slice of odd length makes fill panic. *)
Theorem C93_odd_slice_refuted : forall seed0 seed1, exists xs, NewXorShiroWith2Seeds seed0 seed1 = Ok xs /\
  forall n, exists q xs', draws n xs = Ok (q, xs') /\ forall bits, Nat.odd (length bits) = true -> fill xs' bits = Panic.
Proof.
  intros a b. eexists. split; [apply new_ok|]. intros n. destruct (draws_ok a b n 0 _ (drawn_0 a b)) as (x1 & E1 & D1). exists (map (long (stf a b)) (seq 0 n)), x1. split; [exact E1|].
  intros bits Ho. apply Nat.odd_spec in Ho as (k & Hk). unfold fill. rewrite Hk. replace (Z.to_nat ((Z.of_nat (2 * k + 1) + 1) / 2)) with (S k).
  - apply (fillFrom_odd a b (S k) n); [exact D1|lia|lia|lia].
  - replace ((Z.of_nat (2 * k + 1) + 1) / 2) with (Z.of_nat k + 1) by (apply (Z.div_unique _ 2 _ 0); lia). lia.
Qed.
Print Assumptions C93_odd_slice_refuted.
(* Four 32-bit seeds are two 64-bit seeds, the first of each pair on top. *)
Theorem C93_four_seeds : forall s0 s1 s2 s3, - 2 ^ 31 <= s0 < 2 ^ 31 -> - 2 ^ 31 <= s2 < 2 ^ 31 ->
  NewXorShiroWith4Seeds s0 s1 s2 s3 = NewXorShiroWith2Seeds (s0 * 2 ^ 32 + s1 mod 2 ^ 32) (s2 * 2 ^ 32 + s3 mod 2 ^ 32).
Proof.
  assert (P : forall a b, - 2 ^ 31 <= a < 2 ^ 31 -> Z.lor (i64 (Z.shiftl a 32)) (Z.land b 0xffffffff) = a * 2 ^ 32 + b mod 2 ^ 32).
  { intros a b Ha. change 0xffffffff with (Z.ones 32). rewrite Z.land_ones, Z.shiftl_mul_pow2 by lia. unfold i64. rewrite Z.mod_small by lia.
    replace (a * 2 ^ 32 + 2 ^ 63 - 2 ^ 63) with (a * 2 ^ 32) by lia. apply lor_add; [lia|apply Z.mod_pos_bound; lia]. }
  intros s0 s1 s2 s3 H0 H2. unfold NewXorShiroWith4Seeds. rewrite !P by assumption. reflexivity.
Qed.
Print Assumptions C93_four_seeds.

(* Different seeds give different states in every lane, and no lane ever
   repeats a state of another past: the step has no two predecessors. *)
Theorem C93_seeds_differ : forall seed seed' i r, lane_seed seed i r -> lane_seed seed' i r -> (seed - seed') mod 2 ^ 64 = 0.
Proof.
  intros a b i. induction i as [|i IH]; cbn [lane_seed]; intros r A B.
  - assert (E : (a + 11400714819323198485) mod 2 ^ 64 = (b + 11400714819323198485) mod 2 ^ 64) by (eapply splitmix_inj; [apply word_u64|apply word_u64|exact A|exact B]).
    replace (a - b) with ((a + 11400714819323198485) - (b + 11400714819323198485)) by lia. rewrite Zminus_mod, E, Z.sub_diag. reflexivity.
  - destruct A as (p & A & A'), B as (q & B & B').
    assert (Wd : forall z j v, lane_seed z j v -> word v) by (intros z [|j] v; cbn [lane_seed]; [apply splitmix_word|intros (q' & _ & Q); exact (splitmix_word _ _ Q)]).
    assert (p = q) by (eapply splitmix_inj; [eapply Wd; exact A|eapply Wd; exact B|exact A'|exact B']). subst q. exact (IH p A B).
Qed.
Print Assumptions C93_seeds_differ.
Theorem C93_no_merging : forall s s' t, 0 <= fst s < 2 ^ 64 -> 0 <= snd s < 2 ^ 64 -> 0 <= fst s' < 2 ^ 64 -> 0 <= snd s' < 2 ^ 64 -> step s t -> step s' t -> s = s'.
Proof. intros s s' t A B C D. apply step_inj; split; assumption. Qed.
Print Assumptions C93_no_merging.
(* The state of a lane, from which only zeros would follow, is zero only for
   the pair of seeds that cancels the golden ratio. *)
Lemma step_zero : stepf (0, 0) = (0, 0).
Proof. reflexivity. Qed.
Lemma lane_zero a i : laneSeed a i = 0 <-> (a + 11400714819323198485) mod 2 ^ 64 = 0.
Proof.
  assert (S0 : forall z, word z -> splitMix64 z = 0 <-> z = 0).
  { intros z Hz. split; [|intros ->; reflexivity]. intros E. destruct (splitMix_ok z Hz) as [A _], (splitMix_ok 0 ltac:(unfold word; lia)) as [B _].
    rewrite E in A. change (splitMix64 0) with 0 in B. exact (splitmix_inj z 0 0 Hz ltac:(unfold word; lia) A B). }
  induction i as [|i IH]; cbn [laneSeed]; [apply (S0 _ (word_u64 _))|]. rewrite (S0 _ (proj2 (laneSeed_ok a i))). exact IH.
Qed.
Theorem C93_never_zero : forall seed0 seed1 st, generator seed0 seed1 st -> forall n i, (i < 8)%nat ->
  (st n i = (0, 0) <-> (seed0 + 11400714819323198485) mod 2 ^ 64 = 0 /\ (seed1 + 11400714819323198485) mod 2 ^ 64 = 0).
Proof.
  intros a b st G n i Hi. rewrite (generator_det a b st G n i Hi). rewrite <- (lane_zero a i), <- (lane_zero b i). induction n as [|n IH].
  - change (stf a b 0 i) with (laneSeed a i, laneSeed b i). split; [intros [= -> ->]; auto|intros [-> ->]; reflexivity].
  - rewrite <- IH. change (stf a b (S n) i) with (stepf (stf a b n i)). split; [|intros ->; apply step_zero]. intros E.
    pose proof (stf_words a b n i) as Wd. assert (W0 : words (0, 0)) by (split; unfold word; cbn; lia).
    apply (step_inj _ _ (0, 0) Wd W0); [rewrite <- E; exact (proj1 (stepf_ok _ Wd))|rewrite <- step_zero at 2; exact (proj1 (stepf_ok _ W0))].
Qed.
Print Assumptions C93_never_zero.

Example C93_example : exists xs xs' xs'', NewXorShiroWith2Seeds 12345 (-7) = Ok xs /\
  draws 3 xs = Ok (map (long (stf 12345 (-7))) [0; 1; 2]%nat, xs') /\
  fill xs' [0; 0; 0; 0] = Ok (map (half (stf 12345 (-7))) [6; 7; 8; 9]%nat, xs'') /\ half (stf 12345 (-7)) 6 <> half (stf 12345 (-7)) 7.
Proof.
  destruct (C93_numbers 12345 (-7) (stf 12345 (-7)) (stf_generator _ _)) as (xs & E & F). destruct (F 3%nat) as (xs' & E1 & F1). destruct (F1 2%nat [0; 0; 0; 0] eq_refl) as (xs'' & E2 & _).
  exists xs, xs', xs''. split; [exact E|]. split; [exact E1|]. split; [exact E2|]. vm_compute. discriminate.
Qed.

(* ---- C94: noise of a group ---- *)
(* The group at (x0, y0) of an image inside a buffer of H rows and W columns:
   samples outside it are left alone; those inside are numbers in [1, 2). *)
Definition group_size (groupDim width height : Z) (x0 y0 h w : nat) : Prop :=
  Z.of_nat w = Z.min groupDim (width - Z.of_nat x0) /\ Z.of_nat h = Z.min groupDim (height - Z.of_nat y0) /\
  Z.of_nat x0 <= width < 2 ^ 32 /\ Z.of_nat y0 <= height < 2 ^ 32.
Definition outside (x0 y0 h w y x : nat) : Prop := ~ ((y0 <= y < y0 + h)%nat /\ (x0 <= x < x0 + w)%nat).
Theorem C94_group_partial : forall groupDim width height seed0 m0 m1 m2 x0 y0 H W h w,
  Z.of_nat H < 2 ^ 31 -> Z.of_nat W < 2 ^ 31 -> (1 <= h)%nat -> (1 <= w)%nat -> (y0 + h <= H)%nat -> (x0 + w <= W)%nat ->
  group_size groupDim width height x0 y0 h w -> rect H W m0 -> rect H W m1 -> rect H W m2 ->
  exists rng n0 n1 n2, NewNoiseGroupWithHeader groupDim width height seed0 [m0; m1; m2] (Z.of_nat x0) (Z.of_nat y0) = Ok (rng, [n0; n1; n2]) /\
    forall c m n, nth_error [m0; m1; m2] c = Some m -> nth_error [n0; n1; n2] c = Some n -> rect H W n /\
      (forall y x, outside x0 y0 h w y x -> px n y x = px m y x) /\
      (forall y x, (y < h)%nat -> (x < w)%nat -> exists f, one_to_two (px n (y0 + y) (x0 + x)) f) /\
      (* what is left is the first number of the run that starts at the sample *)
      (forall st, generator seed0 (Z.of_nat x0 * 2 ^ 32 + Z.of_nat y0) st -> forall y x, (y < h)%nat -> (x < w)%nat ->
         one_to_two (px n (y0 + y) (x0 + x)) (half st (16 * ((c * h + y) * w + x)) / 2 ^ 9)).
Proof.
  intros gd width height seed0 m0 m1 m2 x0 y0 H W h w HH HW Hh Hw FH FW (Ew & Eh & Bw & Bh) R0 R1 R2.
  destruct (group_ok gd width height seed0 m0 m1 m2 x0 y0 H W h w HH HW Hh Hw FH FW Bw Bh Ew Eh R0 R1 R2) as (rng & n0 & n1 & n2 & E & _ & P). exists rng, n0, n1, n2. split; [exact E|].
  intros c m n Em En. destruct (P c m n Em En) as (R & V & O). split; [exact R|]. split; [exact O|].
  assert (Q : forall y x, (y < h)%nat -> (x < w)%nat -> one_to_two (px n (y0 + y) (x0 + x)) (half (stf seed0 (Z.of_nat x0 * 2 ^ 32 + Z.of_nat y0)) (16 * ((c * h + y) * w + x)) / 2 ^ 9)).
  { intros y x Hy Hx. rewrite V by assumption. apply noise_bits, half_range. }
  split; [intros y x Hy Hx; eexists; apply Q; assumption|]. intros st G y x Hy Hx. rewrite (half_det _ _ st _ G). apply Q; assumption.
Qed.
Print Assumptions C94_group_partial.
(* A group of one column has the noise of the standard. *)
Theorem C94_one_column_partial : forall groupDim width height seed0 m0 m1 m2 x0 y0 H W h,
  Z.of_nat H < 2 ^ 31 -> Z.of_nat W < 2 ^ 31 -> (1 <= h)%nat -> (y0 + h <= H)%nat -> (x0 + 1 <= W)%nat ->
  group_size groupDim width height x0 y0 h 1 -> rect H W m0 -> rect H W m1 -> rect H W m2 ->
  exists rng n0 n1 n2, NewNoiseGroupWithHeader groupDim width height seed0 [m0; m1; m2] (Z.of_nat x0) (Z.of_nat y0) = Ok (rng, [n0; n1; n2]) /\
    forall c n st, nth_error [n0; n1; n2] c = Some n -> generator seed0 (Z.of_nat x0 * 2 ^ 32 + Z.of_nat y0) st ->
      forall y, (y < h)%nat -> noise_sample st h 1 c y 0 (px n (y0 + y) x0).
Proof.
  intros gd width height seed0 m0 m1 m2 x0 y0 H W h HH HW Hh FH FW GS R0 R1 R2.
  destruct (C94_group_partial gd width height seed0 m0 m1 m2 x0 y0 H W h 1 HH HW Hh ltac:(lia) FH FW GS R0 R1 R2) as (rng & n0 & n1 & n2 & E & P).
  exists rng, n0, n1, n2. split; [exact E|]. intros c n st En G y Hy.
  assert (exists m, nth_error [m0; m1; m2] c = Some m) as [m Em] by (destruct c as [|[|[|[|c]]]]; cbn in En |- *; try discriminate; eauto).
  destruct (P c m n Em En) as (_ & _ & _ & Q). specialize (Q st G y 0%nat Hy ltac:(lia)). rewrite Nat.add_0_r in Q. unfold noise_sample, run_of.
  change ((1 + 15) / 16)%nat with 1%nat. change (0 / 16)%nat with 0%nat. change (0 mod 16)%nat with 0%nat. rewrite Nat.add_0_r. exact Q.
Qed.
Print Assumptions C94_one_column_partial.
(* Finding: a run of 16 numbers is drawn for every sample instead of every 16
   samples (x++ instead of x += 16), so that wider groups have other noise. *)
Theorem C94_wide_group_refuted : exists groupDim width height seed0 m h w, group_size groupDim width height 0 0 h w /\ rect h w m /\
  exists rng n0 n1 n2, NewNoiseGroupWithHeader groupDim width height seed0 [m; m; m] 0 0 = Ok (rng, [n0; n1; n2]) /\
    forall st, generator seed0 0 st -> ~ noise_sample st h w 0 0 1 (px n0 0 1).
Proof.
  exists 128, 2, 1, 0, [[0; 0]], 1%nat, 2%nat. assert (GS : group_size 128 2 1 0 0 1 2) by (unfold group_size; lia). assert (R : rect 1 2 [[0; 0]]) by (split; [reflexivity|repeat constructor]).
  split; [exact GS|]. split; [exact R|].
  destruct (C94_group_partial 128 2 1 0 [[0; 0]] [[0; 0]] [[0; 0]] 0 0 1 2 1 2 ltac:(lia) ltac:(lia) ltac:(lia) ltac:(lia) ltac:(lia) ltac:(lia) GS R R R) as (rng & n0 & n1 & n2 & E & P).
  exists rng, n0, n1, n2. split; [exact E|]. intros st G [_ N]. destruct (P 0%nat _ n0 eq_refl eq_refl) as (_ & _ & _ & Q). specialize (Q st G 0%nat 1%nat ltac:(lia) ltac:(lia)). destruct Q as [_ Q].
  cbn [plus] in Q, N. rewrite Q in N. rewrite !(half_det 0 0 st _ G) in N. revert N. clear. vm_compute. discriminate.
Qed.
Print Assumptions C94_wide_group_refuted.

Example C94_example : group_size 2 5 4 4 2 2 1 /\ exists rng n0 n1 n2,
  NewNoiseGroupWithHeader 2 5 4 99 [zeros2 4 5; zeros2 4 5; zeros2 4 5] 4 2 = Ok (rng, [n0; n1; n2]) /\ px n1 0 0 = 0 /\ noise_sample (stf 99 (4 * 2 ^ 32 + 2)) 2 1 1 1 0 (px n1 3 4).
Proof.
  assert (GS : group_size 2 5 4 4 2 2 1) by (unfold group_size; lia). split; [exact GS|].
  assert (R : rect 4 5 (zeros2 4 5)) by exact (rect_zeros 4 5).
  destruct (C94_group_partial 2 5 4 99 _ _ _ 4 2 4 5 2 1 ltac:(lia) ltac:(lia) ltac:(lia) ltac:(lia) ltac:(lia) ltac:(lia) GS R R R) as (rng & n0 & n1 & n2 & E & P).
  exists rng, n0, n1, n2. split; [exact E|]. destruct (P 1%nat _ n1 eq_refl eq_refl) as (_ & O & _ & Q). split; [apply O; unfold outside; lia|].
  exact (Q _ (stf_generator _ _) 1%nat 0%nat ltac:(lia) ltac:(lia)).
Qed.
