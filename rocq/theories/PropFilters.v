(* C84 to C87: the restoration filters and upsampling, over the real numbers. *)
From Coq Require Import ZArith List Bool Lia Lra Arith Reals.
From Verif Require Import GoBase GoLoop ModelBitReader ModelFrameHeader ModelUtil ModelDCT ModelConcurrency ModelFilters SpecUtil SpecDCT SpecColour SpecFilters.
From Verif Require Import GoMatrixR ProofFilters.
Import ListNotations.
Open Scope R_scope.

Definition small (h w : nat) : Prop := (Z.of_nat h < 2 ^ 30)%Z /\ (Z.of_nat w < 2 ^ 30)%Z.

(* ---- C84: Gaborish ---- *)
(* Missing: the arithmetic of float32, and weights whose sum vanishes. *)
Theorem C84_value_partial w1 w2 h w m : rrect h w m -> small h w -> rsum (gab_weight w1 w2) grid <> 0 ->
  exists m', gabChannel w1 w2 h w m = Ok m' /\ image_of h w (gab_value w1 w2 h w m) m'.
Proof. intros R [Bh Bw] N. rewrite gab_norm in N. rewrite gab_ok by assumption. eexists. split; [reflexivity|apply rmat_image]. Qed.
Print Assumptions C84_value_partial.
(* The filter keeps constant images and the sum of all samples *)
Theorem C84_constant_partial w1 w2 h w m c m' : rrect h w m -> small h w -> rsum (gab_weight w1 w2) grid <> 0 -> within h w c c m ->
  gabChannel w1 w2 h w m = Ok m' -> within h w c c m'.
Proof.
  intros R S N H E y x Hy Hx. destruct (C84_value_partial w1 w2 h w m R S N) as (m'' & E' & _ & V). rewrite E in E'. injection E' as <-. rewrite V by assumption.
  rewrite gab_norm in N. rewrite (gab_const w1 w2 h w m c N) by (lia || (intros y' x' Hy' Hx'; destruct (H y' x' Hy' Hx'); lra)). lra.
Qed.
Print Assumptions C84_constant_partial.
Theorem C84_total_partial w1 w2 h w m m' : rrect h w m -> small h w -> (1 <= h)%nat -> (1 <= w)%nat -> rsum (gab_weight w1 w2) grid <> 0 ->
  gabChannel w1 w2 h w m = Ok m' -> total h w m' = total h w m.
Proof. intros R [Bh Bw] Hh Hw N E. rewrite gab_norm in N. rewrite gab_ok in E by assumption. injection E as <-. now apply gab_total. Qed.
Print Assumptions C84_total_partial.
Example C84_example : rrect 1 2 [[0; 4]] /\ small 1 2 /\ rsum (gab_weight (1 / 8) (1 / 8)) grid <> 0 /\ gab_value (1 / 8) (1 / 8) 1 2 [[0; 4]] 0 0 = 3 / 4 * 1.
Proof.
  split; [split; [reflexivity|repeat constructor]|]. split; [split; reflexivity|]. split; [rewrite gab_norm; lra|]. rewrite gab_split.
  change (Z.of_nat 0) with 0%Z. cbn [Z.sub Z.add Z.opp]. unfold ext. change (mir 1 0) with 0%nat. change (mir 1 (-1)) with 0%nat. change (mir 1 1) with 0%nat. change (mir 2 0) with 0%nat. change (mir 2 (-1)) with 0%nat. change (mir 2 1) with 1%nat.
  change (pixel [[0; 4]] 0 0) with 0. change (pixel [[0; 4]] 0 1) with 4. lra.
Qed.
(* Finding: the weights of the header are not checked.  With -0.25 and 0 the
   sum of the weights is 0, and the decoder divides by it. *)
Theorem C84_weights_refuted : exists data r w1 w2 rest, fst (readRestoration VARDCT (NewBitStreamReader data)) = Ok r /\ rf_gab r = true /\
  rf_gabWeights r = Some (w1 :: w2 :: rest) /\ rsum (gab_weight (f32_value w1) (f32_value w2)) grid = 0.
Proof.
  exists [6; 160; 5; 0; 0; 0; 0; 0; 0; 0; 0; 0; 0; 0; 0]%Z. do 4 eexists. split; [vm_compute; reflexivity|]. split; [reflexivity|]. split; [reflexivity|].
  rewrite gab_norm. unfold f32_value. cbn [f_neg f_mant f_exp powerRZ].
  change (Pos.to_nat 25) with 25%nat. change (Pos.to_nat 24) with 24%nat. replace (2 ^ 25) with 33554432 by (cbn; lra). lra.
Qed.
Print Assumptions C84_weights_refuted.

(* ---- C85: the edge-preserving filter ---- *)
(* All blocks of the frame have a multiplier and a sharpness from 0 to 7 in
   their LF group of g times g blocks *)
Definition blocks_ok (g bh bw stride : nat) (groups : list (list (list Z) * list (list Z))) : Prop :=
  forall y x, (y < bh)%nat -> (x < bw)%nat ->
    let i := (y / g * stride + x / g)%nat in let group := nth i groups ([], []) in
    (i < length groups)%nat /\ has (fst group) (y mod g) (x mod g) /\ has (snd group) (y mod g) (x mod g).
Definition sharpness (g stride : nat) (groups : list (list (list Z) * list (list Z))) (y x : nat) : Z :=
  entry (snd (nth (y / g * stride + x / g) groups ([], []))) (y mod g) (x mod g).
Definition sizes_ok (bh bw stride : nat) {A} (groups : list A) : Prop :=
  small bh bw /\ (Z.of_nat stride < 2 ^ 31)%Z /\ (Z.of_nat (length groups) < 2 ^ 31)%Z.

(* Missing: float32, groups of other sizes than 256, negative strengths. *)
Theorem C85_value_partial h w bh bw stride groups gs lut smod iterations scales mul p0 p2 ms :
  small h w -> (h <= 8 * bh)%nat -> (w <= 8 * bw)%nat -> sizes_ok bh bw stride groups -> blocks_ok 256 bh bw stride groups ->
  (forall y x, (y < bh)%nat -> (x < bw)%nat -> (0 <= sharpness 256 stride groups y x <= 7)%Z) ->
  length lut = 8%nat -> (forall y x, (y < bh)%nat -> (x < bw)%nat -> 0 <= epf_strength 256 stride groups gs lut y x) ->
  Forall (rrect h w) ms -> (length ms <= length scales)%nat ->
  exists inv r, epfSigma bh bw false smod gs lut (Z.of_nat stride) groups = Ok inv /\
    epfPasses (Z.of_nat h) (Z.of_nat w) iterations scales mul p0 p2 inv ms = Ok r /\
    epf_run (epf_steps iterations) p0 p2 mul h w scales (epf_strength 256 stride groups gs lut) ms r.
Proof.
  intros [Bh Bw] Hh Hw [[Bbh Bbw] [Bs Bg]] Hb Hs Hl Hp F L.
  destruct (sigma_ok bh bw stride groups gs lut smod Bbh Bbw Bs Bg Hb Hl Hs) as (inv & Ei & Hi).
  destruct (epfPasses_ok h w bh bw iterations scales mul p0 p2 inv _ ms Bh Bw Hh Hw Hi Hp F L) as (r & Er & Hr). exists inv, r. auto.
Qed.
Print Assumptions C85_value_partial.
Theorem C85_modular_partial h w bh bw stride groups gs lut s iterations scales mul p0 p2 ms :
  small h w -> (h <= 8 * bh)%nat -> (w <= 8 * bw)%nat -> 0 <= s -> Forall (rrect h w) ms -> (length ms <= length scales)%nat ->
  exists inv r, epfSigma bh bw true s gs lut stride groups = Ok inv /\
    epfPasses (Z.of_nat h) (Z.of_nat w) iterations scales mul p0 p2 inv ms = Ok r /\
    epf_run (epf_steps iterations) p0 p2 mul h w scales (fun _ _ => s) ms r.
Proof.
  intros [Bh Bw] Hh Hw Hs F L. destruct (sigma_modular bh bw s gs lut stride groups) as (inv & Ei & Hi).
  destruct (epfPasses_ok h w bh bw iterations scales mul p0 p2 inv _ ms Bh Bw Hh Hw Hi (fun _ _ _ _ => Hs) F L) as (r & Er & Hr). exists inv, r. auto.
Qed.
Print Assumptions C85_modular_partial.
(* The samples of a channel never leave its range, so a constant channel stays *)
Theorem C85_range steps p0 p2 mul h w scales sigma ms r : epf_run steps p0 p2 mul h w scales sigma ms r ->
  Forall2 (fun m m' => forall a b, within h w a b m -> within h w a b m') ms r.
Proof. apply run_within. Qed.
Print Assumptions C85_range.
Theorem C85_sharpness bh bw stride groups gs lut smod y x : sizes_ok bh bw stride groups -> blocks_ok 256 bh bw stride groups -> length lut = 8%nat ->
  (y < bh)%nat -> (x < bw)%nat -> ~ (0 <= sharpness 256 stride groups y x <= 7)%Z -> epfSigma bh bw false smod gs lut (Z.of_nat stride) groups = Err.
Proof. intros [[Bbh Bbw] [Bs Bg]] Hb Hl Hy Hx Hs. exact (sigma_err bh bw stride groups gs lut smod Bbh Bbw Bs Bg Hb Hl y x Hy Hx Hs). Qed.
Print Assumptions C85_sharpness.

Definition ex_groups : list (list (list Z) * list (list Z)) := [([[2; 3]], [[7; 0]])]%Z.
Definition ex_lut : list R := [0; 1; 2; 3; 4; 5; 6; 7].
Example C85_example : small 3 9 /\ (3 <= 8 * 1)%nat /\ (9 <= 8 * 2)%nat /\ sizes_ok 1 2 1 ex_groups /\ blocks_ok 256 1 2 1 ex_groups /\
  (forall y x, (y < 1)%nat -> (x < 2)%nat -> (0 <= sharpness 256 1 ex_groups y x <= 7)%Z) /\ length ex_lut = 8%nat /\
  (forall y x, (y < 1)%nat -> (x < 2)%nat -> 0 <= epf_strength 256 1 ex_groups 65536 ex_lut y x) /\
  epf_strength 256 1 ex_groups 65536 ex_lut 0 0 = 7 / 2 /\ Forall (rrect 3 9) [repeat (repeat 1 9) 3].
Proof.
  split; [split; reflexivity|]. split; [lia|]. split; [lia|]. split; [repeat split|]. split.
  { intros [|y] [|[|x]] Hy Hx; try lia; (split; [cbn; lia|]; split; split; cbn; lia). }
  split; [intros [|y] [|[|x]] Hy Hx; try lia; cbn; lia|]. split; [reflexivity|].
  assert (E0 : epf_strength 256 1 ex_groups 65536 ex_lut 0 0 = 65536 / 65536 * 7 / 2) by reflexivity.
  assert (E1 : epf_strength 256 1 ex_groups 65536 ex_lut 0 1 = 65536 / 65536 * 0 / 3) by reflexivity.
  split; [intros [|y] [|[|x]] Hy Hx; try lia; [rewrite E0|rewrite E1]; lra|]. split; [rewrite E0; lra|].
  constructor; [|constructor]. split; [reflexivity|repeat constructor].
Qed.
Example C85_sharpness_example : sizes_ok 1 2 1 [([[2; 3]], [[7; 8]])]%Z /\ blocks_ok 256 1 2 1 [([[2; 3]], [[7; 8]])]%Z /\ ~ (0 <= sharpness 256 1 [([[2; 3]], [[7; 8]])]%Z 0 1 <= 7)%Z.
Proof. split; [repeat split|]. split; [intros [|y] [|[|x]] Hy Hx; try lia; (split; [cbn; lia|]; split; split; cbn; lia)|cbn; lia]. Qed.

(* Finding: LF groups are taken to have 256 x 256 blocks.  In a frame with
   groups of 128 pixels they have 128 x 128, and the decoder panics at the
   first block of the second one (with larger groups, at the 257th block). *)
Definition ex_groups128 : list (list (list Z) * list (list Z)) := [([repeat 1 128], [repeat 0 128]); ([[1]], [[0]])]%Z.
Theorem C85_group_size_refuted : sizes_ok 1 129 2 ex_groups128 /\ blocks_ok 128 1 129 2 ex_groups128 /\
  (forall y x, (y < 1)%nat -> (x < 129)%nat -> (0 <= sharpness 128 2 ex_groups128 y x <= 7)%Z) /\
  epfSigma 1 129 false 1 65536 ex_lut 2 ex_groups128 = Panic.
Proof.
  split; [repeat split|]. split; [|split].
  - intros y x Hy Hx. replace y with 0%nat by lia. change (0 / 128)%nat with 0%nat. change (0 mod 128)%nat with 0%nat. cbn [Nat.mul Nat.add].
    destruct (Nat.lt_ge_cases x 128) as [S|S].
    + rewrite Nat.div_small, Nat.mod_small by assumption. cbn [ex_groups128 nth length fst snd]. split; [lia|]. split; (split; [cbn [length]; lia|]); cbn [nth]; rewrite repeat_length; exact S.
    + replace x with 128%nat by lia. change (128 / 128)%nat with 1%nat. change (128 mod 128)%nat with 0%nat. cbn [ex_groups128 nth length fst snd]. split; [lia|]. split; split; cbn; lia.
  - intros y x Hy Hx. unfold sharpness, entry. replace y with 0%nat by lia. change (0 / 128)%nat with 0%nat. change (0 mod 128)%nat with 0%nat. cbn [Nat.mul Nat.add].
    destruct (Nat.lt_ge_cases x 128) as [S|S].
    + rewrite Nat.div_small, Nat.mod_small by assumption. cbn [ex_groups128 nth snd]. rewrite nth_repeat. lia.
    + replace x with 128%nat by lia. change (128 / 128)%nat with 1%nat. change (128 mod 128)%nat with 0%nat. cbn. lia.
  - reflexivity.
Qed.
Print Assumptions C85_group_size_refuted.
(* Finding: a negative strength, which the header can carry, is below 0.3 but
   does not switch the filter off. *)
Theorem C85_negative_refuted : exists inv r m, epfSigma 1 1 true (-1) 1 ex_lut 1 [] = Ok inv /\
  epfPasses 1 2 1 [1] 1 1 1 inv [[[0; 1]]] = Ok r /\ r = [m] /\ ~ image_of 1 2 (epf_step 1 1 1 1 1 2 [1] (fun _ _ => -1) [[[0; 1]]] [[0; 1]]) m.
Proof.
  assert (Rm : rrect 1 2 [[0; 1]]) by (split; [reflexivity|repeat constructor]).
  destruct (sigma_modular 1 1 (-1) 1 ex_lut 1 []) as (inv & Ei & Hi). exists inv.
  assert (Es : recip (-1) = Some (1 / -1)) by (unfold recip; destruct Req_EM_T; [lra|reflexivity]).
  assert (P : forall x, (x < 2)%nat -> epfPixel 1 2 1 [[[0; 1]]] [1] 1 stepMultiplier inv 0 (Z.of_nat x) = Ok [epf_value 1 1 2 (combine [[[0; 1]]] [1]) 1 (stepMultiplier * (1 / -1)) [[0; 1]] 0 x]).
  { intros x Hx. etransitivity.
    - apply (epfPixel_ok 1 2 0 x ltac:(lia) ltac:(lia) ltac:(lia) Hx 1%Z [[[0; 1]]] [1] 1 stepMultiplier inv (Some (1 / -1))).
      + constructor; [exact Rm|constructor].
      + cbn; lia.
      + rewrite !shift3. rewrite Nat.div_small by lia. rewrite (Nat.div_small x) by lia. rewrite (Hi 0%nat 0%nat) by lia. now rewrite Es.
    - cbn [map]. destruct Rlt_dec; [lra|reflexivity]. }
  pose (v := epf_value 1 1 2 (combine [[[0; 1]]] [1]) 1 (stepMultiplier * (1 / -1)) [[0; 1]] 0).
  exists [rmat 1 2 (fun _ x => v x)], (rmat 1 2 (fun _ x => v x)). split; [exact Ei|]. split; [|split; [reflexivity|]].
  - unfold epfPasses. cbn [Z.ltb Z.compare Pos.compare Pos.compare_cont obind]. unfold epfPass at 1. cbn [length orow]. 
    rewrite (otab_mat _ (fun _ x => v x)); [reflexivity|]. intros y x Hy Hx. change (Z.to_nat 1) with 1%nat in Hy. change (Z.to_nat 2) with 2%nat in Hx.
    replace (Z.of_nat y) with 0%Z by lia. rewrite (P x Hx). reflexivity.
  - intros [_ H]. specialize (H 0%nat 0%nat ltac:(lia) ltac:(lia)). rewrite pixel_rmat in H by lia. unfold epf_step in H. destruct Rlt_dec; [|lra]. change (pixel [[0; 1]] 0 0) with 0 in H. 
    revert H. unfold v, epf_value. pose proof (epf_norm_pos 1 1 2 (combine [[[0; 1]]] [1]) 1 (stepMultiplier * (1 / -1)) 0 0) as N.
    set (W := epf_weight _ _ _ _ _ _ _ _) in *. set (S := rsum W (epf_places 1)) in *. 
    assert (W1 : 1 <= W (0, 1)%Z).
    { unfold W, epf_weight. apply Rle_trans with (2 := Rmax_r _ _). cbn [block_edge Nat.modulo Nat.eqb orb Z.eqb]. 
      assert (K : 0 <= stepMultiplier).
      { unfold stepMultiplier. assert (sqrt (5 / 10) <= 1) by (rewrite <- sqrt_1; apply sqrt_le_1; lra). lra. }
      assert (D : 0 <= sad 1 1 2 (combine [[[0; 1]]] [1]) (Z.of_nat 0) (Z.of_nat 0) (0, 1)%Z).
      { unfold sad. apply rsum_pos. intros c [<-|[]]. cbn [snd fst]. rewrite Rmult_1_l. apply rsum_pos. intros. apply Rabs_pos. }
      set (d := sad _ _ _ _ _ _ _) in *. change (block_edge 0) with true. cbn [orb]. pose proof (Rmult_le_pos _ _ D K). lra. }
    assert (B : 1 <= rsum (fun p => W p * ext 1 2 [[0; 1]] (Z.of_nat 0 + fst p) (Z.of_nat 0 + snd p)) (epf_places 1)).
    { apply Rle_trans with (1 := W1). replace (W (0, 1)%Z) with ((fun p => W p * ext 1 2 [[0; 1]] (Z.of_nat 0 + fst p) (Z.of_nat 0 + snd p)) (0, 1)%Z).
      2:{ cbv beta. change (ext 1 2 [[0; 1]] (Z.of_nat 0 + fst (0, 1)%Z) (Z.of_nat 0 + snd (0, 1)%Z)) with 1. ring. }
      apply (rsum_in (fun p => W p * ext 1 2 [[0; 1]] (Z.of_nat 0 + fst p) (Z.of_nat 0 + snd p))).
      - intros p. apply Rmult_le_pos; [apply epf_weight_pos|]. apply (ext_within 1 2 0 1); [lia..|]. intros [|y] [|[|x]] Hy Hx; try lia; cbn; lra.
      - unfold epf_places. cbn [Z.eqb]. rewrite around1. cbn; tauto. }
    intros H. apply (f_equal (fun t => t * S)) in H. unfold Rdiv in H. rewrite Rmult_assoc, Rinv_l, Rmult_1_r in H by lra. lra.
Qed.
Print Assumptions C85_negative_refuted.

(* ---- C86: upsampling ---- *)
Definition weights_for (k : nat) (up2 up4 up8 : list R) : list R := if (k =? 2)%nat then up2 else if (k =? 4)%nat then up4 else up8.
(* Missing: float32; windows of samples that are all zero or negative. *)
Theorem C86_value_partial k up2 up4 up8 h w m : factor k -> length (weights_for k up2 up4 up8) = up_len k -> rrect h w m -> small h w ->
  (forall y x, (y < h)%nat -> (x < w)%nat -> pixel m y x <= MaxFloat32) ->
  (forall y x, (y < h)%nat -> (x < w)%nat -> SmallestNonzeroFloat32 <= highest (up_samples h w m y x)) ->
  exists m', performUpsampling (Z.of_nat k) up2 up4 up8 m = Ok m' /\ image_of (k * h) (k * w) (up_value k (weights_for k up2 up4 up8) h w m) m'.
Proof.
  intros F L Rm [Bh Bw] Hmax Hmin. rewrite (perform_ok k _ up2 up4 up8 h w m F eq_refl L Rm Bh Bw Hmax). eexists. split; [reflexivity|]. split; [apply rrect_rmat|].
  intros Y X HY HX. rewrite pixel_rmat by assumption. unfold up_value, up_limited.
  assert (Hk : (1 <= k)%nat) by (destruct F as [->|[->| ->]]; lia). rewrite (Rmax_right SmallestNonzeroFloat32) by (apply Hmin; apply Nat.div_lt_upper_bound; lia). reflexivity.
Qed.
Print Assumptions C86_value_partial.
(* For any samples: what is used as the upper limit is at least 2^-149 *)
Theorem C86_limits_partial k up2 up4 up8 h w m : factor k -> length (weights_for k up2 up4 up8) = up_len k -> rrect h w m -> small h w ->
  (forall y x, (y < h)%nat -> (x < w)%nat -> pixel m y x <= MaxFloat32) ->
  exists m', performUpsampling (Z.of_nat k) up2 up4 up8 m = Ok m' /\
    image_of (k * h) (k * w) (fun Y X => let y := (Y / k)%nat in let x := (X / k)%nat in
      Rmax (lowest (up_samples h w m y x)) (Rmin (Rmax (/ 2 ^ 149) (highest (up_samples h w m y x)))
        (up_sum h w m (up_weight k (weights_for k up2 up4 up8) (Y mod k) (X mod k)) y x))) m'.
Proof.
  intros F L Rm [Bh Bw] Hmax. rewrite (perform_ok k _ up2 up4 up8 h w m F eq_refl L Rm Bh Bw Hmax). eexists. split; [reflexivity|]. split; [apply rrect_rmat|].
  intros Y X HY HX. rewrite pixel_rmat by assumption. reflexivity.
Qed.
Print Assumptions C86_limits_partial.
Theorem C86_one up2 up4 up8 m : performUpsampling 1 up2 up4 up8 m = Ok m.
Proof. reflexivity. Qed.
Print Assumptions C86_one.
(* The weights of the built-in kernels for every new sample sum up to 1 (8
   decimals each) *)
Theorem C86_defaults k ky kx : factor k -> (ky < k)%nat -> (kx < k)%nat ->
  let l := weights_for k (decimals DEFAULT_UP2) (decimals DEFAULT_UP4) (decimals DEFAULT_UP8) in
  length l = up_len k /\ Rabs (rsum (fun p => up_weight k l ky kx (fst p) (snd p)) window - 1) <= 3 / 100000000.
Proof.
  intros F H1 H2. destruct sums_checked as (A & B & C). destruct F as [->|[->| ->]]; cbn [weights_for Nat.eqb]; (split; [unfold decimals; rewrite map_length; reflexivity|]); now apply sum_decimals.
Qed.
Print Assumptions C86_defaults.
Lemma ex_sizes : factor 2 /\ length (decimals DEFAULT_UP2) = up_len 2.
Proof. split; [now left|reflexivity]. Qed.
Example C86_example : factor 2 /\ length (decimals DEFAULT_UP2) = up_len 2 /\ rrect 1 1 [[3]] /\ small 1 1 /\ 3 <= MaxFloat32 /\ SmallestNonzeroFloat32 <= highest (up_samples 1 1 [[3]] 0 0).
Proof.
  split; [apply ex_sizes|]. split; [apply ex_sizes|]. split; [split; [reflexivity|repeat constructor]|]. split; [split; reflexivity|]. split.
  - unfold MaxFloat32. pose proof (pow_R1_Rle 2 104 ltac:(lra)). pose proof (pow_R1_Rle 2 22 ltac:(lra)). replace (2 ^ 24) with (4 * 2 ^ 22) by (rewrite <- (pow_add 2 2 22) || (cbn; ring)). nra.
  - assert (E : exists l, up_samples 1 1 [[3]] 0 0 = 3 :: l) by (eexists; reflexivity). destruct E as (l & E). rewrite E. destruct (highest_in 3 l) as [_ H]. specialize (H 3 (or_introl eq_refl)).
    unfold SmallestNonzeroFloat32. assert (/ 2 ^ 149 <= / 1) by (apply Rinv_le_contravar; [lra|apply pow_R1_Rle; lra]). lra.
Qed.
(* Finding: the upper limit starts with the smallest positive number instead
   of the lowest one, so negative samples (usual in XYB) are not limited from
   above.  With the built-in kernel, samples of at most -1 give one above. *)
Definition ex_dark : list (list R) := [[-2; -2; -2; -2; -2]; [-2; -1; -1; -1; -2]; [-2; -1; -1; -1; -2]; [-2; -1; -1; -2; -2]; [-2; -2; -2; -2; -2]].
Theorem C86_overshoot_refuted : exists m', performUpsampling 2 (decimals DEFAULT_UP2) (decimals DEFAULT_UP4) (decimals DEFAULT_UP8) ex_dark = Ok m' /\
  within 5 5 (-2) (-1) ex_dark /\ -1 < pixel m' 4 4 /\ up_value 2 (decimals DEFAULT_UP2) 5 5 ex_dark 4 4 <= -1.
Proof.
  assert (Rm : rrect 5 5 ex_dark) by (split; [reflexivity|repeat constructor]).
  assert (D : within 5 5 (-2) (-1) ex_dark).
  { intros y x Hy Hx. do 5 (destruct y as [|y]; [do 5 (destruct x as [|x]; [cbn; lra|]); lia|]). lia. }
  assert (M : forall y x, (y < 5)%nat -> (x < 5)%nat -> pixel ex_dark y x <= MaxFloat32).
  { intros y x Hy Hx. apply Rle_trans with 0; [destruct (D y x Hy Hx); lra|]. unfold MaxFloat32. pose proof (pow_R1_Rle 2 104 ltac:(lra)). pose proof (pow_R1_Rle 2 24 ltac:(lra)). apply Rmult_le_pos; lra. }
  destruct (C86_limits_partial 2 (decimals DEFAULT_UP2) (decimals DEFAULT_UP4) (decimals DEFAULT_UP8) 5 5 ex_dark (proj1 ex_sizes) (proj2 ex_sizes) Rm ltac:(split; reflexivity) M) as (m' & E & _ & V).
  exists m'. split; [exact E|]. split; [exact D|]. specialize (V 4%nat 4%nat ltac:(lia) ltac:(lia)). cbv zeta in V. unfold up_value. change (4 / 2)%nat with 2%nat in *. change (4 mod 2)%nat with 0%nat in *. cbn [weights_for Nat.eqb] in V.
  assert (S : up_samples 5 5 ex_dark 2 2 = concat ex_dark) by reflexivity.
  assert (T : up_sum 5 5 ex_dark (up_weight 2 (decimals DEFAULT_UP2) 0 0) 2 2 = rsum (fun q => IZR (snd q) / 100000000 * fst q) (combine (concat ex_dark) [-1716200; -3452303; -4022174; -2921014; -624645; -3452303; 14111091; 28896755; 278718; -1610267; -4022174; 28896755; 56661550; 3777607; -1986694; -2921014; 278718; 3777607; -3144731; -1185068; -624645; -1610267; -1986694; -1185068; -213539]%Z)) by reflexivity.
  assert (Hh : highest (concat ex_dark) <= -1).
  { destruct (highest_in (-2) (tl (concat ex_dark))) as [I _]. change (-2 :: tl (concat ex_dark)) with (concat ex_dark) in I. set (H := highest (concat ex_dark)) in *. clearbody H. cbn in I. intuition lra. }
  split.
  - rewrite V, S. apply Rlt_le_trans with (2 := Rmax_r _ _). apply Rmin_glb_lt; [apply Rlt_le_trans with (2 := Rmax_l _ _); assert (0 < / 2 ^ 149) by (apply Rinv_0_lt_compat, pow_lt; lra); lra|].
    rewrite T. unfold rsum. cbn [ex_dark concat Datatypes.app combine fold_right fst snd]. lra.
  - rewrite S. apply Rmax_lub; [|apply Rle_trans with (1 := Rmin_l _ _); exact Hh].
    pose proof (limits 5 5 ex_dark 2 2) as Lm. rewrite S in Lm. lra.
Qed.
Print Assumptions C86_overshoot_refuted.

(* ---- C87: chroma upsampling ---- *)
(* Missing: float32. *)
Theorem C87_value_partial xs ys h w m : rrect h w m ->
  exists mid m', invertSubsampling xs ys m = Ok m' /\ wider_run xs h w m mid /\ taller_run ys h (2 ^ xs * w) mid m' /\ rrect (2 ^ ys * h) (2 ^ xs * w) m'.
Proof.
  intros Rm. unfold invertSubsampling. destruct (wider_times xs h w m Rm) as (mid & E & W & Rmid). rewrite E. cbn [obind].
  destruct (taller_times ys h (2 ^ xs * w)%nat mid Rmid) as (m' & E' & T & R'). exists mid, m'. auto.
Qed.
Print Assumptions C87_value_partial.
(* The mean of the samples and their range are kept *)
Theorem C87_mean_partial xs ys h w m m' : rrect h w m -> (1 <= h)%nat -> (1 <= w)%nat -> invertSubsampling xs ys m = Ok m' ->
  total (2 ^ ys * h) (2 ^ xs * w) m' = 2 ^ ys * 2 ^ xs * total h w m.
Proof.
  intros Rm Hh Hw E. destruct (C87_value_partial xs ys h w m Rm) as (mid & m'' & E' & W & T & _). rewrite E in E'. injection E' as <-.
  rewrite (taller_runs _ _ _ _ _ T Hh), (wider_runs _ _ _ _ _ W Hw). ring.
Qed.
Print Assumptions C87_mean_partial.
Theorem C87_range_partial xs ys h w m m' a b : rrect h w m -> invertSubsampling xs ys m = Ok m' -> within h w a b m -> within (2 ^ ys * h) (2 ^ xs * w) a b m'.
Proof.
  intros Rm E H. destruct (C87_value_partial xs ys h w m Rm) as (mid & m'' & E' & W & T & _). rewrite E in E'. injection E' as <-.
  apply (taller_run_within _ _ _ _ _ _ _ T), (wider_run_within _ _ _ _ _ _ _ W), H.
Qed.
Print Assumptions C87_range_partial.
Example C87_example : rrect 1 2 [[0; 4]] /\ exists m', invertSubsampling 1 0 [[0; 4]] = Ok m' /\ pixel m' 0 1 = 1 /\ within 1 2 0 4 [[0; 4]].
Proof.
  split; [split; [reflexivity|repeat constructor]|]. eexists. split; [cbn; reflexivity|]. split; [cbn; lra|]. intros [|y] [|[|x]] Hy Hx; try lia; cbn; lra.
Qed.
