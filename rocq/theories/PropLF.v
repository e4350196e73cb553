(* Theorems about the LF global information and the LF image. *)
From Coq Require Import ZArith List Bool Lia Arith Reals Lra.
From Verif Require Import GoBase GoLoop GoMatrix Bits ModelBitReader SpecBitReader SpecCodes SpecGrammar ModelHeader SpecHeader
  ModelEntropy ModelHF ModelHFCoeff ModelDCT ModelLF ModelLFCoeff SpecDCT SpecColour SpecLF SpecLFCoeff.
From Verif Require Import ProofCodes ProofGrammar ProofLF ProofDCT GoMatrixR ProofLFCoeff.
Import ListNotations.
Open Scope Z_scope.

(* ---- C77: LF global information ---- *)
(* For any reader of cluster maps that accepts exactly the maps of a grammar:
   the LF global information is read exactly as the grammar says, up to the
   decoding of thresholds, and frames with noise, patches or splines are
   rejected.  Missing: those frames, and the grammar of cluster maps. *)
Theorem C77_lf_global_partial : forall readMap map_code flags vardct,
  (forall n, 0 < n <= 39 * 64 -> exact (readMap (Z.to_nat n) 16) (map_code n)) ->
  (forall n c v, map_code n c v -> 0 <= snd v < 2 ^ 31) ->
  exact (readLFGlobal (NewHFBlockContextWith readMap) flags vardct)
    (c_guard (Z.testbit flags 0 = false /\ Z.testbit flags 1 = false /\ Z.testbit flags 4 = false)
      (lf_global_code code_threshold map_code vardct)).
Proof. intros. now apply exact_lf_global. Qed.
Print Assumptions C77_lf_global_partial.

(* The header of the standard is read to its value when the thresholds are
   -2^30 or more. *)
Theorem C77_standard_partial : forall readMap map_code flags vardct c v,
  (forall n, 0 < n <= 39 * 64 -> exact (readMap (Z.to_nat n) 16) (map_code n)) ->
  (forall n c v, map_code n c v -> 0 <= snd v < 2 ^ 31) ->
  Z.testbit flags 0 = false -> Z.testbit flags 1 = false -> Z.testbit flags 4 = false ->
  lf_global_code standard_threshold map_code vardct c v ->
  (forall h, lg_hfBlockCtx v = Some h -> Forall (Forall (fun t => - 2 ^ 30 <= t)) (hb_lfThresholds h)) ->
  reads (readLFGlobal (NewHFBlockContextWith readMap) flags vardct) c v.
Proof.
  intros readMap mc flags vd c v HM HR F0 F1 F4 H T. apply (exact_lf_global readMap mc flags vd HM HR). split; [auto|].
  now apply lf_global_standard.
Qed.
Print Assumptions C77_standard_partial.

(* The block contexts of ModelHFCoeff.v are those read with the cluster maps
   of the entropy decoder. *)
Theorem C77_block_context : forall s, NewHFBlockContextWith ReadClusterMap s = NewHFBlockContextWithReader s.
Proof. reflexivity. Qed.
Print Assumptions C77_block_context.

(* Finding: thresholds below -2^30 are decoded as large positive ones. *)
Theorem C77_threshold_refuted : exists c v, c_u32 0 4 16 8 272 16 65808 32 c v /\ standard_threshold v = - 2 ^ 30 - 1 /\
  reads (t <- ReadU32 0 4 16 8 272 16 65808 32 ;; rret (UnpackSigned t)) c (2 ^ 30 - 1).
Proof.
  set (x := 2 ^ 31 + 1 - 65808).
  assert (HC : c_u32 0 4 16 8 272 16 65808 32 (zbits 2 3 ++ zbits 32 x) (65808 + x)).
  { exists 3%nat, x. cbn [nth]. split; [lia|]. split; [unfold x; split; [vm_compute; discriminate|reflexivity]|]. split; reflexivity. }
  exists (zbits 2 3 ++ zbits 32 x), (65808 + x). split; [exact HC|]. split; [reflexivity|].
  assert (E : exact (t <- ReadU32 0 4 16 8 272 16 65808 32 ;; rret (UnpackSigned t)) (c_map code_threshold (c_u32 0 4 16 8 272 16 65808 32))).
  { eapply exact_iff; [|apply exact_map; [apply (exact_u32_wrap 0 4 16 8 272 16 65808 32)|intros; reflexivity]].
    - intros c v. split.
      + intros (a & b & w & -> & (a1 & a2 & w' & -> & Hx & -> & ->) & -> & ->). rewrite !app_nil_r. exists a1, [], w'. rewrite app_nil_r.
        split; auto. split; auto. split; reflexivity.
      + intros (a & b & w & -> & Hx & -> & ->). exists a, [], (u32 w). split; auto. split; [|split; reflexivity].
        exists a, [], w. rewrite app_nil_r. split; auto. split; auto. split; reflexivity.
    - intros i Hi. do 4 (destruct i as [|i]; [cbn [nth]; lia|]). lia. }
  apply E. exists (zbits 2 3 ++ zbits 32 x), [], (65808 + x). rewrite app_nil_r. split; [reflexivity|]. split; [exact HC|]. split; reflexivity.
Qed.
Print Assumptions C77_threshold_refuted.

(* The step of a channel is that of the standard when the product of the two
   scales is below 2^31. *)
Theorem C77_scale_partial : forall d g q, 0 <= g * q < 2 ^ 31 -> scaledDequant d g q = lf_step d g q.
Proof.
  intros d g q H. unfold scaledDequant, lf_step. rewrite divisor_small by exact H. rewrite mult_IZR.
  replace (2 ^ 16)%R with 65536%R by lra. reflexivity.
Qed.
Print Assumptions C77_scale_partial.

(* Finding: the product is computed in 32 bits.  The largest scales of the
   syntax give a step of another sign, or a division by zero. *)
Theorem C77_scale_refuted :
  (exists c, quantizer_code c (65536, 32768)) /\ (exists c, quantizer_code c (65536, 65536)) /\
  (forall d, (0 < d -> 0 < lf_step d 65536 32768 /\ scaledDequant d 65536 32768 = - lf_step d 65536 32768)%R) /\
  scaleDivisor 65536 65536 = 0.
Proof.
  assert (Q : forall q x, q = 1 + x -> 0 <= x < 2 ^ 16 -> exists c, quantizer_code c (65536, q)).
  { intros q x -> Hx. exists ((zbits 2 3 ++ zbits 16 57343) ++ (zbits 2 3 ++ zbits 16 x) ++ []).
    exists (zbits 2 3 ++ zbits 16 57343), ((zbits 2 3 ++ zbits 16 x) ++ []), 65536. split; [reflexivity|]. split.
    { exists 3%nat, 57343. split; [lia|]. split; [cbn [nth]; lia|]. split; reflexivity. }
    exists (zbits 2 3 ++ zbits 16 x), [], (1 + x). split; [reflexivity|]. split; [|split; reflexivity].
    exists 3%nat, x. split; [lia|]. split; [exact Hx|]. split; reflexivity. }
  split; [apply (Q _ 32767); lia|]. split; [apply (Q _ 65535); lia|]. split; [|reflexivity].
  intros d Hd. unfold lf_step, scaledDequant. replace (scaleDivisor 65536 32768) with (-2147483648) by reflexivity.
  split; [|field_simplify; lra]. apply Rmult_lt_0_compat; [|apply Rinv_0_lt_compat; lra]. apply Rmult_lt_0_compat; [apply pow_lt; lra|exact Hd].
Qed.
Print Assumptions C77_scale_refuted.

(* defaults, scale 3000, 8 for the LF; no global tree *)
Example C77_example : lf_global_code standard_threshold (fun _ _ _ => False) true
  ([true] ++ (zbits 2 1 ++ zbits 11 951) ++ (zbits 2 1 ++ zbits 5 7) ++ [true] ++ [true] ++ [false])
  (mkLFG [mkF32 false 1 (-12); mkF32 false 1 (-9); mkF32 false 1 (-8)] 3000 8
    (Some (mkHFB [[]; []; []] defaultClusterMap 15 [] 1)) NewLFChannelCorrelation false).
Proof.
  exists [true], ((zbits 2 1 ++ zbits 11 951) ++ (zbits 2 1 ++ zbits 5 7) ++ [true] ++ [true] ++ [false]), [mkF32 false 1 (-12); mkF32 false 1 (-9); mkF32 false 1 (-8)].
  split; [reflexivity|]. split.
  { exists [true], [], true. split; [reflexivity|]. split; [reflexivity|]. split; reflexivity. }
  exists ((zbits 2 1 ++ zbits 11 951) ++ (zbits 2 1 ++ zbits 5 7) ++ []), ([true] ++ [true] ++ [false]), (3000, 8). split; [reflexivity|]. split.
  { exists (zbits 2 1 ++ zbits 11 951), ((zbits 2 1 ++ zbits 5 7) ++ []), 3000. split; [reflexivity|]. split.
    { exists 1%nat, 951. split; [lia|]. split; [cbn [nth]; lia|]. split; reflexivity. }
    exists (zbits 2 1 ++ zbits 5 7), [], 8. split; [reflexivity|]. split; [|split; reflexivity].
    exists 1%nat, 7. split; [lia|]. split; [cbn [nth]; lia|]. split; reflexivity. }
  eexists [true], [true; false], _. split; [reflexivity|]. split.
  { exists [true], [], true. split; [reflexivity|]. split; [reflexivity|]. split; reflexivity. }
  eexists [true], [false], _. split; [reflexivity|]. split.
  { exists [true], [], true. split; [reflexivity|]. split; [reflexivity|]. split; reflexivity. }
  exists [false], [], false. split; [reflexivity|]. split; [reflexivity|]. split; reflexivity.
Qed.
Example C77_scale_example : 0 <= 3000 * 8 < 2 ^ 31.
Proof. lia. Qed.

(* ---- C78: the LF image ---- *)
Section Image.
Local Open Scope R_scope.

Lemma shift_pow (e : nat) : IZR (Z.shiftl 1 (Z.of_nat e)) = 2 ^ e.
Proof.
  rewrite Z.shiftl_1_l. induction e as [|e IH]; [reflexivity|]. rewrite Nat2Z.inj_succ, Z.pow_succ_r by lia. rewrite mult_IZR, IH. reflexivity.
Qed.
Lemma value_sample p e qs i y x : chan_value p (Z.of_nat e) qs i y x = lf_sample (part (lp_scaled p) i) e (px (nth (stream_channel i) qs []) y x).
Proof. unfold chan_value, lf_sample. rewrite shift_pow. field. apply pow_nonzero. lra. Qed.
Lemma correlation_ok base f c : (128 <= f < 256)%Z -> correlation base f c = lf_correlation base f c.
Proof. intros H. unfold correlation, lf_correlation. rewrite u32_small by lia. now rewrite minus_IZR. Qed.
Lemma value_channels p e qs i y x : (128 <= lp_xFactorLF p < 256)%Z -> (128 <= lp_bFactorLF p < 256)%Z ->
  correlated p (Z.of_nat e) qs i y x = lf_channels (part (lp_scaled p)) e (lf_correlation (lp_baseX p) (lp_xFactorLF p) (lp_colorFactor p))
    (lf_correlation (lp_baseB p) (lp_bFactorLF p) (lp_colorFactor p)) (fun c y x => px (nth (stream_channel c) qs []) y x) i y x.
Proof.
  intros H1 H2. unfold correlated, lf_channels. rewrite !value_sample, !correlation_ok by assumption. destruct i as [|[|i]]; reflexivity.
Qed.

(* Without an LF frame: from samples of the sizes of the channels the decoder
   computes the image of the standard before smoothing, when smoothing is
   off.  Channel 0 of the stream is Y, channel 1 is X.  Missing: correlation
   factors below 128, LF frames. *)
Theorem C78_lf_image_partial : forall p buffer e qs, shifts_ok p -> lp_useLFFrame p = false -> lp_skipSmoothing p = true ->
  (128 <= lp_xFactorLF p < 256)%Z -> (128 <= lp_bFactorLF p < 256)%Z -> length qs = 3%nat ->
  (forall i, (i < 3)%nat -> rect (chan_h p i) (chan_w p i) (nth (nth i [1; 0; 2]%nat 0%nat) qs [])) ->
  let q i y x := px (nth (nth i [1; 0; 2]%nat 0%nat) qs []) y x in
  let kx := lf_correlation (lp_baseX p) (lp_xFactorLF p) (lp_colorFactor p) in
  let kb := lf_correlation (lp_baseB p) (lp_bFactorLF p) (lp_colorFactor p) in
  exists d, lfCoefficients p buffer (Z.of_nat e) qs = Ok d /\
    forall i, (i < 3)%nat -> rrect (chan_h p i) (chan_w p i) (part d i) /\
      forall y x, (y < chan_h p i)%nat -> (x < chan_w p i)%nat ->
        pixel (part d i) y x = if subSampled p then lf_sample (part (lp_scaled p) i) e (q i y x) else lf_channels (part (lp_scaled p)) e kx kb q i y x.
Proof.
  intros p buffer e qs HK HU HS HX HB L3 HQ q kx kb. unfold lfCoefficients.
  destruct (lfBefore p buffer) as [d| |] eqn:EB.
  2:{ exfalso. unfold lfBefore in EB. rewrite HS, HU in EB. cbn [negb orb andb] in EB. destruct (lp_shiftY p) as [[? ?] ?], (lp_shiftX p) as [[? ?] ?]. discriminate. }
  2:{ exfalso. unfold lfBefore in EB. rewrite HS, HU in EB. cbn [negb orb andb] in EB. destruct (lp_shiftY p) as [[? ?] ?], (lp_shiftX p) as [[? ?] ?]. discriminate. }
  cbn [obind]. rewrite (lfAfter_ok p d (Z.of_nat e) qs L3 (lfBefore_shape _ _ _ HK EB)).
  - rewrite HS. cbn [orb]. eexists. split; [reflexivity|]. intros i Hi.
    assert (ES : forall c, (c < 3)%nat -> stream_channel c = nth c [1; 0; 2]%nat 0%nat) by (intros c Hc; do 3 (destruct c as [|c]; [reflexivity|]); lia).
    assert (EV : forall y x, (if subSampled p then chan_value p (Z.of_nat e) qs else correlated p (Z.of_nat e) qs) i y x =
      if subSampled p then lf_sample (part (lp_scaled p) i) e (q i y x) else lf_channels (part (lp_scaled p)) e kx kb q i y x).
    { intros y x. destruct (subSampled p).
      - rewrite value_sample. unfold q. now rewrite ES.
      - rewrite value_channels by assumption. unfold q, lf_channels. rewrite !ES by lia. reflexivity. }
    unfold image. do 3 (destruct i as [|i]; [cbn [part three]; split; [apply rrect_rmat|]; intros y x Hy Hx; rewrite pixel_rmat by assumption; apply EV|]). lia.
  - intros i Hi. specialize (HQ i Hi). do 3 (destruct i as [|i]; [exact HQ|]). lia.
  - rewrite HS. discriminate.
Qed.
Print Assumptions C78_lf_image_partial.

(* Smoothing: for three channels of one size, the border is kept, every inner
   sample goes to a value between itself and the mean of its neighbourhood,
   and where no channel is further than half a step from the mean, steps
   being at most 1, the result is that of the standard. *)
Theorem C78_smoothing_partial : forall h w c0 c1 c2 s0 s1 s2, (0 < h)%nat -> (0 < w)%nat -> rrect h w c0 -> rrect h w c1 -> rrect h w c2 ->
  let f i := pixel (three c0 c1 c2 i) in let step := three s0 s1 s2 in
  exists d, adaptiveSmooth c0 c1 c2 s0 s1 s2 = Ok d /\
    forall i, (i < 3)%nat -> rrect h w (part d i) /\
      forall y x, (y < h)%nat -> (x < w)%nat ->
        (y = 0 \/ x = 0 \/ S y = h \/ S x = w -> pixel (part d i) y x = f i y x)%nat /\
        (exists k, 0 <= k <= 1 /\ pixel (part d i) y x = k * f i y x + (1 - k) * (if inner h w y x then neighbourhood (f i) y x else f i y x)) /\
        ((forall c, (c < 3)%nat -> 0 < step c <= 1 /\ Rabs (f c y x - neighbourhood (f c) y x) <= step c / 2) ->
           pixel (part d i) y x = smoothed in_steps h w step f i y x).
Proof.
  intros h w c0 c1 c2 s0 s1 s2 Hh Hw H0 H1 H2 f step. eexists. split; [apply (adaptiveSmooth_ok h w); assumption|]. intros i Hi.
  fold f step. set (d := (_, _, _)).
  assert (HR : rrect h w (part d i) /\ forall y x, (y < h)%nat -> (x < w)%nat -> pixel (part d i) y x = smoothed code_measure h w step f i y x).
  { do 3 (destruct i as [|i]; [cbn [part three d]; split; [apply rrect_rmat|]; intros y x Hy Hx; rewrite pixel_rmat by assumption; reflexivity|]). lia. }
  destruct HR as [HR HP]. split; [exact HR|]. intros y x Hy Hx. rewrite HP by assumption.
  assert (EI : inner h w y x = ((0 <? y) && (S y <? h) && (0 <? x) && (S x <? w))%nat) by (unfold inner, inner_row; now rewrite !andb_assoc).
  unfold smoothed. rewrite <- EI. split; [|split].
  - intros HB. replace (inner h w y x) with false; [reflexivity|]. rewrite EI. symmetry.
    destruct (Nat.ltb_spec 0 y), (Nat.ltb_spec (S y) h), (Nat.ltb_spec 0 x), (Nat.ltb_spec (S x) w); try reflexivity. lia.
  - destruct (inner h w y x).
    + exists (keep code_measure step f y x). split; [apply keep_range|]. ring.
    + exists 1. split; [lra|]. ring.
  - intros HS. destruct (inner h w y x); [|reflexivity]. rewrite !keep_all; [reflexivity| |].
    + intros c Hc. destruct (HS c Hc) as [S1 S2]. unfold in_steps. apply (Rmult_le_reg_r (step c)); [lra|]. unfold Rdiv. rewrite Rmult_assoc, Rinv_l by lra. lra.
    + intros c Hc. destruct (HS c Hc) as [S1 S2]. unfold code_measure. pose proof (Rabs_pos (f c y x - neighbourhood (f c) y x)). nra.
Qed.
Print Assumptions C78_smoothing_partial.

(* The means are means: a constant neighbourhood is kept, and a mean is never
   outside the range of the samples. *)
Theorem C78_mean : forall f lo hi y x, (forall y' x', lo <= f y' x' <= hi) -> lo <= neighbourhood f y x <= hi.
Proof. exact neighbourhood_bounds. Qed.
Print Assumptions C78_mean.

(* Finding: the distance from the mean is multiplied by the step instead of
   divided.  With steps of 1/10 a peak of ten steps is kept, where the
   standard replaces it by the mean. *)
Definition peak : list (list R) := [[0; 0; 0]; [0; 1; 0]; [0; 0; 0]].
Definition flat : list (list R) := [[0; 0; 0]; [0; 0; 0]; [0; 0; 0]].
Theorem C78_gap_refuted : exists d0 d1 d2,
  adaptiveSmooth peak flat flat (1 / 10) (1 / 10) (1 / 10) = Ok (d0, d1, d2) /\ pixel d0 1 1 = 1 /\
  smoothed in_steps 3 3 (fun _ => 1 / 10) (fun i => pixel (three peak flat flat i)) 0 1 1 = w_self.
Proof.
  assert (R1 : rrect 3 3 peak) by (split; [reflexivity|repeat constructor]). assert (R2 : rrect 3 3 flat) by (split; [reflexivity|repeat constructor]).
  assert (N0 : neighbourhood (pixel peak) 1 1 = w_self) by (unfold neighbourhood, pixel, peak; cbn [nth Nat.sub Nat.add]; ring).
  assert (N1 : neighbourhood (pixel flat) 1 1 = 0) by (unfold neighbourhood, pixel, flat; cbn [nth Nat.sub Nat.add]; ring).
  do 3 eexists. split; [apply (adaptiveSmooth_ok 3 3); auto; lia|]. split.
  - rewrite pixel_rmat by lia. unfold smoothed. cbn [Nat.ltb Nat.leb andb three]. rewrite keep_all.
    + rewrite N0. change (pixel peak 1 1) with 1. ring.
    + intros c Hc. unfold code_measure.
      destruct c as [|[|[|c]]]; cbn [three]; try lia.
      * rewrite N0. change (pixel peak 1 1) with 1. unfold w_self. rewrite Rabs_right; lra.
      * rewrite N1. change (pixel flat 1 1) with 0. rewrite Rminus_0_r, Rabs_R0. lra.
      * rewrite N1. change (pixel flat 1 1) with 0. rewrite Rminus_0_r, Rabs_R0. lra.
  - unfold smoothed. cbn [Nat.ltb Nat.leb andb]. unfold keep. cbv zeta. cbn [three]. rewrite N0, N1.
    change (pixel peak 1 1) with 1. change (pixel flat 1 1) with 0. rewrite Rminus_0_r, Rabs_R0. unfold in_steps.
    rewrite (Rabs_right (1 - w_self)) by (unfold w_self; lra). replace (0 / (1 / 10)) with 0 by lra. set (a := (1 - w_self) / (1 / 10)).
    assert (1 < a) by (unfold a, w_self; lra).
    rewrite (Rmax_right (1 / 2) a), !(Rmax_left a 0), Rmax_left by lra. ring.
Qed.
Print Assumptions C78_gap_refuted.

(* Finding: correlation factors below 128, which stand for negative
   correlations, become large positive ones: the difference is computed
   without sign. *)
Theorem C78_correlation_refuted : forall base f c, (0 <= f < 128)%Z -> (0 < c)%Z ->
  correlation base f c = lf_correlation base f c + IZR (2 ^ 32) / IZR c /\ correlation base f c <> lf_correlation base f c.
Proof.
  intros base f c Hf Hc. assert (0 < IZR c) by now apply IZR_lt.
  assert (E : correlation base f c = lf_correlation base f c + IZR (2 ^ 32) / IZR c).
  { unfold correlation, lf_correlation. replace (u32 (f - 128)) with (f - 128 + 2 ^ 32)%Z.
    - rewrite plus_IZR, minus_IZR. field. lra.
    - unfold u32. apply (Z.mod_unique_pos _ _ (-1)); lia. }
  split; [exact E|]. rewrite E. intros HE. assert (0 < IZR (2 ^ 32) / IZR c); [|lra].
  apply Rmult_lt_0_compat; [apply IZR_lt; reflexivity|now apply Rinv_0_lt_compat].
Qed.
Print Assumptions C78_correlation_refuted.

(* Finding: with an LF frame the samples are copied from it and then
   overwritten with those of the stream, which should not be there: the
   result does not depend on the LF frame. *)
Theorem C78_lf_frame_refuted : forall p b1 b2 e qs d1 d2, shifts_ok p -> lp_useLFFrame p = true -> length qs = 3%nat ->
  (forall i, (i < 3)%nat -> rect (chan_h p i) (chan_w p i) (nth (nth i [1; 0; 2]%nat 0%nat) qs [])) ->
  lfCoefficients p b1 e qs = Ok d1 -> lfCoefficients p b2 e qs = Ok d2 -> d1 = d2.
Proof.
  intros p b1 b2 e qs d1 d2 HK HU L3 HQ H1 H2. unfold lfCoefficients in H1, H2.
  destruct (lfBefore p b1) as [u| |] eqn:E1; try discriminate. destruct (lfBefore p b2) as [v| |] eqn:E2; try discriminate. cbn [obind] in H1, H2.
  assert (HQ' : forall i, (i < 3)%nat -> rect (chan_h p i) (chan_w p i) (nth (stream_channel i) qs [])).
  { intros i Hi. specialize (HQ i Hi). do 3 (destruct i as [|i]; [exact HQ|]). lia. }
  rewrite (lfAfter_ok p u) in H1; auto; [|exact (lfBefore_shape _ _ _ HK E1)|rewrite HU, orb_true_r; discriminate].
  rewrite (lfAfter_ok p v) in H2; auto; [|exact (lfBefore_shape _ _ _ HK E2)|rewrite HU, orb_true_r; discriminate]. congruence.
Qed.
Print Assumptions C78_lf_frame_refuted.

(* Before the stream is decoded the samples are those of the LF frame at the
   place of the group. *)
Lemma copy_ok h w H W b py px' m : rrect H W b -> rrect h w m -> (py + h <= H)%nat -> (px' + w <= W)%nat ->
  copyLFFrame b (Z.of_nat py) (Z.of_nat px') m = Ok (rmat h w (fun y x => pixel b (py + y) (px' + x))).
Proof.
  intros Hb Hm H1 H2. unfold copyLFFrame. destruct (Hm) as [Lm _]. rewrite Lm.
  rfill h w (fun y x => pixel b (py + y) (px' + x)); try assumption.
  - intros y m1 Hy R1. rewrite (get_row h w m1 y) by (auto; lia). cbn [obind]. rewrite (rrect_row h w m1) by (auto; lia). reflexivity.
  - lia.
  - lia.
  - intros y x m1 Hy Hx R1 _. cbv beta. rewrite (rget2_rect H W b (py + y) (px' + x)) by (auto; lia). cbn [obind]. apply rset2_rect; auto; lia.
  - intros y x Hy Hx. now rewrite in_full.
Qed.
Theorem C78_lf_frame_samples : forall p b0 b1 b2 py px' H W, shifts_ok p -> lp_useLFFrame p = true -> lp_pY p = Z.of_nat py -> lp_pX p = Z.of_nat px' ->
  rrect H W b0 -> rrect H W b1 -> rrect H W b2 -> (forall i, (i < 3)%nat -> py + chan_h p i <= H /\ px' + chan_w p i <= W)%nat ->
  exists d, lfBefore p [b0; b1; b2] = Ok d /\ forall i y x, (i < 3)%nat -> (y < chan_h p i)%nat -> (x < chan_w p i)%nat -> pixel (part d i) y x = pixel (three b0 b1 b2 i) (py + y) (px' + x).
Proof.
  intros p b0 b1 b2 py px' H W HS HU EY EX R0 R1 R2 HF. unfold lfBefore. rewrite HU, orb_true_r. cbn [negb andb].
  pose proof (HF 0%nat ltac:(lia)) as F0. pose proof (HF 1%nat ltac:(lia)) as F1. pose proof (HF 2%nat ltac:(lia)) as F2. clear HF.
  unfold shifts_ok in HS. unfold chan_h, chan_w in *. destruct (lp_shiftY p) as [[y0 y1] y2], (lp_shiftX p) as [[x0 x1] x2].
  pose proof (HS 0%nat) as S0. pose proof (HS 1%nat) as S1. pose proof (HS 2%nat) as S2. cbn [part three] in *. clear HS.
  rewrite !Z.shiftr_div_pow2 by apply S0 || apply S1 || apply S2. rewrite EY, EX. change (slice_get [b0; b1; b2] 0) with (Ok b0). change (slice_get [b0; b1; b2] 1) with (Ok b1). change (slice_get [b0; b1; b2] 2) with (Ok b2). cbn [obind]. cbv beta zeta.
  unfold zeroMatrix.
  rewrite (copy_ok _ _ H W b0 py px' _ R0 (rrect_repeat _ _ _) (proj1 F0) (proj2 F0)). cbn [obind].
  rewrite (copy_ok _ _ H W b1 py px' _ R1 (rrect_repeat _ _ _) (proj1 F1) (proj2 F1)). cbn [obind].
  rewrite (copy_ok _ _ H W b2 py px' _ R2 (rrect_repeat _ _ _) (proj1 F2) (proj2 F2)). cbn [obind].
  eexists. split; [reflexivity|]. intros i y x Hi Hy Hx. do 3 (destruct i as [|i]; [cbn [part three] in *; rewrite pixel_rmat by assumption; reflexivity|]). lia.
Qed.
Print Assumptions C78_lf_frame_samples.
End Image.

(* one LF group of two by two samples, LF frame used or not *)
Definition C78_params (use : bool) : LFParams :=
  mkLFP use true (0, 0, 0) (0, 0, 0) 2 2 0 0 (1 / 4, 1 / 2, 1)%R 84 0%R 1%R 130 128.
Definition C78_samples : list (list (list Z)) := [[[1; 2]; [3; 4]]; [[5; 6]; [7; 8]]; [[-1; 0]; [0; 1]]].
Example C78_example : exists d, lfCoefficients (C78_params false) [] 1 C78_samples = Ok d.
Proof.
  destruct (C78_lf_image_partial (C78_params false) [] 1 C78_samples) as (d & E & _); try reflexivity; try (cbn; lia); [| |exists d; exact E].
  { intros i. destruct i as [|[|i]]; cbn; lia. }
  intros i Hi. do 3 (destruct i as [|i]; [split; [reflexivity|repeat constructor]|]). lia.
Qed.
Example C78_frame_example : exists d, lfCoefficients (C78_params true) [flat; flat; peak] 1 C78_samples = Ok d.
Proof.
  unfold lfCoefficients. change (lfBefore (C78_params true) [flat; flat; peak]) with (Ok ([[0; 0]; [0; 0]], [[0; 0]; [0; 0]], [[0; 0]; [0; 1]])%R : Outcome _).
  cbn [obind]. rewrite lfAfter_ok; [eexists; reflexivity|reflexivity| | |discriminate].
  - intros i. destruct i as [|[|i]]; (split; [reflexivity|repeat constructor]).
  - intros i Hi. do 3 (destruct i as [|i]; [split; [reflexivity|repeat constructor]|]). lia.
Qed.
(* a group of one sample in the second row and column of the LF frame *)
Example C78_samples_example : exists d, lfBefore (mkLFP true true (0, 0, 0) (0, 0, 0) 1 1 1 1 (1, 1, 1)%R 84 0%R 1%R 128 128) [flat; flat; peak] = Ok d /\ pixel (part d 2) 0 0 = 1%R.
Proof.
  destruct (C78_lf_frame_samples (mkLFP true true (0, 0, 0) (0, 0, 0) 1 1 1 1 (1, 1, 1)%R 84 0%R 1%R 128 128) flat flat peak 1 1 3 3) as (d & E & V); try reflexivity; try (split; [reflexivity|repeat constructor]; fail).
  - intros i. destruct i as [|[|i]]; cbn; lia.
  - intros i Hi. do 3 (destruct i as [|i]; [cbn; lia|]). lia.
  - exists d. split; [exact E|]. rewrite V by (cbn; lia). reflexivity.
Qed.
