(* Theorems about the weights of HF coefficients. *)
From Coq Require Import ZArith List Bool Lia Arith Reals Lra.
From Verif Require Import GoBase GoLoop ModelDCT ModelHF ModelHFWeights SpecDCT SpecColour SpecHFWeights.
From Verif Require Import ProofDCT GoMatrixR ProofHFWeights.
Import ListNotations.
Open Scope nat_scope.

(* ---- C79: weights of HF coefficients ---- *)
Definition params_of (d : DCTParam) (i : nat) : Prop :=
  valid_params (dp_mode d) i (fun c => nth c (dp_dctParam d) []) (fun c => nth c (dp_param d) []) (fun c => nth c (dp_params4x4 d) []) /\
  (dp_mode d = 3%Z \/ dp_mode d = 4%Z \/ dp_mode d = 5%Z \/ dp_mode d = 6%Z -> length (dp_dctParam d) = 3) /\
  (dp_mode d <> 6%Z -> length (dp_param d) = 3) /\ (dp_mode d = 5%Z -> length (dp_params4x4 d) = 3).
Definition step_of (n : R) (d : DCTParam) (i c : nat) : nat -> nat -> R -> Prop :=
  hf_step n (dp_mode d) i (nth c (dp_dctParam d) []) (nth c (dp_param d) []) (nth c (dp_params4x4 d) []) (dp_denominator d).

(* Every table is generated, with the size of its index, and every entry is
   the step of the standard for the parameters; all modes but 5 (AFV). *)
Theorem C79_tables : forall d i, params_of d i -> dp_mode d <> 5%Z ->
  exists w0 w1 w2, generateWeights (Z.of_nat i) d = Ok [w0; w1; w2] /\
  forall c, c < 3 -> rrect (nth i weight_rows 0) (nth i weight_columns 0) (nth c [w0; w1; w2] []) /\
    forall y x, y < nth i weight_rows 0 -> x < nth i weight_columns 0 -> step_of 3 d i c y x (pixel (nth c [w0; w1; w2] []) y x).
Proof.
  intros d i (HV & L1 & L2 & L3) Hm. destruct (weights_ok d i HV L1 L2 L3) as (w0 & w1 & w2 & E & H). exists w0, w1, w2. split; [exact E|].
  intros c Hc. destruct (H c Hc) as [HR HS]. split; [exact HR|]. intros y x Hy Hx. specialize (HS y x Hy Hx). unfold step_of.
  destruct (dp_mode d) as [|m|m]; [exact HS| |exact HS]. do 3 (try destruct m as [m|m|]); try exact HS. now contradict Hm.
Qed.
Print Assumptions C79_tables.

(* The same for AFV, where the frequencies of the corner are spread over one
   band.  Missing: in the standard they are spread over three. *)
Theorem C79_afv_partial : forall d i, params_of d i -> dp_mode d = 5%Z ->
  exists w0 w1 w2, generateWeights (Z.of_nat i) d = Ok [w0; w1; w2] /\
  forall c, c < 3 -> rrect 8 8 (nth c [w0; w1; w2] []) /\
    forall y x, y < 8 -> x < 8 -> step_of 1 d i c y x (pixel (nth c [w0; w1; w2] []) y x).
Proof.
  intros d i (HV & L1 & L2 & L3) Hm. destruct (weights_ok d i HV L1 L2 L3) as (w0 & w1 & w2 & E & H). exists w0, w1, w2. split; [exact E|].
  destruct HV as [Hi HV]. specialize (HV 0 ltac:(lia)). rewrite Hm in HV. destruct HV as [S _]. destruct (small_size i Hi S) as [A B]. rewrite A, B in H. exact H.
Qed.
Print Assumptions C79_afv_partial.

(* The steps above are values: a curve has one value at each point. *)
Theorem C79_curve_unique : forall b l t v v', log_curve b l t v -> log_curve b l t v' -> v = v'.
Proof. exact log_curve_unique. Qed.
Print Assumptions C79_curve_unique.

(* The step of the corner is the inverse of the first parameter, whatever the
   others are. *)
Theorem C79_corner : forall d i, params_of d i -> dp_mode d = 6%Z ->
  exists w0 w1 w2, generateWeights (Z.of_nat i) d = Ok [w0; w1; w2] /\
  forall c, c < 3 -> pixel (nth c [w0; w1; w2] []) 0 0 = (/ nth 0 (nth c (dp_dctParam d) []) 0)%R.
Proof.
  intros d i HP Hm. pose proof HP as ((Hi & HV) & _). destruct (C79_tables d i HP) as (w0 & w1 & w2 & E & H); [lia|]. exists w0, w1, w2. split; [exact E|].
  intros c Hc. destruct (H c Hc) as [_ HS]. destruct (big_size i Hi) as [B1 B2]. specialize (HS 0 0 ltac:(lia) ltac:(lia)). unfold step_of, hf_step in HS. rewrite Hm in HS.
  destruct HS as (u & Hu & E1). specialize (HV c Hc). rewrite Hm in HV. destruct HV as (a & r & Ea & Ha). rewrite Ea in *. cbn [nth].
  assert (R0 : radius (length (a :: r) - 1) (nth i weight_rows 0) (nth i weight_columns 0) 0 0 = 0%R).
  { unfold radius. cbn [INR]. unfold Rdiv. rewrite !Rmult_0_l. replace (0 ^ 2 + 0 ^ 2)%R with 0%R by ring. rewrite sqrt_0. ring. }
  unfold dct_weight in Hu. rewrite R0 in Hu. pose proof Hu as [U _]. destruct r as [|b r].
  - destruct Hu as [_ [[_ ->]|(k & K & _)]]; [|cbn in K; exfalso; lia]. cbn [band nth] in *. apply (Rmult_eq_reg_r a); [|lra]. rewrite Rinv_l by lra. exact E1.
  - apply curve_first in Hu; [|cbn [length]; lia|lra]. assert (u = a). { apply ln_inv; [exact U|exact Ha|]. rewrite Hu. cbn [band nth]. lra. }
    subst u. apply (Rmult_eq_reg_r a); [|lra]. rewrite Rinv_l by lra. exact E1.
Qed.
Print Assumptions C79_corner.

(* Negative weights are rejected, without a panic. *)
Theorem C79_negative_rejected : forall d i t w0 w1 w2, dp_mode d <> 7%Z -> getHorizontalTransformType i = Ok t ->
  channelWeights t d 0 = Ok w0 -> channelWeights t d 1 = Ok w1 -> channelWeights t d 2 = Ok w2 ->
  let h := Z.to_nat (tt_matrixHeight t) in let w := Z.to_nat (tt_matrixWidth t) in
  rrect h w w0 -> rrect h w w1 -> rrect h w w2 ->
  generateWeights i d <> Panic /\
  (forall c y x, c < 3 -> y < h -> x < w -> (pixel (nth c [w0; w1; w2] []) y x < 0)%R -> generateWeights i d = Err).
Proof.
  intros d i t w0 w1 w2 Hm Et E0 E1 E2 h w R0 R1 R2.
  assert (E : generateWeights i d = obind (invertWeights h w w0) (fun a => obind (invertWeights h w w1) (fun b => obind (invertWeights h w w2) (fun c => Ok [a; b; c])))).
  { unfold generateWeights. rewrite Et. cbn [obind]. rewrite E0, E1, E2. cbn [obind]. now rewrite (proj2 (Z.eqb_neq _ _) Hm). }
  pose proof (invert_rejects h w w0 R0) as I0. pose proof (invert_rejects h w w1 R1) as I1. pose proof (invert_rejects h w w2 R2) as I2. rewrite E.
  destruct (invertWeights h w w0); [|split; [discriminate|reflexivity]|contradiction]. cbn [obind].
  destruct (invertWeights h w w1); [|split; [discriminate|reflexivity]|contradiction]. cbn [obind].
  destruct (invertWeights h w w2); [|split; [discriminate|reflexivity]|contradiction]. cbn [obind].
  split; [discriminate|]. intros c y x Hc Hy Hx N. exfalso. specialize (I0 y x Hy Hx). specialize (I1 y x Hy Hx). specialize (I2 y x Hy Hx).
  do 3 (destruct c as [|c]; [cbn [nth] in N; lra|]). lia.
Qed.
Print Assumptions C79_negative_rejected.

(* Finding: a weight of zero, which has no inverse, is accepted: with
   parameters of zero the generation succeeds. *)
Theorem C79_zero_refuted : forall i, small_table i = true -> i < 17 ->
  let p := [0; 1; 1]%R in
  exists w, generateWeights (Z.of_nat i) (mkDP [] [p; p; p] 1 1 []) = Ok w /\ hornuss_weight p 7 7 = 0%R.
Proof.
  intros i S Hi p. destruct (horizontal i Hi) as (t & E & Hh & Hw). destruct (small_size i Hi S) as [A B]. rewrite A in Hh. rewrite B in Hw.
  destruct (hornuss_ok p eq_refl) as (m & Em & Rm & Pm). destruct (invert_ok 8 8 m Rm) as (m' & Ei & _).
  { intros y x Hy Hx. rewrite Pm by assumption. unfold hornuss_weight, p. cbn [nth]. repeat match goal with |- context [if ?b then _ else _] => destruct b end; lra. }
  unfold generateWeights. rewrite E. cbn [obind]. rewrite Hh, Hw. unfold channelWeights. cbn [dp_mode dp_param].
  change (slice_get [p; p; p] 0) with (Ok p). change (slice_get [p; p; p] 1) with (Ok p). change (slice_get [p; p; p] 2) with (Ok p). cbn [obind]. rewrite Em. cbn [obind].
  change (1 =? 7)%Z with false. cbn iota. rewrite Ei. cbn [obind]. eexists. split; reflexivity.
Qed.
Print Assumptions C79_zero_refuted.

(* Finding: the corner frequencies of AFV never reach the last two of the
   four bands.  The highest frequency has the second band instead of the
   fourth, so its step is wrong unless the last two parameters cancel. *)
Theorem C79_afv_refuted : forall d i, params_of d i -> dp_mode d = 5%Z ->
  exists w0 w1 w2, generateWeights (Z.of_nat i) d = Ok [w0; w1; w2] /\
  forall c, c < 3 -> let q := nth c (dp_param d) [] in
    pixel (nth c [w0; w1; w2] []) 6 6 = (/ (nth 5 q 0 * ratio (nth 6 q 0)))%R /\
    ((ratio (nth 7 q 0) * ratio (nth 8 q 0) <> 1)%R -> ~ step_of 3 d i c 6 6 (pixel (nth c [w0; w1; w2] []) 6 6)).
Proof.
  intros d i HP Hm. pose proof HP as ((Hi & HV) & _). destruct (C79_afv_partial d i HP Hm) as (w0 & w1 & w2 & E & H). exists w0, w1, w2. split; [exact E|].
  intros c Hc q. destruct (H c Hc) as [_ HS]. specialize (HS 6 6 ltac:(lia) ltac:(lia)). clear H.
  set (v := pixel (nth c [w0; w1; w2] []) 6 6) in *. clearbody v. specialize (HV c Hc). rewrite Hm in HV. destruct HV as (_ & _ & _ & Lq & Pq). fold q in Lq, Pq.
  unfold step_of, hf_step in *. rewrite Hm in *. destruct HS as (u & Hu & E1). unfold afv_weight in Hu. cbn [at_ Nat.eqb andb Nat.odd Nat.even negb] in Hu. fold q in Hu.
  assert (F : forall n, afv_pos n (6 / 2) (6 / 2) = n). { intros n. unfold afv_pos. cbn. field. lra. }
  rewrite F in Hu.
  assert (Eq : exists a0 a1 a2 a3 a4 a5 a6 a7 a8, q = [a0; a1; a2; a3; a4; a5; a6; a7; a8]). { clear - Lq. do 9 (destruct q as [|? q]; [discriminate|]). destruct q; [|discriminate]. eauto 12. }
  destruct Eq as (a0 & a1 & a2 & a3 & a4 & a5 & a6 & a7 & a8 & Eq). rewrite Eq in *. cbn [skipn nth] in *.
  assert (P5 : (0 < a5)%R). { cbn [firstn] in Pq. unfold positive in Pq. rewrite !Forall_cons_iff in Pq. tauto. }
  pose proof (ratio_pos a6) as R6. pose proof (ratio_pos a7) as R7. pose proof (ratio_pos a8) as R8. pose proof Hu as [U _].
  apply curve_first in Hu; [|lia|lra]. assert (Eu : u = (a5 * ratio a6)%R). { apply ln_inv; [exact U|nra|]. rewrite Hu. cbn [band nth]. lra. }
  assert (U2 : (0 < a5 * ratio a6)%R) by nra. split.
  - apply (Rmult_eq_reg_r (a5 * ratio a6)); [|lra]. rewrite Rinv_l by lra. rewrite <- Eu. exact E1.
  - intros N (u' & Hu' & E1'). unfold afv_weight in Hu'. cbn [at_ Nat.eqb andb Nat.odd Nat.even negb] in Hu'. rewrite F in Hu'. pose proof Hu' as [U' _].
    replace 3%R with (INR 3) in Hu' by (cbn [INR]; lra). apply curve_last in Hu'; [|lia]. assert (Eu' : u' = band [a5; a6; a7; a8] 3).
    { apply ln_inv; [exact U'|now apply band_pos|]. rewrite Hu'. fold q. rewrite Eq. reflexivity. }
    cbn [band nth] in Eu'. assert (V : v <> 0%R) by (intros Z; rewrite Z in E1; lra). assert (u = u') by (apply (Rmult_eq_reg_l v); [lra|exact V]).
    apply N. apply (Rmult_eq_reg_l (a5 * ratio a6)); [|lra]. rewrite Rmult_1_r. rewrite <- Rmult_assoc, <- Eu', <- Eu. auto.
Qed.
Print Assumptions C79_afv_refuted.

(* The default parameters meet the conditions, so they all give tables. *)
Definition default_params (i : nat) : DCTParam := nth i defaultParams (mkDP [] [] 0 1 []).
Ltac begins := eexists; eexists; split; [reflexivity|lra].
Ltac three := let c := fresh "c" in let H := fresh in intros c H; destruct c as [|[|[|c]]]; [| | |exfalso; lia].
Ltac clause := match goal with
  | |- _ /\ _ => split; [clause|clause]
  | |- starts_positive _ => begins
  | |- positive _ => repeat constructor; lra
  | |- _ => reflexivity
  end.
Theorem C79_defaults : forall i, i < 17 -> params_of (default_params i) i.
Proof.
  intros i Hi. split; [|do 17 (destruct i as [|i]; [repeat split; intros; try reflexivity; cbn in *; lia|]); lia].
  split; [exact Hi|]. do 17 (destruct i as [|i]; [three; cbn -[IZR Q2R]; clause|]). lia.
Qed.
Print Assumptions C79_defaults.

Example C79_default_8x8 :
  exists w0 w1 w2, generateWeights 0 (default_params 0) = Ok [w0; w1; w2] /\ pixel w0 0 0 = (/ 3150)%R /\ pixel w2 0 0 = (/ 512)%R.
Proof.
  destruct (C79_corner (default_params 0) 0 (C79_defaults 0 ltac:(lia)) eq_refl) as (w0 & w1 & w2 & E & H). exists w0, w1, w2. split; [exact E|].
  split; [apply (H 0)|apply (H 2)]; lia.
Qed.
(* for the blue channel the defaults give a step more than 1.5 times too small *)
Example C79_default_afv : exists w0 w1 w2, generateWeights 10 (default_params 10) = Ok [w0; w1; w2] /\
  pixel w2 6 6 = (/ (22 * (/ 1.25)))%R /\ ~ step_of 3 (default_params 10) 10 2 6 6 (pixel w2 6 6).
Proof.
  destruct (C79_afv_refuted (default_params 10) 10 (C79_defaults 10 ltac:(lia)) eq_refl) as (w0 & w1 & w2 & E & H). exists w0, w1, w2. split; [exact E|].
  specialize (H 2 ltac:(lia)). cbn [nth dp_param default_params defaultParams] in H. destruct H as [H1 H2].
  assert (Q : ratio (-0.25) = (/ 1.25)%R). { unfold ratio. destruct (Rlt_dec _ 0); [|exfalso; lra]. rewrite Rabs_left by lra. f_equal. lra. }
  split; [rewrite H1, Q; reflexivity|]. apply H2. rewrite Q. intros Z. lra.
Qed.
(* parameters of the other modes *)
Example C79_raw : params_of (mkDP [] [repeat 3%R 64; repeat 5%R 64; repeat 7%R 64] 7 (1 / 8) []) 9.
Proof. split; [|repeat split; intros; try reflexivity; cbn in *; lia]. split; [lia|]. three; cbn; reflexivity. Qed.
