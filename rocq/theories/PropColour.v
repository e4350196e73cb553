(* C74, C75 and C76: conversion matrices between colour spaces, XYB and the
   transfer functions, in exact real arithmetic. *)
From Coq Require Import ZArith List Bool Lia Arith Reals Lra.
From Verif Require Import GoBase GoLoop ModelDCT SpecDCT ProofDCTMath ProofDCT ModelColour SpecColour ProofColour ProofColour2 ProofColour3 ProofTransfer.
Import ListNotations.
Open Scope R_scope.

(* ---- C74 ---- *)
(* Products of matrices of any size; sizes that do not fit are an error. *)
Theorem C74_product n m k p A B : (0 < n)%nat -> (0 < m)%nat -> (0 < k)%nat -> rrect n m A -> rrect k p B ->
  (m = k -> exists C, MatrixMatrixMultiply A B = Ok C /\ rrect n p C /\ forall i j, (i < n)%nat -> (j < p)%nat -> pixel C i j = prod m (pixel A) (pixel B) i j) /\
  (m <> k -> MatrixMatrixMultiply A B = Err).
Proof.
  intros Hn Hm Hk HA HB. split.
  - intros <-. now apply mul_ok.
  - intros N. unfold MatrixMatrixMultiply. destruct HA as [LA FA], HB as [LB FB].
    destruct A as [|a A]; [cbn in LA; lia|]. destruct B as [|b B]; [cbn in LB; lia|]. cbn [is_nil]. change (slice_get (a :: A) 0) with (Ok a). cbn [obind].
    inversion FA as [|? ? Ha _]; subst. destruct (Nat.eqb_spec (length a) (length (b :: B))) as [E|E]; [congruence|reflexivity].
Qed.
Print Assumptions C74_product.

(* An inverse is returned exactly when there is one. *)
Theorem C74_inverse M : rrect 3 3 M ->
  (forall B, inverse3 (pixel M) B -> exists N, InvertMatrix3x3 M = Ok N /\ rrect 3 3 N /\ inverse3 (pixel M) (pixel N)) /\
  ((forall B, ~ inverse3 (pixel M) B) -> InvertMatrix3x3 M = Ok []).
Proof.
  intros H. destruct (invert_ok M H) as [Z NZ]. split.
  - intros B HB. apply NZ. apply (inverse_det _ B). intros i j Hi Hj. apply (HB i j Hi Hj).
  - intros HB. destruct (Req_dec (det3 (pixel M)) 0) as [E|E]; [now apply Z|]. destruct (NZ E) as (N & _ & _ & I). destruct (HB _ I).
Qed.
Print Assumptions C74_inverse.

(* primariesToXYZ finds the matrix of the colour space, and rejects points
   that are not chromaticities; missing: primaries on a line, see below. *)
Theorem C74_primaries_partial p w :
  ((forall j, (j < 3)%nat -> chromaticity (primary p j)) -> chromaticity w -> spans (primary p) ->
    exists M, primariesToXYZ p w = Ok M /\ rrect 3 3 M /\ rgb_matrix (primary p) w (pixel M)) /\
  (~ ((forall j, (j < 3)%nat -> chromaticity (primary p j)) /\ chromaticity w) -> primariesToXYZ p w = Err).
Proof.
  split; [apply primaries_ok|]. intros H. unfold primariesToXYZ.
  assert (D : forall a, chromaticity a \/ ~ chromaticity a).
  { intros a. unfold chromaticity. destruct (Rle_dec 0 (fst a)), (Rle_dec (fst a) 1), (Rlt_dec 0 (snd a)), (Rle_dec (snd a) 1); tauto. }
  destruct (D w) as [Hw|Hw]; [|apply GetXYZ_err in Hw; unfold GetXYZ in Hw; destruct (validateXY w); [discriminate Hw|reflexivity]].
  destruct (validateXY w); [|reflexivity]. cbn [negb].
  destruct (D (pr_red p)) as [H0|H0]; [|now rewrite (GetXYZ_err _ H0)]. destruct (GetXYZ_ok _ H0) as [_ (r & -> & _)]. cbn [obind].
  destruct (D (pr_green p)) as [H1|H1]; [|now rewrite (GetXYZ_err _ H1)]. destruct (GetXYZ_ok _ H1) as [_ (g & -> & _)]. cbn [obind].
  destruct (D (pr_blue p)) as [H2|H2]; [|now rewrite (GetXYZ_err _ H2)].
  exfalso. apply H. split; [|exact Hw]. intros j Hj. do 3 (destruct j as [|j]; [assumption|]). lia.
Qed.
Print Assumptions C74_primaries_partial.

(* GetConversionMatrix goes from the colours of one space to the same colours,
   adapted to the other white, in another space, and takes white to white;
   missing: primaries on a line, spaces closer than 1/10000, rounding. *)
Theorem C74_conversion_partial p w p' w' :
  (forall j, (j < 3)%nat -> chromaticity (primary p j)) -> chromaticity w -> spans (primary p) ->
  (forall j, (j < 3)%nat -> chromaticity (primary p' j)) -> chromaticity w' -> spans (primary p') ->
  (forall N, inverse3 (fun i j => XYZ (primary p' j) i) N -> forall j, (j < 3)%nat -> app 3 N (XYZ w') j <> 0) ->
  (forall i, (i < 3)%nat -> 1 / 100000000 <= Rabs (app 3 bradford (XYZ w) i)) ->
  (pr_matches p' p = true -> xy_matches w' w = true -> p' = p /\ w' = w) -> (xy_matches w' w = true -> w' = w) ->
  exists C F T A, GetConversionMatrix p' w' p w = Ok C /\ rrect 3 3 C /\ rgb_matrix (primary p) w F /\ rgb_matrix (primary p') w' T /\ adapts bradford w w' A /\
    (forall v i, (i < 3)%nat -> app 3 T (app 3 (pixel C) v) i = app 3 A (app 3 F v) i) /\
    (forall i, (i < 3)%nat -> app 3 (pixel C) (fun _ => 1) i = 1).
Proof. apply conversion_ok. Qed.
Print Assumptions C74_conversion_partial.

(* The spaces a header can name: every conversion that GetMatrix makes to them
   is right. *)
Lemma spans_of p : det3 (fun i j => XYZ (p j) i) <> 0 -> spans p.
Proof.
  intros D. set (M := map (fun i => map (fun j => XYZ (p j) i) (seq 0 3)) (seq 0 3)).
  destruct (invert_ok M) as [_ H]; [split; [reflexivity|repeat constructor]|]. destruct (H D) as (N & _ & _ & I). exists (pixel N).
  intros i j Hi Hj. destruct (I i j Hi Hj) as [I1 I2]. split; [rewrite <- I1|rewrite <- I2]; unfold prod; apply sum_ext; intros k Hk; do 2 f_equal; three; reflexivity.
Qed.
Lemma weights_of p w : (forall s : nat -> R, (forall i, (i < 3)%nat -> app 3 (fun i j => XYZ (p j) i) s i = XYZ w i) -> s 0%nat <> 0 /\ s 1%nat <> 0 /\ s 2%nat <> 0) ->
  forall N, inverse3 (fun i j => XYZ (p j) i) N -> forall j, (j < 3)%nat -> app 3 N (XYZ w) j <> 0.
Proof.
  intros H N I j Hj. destruct (H (app 3 N (XYZ w))) as (H0 & H1 & H2).
  - intros i Hi. exact (proj1 (app_inverse _ _ (XYZ w) i I Hi)).
  - do 3 (destruct j as [|j]; [assumption|]). lia.
Qed.
Definition named_primaries := [PRI_SRGB; PRI_BT2100; PRI_P3].
Definition named_whites := [WP_D65; WP_E; WP_DCI].
Lemma named_chroma p j : In p named_primaries -> (j < 3)%nat -> chromaticity (primary p j).
Proof. intros [<-|[<-|[<-|[]]]] Hj; three; unfold chromaticity, primary; cbn [pr_red pr_green pr_blue PRI_SRGB PRI_BT2100 PRI_P3 fst snd]; lra. Qed.
Lemma white_chroma w : In w named_whites -> chromaticity w.
Proof. intros [<-|[<-|[<-|[]]]]; unfold chromaticity; cbn [fst snd WP_D65 WP_E WP_DCI]; lra. Qed.
Lemma named_spans p : In p named_primaries -> spans (primary p).
Proof. intros [<-|[<-|[<-|[]]]]; apply spans_of; unfold det3, XYZ, primary; cbn [pr_red pr_green pr_blue PRI_SRGB PRI_BT2100 PRI_P3 fst snd]; lra. Qed.
Lemma named_weights p w : In p named_primaries -> In w named_whites ->
  forall N, inverse3 (fun i j => XYZ (primary p j) i) N -> forall j, (j < 3)%nat -> app 3 N (XYZ w) j <> 0.
Proof.
  intros Hp Hw. apply weights_of. intros s H. pose proof (H 0%nat ltac:(lia)) as H0. pose proof (H 1%nat ltac:(lia)) as H1. pose proof (H 2%nat ltac:(lia)) as H2. clear H.
  unfold app in *. cbn [sum] in *. unfold XYZ, primary in *.
  destruct Hp as [<-|[<-|[<-|[]]]]; destruct Hw as [<-|[<-|[<-|[]]]]; cbn [pr_red pr_green pr_blue PRI_SRGB PRI_BT2100 PRI_P3 WP_D65 WP_E WP_DCI fst snd] in *; repeat split; intros E; rewrite E in *; lra.
Qed.
Lemma far a b : 1 / 10000 <= Rabs (fst a - fst b) + Rabs (snd a - snd b) -> xy_matches a b = false.
Proof. intros H. unfold xy_matches. destruct (Rlt_dec _ _); [exfalso; lra|reflexivity]. Qed.
Ltac distinct := apply far; cbn [pr_red pr_green pr_blue PRI_SRGB PRI_BT2100 PRI_P3 WP_D65 WP_E WP_DCI fst snd]; unfold Rabs; destruct (Rcase_abs _), (Rcase_abs _); lra.
Ltac clash H := match type of H with ?e = true => replace e with false in H; [discriminate H|symmetry; distinct] end.
Lemma named_match p w : In p named_primaries -> In w named_whites ->
  (pr_matches p PRI_SRGB = true -> p = PRI_SRGB) /\ (xy_matches w WP_D65 = true -> w = WP_D65).
Proof.
  intros Hp Hw. split.
  - unfold pr_matches. destruct Hp as [<-|[<-|[<-|[]]]]; [reflexivity| |]; intros H; exfalso; apply andb_prop in H as [H _]; apply andb_prop in H as [H _]; clash H.
  - destruct Hw as [<-|[<-|[<-|[]]]]; [reflexivity| |]; intros H; exfalso; clash H.
Qed.
Lemma d65_cones i : (i < 3)%nat -> 1 / 100000000 <= Rabs (app 3 bradford (XYZ WP_D65) i).
Proof. intros Hi. three; unfold app, XYZ, bradford; cbn [sum nth WP_D65 fst snd]; (rewrite Rabs_right; [lra|]; lra). Qed.

Theorem C74_named_spaces p w : In p named_primaries -> In w named_whites ->
  exists C F T A, GetConversionMatrix p w PRI_SRGB WP_D65 = Ok C /\ rrect 3 3 C /\ rgb_matrix (primary PRI_SRGB) WP_D65 F /\ rgb_matrix (primary p) w T /\ adapts bradford WP_D65 w A /\
    (forall v i, (i < 3)%nat -> app 3 T (app 3 (pixel C) v) i = app 3 A (app 3 F v) i) /\
    (forall i, (i < 3)%nat -> app 3 (pixel C) (fun _ => 1) i = 1).
Proof.
  intros Hp Hw. destruct (named_match p w Hp Hw) as [M1 M2]. assert (S : In PRI_SRGB named_primaries) by now left. assert (D : In WP_D65 named_whites) by now left.
  apply conversion_ok; auto using named_chroma, white_chroma, named_spans, d65_cones. now apply named_weights.
Qed.
Print Assumptions C74_named_spaces.

(* Finding: three equal primaries, which a header can contain, are not
   rejected; the inverse that does not exist is treated as the identity and
   (1, 1, 1) is not white. *)
Definition no_primaries := mkPrim (1 / 4, 1 / 4) (1 / 4, 1 / 4) (1 / 4, 1 / 4).
Theorem C74_degenerate_primaries_refuted :
  (forall j, (j < 3)%nat -> chromaticity (primary no_primaries j)) /\ chromaticity WP_E /\
  ~ spans (primary no_primaries) /\
  exists M, primariesToXYZ no_primaries WP_E = Ok M /\ app 3 (pixel M) (fun _ => 1) 1 = 3 /\ XYZ WP_E 1 = 1.
Proof.
  assert (HC : chromaticity (1 / 4, 1 / 4)) by (unfold chromaticity; cbn [fst snd]; lra).
  assert (HP : forall j, (j < 3)%nat -> chromaticity (primary no_primaries j)) by (intros j Hj; three; exact HC).
  assert (HW : chromaticity WP_E) by (unfold chromaticity; cbn [WP_E fst snd]; lra).
  split; [exact HP|]. split; [exact HW|].
  assert (DZ : det3 (fun i j => XYZ (primary no_primaries j) i) = 0) by (unfold det3, primary, no_primaries; cbn [pr_red pr_green pr_blue XYZ fst snd]; lra).
  split.
  - intros (N & HN). apply (inverse_det (fun i j => XYZ (primary no_primaries j) i) N); [|exact DZ]. intros i j Hi Hj. apply (HN i j Hi Hj).
  - destruct (primaries_matrix no_primaries HP) as (r & g & b & P & Er & Eg & Eb & EP & RP & PP). destruct (GetXYZ_ok WP_E HW) as [V (wl & Ew & Lw & Hwl)].
    unfold primariesToXYZ. rewrite V, Er, Eg, Eb. cbn [negb obind]. rewrite EP. cbn [obind].
    rewrite (proj1 (invert_ok P RP)) by (rewrite (det3_ext (pixel P) (fun i j => XYZ (primary no_primaries j) i) PP); exact DZ). cbn [obind]. rewrite Ew. cbn [obind MatrixVectorMultiply is_nil].
    rewrite (get_nth wl 0 0), (get_nth wl 1 0), (get_nth wl 2 0) by (auto; lia). cbn [obind].
    set (a := [[nth 0 wl 0; 0; 0]; [0; nth 1 wl 0; 0]; [0; 0; nth 2 wl 0]]).
    destruct (mul_ok 3 3 3 P a ltac:(lia) ltac:(lia) RP) as (C & EC & RC & PC); [split; [reflexivity|repeat constructor]|].
    exists C. split; [exact EC|]. split; [|reflexivity]. unfold app. cbn [sum]. rewrite !PC by lia. unfold prod. cbn [sum]. rewrite !PP by lia.
    unfold a, pixel, primary, no_primaries, XYZ. cbn [nth pr_red pr_green pr_blue fst snd WP_E]. rewrite ?Hwl by lia. cbn [XYZ WP_E fst snd]. lra.
Qed.
Print Assumptions C74_degenerate_primaries_refuted.

(* Finding: the point called D50 is not D50, whose y is 0.3585. *)
Theorem C74_d50_refuted : Rabs (snd WP_D50 - 0.3585) > 0.0128.
Proof. cbn [WP_D50 snd]. rewrite Rabs_left; lra. Qed.
Print Assumptions C74_d50_refuted.

Example C74_product_example : exists C, MatrixMatrixMultiply [[1; 2]; [3; 4]; [5; 6]] [[7; 8; 9; 10]; [1; 0; 1; 0]] = Ok C /\ pixel C 2 3 = 50.
Proof.
  destruct (C74_product 3 2 2 4 [[1; 2]; [3; 4]; [5; 6]] [[7; 8; 9; 10]; [1; 0; 1; 0]]) as [H _]; try lia; try (split; [reflexivity|repeat constructor]).
  destruct (H eq_refl) as (C & E & _ & P). exists C. split; [exact E|]. rewrite P by lia. unfold prod, pixel. cbn [sum nth]. lra.
Qed.
(* a space that is not sRGB, and two different matrices *)
Example C74_named_example : In PRI_BT2100 named_primaries /\ In WP_DCI named_whites /\ pr_matches PRI_BT2100 PRI_SRGB = false /\ xy_matches WP_DCI WP_D65 = false.
Proof.
  split; [right; now left|]. split; [right; right; now left|]. split; [unfold pr_matches; replace (xy_matches (pr_red PRI_BT2100) (pr_red PRI_SRGB)) with false; [reflexivity|symmetry; distinct]|distinct].
Qed.

(* ---- C75 ---- *)
(* InvertXYB undoes the transform to XYB of images of any size. *)
Theorem C75_xyb_inverted M bias A target h w b0 b1 b2 rest rgb : rrect 3 3 M -> length bias = 3%nat -> inverse3 (pixel M) A -> 0 < target ->
  rrect h w b0 -> rrect h w b1 -> rrect h w b2 ->
  (forall y x, (y < h)%nat -> (x < w)%nat -> xyb_of A (fun i => nth i bias 0) target (rgb y x) (fun i => pixel (nth i [b0; b1; b2] []) y x)) ->
  exists o0 o1 o2, InvertXYB (NewOpsinInverseMatrix M bias) (b0 :: b1 :: b2 :: rest) target = Ok (o0 :: o1 :: o2 :: rest) /\ rrect h w o0 /\ rrect h w o1 /\ rrect h w o2 /\
    forall y x, (y < h)%nat -> (x < w)%nat -> pixel o0 y x = rgb y x 0%nat /\ pixel o1 y x = rgb y x 1%nat /\ pixel o2 y x = rgb y x 2%nat.
Proof.
  intros HM Hb HA Ht H0 H1 H2 H. destruct (invert_xyb M bias A delta target HM Hb) with (3 := H0) (4 := H1) (5 := H2) (6 := H) (rest := rest) as (o0 & o1 & o2 & E & R0 & R1 & R2 & P); [|exact Ht|].
  - intros v i Hi. rewrite app_delta by assumption. exact (proj1 (app_inverse _ _ v i HA Hi)).
  - exists o0, o1, o2. do 4 (split; [assumption|]). intros y x Hy Hx. specialize (P y x Hy Hx). rewrite !app_delta in P by lia. exact P.
Qed.
Print Assumptions C75_xyb_inverted.

(* With the matrix of GetMatrix for a named space, the colours come out
   converted to that space. *)
Theorem C75_xyb_converted p wp M bias A target h w b0 b1 b2 rest rgb : In p named_primaries -> In wp named_whites ->
  rrect 3 3 M -> length bias = 3%nat -> inverse3 (pixel M) A -> 0 < target ->
  rrect h w b0 -> rrect h w b1 -> rrect h w b2 ->
  (forall y x, (y < h)%nat -> (x < w)%nat -> xyb_of A (fun i => nth i bias 0) target (rgb y x) (fun i => pixel (nth i [b0; b1; b2] []) y x)) ->
  exists oim F T W o0 o1 o2, GetMatrix (NewOpsinInverseMatrix M bias) p wp = Ok oim /\
    InvertXYB oim (b0 :: b1 :: b2 :: rest) target = Ok (o0 :: o1 :: o2 :: rest) /\ rrect h w o0 /\ rrect h w o1 /\ rrect h w o2 /\
    rgb_matrix (primary PRI_SRGB) WP_D65 F /\ rgb_matrix (primary p) wp T /\ adapts bradford WP_D65 wp W /\
    forall y x i, (y < h)%nat -> (x < w)%nat -> (i < 3)%nat ->
      app 3 T (fun c => pixel (nth c [o0; o1; o2] []) y x) i = app 3 W (app 3 F (rgb y x)) i.
Proof.
  intros Hp Hw HM Hb HA Ht H0 H1 H2 H. destruct (C74_named_spaces p wp Hp Hw) as (C & F & T & W & EC & RC & HF & HT & HW & K & _).
  destruct (mul_ok 3 3 3 C M ltac:(lia) ltac:(lia) RC HM) as (CM & ECM & RCM & PCM).
  destruct (invert_xyb CM bias A (pixel C) target RCM Hb) with (3 := H0) (4 := H1) (5 := H2) (6 := H) (rest := rest) as (o0 & o1 & o2 & E & R0 & R1 & R2 & P); [|exact Ht|].
  - intros v i Hi. rewrite (app_ext 3 (pixel CM) (prod 3 (pixel C) (pixel M)) _ _ i) by (intros; auto). rewrite app_prod. apply app_ext; [reflexivity|]. intros k Hk. exact (proj1 (app_inverse _ _ v k HA Hk)).
  - exists (NewOpsinInverseMatrix CM bias), F, T, W, o0, o1, o2.
    split; [unfold GetMatrix, MatrixMultiply2; rewrite EC; cbn [obind NewOpsinInverseMatrix oim_Matrix oim_OpsinBias]; now rewrite ECM|].
    split; [exact E|]. do 6 (split; [assumption|]). intros y x i Hy Hx Hi. rewrite <- K by assumption. apply app_ext; [reflexivity|]. intros k Hk.
    destruct (P y x Hy Hx) as (P0 & P1 & P2). do 3 (destruct k as [|k]; [cbn [nth]; assumption|]). lia.
Qed.
Print Assumptions C75_xyb_converted.

(* grey 1 at 255 nits, with the identity and the bias -1/8: cones 1, cube root
   of 9/8 minus 1/2; here the colour 7/8 has cones 7/8 and root 1 *)
Example C75_example : exists rgb,
  xyb_of delta (fun i => nth i [-1 / 8; -1 / 8; -1 / 8] 0) 255 rgb (fun i => pixel (nth i [[[0]]; [[1 / 2]]; [[1 / 2]]] []) 0 0) /\ rgb 0%nat = 7 / 8 /\
  inverse3 (pixel (MatrixIdentity 3)) delta.
Proof.
  exists (fun _ => 7 / 8). split; [|split; [reflexivity|]].
  - exists (fun _ => 1 / 2). split; [|unfold pixel; cbn [nth]; repeat split; lra].
    intros i Hi. exists 1, (- 1 / 2). rewrite app_delta by assumption. three; cbn [nth]; unfold cube; repeat split; lra.
  - intros i j Hi Hj. three; unfold prod, pixel, delta; cbn; lra.
Qed.

(* ---- C76 ---- *)
(* Gamma curves: each direction undoes the other. *)
Theorem C76_gamma transfer x : (0 < transfer <= 10000000)%Z -> 0 <= x ->
  exists tf y z, GetTransferFunction transfer = Ok tf /\ FromLinear tf x = Some y /\ ToLinear tf y = Some x /\ ToLinear tf x = Some z /\ FromLinear tf z = Some x.
Proof.
  intros Ht Hx. exists (NewGammaTransferFunction transfer).
  assert (0 < IZR transfer) by (apply IZR_lt; lia).
  destruct (gpow_inv x (IZR transfer / 10000000) (10000000 / IZR transfer)) as (y & E1 & _ & E2); [exact Hx|field; lra|apply Rdiv_lt_0_compat; lra|].
  destruct (gpow_inv x (10000000 / IZR transfer) (IZR transfer / 10000000)) as (z & E3 & _ & E4); [exact Hx|field; lra|apply Rdiv_lt_0_compat; lra|].
  exists y, z. split; [|cbn [FromLinear ToLinear NewGammaTransferFunction]; auto].
  unfold GetTransferFunction, TF_LINEAR, TF_SRGB, TF_PQ, TF_BT709, TF_DCI, TF_HLG.
  repeat match goal with |- context [(transfer =? ?c)%Z] => destruct (Z.eqb_spec transfer c); [lia|] end.
  destruct (Z.ltb_spec transfer (2 ^ 24)); [reflexivity|lia].
Qed.
Print Assumptions C76_gamma.

(* The exponent of the gamma curve is the coded number in units of 1/10^7. *)
Theorem C76_gamma_curve transfer x : (0 < transfer <= 10000000)%Z -> 0 < x ->
  exists tf, GetTransferFunction transfer = Ok tf /\ FromLinear tf x = Some (Rpower x (IZR transfer / 10000000)).
Proof.
  intros Ht Hx. destruct (C76_gamma transfer x Ht ltac:(lra)) as (tf & _ & _ & E & _). exists tf. split; [exact E|].
  unfold GetTransferFunction, TF_LINEAR, TF_SRGB, TF_PQ, TF_BT709, TF_DCI, TF_HLG in E.
  repeat match type of E with context [(transfer =? ?c)%Z] => destruct (Z.eqb_spec transfer c); [lia|] end.
  destruct (Z.ltb_spec transfer (2 ^ 24)); [|lia]. injection E as <-. cbn [FromLinear NewGammaTransferFunction]. unfold gpow.
  destruct (Rlt_dec x 0); [exfalso; lra|]. destruct (Req_EM_T x 0); [exfalso; lra|]. reflexivity.
Qed.
Print Assumptions C76_gamma_curve.

Theorem C76_linear x : GetTransferFunction TF_LINEAR = Ok Linear /\ FromLinear Linear x = Some x /\ ToLinear Linear x = Some x.
Proof. auto. Qed.
Print Assumptions C76_linear.

(* sRGB and BT.709 return to within 1/10^9 of every value from 0 to 1;
   missing: the rounding of float64. *)
Theorem C76_srgb_partial x : 0 <= x <= 1 ->
  exists y z, GetTransferFunction TF_SRGB = Ok SRGB /\ FromLinear SRGB x = Some y /\ ToLinear SRGB y = Some z /\ Rabs (z - x) <= 1 / 10 ^ 9.
Proof. intros H. destruct (srgb_round_trip x H) as (y & z & P). exists y, z. split; [reflexivity|exact P]. Qed.
Print Assumptions C76_srgb_partial.
Theorem C76_bt709_partial x : 0 <= x <= 1 ->
  exists y z, GetTransferFunction TF_BT709 = Ok BT709 /\ FromLinear BT709 x = Some y /\ ToLinear BT709 y = Some z /\ Rabs (z - x) <= 1 / 10 ^ 9.
Proof. intros H. destruct (bt709_round_trip x H) as (y & z & P). exists y, z. split; [reflexivity|exact P]. Qed.
Print Assumptions C76_bt709_partial.

(* Finding: a sign in PQTransferFunction.ToLinear is wrong (the denominator
   is 18.8515625 - 18.6875 d): peak white becomes less than 1/10^10. *)
Theorem C76_pq_refuted : GetTransferFunction TF_PQ = Ok PQ /\ FromLinear PQ 1 = Some 1 /\ exists z, ToLinear PQ 1 = Some z /\ z < 1 / 10 ^ 10.
Proof.
  assert (G : forall y, gpow 1 y = Some 1).
  { intros y. unfold gpow. destruct (Rlt_dec 1 0); [exfalso; lra|]. destruct (Req_EM_T 1 0); [exfalso; lra|]. now rewrite Rpower_one_base. }
  split; [reflexivity|]. split.
  - cbn [FromLinear]. rewrite G. replace ((0.8359375 + 18.8515625 * 1) / (1.0 + 18.6875 * 1)) with 1 by lra. apply G.
  - cbn [ToLinear]. rewrite G. set (q := (1 - 0.8359375) / (18.8515625 + 18.6875 * 1)).
    assert (Q : 0 < q <= 1 / 100) by (unfold q; lra).
    unfold gpow. destruct (Rlt_dec q 0); [exfalso; lra|]. destruct (Req_EM_T q 0); [exfalso; lra|].
    exists (Rpower q 6.2725880551301684533). split; [reflexivity|].
    apply Rlt_le_trans with (Rpower q (INR 5)).
    + unfold Rpower. apply exp_increasing. assert (L : ln q < 0) by (rewrite <- ln_1; apply ln_increasing; lra).
      rewrite INR_IZR_INZ. cbn [Z.of_nat Pos.of_succ_nat Pos.succ]. nra.
    + rewrite Rpower_pow by lra. apply Rle_trans with ((1 / 100) ^ 5); [apply pow_incr; lra|lra].
Qed.
Print Assumptions C76_pq_refuted.
(* ... and black is not a number. *)
Theorem C76_pq_black_refuted : ToLinear PQ 0 = None.
Proof.
  cbn [ToLinear]. unfold gpow at 1. destruct (Rlt_dec 0 0); [exfalso; lra|]. destruct (Req_EM_T 0 0); [|exfalso; lra].
  unfold gpow. destruct (Rlt_dec ((0 - 0.8359375) / (18.8515625 + 18.6875 * 0)) 0) as [|N]; [reflexivity|]. exfalso. apply N. lra.
Qed.
Print Assumptions C76_pq_black_refuted.
(* Finding: the DCI curve has the exponent 1/2.6; here the number of the enum
   value is used as a gamma, and every colour between black and white becomes
   darker instead of lighter. *)
Theorem C76_dci_refuted x : 0 < x < 1 ->
  exists tf y, GetTransferFunction TF_DCI = Ok tf /\ FromLinear tf x = Some y /\ y < x < Rpower x (1 / 2.6).
Proof.
  intros Hx. exists (NewGammaTransferFunction TF_DCI), (Rpower x (IZR TF_DCI / 10000000)). split; [reflexivity|]. split.
  - cbn [FromLinear NewGammaTransferFunction]. unfold gpow. destruct (Rlt_dec x 0); [exfalso; lra|]. destruct (Req_EM_T x 0); [exfalso; lra|]. reflexivity.
  - split; [apply Rpower_small; [exact Hx|]|apply Rpower_big; [exact Hx|lra]].
    assert (IZR TF_DCI = 16777233) by (unfold TF_DCI; f_equal). lra.
Qed.
Print Assumptions C76_dci_refuted.
(* Finding: hybrid log-gamma is accepted by the header, and has no curve. *)
Theorem C76_hlg_refuted : GetTransferFunction TF_HLG = Err.
Proof. reflexivity. Qed.
Print Assumptions C76_hlg_refuted.

(* the hypotheses: a gamma of 1/2.2, middle grey, near the join of the curves *)
Example C76_gamma_example : (0 < 4545455 <= 10000000)%Z /\ 0 <= 0.18.
Proof. split; [lia|lra]. Qed.
Example C76_srgb_example : exists y, FromLinear SRGB 0.5 = Some y /\ 0.5 < y.
Proof.
  exists (1.055 * Rpower 0.5 0.4166666666666667 - 0.055). cbn [FromLinear]. destruct (Rlt_dec 0.5 0.00313066844250063); [exfalso; lra|].
  unfold gpow. destruct (Rlt_dec 0.5 0); [exfalso; lra|]. destruct (Req_EM_T 0.5 0); [exfalso; lra|]. split; [reflexivity|].
  assert (P : Rpower 0.5 (INR 1 / INR 2) < Rpower 0.5 0.4166666666666667).
  { unfold Rpower. apply exp_increasing. assert (L : ln 0.5 < 0) by (rewrite <- ln_1; apply ln_increasing; lra). cbn [INR]. nra. }
  pose proof (pow_root 0.5 1 2 ltac:(lra) ltac:(lia)) as Q. set (r := Rpower 0.5 (INR 1 / INR 2)) in *. assert (0 < r) by (apply exp_pos). cbn [pow] in Q.
  assert (0.7 < r) by nra. lra.
Qed.
