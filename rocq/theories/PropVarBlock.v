(* C69, C70: the special 8x8 block transforms, over the real numbers. *)
From Coq Require Import ZArith List Bool Arith Reals Lia Lra.
From Verif Require Import GoBase ModelDCT ModelVarBlock SpecDCT SpecVarBlock ProofDCTMath ProofDCT ProofVarBlock ProofVarBlock2 ProofVarBlock3.
Import ListNotations.
Open Scope nat_scope.

(* Whatever 8x8 block an encoder transformed, wherever it lies in the frame, and whatever the scratch space held, the decoder writes the original pixels there and nothing elsewhere. *)
Definition encoders : list (Z * ((nat -> nat -> R) -> nat -> nat -> R)) :=
  [(0%Z, dct2 8 8); (1%Z, enc_dct2); (3%Z, enc_hornuss); (4%Z, enc_dct8_4); (5%Z, enc_dct4_8)].
Theorem C69_blocks_partial : forall method enc tt coeffs buffer gy gx oy ox s0 s1 s2 s3 f, In (method, enc) encoders ->
  inside coeffs gy gx 8 8 -> inside buffer oy ox 8 8 -> inside s0 0 0 8 8 -> inside s1 0 0 8 8 -> inside s2 0 0 8 8 -> inside s3 0 0 8 8 ->
  (forall v u, v < 8 -> u < 8 -> pixel coeffs (gy + v) (gx + u) = enc f v u) ->
  exists buffer', invertBlock method tt 8 8 coeffs buffer (Z.of_nat gy, Z.of_nat gx) (Z.of_nat oy, Z.of_nat ox) s0 s1 s2 s3 = Ok buffer' /\
    replaced buffer buffer' oy ox 8 8 f.
Proof.
  intros method enc tt coeffs buffer gy gx oy ox s0 s1 s2 s3 f He Ic Ib I0 I1 I2 I3 Hc. unfold invertBlock.
  cbn [encoders In] in He. destruct He as [E|[E|[E|[E|[E|[]]]]]]; injection E as <- <-; cbn [Z.eqb Pos.eqb].
  - destruct (InverseDCT2D_ok coeffs buffer gy gx oy ox 3 3 s0 s1 ltac:(lia) ltac:(lia) Ic Ib I0 I1) as (d & t0 & t1 & E & R & _).
    change (2 ^ 3) with 8 in *. rewrite E. cbn [obind fst]. exists d. split; [reflexivity|]. refine (replaced_ext _ _ _ _ _ _ _ _ _ R). intros y x Hy Hx.
    rewrite (idct2_ext 8 8 _ (dct2 8 8 f)) by exact Hc. apply idct2_dct2; assumption.
  - destruct (invertDCT2_ok coeffs buffer gy gx oy ox s0 s1 f Ic Ib I0 I1 Hc) as (d & t0 & t1 & E & R). rewrite E. exists d. split; [reflexivity|exact R].
  - destruct (invertHornuss_ok coeffs buffer gy gx oy ox s0 s1 f Ic Ib I0 I1 Hc) as (d & t0 & t1 & E & R). rewrite E. exists d. split; [reflexivity|exact R].
  - destruct (invertDCT8_4_ok coeffs buffer gy gx oy ox s0 s1 s2 f Ic Ib I0 I1 I2 Hc) as (d & t0 & t1 & t2 & E & R). rewrite E. exists d. split; [reflexivity|exact R].
  - destruct (invertDCT4_8_ok coeffs buffer gy gx oy ox s0 s1 s2 f Ic Ib I0 I1 I2 Hc) as (d & t0 & t1 & t2 & E & R). rewrite E. exists d. split; [reflexivity|exact R].
Qed.
Print Assumptions C69_blocks_partial.

(* A block with the 4x4 transform always panics. *)
Theorem C69_dct4_refuted : forall tt coeffs buffer ppg ppf s0 s1 s2 s3, invertBlock 2 tt 8 8 coeffs buffer ppg ppf s0 s1 s2 s3 = Panic.
Proof. reflexivity. Qed.
Print Assumptions C69_dct4_refuted.

Definition block8 (g : nat -> nat -> R) : list (list R) := map (fun v => map (g v) (seq 0 8)) (seq 0 8).
Lemma block8_inside g : inside (block8 g) 0 0 8 8.
Proof. split; [reflexivity|]. intros y Hy. do 8 (destruct y as [|y]; [apply le_n|]). lia. Qed.
Lemma block8_px g v u : v < 8 -> u < 8 -> pixel (block8 g) v u = g v u.
Proof.
  intros Hv Hu. do 8 (destruct v as [|v]; [do 8 (destruct u as [|u]; [reflexivity|]); lia|]). lia.
Qed.
Example C69_example : exists buffer', invertBlock 3 (placedPointer 0 3) 8 8 (block8 (enc_hornuss (fun y x => INR (8 * y + x)))) (block8 (fun _ _ => 7%R))
    (Z.of_nat 0, Z.of_nat 0) (Z.of_nat 0, Z.of_nat 0) (block8 (fun _ _ => 1%R)) (block8 (fun _ _ => 2%R)) (block8 (fun _ _ => 3%R)) (block8 (fun _ _ => 4%R)) = Ok buffer' /\
  pixel buffer' 5 6 = INR 46.
Proof.
  destruct (C69_blocks_partial 3 enc_hornuss (placedPointer 0 3) (block8 (enc_hornuss (fun y x => INR (8 * y + x)))) (block8 (fun _ _ => 7%R)) 0 0 0 0
    (block8 (fun _ _ => 1%R)) (block8 (fun _ _ => 2%R)) (block8 (fun _ _ => 3%R)) (block8 (fun _ _ => 4%R)) (fun y x => INR (8 * y + x))) as (b & E & R);
    [cbn; auto|apply block8_inside..|intros v u Hv Hu; apply block8_px; assumption|].
  exists b. split; [exact E|]. exact (replaced_px _ _ _ _ _ _ _ 5 6 R ltac:(lia) ltac:(lia)).
Qed.

(* With a pointer to the package variables the three kinds of pixels of an AFV block come back: exactly outside the corner, and up to 16 * 10^-14 of the largest pixel inside it (the basis of the format is orthonormal up to that). *)
Theorem C70_afv_partial : forall t coeffs buffer gy gx oy ox s0 s1 s2 s3 f M, (14 <= t <= 17)%Z ->
  inside coeffs gy gx 8 8 -> inside buffer oy ox 8 8 -> inside s0 0 0 8 8 -> inside s1 0 0 8 8 -> inside s2 0 0 8 8 -> inside s3 0 0 8 8 ->
  (forall v u, v < 8 -> u < 8 -> pixel coeffs (gy + v) (gx + u) = enc_afv (pixel AFV_BASIS) (afv_bottom t) (afv_right t) f v u) ->
  (forall v u, v < 8 -> u < 8 -> (Rabs (f v u) <= M)%R) ->
  exists buffer' g, invertBlock 6 (Global t) 8 8 coeffs buffer (Z.of_nat gy, Z.of_nat gx) (Z.of_nat oy, Z.of_nat ox) s0 s1 s2 s3 = Ok buffer' /\
    replaced buffer buffer' oy ox 8 8 g /\
    forall y x, y < 8 -> x < 8 -> if Bool.eqb (afv_bottom t) (4 <=? y) && Bool.eqb (afv_right t) (4 <=? x)
      then (Rabs (g y x - f y x) <= 16 * M / IZR (10 ^ 14))%R else g y x = f y x.
Proof.
  intros t coeffs buffer gy gx oy ox s0 s1 s2 s3 f M Ht Ic Ib I0 I1 I2 I3 Hc HM.
  destruct (invertAFV_ok coeffs buffer (Global t) gy gx oy ox s0 s1 s2 s3 Ic Ib I0 I1 I2 I3) as (b & t0 & t1 & t2 & t3 & E & R).
  exists b, (dec_afv (enc_afv Bs (afv_bottom t) (afv_right t) f) (afv_bottom t) (afv_right t)). unfold invertBlock. cbn [Z.eqb Pos.eqb]. rewrite E. cbn [obind fst].
  split; [reflexivity|]. split.
  - refine (replaced_ext _ _ _ _ _ _ _ _ _ R). intros y x Hy Hx. change (bottom (Global t)) with (afv_bottom t). change (right (Global t)) with (afv_right t).
    apply dec_afv_ext. exact Hc.
  - intros y x Hy Hx. fold (in_corner (afv_bottom t) (afv_right t) y x). destruct (in_corner (afv_bottom t) (afv_right t) y x) eqn:Hk; [apply corner_near|apply dec_enc_outside]; assumption.
Qed.
Print Assumptions C70_afv_partial.

(* The same for AFV0 with the pointers the decoder really uses. *)
Theorem C70_afv0_partial : forall call coeffs buffer gy gx oy ox s0 s1 s2 s3 f M,
  inside coeffs gy gx 8 8 -> inside buffer oy ox 8 8 -> inside s0 0 0 8 8 -> inside s1 0 0 8 8 -> inside s2 0 0 8 8 -> inside s3 0 0 8 8 ->
  (forall v u, v < 8 -> u < 8 -> pixel coeffs (gy + v) (gx + u) = enc_afv (pixel AFV_BASIS) false false f v u) ->
  (forall v u, v < 8 -> u < 8 -> (Rabs (f v u) <= M)%R) ->
  exists buffer' g, invertBlock 6 (placedPointer call 14) 8 8 coeffs buffer (Z.of_nat gy, Z.of_nat gx) (Z.of_nat oy, Z.of_nat ox) s0 s1 s2 s3 = Ok buffer' /\
    replaced buffer buffer' oy ox 8 8 g /\
    forall y x, y < 8 -> x < 8 -> if (y <? 4) && (x <? 4) then (Rabs (g y x - f y x) <= 16 * M / IZR (10 ^ 14))%R else g y x = f y x.
Proof.
  intros call coeffs buffer gy gx oy ox s0 s1 s2 s3 f M Ic Ib I0 I1 I2 I3 Hc HM.
  destruct (invertAFV_ok coeffs buffer (placedPointer call 14) gy gx oy ox s0 s1 s2 s3 Ic Ib I0 I1 I2 I3) as (b & t0 & t1 & t2 & t3 & E & R).
  exists b, (dec_afv (enc_afv Bs false false f) false false). unfold invertBlock. cbn [Z.eqb Pos.eqb]. rewrite E. cbn [obind fst].
  split; [reflexivity|]. split.
  - refine (replaced_ext _ _ _ _ _ _ _ _ _ R). intros y x Hy Hx. apply dec_afv_ext. exact Hc.
  - intros y x Hy Hx. replace ((y <? 4) && (x <? 4)) with (in_corner false false y x).
    + destruct (in_corner false false y x) eqn:Hk; [apply corner_near|apply dec_enc_outside]; assumption.
    + unfold in_corner. destruct (Nat.leb_spec 4 y), (Nat.leb_spec 4 x), (Nat.ltb_spec y 4), (Nat.ltb_spec x 4); cbn; reflexivity || lia.
Qed.
Print Assumptions C70_afv0_partial.

(* For the other three orientations the pointers of the placed blocks never equal those of the package variables: there is a block whose first pixel was 1 and is decoded as 0. *)
Theorem C70_orientation_refuted : forall t call, (15 <= t <= 17)%Z -> exists f coeffs buffer s0 s1 s2 s3 buffer',
  inside coeffs 0 0 8 8 /\ inside buffer 0 0 8 8 /\ inside s0 0 0 8 8 /\ inside s1 0 0 8 8 /\ inside s2 0 0 8 8 /\ inside s3 0 0 8 8 /\
  (forall v u, v < 8 -> u < 8 -> pixel coeffs v u = enc_afv (pixel AFV_BASIS) (afv_bottom t) (afv_right t) f v u) /\
  invertBlock 6 (placedPointer call t) 8 8 coeffs buffer (0, 0)%Z (0, 0)%Z s0 s1 s2 s3 = Ok buffer' /\
  f 0 0 = 1%R /\ pixel buffer' 0 0 = 0%R.
Proof.
  intros t call Ht. set (by_ := afv_bottom t). set (bx := afv_right t). set (f := fun y x => if in_corner by_ bx y x then 0%R else 1%R).
  set (z := block8 (fun _ _ => 0%R)). set (c := block8 (enc_afv Bs by_ bx f)).
  destruct (invertAFV_ok c z (placedPointer call t) 0 0 0 0 z z z z) as (b & t0 & t1 & t2 & t3 & E & R); try apply block8_inside.
  exists f, c, z, z, z, z, z, b. do 6 (split; [apply block8_inside|]). split; [intros v u Hv Hu; apply block8_px; assumption|].
  change (Z.of_nat 0) with 0%Z in E. unfold invertBlock. cbn [Z.eqb Pos.eqb]. rewrite E. split; [reflexivity|]. split.
  - unfold f, in_corner, by_, bx, afv_bottom, afv_right. assert (t = 15 \/ t = 16 \/ t = 17)%Z as [->|[->| ->]] by lia; reflexivity.
  - pose proof (replaced_px _ _ _ _ _ _ _ 0 0 R ltac:(lia) ltac:(lia)) as P. cbn [Nat.add] in P. rewrite P. change (bottom (placedPointer call t)) with false. change (right (placedPointer call t)) with false.
    rewrite (dec_afv_ext _ (enc_afv Bs by_ bx f)) by (intros v u Hv Hu; apply block8_px; assumption).
    unfold dec_afv. cbn [Nat.leb Nat.ltb andb Nat.add Nat.mul]. rewrite (sum_ext 16 _ (fun _ => 0%R)); [rewrite sum_const; ring|].
    intros j Hj. rewrite afvA_enc by exact Hj. rewrite (sum_ext 16 _ (fun _ => 0%R)); [rewrite sum_const; ring|].
    intros i Hi. unfold afv_corner, f. replace (in_corner by_ bx _ _) with true; [ring|].
    symmetry. unfold in_corner. destruct by_, bx; apply andb_true_intro; split; apply Bool.eqb_true_iff; symmetry; (apply Nat.leb_le; lia) || (apply Nat.leb_gt; lia).
Qed.
Print Assumptions C70_orientation_refuted.
Example C70_example : inside (block8 (enc_afv (pixel AFV_BASIS) false false (fun y x => INR (y + x)))) 0 0 8 8 /\ afv_bottom 16 = true /\ afv_right 16 = false /\
  (forall v u, v < 8 -> u < 8 -> (Rabs (INR (v + u)) <= 14)%R).
Proof.
  split; [apply block8_inside|]. do 2 (split; [reflexivity|]). intros v u Hv Hu. rewrite Rabs_right by (apply Rle_ge, pos_INR).
  replace 14%R with (INR 14) by (cbn; lra). apply le_INR. lia.
Qed.
