(* C68: the two-dimensional cosine transforms, over the real numbers. *)
From Coq Require Import ZArith List Bool Arith Reals Lia Lra.
From Verif Require Import GoBase ModelDCT SpecDCT ProofDCTMath ProofDCT.
Import ListNotations.
Open Scope nat_scope.

(* The inverse transform writes the inverse cosine transform of the source block into the target block and leaves the rest of the target alone. *)
Theorem C68_inverse_partial : forall src dest iy ix oy ox lh lw s0 s1, lh < 9 -> lw < 9 ->
  let H := 2 ^ lh in let W := 2 ^ lw in let M := Nat.max H W in
  inside src iy ix H W -> inside dest oy ox H W -> inside s0 0 0 M M -> inside s1 0 0 M M ->
  exists dest' s0' s1',
    InverseDCT2D src dest (Z.of_nat iy, Z.of_nat ix) (Z.of_nat oy, Z.of_nat ox) H W s0 s1 false = Ok (dest', s0', s1') /\
    replaced dest dest' oy ox H W (idct2 H W (fun v u => pixel src (iy + v) (ix + u))).
Proof. intros src dest iy ix oy ox lh lw s0 s1 Hh Hw H W M A B C D. destruct (InverseDCT2D_ok src dest iy ix oy ox lh lw s0 s1 Hh Hw A B C D) as (d & t0 & t1 & E & R & _). exists d, t0, t1. split; assumption. Qed.
Print Assumptions C68_inverse_partial.

(* With the flag the target gets the transposed result. *)
Theorem C68_inverse_transposed_partial : forall src dest iy ix oy ox lh lw s0 s1, lh < 9 -> lw < 9 ->
  let H := 2 ^ lh in let W := 2 ^ lw in let M := Nat.max H W in
  inside src iy ix H W -> inside dest oy ox W H -> inside s0 0 0 M M -> inside s1 0 0 M M ->
  exists dest' s0' s1',
    InverseDCT2D src dest (Z.of_nat iy, Z.of_nat ix) (Z.of_nat oy, Z.of_nat ox) H W s0 s1 true = Ok (dest', s0', s1') /\
    replaced dest dest' oy ox W H (fun x y => idct2 H W (fun v u => pixel src (iy + v) (ix + u)) y x).
Proof. intros src dest iy ix oy ox lh lw s0 s1 Hh Hw H W M A B C D. destruct (InverseDCT2D_transposed_ok src dest iy ix oy ox lh lw s0 s1 Hh Hw A B C D) as (d & t0 & t1 & E & R & _). exists d, t0, t1. split; assumption. Qed.
Print Assumptions C68_inverse_transposed_partial.

(* The forward transform writes the cosine transform. *)
Theorem C68_forward_partial : forall src dest iy ix oy ox lh lw s0 s1, lh < 9 -> lw < 9 ->
  let H := 2 ^ lh in let W := 2 ^ lw in let M := Nat.max H W in
  inside src iy ix H W -> inside dest oy ox H W -> inside s0 0 0 M M -> inside s1 0 0 M M ->
  exists dest' s0' s1',
    ForwardDCT2D src dest (Z.of_nat iy, Z.of_nat ix) (Z.of_nat oy, Z.of_nat ox) H W s0 s1 = Ok (dest', s0', s1') /\
    replaced dest dest' oy ox H W (dct2 H W (fun y x => pixel src (iy + y) (ix + x))).
Proof. intros src dest iy ix oy ox lh lw s0 s1 Hh Hw H W M A B C D. destruct (ForwardDCT2D_ok src dest iy ix oy ox lh lw s0 s1 Hh Hw A B C D) as (d & t0 & t1 & E & R & _). exists d, t0, t1. split; assumption. Qed.
Print Assumptions C68_forward_partial.

(* The inverse transform of the forward transform gives back the block, wherever the blocks lie and whatever the scratch space held. *)
Theorem C68_roundtrip_partial : forall src mid dest iy ix my mx oy ox lh lw s0 s1, lh < 9 -> lw < 9 ->
  let H := 2 ^ lh in let W := 2 ^ lw in let M := Nat.max H W in
  inside src iy ix H W -> inside mid my mx H W -> inside dest oy ox H W -> inside s0 0 0 M M -> inside s1 0 0 M M ->
  exists mid' s0' s1' dest' s0'' s1'',
    ForwardDCT2D src mid (Z.of_nat iy, Z.of_nat ix) (Z.of_nat my, Z.of_nat mx) H W s0 s1 = Ok (mid', s0', s1') /\
    InverseDCT2D mid' dest (Z.of_nat my, Z.of_nat mx) (Z.of_nat oy, Z.of_nat ox) H W s0' s1' false = Ok (dest', s0'', s1'') /\
    replaced dest dest' oy ox H W (fun y x => pixel src (iy + y) (ix + x)).
Proof.
  intros src mid dest iy ix my mx oy ox lh lw s0 s1 Hh Hw H W M Is Im Id I0 I1.
  destruct (ForwardDCT2D_ok src mid iy ix my mx lh lw s0 s1 Hh Hw Is Im I0 I1) as (m' & t0 & t1 & E & R & K0 & K1).
  destruct (InverseDCT2D_ok m' dest my mx oy ox lh lw t0 t1 Hh Hw (inside_replaced _ _ _ _ _ _ _ _ _ _ _ R Im) Id (K0 _ _ _ _ I0) (K1 _ _ _ _ I1)) as (d' & u0 & u1 & F & Q & _).
  exists m', t0, t1, d', u0, u1. split; [exact E|]. split; [exact F|]. refine (replaced_ext _ _ _ _ _ _ _ _ _ Q).
  fold H W. intros y x Hy Hx. rewrite (idct2_ext H W _ (dct2 H W (fun y x => pixel src (iy + y) (ix + x)))).
  - exact (idct2_dct2 H W (fun y x => pixel src (iy + y) (ix + x)) y x Hy Hx).
  - intros v u Hv Hu. exact (replaced_px _ _ _ _ _ _ _ v u R Hv Hu).
Qed.
Print Assumptions C68_roundtrip_partial.

(* Both directions of the specification itself. *)
Theorem C68_transforms_inverse_partial : forall H W f y x, y < H -> x < W ->
  idct2 H W (dct2 H W f) y x = f y x /\ dct2 H W (idct2 H W f) y x = f y x.
Proof. intros H W f y x Hy Hx. split; [apply idct2_dct2|apply dct2_idct2]; assumption. Qed.
Print Assumptions C68_transforms_inverse_partial.

(* A 1x2 block at (1,1) of a 2x3 matrix: the average 2 and the coefficient 1 *)
Example C68_example : let m := [[0; 0; 0]; [0; 3; 1]]%R in inside m 1 1 (2 ^ 0) (2 ^ 1) /\ inside [[5; 5]; [5; 5]]%R 0 0 (Nat.max (2 ^ 0) (2 ^ 1)) (Nat.max (2 ^ 0) (2 ^ 1)) /\
  dct2 (2 ^ 0) (2 ^ 1) (fun y x => pixel m (1 + y) (1 + x)) 0 0 = 2%R /\ dct2 (2 ^ 0) (2 ^ 1) (fun y x => pixel m (1 + y) (1 + x)) 0 1 = 1%R.
Proof.
  cbn [Nat.pow Nat.mul Nat.add Nat.max]. split; [split; cbn; [lia|intros [|y] Hy; cbn; lia]|]. split; [split; cbn; [lia|intros [|[|y]] Hy; cbn; lia]|].
  unfold dct2, basis, sum, pixel. cbn [nth Nat.add Nat.eqb]. change (INR 0) with 0%R. change (INR 1) with 1%R. replace (INR 2) with 2%R by (cbn; lra). split.
  - replace (PI * 0 * (2 * 0 + 1) / (2 * 1))%R with 0%R by field. replace (PI * 0 * (2 * 0 + 1) / (2 * 2))%R with 0%R by field.
    replace (PI * 0 * (2 * 1 + 1) / (2 * 2))%R with 0%R by field. rewrite cos_0. field.
  - replace (PI * 0 * (2 * 0 + 1) / (2 * 1))%R with 0%R by field. replace (PI * 1 * (2 * 0 + 1) / (2 * 2))%R with (PI / 4)%R by field.
    replace (PI * 1 * (2 * 1 + 1) / (2 * 2))%R with (3 * (PI / 4))%R by field. rewrite cos_0, cos_PI4, cos_3PI4.
    pose proof (sqrt_def 2 ltac:(lra)) as Q. assert (sqrt 2 <> 0)%R by (pose proof (sqrt_lt_R0 2 ltac:(lra)); lra). field. assumption.
Qed.
