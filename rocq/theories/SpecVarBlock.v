(* The 8x8 block transforms of the format, described by what an encoder does:
   each function takes the 64 pixels of a block and gives the 64 coefficients. *)
From Coq Require Import List Bool Arith Reals ZArith.
From Verif Require Import SpecDCT.
Open Scope R_scope.

(* One averaging step on the top left 2n x 2n samples: the four samples of a
   square become an average and three differences *)
Definition hadamard_step (n : nat) (f : nat -> nat -> R) (v u : nat) : R :=
  if (v <? 2 * n)%nat && (u <? 2 * n)%nat then
    let iy := (v mod n)%nat in let ix := (u mod n)%nat in
    let r00 := f (2 * iy)%nat (2 * ix)%nat in let r01 := f (2 * iy)%nat (2 * ix + 1)%nat in
    let r10 := f (2 * iy + 1)%nat (2 * ix)%nat in let r11 := f (2 * iy + 1)%nat (2 * ix + 1)%nat in
    match (v <? n)%nat, (u <? n)%nat with
    | true, true => (r00 + r01 + r10 + r11) / 4
    | true, false => (r00 + r01 - r10 - r11) / 4
    | false, true => (r00 - r01 + r10 - r11) / 4
    | false, false => (r00 - r01 - r10 + r11) / 4
    end
  else f v u.
(* DCT 2x2: three steps *)
Definition enc_dct2 (f : nat -> nat -> R) : nat -> nat -> R := hadamard_step 1 (hadamard_step 2 (hadamard_step 4 f)).

(* Hornuss: per quadrant the differences to the sample (1,1), with the average
   in place of the first one; the four averages get an averaging step *)
Definition quadrant_mean (f : nat -> nat -> R) (y x : nat) : R :=
  sum 4 (fun iy => sum 4 (fun ix => f (4 * y + iy)%nat (4 * x + ix)%nat)) / 16.
Definition enc_hornuss (f : nat -> nat -> R) : nat -> nat -> R :=
  hadamard_step 1 (fun v u =>
    let y := (v mod 2)%nat in let x := (u mod 2)%nat in let iy := (v / 2)%nat in let ix := (u / 2)%nat in
    let mid := f (4 * y + 1)%nat (4 * x + 1)%nat in
    if (iy =? 0)%nat && (ix =? 0)%nat then quadrant_mean f y x
    else if (iy =? 1)%nat && (ix =? 1)%nat then f (4 * y)%nat (4 * x)%nat - mid
    else f (4 * y + iy)%nat (4 * x + ix)%nat - mid).

(* Two 4x8 transforms, interleaved by rows; the two averages are replaced by
   their mean and half their difference *)
Definition interleave (d0 d1 : nat -> nat -> R) (v u : nat) : R :=
  if (v =? 0)%nat && (u =? 0)%nat then (d0 0%nat 0%nat + d1 0%nat 0%nat) / 2
  else if (v =? 1)%nat && (u =? 0)%nat then (d0 0%nat 0%nat - d1 0%nat 0%nat) / 2
  else if Nat.even v then d0 (v / 2)%nat u else d1 (v / 2)%nat u.
(* DCT 4x8: the upper and the lower half *)
Definition enc_dct4_8 (f : nat -> nat -> R) : nat -> nat -> R := interleave (dct2 4 8 f) (dct2 4 8 (fun y x => f (4 + y)%nat x)).
(* DCT 8x4: the left and the right half, both transposed *)
Definition enc_dct8_4 (f : nat -> nat -> R) : nat -> nat -> R :=
  interleave (dct2 4 8 (fun y x => f x y)) (dct2 4 8 (fun y x => f x (4 + y)%nat)).

(* AFV: one 4x4 corner with its own basis, the 4x4 quadrant beside it with a
   transposed 4x4 transform, the other half with a 4x8 transform. fy and fx say
   whether the corner is at the bottom and at the right. *)
Definition afv_corner (fy fx : bool) (f : nat -> nat -> R) (iy ix : nat) : R :=
  f (if fy then 7 - iy else iy)%nat (if fx then 7 - ix else ix)%nat.
Definition afv_beside (fy fx : bool) (f : nat -> nat -> R) (iy ix : nat) : R :=
  f ((if fy then 4 else 0) + iy)%nat ((if fx then 0 else 4) + ix)%nat.
Definition afv_half (fy : bool) (f : nat -> nat -> R) (iy ix : nat) : R := f ((if fy then 0 else 4) + iy)%nat ix.
Definition enc_afv (B : nat -> nat -> R) (fy fx : bool) (f : nat -> nat -> R) (v u : nat) : R :=
  let A j := sum 16 (fun i => afv_corner fy fx f (i / 4) (i mod 4) * B j i) in
  let D1 := dct2 4 4 (fun y x => afv_beside fy fx f x y) in
  let D2 := dct2 4 8 (afv_half fy f) in
  let m0 := A 0%nat / 4 in let m1 := D1 0%nat 0%nat in let m2 := D2 0%nat 0%nat in
  if (v =? 0)%nat && (u =? 0)%nat then ((m0 + m1) / 2 + m2) / 2
  else if (v =? 1)%nat && (u =? 0)%nat then ((m0 + m1) / 2 - m2) / 2
  else if (v =? 0)%nat && (u =? 1)%nat then (m0 - m1) / 2
  else if Nat.odd v then D2 (v / 2)%nat u
  else if Nat.odd u then D1 (v / 2)%nat (u / 2)%nat
  else A (4 * (v / 2) + u / 2)%nat.

(* The transform numbers 14 to 17 are AFV0 to AFV3 *)
Definition afv_bottom (t : Z) : bool := (t =? 16)%Z || (t =? 17)%Z.
Definition afv_right (t : Z) : bool := (t =? 15)%Z || (t =? 17)%Z.
