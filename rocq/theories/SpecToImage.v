(* Images of the Go standard library (package image) and the samples a decoded
   image should have in them. *)
From Coq Require Import ZArith List Bool.
Import ListNotations.
Open Scope Z_scope.

(* byte k of the pixel in row y and column x, for n bytes in a pixel *)
Definition pix_byte (n w : nat) (pix : list Z) (y x k : nat) : Z := nth (n * (y * w + x) + k) pix 0.
(* pix holds h rows of w pixels of n bytes, byte k of pixel (y, x) is v k y x *)
Definition holds (n h w : nat) (v : nat -> nat -> nat -> Z) (pix : list Z) : Prop :=
  length pix = (n * (h * w))%nat /\
  forall y x k, (y < h)%nat -> (x < w)%nat -> (k < n)%nat -> pix_byte n w pix y x k = v k y x.

(* a is a float sample (1 = one) and b its byte: 255 a rounded to the nearest
   integer, off by at most 2^-15 more than one half, and cut to 0..255 *)
Definition near_byte (one a b : Z) : Prop :=
  0 <= b <= 255 /\
  (a <= 0 -> b = 0) /\
  (one <= a <= 2 ^ 22 * one -> b = 255) /\
  (0 <= a <= one -> 2 ^ 16 * Z.abs (b * one - 255 * a) <= (2 ^ 15 + 2) * one).
