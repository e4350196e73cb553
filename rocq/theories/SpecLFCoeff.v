(* Specification of the LF image: steps, correlation with luma and smoothing. *)
From Coq Require Import ZArith List Bool Arith Reals.
From Verif Require Import ModelLFCoeff.
Import ListNotations.
Open Scope R_scope.

(* Step of a channel: 2^16 d / (scale lf) *)
Definition lf_step (d : R) (scale lf : Z) : R := 2 ^ 16 * d / (IZR scale * IZR lf).
(* A sample with e more bits of precision *)
Definition lf_sample (step : R) (e : nat) (q : Z) : R := IZR q * step / 2 ^ e.
(* X and B are predicted from Y *)
Definition lf_correlation (base : R) (factor colour : Z) : R := base + (IZR factor - 128) / IZR colour.

(* Weighted mean of a sample and its eight neighbours *)
Definition w_self : R := 0.05226273532324128.
Definition w_side : R := 0.20345139757231578.
Definition w_corner : R := 0.0334829185968739.
Definition neighbourhood (f : nat -> nat -> R) (y x : nat) : R :=
  w_self * f y x + w_side * (f y (x - 1)%nat + f y (x + 1)%nat + f (y - 1)%nat x + f (y + 1)%nat x) +
  w_corner * (f (y - 1)%nat (x - 1)%nat + f (y - 1)%nat (x + 1)%nat + f (y + 1)%nat (x - 1)%nat + f (y + 1)%nat (x + 1)%nat).
(* How much of the difference from the mean is kept: all of it up to half a
   step in every channel, nothing from three quarters of a step in one.
   measure is the size of a difference in steps. *)
Definition keep (measure : R -> R -> R) (step : nat -> R) (f : nat -> nat -> nat -> R) (y x : nat) : R :=
  let d c := measure (Rabs (f c y x - neighbourhood (f c) y x)) (step c) in
  Rmax 0 (3 - 4 * Rmax (Rmax (Rmax (1 / 2) (d 0%nat)) (d 1%nat)) (d 2%nat)).
Definition in_steps (d step : R) : R := d / step.
(* Smoothing of an image of h rows and w columns; the border is kept *)
Definition smoothed (measure : R -> R -> R) (h w : nat) (step : nat -> R) (f : nat -> nat -> nat -> R) (c y x : nat) : R :=
  if ((0 <? y) && (S y <? h) && (0 <? x) && (S x <? w))%nat%bool
  then neighbourhood (f c) y x + (f c y x - neighbourhood (f c) y x) * keep measure step f y x
  else f c y x.

Definition inner_row (h y : nat) : bool := ((0 <? y) && (S y <? h))%nat.
Definition inner (h w y x : nat) : bool := inner_row h y && inner_row w x.

(* The three channels before smoothing, from the samples q of X, Y and B *)
Definition lf_channels (step : nat -> R) (e : nat) (kx kb : R) (q : nat -> nat -> nat -> Z) (i y x : nat) : R :=
  let v c := lf_sample (step c) e (q c y x) in
  match i with O => v 0%nat + kx * v 1%nat | 1%nat => v 1%nat | _ => v 2%nat + kb * v 1%nat end.

(* the i-th of three, and sizes of the channels *)
Definition three {A} (a b c : A) (i : nat) : A := match i with O => a | 1%nat => b | _ => c end.
Definition part {A} (t : A * A * A) (i : nat) : A := let '(a, b, c) := t in three a b c i.
Definition chan_h (p : LFParams) (i : nat) : nat := Z.to_nat (lp_height p / 2 ^ part (lp_shiftY p) i).
Definition chan_w (p : LFParams) (i : nat) : nat := Z.to_nat (lp_width p / 2 ^ part (lp_shiftX p) i).
Definition shifts_ok (p : LFParams) : Prop := forall i, (0 <= part (lp_shiftY p) i /\ 0 <= part (lp_shiftX p) i)%Z.
