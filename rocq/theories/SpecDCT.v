(* Independent description of the discrete cosine transform, over the real
   numbers. *)
From Coq Require Import List Bool Arith Reals.
Import ListNotations.
Open Scope R_scope.

(* f 0 + ... + f (n-1) *)
Fixpoint sum (n : nat) (f : nat -> R) : R :=
  match n with O => 0 | S n' => sum n' f + f n' end.

(* The orthogonal cosine basis: function number k at sample n, of N samples *)
Definition basis (N k n : nat) : R :=
  (if (k =? 0)%nat then 1 else sqrt 2) * cos (PI * INR k * (2 * INR n + 1) / (2 * INR N)).

(* Coefficient k of the samples f, and sample n of the coefficients c *)
Definition dct (N : nat) (f : nat -> R) (k : nat) : R := sum N (fun n => f n * basis N k n) / INR N.
Definition idct (N : nat) (c : nat -> R) (n : nat) : R := sum N (fun k => c k * basis N k n).

(* The same for a block of H rows and W columns *)
Definition dct2 (H W : nat) (f : nat -> nat -> R) (v u : nat) : R :=
  sum H (fun y => sum W (fun x => f y x * basis H v y * basis W u x)) / (INR H * INR W).
Definition idct2 (H W : nat) (c : nat -> nat -> R) (y x : nat) : R :=
  sum H (fun v => sum W (fun u => c v u * basis H v y * basis W u x)).

(* Contents of a matrix *)
Definition pixel (m : list (list R)) (y x : nat) : R := nth x (nth y m []) 0.
(* The block of h rows and w columns at (y0, x0) is inside the matrix *)
Definition inside (m : list (list R)) (y0 x0 h w : nat) : Prop :=
  (y0 + h <= length m)%nat /\ forall y, (y < h)%nat -> (x0 + w <= length (nth (y0 + y) m []))%nat.
(* m' is m with the block of h rows and w columns at (y0, x0) replaced by f *)
Definition in_block (y0 x0 h w y x : nat) : bool := (y0 <=? y)%nat && (y <? y0 + h)%nat && (x0 <=? x)%nat && (x <? x0 + w)%nat.
Definition replaced (m m' : list (list R)) (y0 x0 h w : nat) (f : nat -> nat -> R) : Prop :=
  length m' = length m /\ (forall y, length (nth y m' []) = length (nth y m [])) /\
  forall y x, pixel m' y x = if in_block y0 x0 h w y x then f (y - y0)%nat (x - x0)%nat else pixel m y x.
