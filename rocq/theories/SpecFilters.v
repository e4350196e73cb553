(* Independent description of the restoration filters and of upsampling, over
   the real numbers. *)
From Coq Require Import ZArith List Bool Reals.
From Verif Require Import ModelBitReader SpecDCT SpecColour.
Import ListNotations.
Open Scope R_scope.

(* A line of n samples goes on at its ends as in a mirror *)
Definition mir (n : nat) (c : Z) : nat :=
  let r := (c mod (2 * Z.of_nat n))%Z in
  Z.to_nat (if (r <? Z.of_nat n)%Z then r else 2 * Z.of_nat n - 1 - r)%Z.
(* The sample (y, x) of an image of h rows of w samples that goes on in all
   directions *)
Definition ext (h w : nat) (m : list (list R)) (y x : Z) : R := pixel m (mir h y) (mir w x).

Definition rsum {A} (f : A -> R) (l : list A) : R := fold_right (fun a s => f a + s) 0 l.
(* The places (dy, dx) up to r steps away *)
Definition line : list Z := [-2; -1; 0; 1; 2]%Z.
Definition grid : list (Z * Z) := flat_map (fun dy => map (fun dx => (dy, dx)) line) line.
Definition around (r : Z) : list (Z * Z) := filter (fun p => (Z.abs (fst p) + Z.abs (snd p) <=? r)%Z) grid.
(* m has h rows of w samples, the values of f *)
Definition image_of (h w : nat) (f : nat -> nat -> R) (m : list (list R)) : Prop :=
  rrect h w m /\ forall y x, (y < h)%nat -> (x < w)%nat -> pixel m y x = f y x.
(* all samples lie between a and b *)
Definition within (h w : nat) (a b : R) (m : list (list R)) : Prop := forall y x, (y < h)%nat -> (x < w)%nat -> a <= pixel m y x <= b.
(* The value of a float *)
Definition f32_value (f : F32) : R := (if f_neg f then -1 else 1) * IZR (f_mant f) * powerRZ 2 (f_exp f).

(* ---- Gaborish ---- *)
(* The weight of a place: 1, w1 beside, w2 diagonally *)
Definition gab_weight (w1 w2 : R) (p : Z * Z) : R :=
  let d := (Z.abs (fst p) + Z.abs (snd p))%Z in
  if ((Z.abs (fst p) <=? 1) && (Z.abs (snd p) <=? 1))%Z%bool
  then if (d =? 0)%Z then 1 else if (d =? 1)%Z then w1 else w2 else 0.
Definition gab_value (w1 w2 : R) (h w : nat) (m : list (list R)) (y x : nat) : R :=
  rsum (fun p => gab_weight w1 w2 p * ext h w m (Z.of_nat y + fst p) (Z.of_nat x + snd p)) grid / rsum (gab_weight w1 w2) grid.
(* Sum of all samples *)
Definition total (h w : nat) (m : list (list R)) : R := sum h (fun y => sum w (fun x => pixel m y x)).

(* ---- edge-preserving filter ---- *)
(* Distance of the surroundings (up to r) of two places, over channels with
   weights *)
Definition sad (r : Z) (h w : nat) (chans : list (list (list R) * R)) (y x : Z) (p : Z * Z) : R :=
  rsum (fun c => snd c * rsum (fun q => Rabs (ext h w (fst c) (y + fst q) (x + snd q) -
                                              ext h w (fst c) (y + fst p + fst q) (x + snd p + snd q))) (around r)) chans.
Definition block_edge (v : nat) : bool := ((v mod 8 =? 0) || (v mod 8 =? 7))%nat%bool.
(* Step 0 mixes with places up to 2 away, steps 1 and 2 with places next to
   the sample; step 2 compares samples, the others their surroundings *)
Definition epf_weight (step : Z) (h w : nat) (chans : list (list (list R) * R)) (edge_mul k : R) (y x : nat) (p : Z * Z) : R :=
  Rmax 0 (1 - (if (block_edge y || block_edge x)%bool then edge_mul else 1) *
              sad (if (step =? 2)%Z then 0 else 1) h w chans (Z.of_nat y) (Z.of_nat x) p * k).
Definition epf_places (step : Z) : list (Z * Z) := around (if (step =? 0)%Z then 2 else 1)%Z.
(* k is inverse to the strength sigma *)
Definition epf_value (step : Z) (h w : nat) (chans : list (list (list R) * R)) (edge_mul k : R) (m : list (list R)) (y x : nat) : R :=
  rsum (fun p => epf_weight step h w chans edge_mul k y x p * ext h w m (Z.of_nat y + fst p) (Z.of_nat x + snd p)) (epf_places step) /
  rsum (epf_weight step h w chans edge_mul k y x) (epf_places step).
(* The factor of step; p0 and p2 are the parameters of steps 0 and 2 *)
Definition epf_scale (p0 p2 : R) (step : Z) : R :=
  165 / 100 * 4 * (1 - sqrt (1 / 2)) * (if (step =? 0)%Z then p0 else if (step =? 2)%Z then p2 else 1).
(* One step: samples of blocks of 8x8 with a strength below 0.3 stay *)
Definition epf_step (step : Z) (p0 p2 edge_mul : R) (h w : nat) (scales : list R) (sigma : nat -> nat -> R) (ms : list (list (list R))) (m : list (list R)) (y x : nat) : R :=
  let s := sigma (y / 8)%nat (x / 8)%nat in
  if Rlt_dec s (3 / 10) then pixel m y x
  else epf_value step h w (combine ms scales) edge_mul (epf_scale p0 p2 step / s) m y x.
(* The steps for a number of iterations, each applied to all channels *)
Definition epf_steps (iterations : Z) : list Z :=
  (if (3 <=? iterations)%Z then [0%Z] else []) ++ [1%Z] ++ (if (2 <=? iterations)%Z then [2%Z] else []).
Fixpoint epf_run (steps : list Z) (p0 p2 edge_mul : R) (h w : nat) (scales : list R) (sigma : nat -> nat -> R) (ms ms' : list (list (list R))) : Prop :=
  match steps with
  | [] => ms' = ms
  | s :: steps' => exists mid, Forall2 (fun m m' => image_of h w (epf_step s p0 p2 edge_mul h w scales sigma ms m) m') ms mid /\
      epf_run steps' p0 p2 edge_mul h w scales sigma mid ms'
  end.
(* The strength of a block (y, x) in a frame whose LF groups, stride in a row,
   have g blocks on a side: of each the multipliers and the sharpness of its
   blocks *)
Definition entry (m : list (list Z)) (y x : nat) : Z := nth x (nth y m []) 0%Z.
Definition epf_strength (g stride : nat) (groups : list (list (list Z) * list (list Z))) (global_scale : Z) (lut : list R) (y x : nat) : R :=
  let group := nth (y / g * stride + x / g) groups ([], []) in
  65536 / IZR global_scale * nth (Z.to_nat (entry (snd group) (y mod g) (x mod g))) lut 0 / IZR (entry (fst group) (y mod g) (x mod g)).

(* ---- upsampling ---- *)
(* Entry (y, x) of the symmetric matrix of n rows whose upper triangle, row
   after row, is l *)
Definition row_start (n a : nat) : nat := fold_right Nat.add 0%nat (map (fun i => (n - i)%nat) (seq 0 a)).
Definition sym_entry (n : nat) (l : list R) (y x : nat) : R :=
  nth (row_start n (Nat.min y x) + (Nat.max y x - Nat.min y x)) l 0.
(* Its rows belong to the places of the first k/2 new samples, five for each;
   the other new samples are mirrored *)
Definition up_row (k ky iy : nat) : nat := if (ky <? k / 2)%nat then (5 * ky + iy)%nat else (5 * (k - 1 - ky) + (4 - iy))%nat.
Definition up_weight (k : nat) (l : list R) (ky kx iy ix : nat) : R := sym_entry (5 * (k / 2)) l (up_row k ky iy) (up_row k kx ix).
Definition window : list (nat * nat) := flat_map (fun iy => map (fun ix => (iy, ix)) (seq 0 5)) (seq 0 5).
Definition lowest (l : list R) : R := match l with [] => 0 | a :: t => fold_right Rmin a t end.
Definition highest (l : list R) : R := match l with [] => 0 | a :: t => fold_right Rmax a t end.
Definition up_samples (h w : nat) (m : list (list R)) (y x : nat) : list R :=
  map (fun p => ext h w m (Z.of_nat y + Z.of_nat (fst p) - 2) (Z.of_nat x + Z.of_nat (snd p) - 2)) window.
Definition up_sum (h w : nat) (m : list (list R)) (weight : nat -> nat -> R) (y x : nat) : R :=
  rsum (fun p => weight (fst p) (snd p) * ext h w m (Z.of_nat y + Z.of_nat (fst p) - 2) (Z.of_nat x + Z.of_nat (snd p) - 2)) window.
(* Sample (Y, X) of the image upsampled by k: the weighted sum of the 5x5
   samples around, kept between the lowest and the highest of them *)
Definition up_value (k : nat) (l : list R) (h w : nat) (m : list (list R)) (Y X : nat) : R :=
  let y := (Y / k)%nat in let x := (X / k)%nat in
  Rmax (lowest (up_samples h w m y x)) (Rmin (highest (up_samples h w m y x)) (up_sum h w m (up_weight k l (Y mod k) (X mod k)) y x)).

(* ---- chroma upsampling ---- *)
(* Twice as many samples: three quarters of the nearest and one quarter of the
   next one *)
Definition next_one (X : nat) : Z := (Z.of_nat (X / 2) + (if Nat.even X then -1 else 1))%Z.
Definition wider (h w : nat) (m : list (list R)) (y X : nat) : R :=
  3 / 4 * pixel m y (X / 2) + 1 / 4 * ext h w m (Z.of_nat y) (next_one X).
Definition taller (h w : nat) (m : list (list R)) (Y x : nat) : R :=
  3 / 4 * pixel m (Y / 2) x + 1 / 4 * ext h w m (next_one Y) (Z.of_nat x).
(* n times twice as wide or high *)
Fixpoint wider_run (n h w : nat) (m m' : list (list R)) : Prop :=
  match n with O => m' = m | S n' => exists mid, image_of h (2 * w) (wider h w m) mid /\ wider_run n' h (2 * w) mid m' end.
Fixpoint taller_run (n h w : nat) (m m' : list (list R)) : Prop :=
  match n with O => m' = m | S n' => exists mid, image_of (2 * h) w (taller h w m) mid /\ taller_run n' (2 * h) w mid m' end.
