(* Specification of the weights of HF coefficients, in real arithmetic. *)
From Coq Require Import ZArith List Bool Arith Reals.
From Verif Require Import SpecDCT.
Import ListNotations.
Open Scope R_scope.

(* A parameter p multiplies by 1 + |p| or divides by it *)
Definition ratio (p : R) : R := if Rlt_dec p 0 then / (1 + Rabs p) else 1 + Rabs p.
(* The bands given by a list of parameters: the first is the value of band 0 *)
Fixpoint band (p : list R) (k : nat) : R :=
  match k with O => nth 0 p 0 | S k' => band p k' * ratio (nth k p 0) end.
(* The curve through l+1 positive bands at 0, 1, ..., l that is linear in
   between when drawn on a logarithmic scale *)
Definition log_curve (b : nat -> R) (l : nat) (t v : R) : Prop :=
  0 < v /\ ((l = 0%nat /\ v = b 0%nat) \/
  exists k, (k + 1 <= l)%nat /\ INR k <= t <= INR k + 1 /\ ln v = ln (b k) + (t - INR k) * (ln (b (k + 1)%nat) - ln (b k))).
(* Distance of row y and column x of h and w from the corner, so that the
   opposite corner is (just before) the last band *)
Definition radius (l h w y x : nat) : R :=
  INR l / (sqrt 2 + 1e-6) * sqrt ((INR x / INR (w - 1)) ^ 2 + (INR y / INR (h - 1)) ^ 2).
Definition dct_weight (h w : nat) (p : list R) (y x : nat) (v : R) : Prop :=
  log_curve (band p) (length p - 1) (radius (length p - 1) h w y x) v.

(* Layouts for blocks of eight by eight *)
Definition at_ (y x y' x' : nat) : bool := (y =? y')%nat && (x =? x')%nat.
Definition hornuss_weight (p : list R) (y x : nat) : R :=
  if at_ y x 0 0 then 1 else if (y + x =? 1)%nat then nth 1 p 0 else if at_ y x 1 1 then nth 2 p 0 else nth 0 p 0.
(* squares of 1, 2, 4 and 8: two values for each, outside the diagonal and on it *)
Definition dct2_weight (p : list R) (y x : nat) : R :=
  let far := Nat.max y x in let near := Nat.min y x in
  if (far <? 1)%nat then 1
  else if (far <? 2)%nat then nth (if (near <? 1)%nat then 0 else 1) p 0
  else if (far <? 4)%nat then nth (if (near <? 2)%nat then 2 else 3) p 0
  else nth (if (near <? 4)%nat then 4 else 5) p 0.
Definition dct4_divisor (p : list R) (y x : nat) : R :=
  if (y + x =? 1)%nat then nth 0 p 0 else if at_ y x 1 1 then nth 1 p 0 else 1.
Definition dct48_divisor (p : list R) (y x : nat) : R := if at_ y x 1 0 then nth 0 p 0 else 1.
(* Corner transforms: odd rows belong to the 4x8 half, odd columns of even
   rows to the 4x4 quarter, the rest to the corner, where the first entries
   are given and the others lie on the curve through four bands at a frequency.
   n is the number of bands the range of frequencies is spread over. *)
Definition afv_freqs : list R := [0; 0; 0.8517778890324296; 5.37778436506804;
  0; 0; 4.734747904497923; 5.449245381693219; 1.6598270267479331; 4; 7.275749096817861; 10.423227632456525;
  2.662932286148962; 7.630657783650829; 8.962388608184032; 12.97166202570235].
Definition afv_pos (n : R) (i j : nat) : R :=
  n * ((nth (j * 4 + i) afv_freqs 0 - 0.8517778890324296) / (12.97166202570235 - 0.8517778890324296)).
Definition afv_weight (n : R) (p48 p44 p : list R) (y x : nat) (v : R) : Prop :=
  if at_ y x 0 0 then v = 1
  else if at_ y x 1 0 then v = nth 0 p 0
  else if at_ y x 0 1 then v = nth 1 p 0
  else if at_ y x 2 0 then v = nth 2 p 0
  else if at_ y x 0 2 then v = nth 3 p 0
  else if at_ y x 2 2 then v = nth 4 p 0
  else if Nat.odd y then dct_weight 4 8 p48 (y / 2) x v
  else if Nat.odd x then dct_weight 4 4 p44 (y / 2) (x / 2) v
  else log_curve (band (skipn 5 p)) 3 (afv_pos n (y / 2) (x / 2)) v.

(* Sizes of the weight tables *)
Definition weight_rows : list nat := [8; 8; 8; 8; 16; 32; 8; 8; 16; 8; 8; 64; 32; 128; 64; 256; 128]%nat.
Definition weight_columns : list nat := [8; 8; 8; 8; 16; 32; 16; 32; 32; 8; 8; 64; 64; 128; 128; 256; 256]%nat.

(* Parameters of a table: the first band is positive and so are the values
   that are weights or divisors; the given mode is allowed for the table *)
Definition positive (l : list R) : Prop := Forall (fun v => 0 < v) l.
Definition starts_positive (l : list R) : Prop := exists a r, l = a :: r /\ 0 < a.
Definition small_table (index : nat) : bool := (index <=? 3)%nat || (index =? 9)%nat || (index =? 10)%nat.
Definition valid_params (mode : Z) (index : nat) (dct p p44 : nat -> list R) : Prop :=
  (index < 17)%nat /\ forall c, (c < 3)%nat ->
  match mode with
  | 1%Z => small_table index = true /\ length (p c) = 3%nat /\ positive (p c)
  | 2%Z => small_table index = true /\ length (p c) = 6%nat /\ positive (p c)
  | 3%Z => small_table index = true /\ starts_positive (dct c) /\ length (p c) = 2%nat /\ positive (p c)
  | 4%Z => small_table index = true /\ starts_positive (dct c) /\ length (p c) = 1%nat /\ positive (p c)
  | 5%Z => small_table index = true /\ starts_positive (dct c) /\ starts_positive (p44 c) /\ length (p c) = 9%nat /\ positive (firstn 6 (p c))
  | 6%Z => starts_positive (dct c)
  | 7%Z => length (p c) = (nth index weight_rows 0 * nth index weight_columns 0)%nat
  | _ => False
  end.
(* v is the step size of row y, column x of channel c: the inverse of a
   weight, or given directly *)
Definition hf_step (n : R) (mode : Z) (index : nat) (dct p p44 : list R) (den : R) (y x : nat) (v : R) : Prop :=
  let h := nth index weight_rows 0%nat in let w := nth index weight_columns 0%nat in
  match mode with
  | 1%Z => v = / hornuss_weight p y x
  | 2%Z => v = / dct2_weight p y x
  | 3%Z => exists u, dct_weight 4 4 dct (y / 2) (x / 2) u /\ v * u = dct4_divisor p y x
  | 4%Z => exists u, dct_weight 4 8 dct (y / 2) x u /\ v * u = dct48_divisor p y x
  | 5%Z => exists u, afv_weight n dct p44 p y x u /\ v * u = 1
  | 6%Z => exists u, dct_weight h w dct y x u /\ v * u = 1
  | 7%Z => v = nth (y * w + x) p 0 * den
  | _ => False
  end.
