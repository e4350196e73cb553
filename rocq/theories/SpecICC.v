(* Independent specification: byte de-interleaving, ICC header prediction,
   an encoder for ICC profiles. *)
From Coq Require Import ZArith List Bool.
From Verif Require Import SpecBitReader SpecCodes.
Import ListNotations.
Open Scope Z_scope.

(* The bytes of b, written column by column into h rows of w columns, read
   row by row. *)
Definition deinterleaved (b r : list Z) (w h : nat) : Prop :=
  length r = length b /\ forall j, (j < length b)%nat -> nth j r 0 = nth ((j mod w) * h + j / w) b 0.

(* Predicted ICC header byte i of a profile of n bytes, given the bytes
   before it. *)
Definition str_mntrRGB_XYZ : list Z := [109; 110; 116; 114; 82; 71; 66; 32; 88; 89; 90; 32].
Definition str_acsp : list Z := [97; 99; 115; 112].
Definition platform (p : list Z) (i : nat) : Z :=
  match nth 40 p 0, nth 41 p 0, i with
  | 65, _, 41%nat => 80 | 65, _, 42%nat => 80 | 65, _, 43%nat => 76     (* APPL *)
  | 77, _, 41%nat => 83 | 77, _, 42%nat => 70 | 77, _, 43%nat => 84     (* MSFT *)
  | 83, 71, 42%nat => 73 | 83, 71, 43%nat => 32                         (* SGI  *)
  | 83, 85, 42%nat => 78 | 83, 85, 43%nat => 87                         (* SUNW *)
  | _, _, _ => 0
  end.
Definition icc_predict (n : Z) (p : list Z) (i : nat) : Z :=
  if (i <? 4)%nat then n / 256 ^ (3 - Z.of_nat i)
  else if (i =? 8)%nat then 4
  else if ((12 <=? i) && (i <? 24))%nat then nth (i - 12) str_mntrRGB_XYZ 0
  else if ((36 <=? i) && (i <? 40))%nat then nth (i - 36) str_acsp 0
  else if ((41 <=? i) && (i <? 44))%nat then platform p i
  else if (i =? 70)%nat then 246 else if (i =? 71)%nat then 214 else if (i =? 73)%nat then 1
  else if (i =? 78)%nat then 211 else if (i =? 79)%nat then 45
  else if ((80 <=? i) && (i <? 84))%nat then nth (i - 76) p 0
  else 0.

(* Prediction residuals of the first k bytes *)
Definition residuals (P : list Z) (k : nat) : list Z :=
  map (fun i => (nth i P 0 - icc_predict (Z.of_nat (length P)) P i) mod 256) (seq 0 k).

Definition be32 (l : list Z) : Z := nth 0 l 0 * 2 ^ 24 + nth 1 l 0 * 2 ^ 16 + nth 2 l 0 * 2 ^ 8 + nth 3 l 0.

(* Encodings of a profile: header only; header, tag count, raw rest. *)
Inductive icc_encoding (P : list Z) : list Z -> Prop :=
| enc_short size zero : (length P <= 128)%nat ->
    varint size (Z.of_nat (length P)) -> varint zero 0 ->
    icc_encoding P (size ++ zero ++ residuals P (length P))
| enc_tags size csize tc num : (132 <= length P)%nat ->
    varint size (Z.of_nat (length P)) ->
    varint csize (Z.of_nat (length (tc ++ [0; 1] ++ num))) ->
    varint tc (be32 (skipn 128 P) + 1) ->
    varint num (Z.of_nat (length P - 132)) ->
    icc_encoding P (size ++ csize ++ (tc ++ [0; 1] ++ num) ++ residuals P 128 ++ skipn 132 P)
| enc_raw size csize num : (129 <= length P)%nat ->
    varint size (Z.of_nat (length P)) ->
    varint csize (Z.of_nat (length ([0; 1] ++ num))) ->
    varint num (Z.of_nat (length P - 128)) ->
    icc_encoding P (size ++ csize ++ ([0; 1] ++ num) ++ residuals P 128 ++ skipn 128 P).

(* Byte classes of the ICC entropy contexts *)
Inductive kind1 : Z -> Z -> Prop :=
| k1_lower b : 97 <= b <= 122 -> kind1 b 0
| k1_upper b : 65 <= b <= 90 -> kind1 b 0
| k1_digit b : 48 <= b <= 57 -> kind1 b 1
| k1_dot : kind1 46 1
| k1_comma : kind1 44 1
| k1_zero : kind1 0 2
| k1_one : kind1 1 3
| k1_small b : 2 <= b <= 15 -> kind1 b 4
| k1_large b : 241 <= b <= 254 -> kind1 b 5
| k1_max : kind1 255 6
| k1_other b : 16 <= b <= 240 -> b <> 46 -> b <> 44 -> ~ 48 <= b <= 57 -> ~ 65 <= b <= 90 -> ~ 97 <= b <= 122 -> kind1 b 7.
Inductive kind2 : Z -> Z -> Prop :=
| k2_lower b : 97 <= b <= 122 -> kind2 b 0
| k2_upper b : 65 <= b <= 90 -> kind2 b 0
| k2_digit b : 48 <= b <= 57 -> kind2 b 1
| k2_dot : kind2 46 1
| k2_comma : kind2 44 1
| k2_small b : 0 <= b <= 15 -> kind2 b 2
| k2_large b : 241 <= b <= 255 -> kind2 b 3
| k2_other b : 16 <= b <= 240 -> b <> 46 -> b <> 44 -> ~ 48 <= b <= 57 -> ~ 65 <= b <= 90 -> ~ 97 <= b <= 122 -> kind2 b 4.

(* Storage of a symmetric n x n matrix: upper triangle, row by row.  Row t
   has n - t stored entries. *)
Fixpoint rows_before (n : Z) (y : nat) : Z :=
  match y with O => 0 | S t => rows_before n t + (n - Z.of_nat t) end.
Definition sym_index (n a b : Z) : Z := rows_before n (Z.to_nat (Z.min a b)) + (Z.max a b - Z.min a b).
(* Kernel tap t of subpixel p for k-fold upsampling, counted from the nearer
   end of the row of 5*k taps. *)
Definition tap (k p t : Z) : Z := Z.min (5 * p + t) (5 * k - 1 - (5 * p + t)).
