(* Independent specification of the modular transforms and predictors, after
   the JPEG XL standard (annexes H and I of ISO/IEC 18181-1): forward squeeze,
   forward colour transforms, neighbours and predictors. *)
From Coq Require Import ZArith List Bool.
From Verif Require Import GoBase GoLoop GoMatrix.
Import ListNotations.
Open Scope Z_scope.

(* ---- squeeze ---- *)
(* The tendency over unbounded integers. *)
Definition tend (a b c : Z) : Z :=
  if (b <=? a) && (c <=? b) then
    let x := (4 * a - 3 * c - b + 6) / 12 in
    let x := if 2 * (a - b) <? x - x mod 2 then 2 * (a - b) + 1 else x in
    if 2 * (b - c) <? x + x mod 2 then 2 * (b - c) else x
  else if (a <=? b) && (b <=? c) then
    let x := - ((3 * c + b - 4 * a + 6) / 12) in
    let x := if x + x mod 2 <? 2 * (a - b) then 2 * (a - b) - 1 else x in
    if x - x mod 2 <? 2 * (b - c) then 2 * (b - c) else x
  else 0.

(* The forward squeeze of a line s(0..n-1) with tendency t: averages of
   pairs (rounded towards the first sample), an odd last sample is kept; the
   residual is the difference minus the tendency of (previous second sample,
   average, next average). *)
Definition avg2 (a b : Z) : Z := (a + b + (if b <? a then 1 else 0)) / 2.
Definition sq_avg (n : nat) (s : nat -> Z) (i : nat) : Z :=
  if (2 * i + 1 <? n)%nat then avg2 (s (2 * i)%nat) (s (2 * i + 1)%nat) else s (2 * i)%nat.
Definition sq_res (t : Z -> Z -> Z -> Z) (n : nat) (s : nat -> Z) (i : nat) : Z :=
  let avg := sq_avg n s i in
  let left := match i with O => avg | _ => s (2 * i - 1)%nat end in
  let next := if (2 * (i + 1) <? n)%nat then sq_avg n s (i + 1) else avg in
  s (2 * i)%nat - s (2 * i + 1)%nat - t left avg next.

Definition squeezeH_avg (h w : nat) (A : list (list Z)) : list (list Z) := mat h ((w + 1) / 2) (fun y i => sq_avg w (px A y) i).
Definition squeezeH_res t (h w : nat) (A : list (list Z)) : list (list Z) := mat h (w / 2) (fun y i => sq_res t w (px A y) i).
Definition squeezeV_avg (h w : nat) (A : list (list Z)) : list (list Z) := mat ((h + 1) / 2) w (fun i x => sq_avg h (fun y => px A y x) i).
Definition squeezeV_res t (h w : nat) (A : list (list Z)) : list (list Z) := mat (h / 2) w (fun i x => sq_res t h (fun y => px A y x) i).

Definition samples_within (b : Z) (A : list (list Z)) : Prop := Forall (Forall (fun v => - b <= v <= b)) A.
Definition samples_i32 (A : list (list Z)) : Prop := Forall (Forall (fun v => - 2 ^ 31 <= v < 2 ^ 31)) A.

(* ---- reversible colour transforms ---- *)
(* 32-bit two's complement *)
Definition wrap (v : Z) : Z := (v + 2 ^ 31) mod 2 ^ 32 - 2 ^ 31.
(* where the three planes of permutation p go *)
Definition rct_position (p j : Z) : Z :=
  if j =? 0 then p mod 3 else if j =? 1 then (p + 1 + p / 3) mod 3 else (p + 2 - p / 3) mod 3.
(* forward transform of type t on (first, second, third) *)
Definition rct_forward (t a b c : Z) : Z * Z * Z :=
  if t =? 6 then
    let co := wrap (a - c) in
    let tmp := wrap (c + co / 2) in
    let cg := wrap (b - tmp) in
    (wrap (tmp + cg / 2), co, cg)
  else
    (a,
     (if t / 2 =? 1 then wrap (b - a) else if t / 2 =? 2 then wrap (b - wrap (a + c) / 2) else b),
     (if t mod 2 =? 1 then wrap (c - a) else c)).
Definition fst3 (p : Z * Z * Z) : Z := fst (fst p).
Definition snd3 (p : Z * Z * Z) : Z := snd (fst p).
Definition thd3 (p : Z * Z * Z) : Z := snd p.
Definition plane (h w : nat) (f : Z * Z * Z -> Z) (t : Z) (A B C : list (list Z)) : list (list Z) :=
  mat h w (fun y x => f (rct_forward t (px A y x) (px B y x) (px C y x))).

(* ---- predictors ---- *)
Section neighbours.
  Context (w : nat) (I : nat -> nat -> Z) (y x : nat).   (* I row column *)
  Definition nW : Z := if (0 <? x)%nat then I y (x - 1)%nat else if (0 <? y)%nat then I (y - 1)%nat x else 0.
  Definition nN : Z := if (0 <? y)%nat then I (y - 1)%nat x else nW.
  Definition nNW : Z := if (0 <? x)%nat && (0 <? y)%nat then I (y - 1)%nat (x - 1)%nat else nW.
  Definition nNE : Z := if (x + 1 <? w)%nat && (0 <? y)%nat then I (y - 1)%nat (x + 1)%nat else nN.
  Definition nNN : Z := if (1 <? y)%nat then I (y - 2)%nat x else nN.
  Definition nNEE : Z := if (x + 2 <? w)%nat && (0 <? y)%nat then I (y - 1)%nat (x + 2)%nat else nNE.
  Definition nWW : Z := if (1 <? x)%nat then I y (x - 2)%nat else nW.
  (* division rounding towards zero *)
  Definition idiv (a b : Z) : Z := if a <? 0 then - ((- a) / b) else a / b.
  (* the predictor k; P is the output of the self-correcting predictor *)
  Definition predictor (k : Z) (P : Z) : Z :=
    if k =? 0 then 0
    else if k =? 1 then nW
    else if k =? 2 then nN
    else if k =? 3 then idiv (nW + nN) 2
    else if k =? 4 then (if Z.abs (nN - nNW) <? Z.abs (nW - nNW) then nW else nN)
    else if k =? 5 then Z.min (Z.max (nW + nN - nNW) (Z.min nW nN)) (Z.max nW nN)
    else if k =? 6 then (P + 3) / 8
    else if k =? 7 then nNE
    else if k =? 8 then nNW
    else if k =? 9 then nWW
    else if k =? 10 then idiv (nW + nNW) 2
    else if k =? 11 then idiv (nN + nNW) 2
    else if k =? 12 then idiv (nN + nNE) 2
    else idiv (6 * nN - 2 * nNN + 7 * nW + nWW + nNEE + 3 * nNE + 8) 16.
End neighbours.

(* (y', x') comes before (y, x) in decoding order *)
Definition before (y' x' y x : nat) : Prop := (y' < y \/ y' = y /\ x' < x)%nat.
