(* Independent specification of the samples of a modular channel: the
   self-correcting predictor, the properties of the decision tree and the
   samples that a sequence of residuals stands for, after annex H of ISO/IEC
   18181-1, over unbounded integers.  Neighbours and the other predictors are
   those of SpecModular. *)
From Coq Require Import ZArith List Bool.
From Verif Require Import SpecModular.
Import ListNotations.
Open Scope Z_scope.

Definition Plane := nat -> nat -> Z.   (* row, column *)

(* ---- the self-correcting predictor ---- *)
(* the seven parameters and the four weights of the header *)
Record wp_header := mkWpHeader { h_p1 : Z; h_p2 : Z; h_p3a : Z; h_p3b : Z; h_p3c : Z; h_p3d : Z; h_p3e : Z; h_weights : list Z }.

Section errors.
  Context (w : nat) (F : Plane) (y x : nat).
  (* Errors of neighbours: 0 in the row above the first and left of the first
     column; beside the row above, the error above is repeated. *)
  Definition eN : Z := match y with O => 0 | S y' => F y' x end.
  Definition eW : Z := match x with O => 0 | S x' => F y x' end.
  Definition eWW : Z := match x with S (S x') => F y x' | _ => 0 end.
  Definition eNW : Z := match y, x with S y', S x' => F y' x' | _, _ => eN end.
  Definition eNE : Z := match y with S y' => if (x + 1 <? w)%nat then F y' (x + 1)%nat else eN | O => 0 end.
  (* in the last column the error on the left counts twice *)
  Definition error_sum : Z := eN + eW + eNW + eWW + eNE + (if (x + 1 =? w)%nat then eW else 0).
End errors.

Section weighted_predictor.
  Context (hd : wp_header) (w : nat) (I : Plane) (E : nat -> Plane) (T : Plane) (y x : nat).
  (* the four sub-predictions, times 8; T are the errors of the predictor *)
  Definition sub (i : nat) : Z :=
    let W := 8 * nW I y x in let N := 8 * nN I y x in let NW := 8 * nNW I y x in let NE := 8 * nNE w I y x in let NN := 8 * nNN I y x in
    match i with
    | 0%nat => W + NE - N
    | 1%nat => N - ((eW T y x + eN T y x + eNE w T y x) * h_p1 hd) / 32
    | 2%nat => W - ((eW T y x + eN T y x + eNW T y x) * h_p2 hd) / 32
    | _ => N - (eNW T y x * h_p3a hd + eN T y x * h_p3b hd + eNE w T y x * h_p3c hd + (NN - N) * h_p3d hd + (NW - W) * h_p3e hd) / 32
    end.
  (* the weight of a sub-prediction: about weight / (error + 1), by division
     with six significant bits *)
  Definition trust (i : nat) : Z :=
    let e := error_sum w (E i) y x in
    let s := Z.max 0 (Z.log2 (e + 1) - 5) in
    4 + (nth i (h_weights hd) 0 * (2 ^ 24 / (e / 2 ^ s + 1))) / 2 ^ s.
  Definition sum4 (f : nat -> Z) : Z := f 0%nat + f 1%nat + f 2%nat + f 3%nat.
  (* weights scaled to a sum of about 16 to 31 *)
  Definition scaled (i : nat) : Z := trust i / 2 ^ (Z.log2 (sum4 trust) - 4).
  Definition average : Z :=
    ((sum4 (fun i => scaled i * sub i) + (sum4 scaled / 2 - 1)) * (2 ^ 24 / sum4 scaled)) / 2 ^ 24.
  (* The average is limited to the range of the neighbours W, N and NE, unless
     the errors of W, N and NW have the same sign and are not all the same. *)
  Definition limited_range : bool :=
    negb (Bool.eqb (eN T y x <? 0) (eW T y x <? 0)) || negb (Bool.eqb (eN T y x <? 0) (eNW T y x <? 0)) ||
    (eN T y x =? eW T y x) && (eN T y x =? eNW T y x).
  Definition weighted_prediction : Z :=
    let lo := Z.min (nW I y x) (Z.min (nN I y x) (nNE w I y x)) in
    let hi := Z.max (nW I y x) (Z.max (nN I y x) (nNE w I y x)) in
    if limited_range then Z.max (8 * lo) (Z.min (8 * hi) average) else average.
  (* property 15: the error of largest size, the first of W, N, NW, NE *)
  Definition larger (a b : Z) : Z := if Z.abs a <? Z.abs b then b else a.
  Definition largest_error : Z := larger (larger (larger (eW T y x) (eN T y x)) (eNW T y x)) (eNE w T y x).
End weighted_predictor.

(* E and T are the errors of the four sub-predictions and of the predictor for
   a channel of h rows and w columns *)
Definition error_history (hd : wp_header) (h w : nat) (I : Plane) (E : nat -> Plane) (T : Plane) : Prop :=
  forall y x, (y < h)%nat -> (x < w)%nat ->
    T y x = weighted_prediction hd w I E T y x - 8 * I y x /\
    forall i, (i < 4)%nat -> E i y x = (Z.abs (sub hd w I T y x i - 8 * I y x) + 3) / 8.

(* ---- properties of the decision tree ---- *)
(* of an earlier channel R: the sample and its difference from the gradient
   prediction, with and without sign *)
Definition reference_property (R : Plane) (y x : nat) (k : Z) : Z :=
  let v := R y x in
  let left := match x with O => 0 | S x' => R y x' end in
  let top := match y with O => left | S y' => R y' x end in
  let topleft := match y, x with S y', S x' => R y' x' | _, _ => left end in
  let d := v - Z.max (Z.min left top) (Z.min (Z.max left top) (left + top - topleft)) in
  if k =? 0 then Z.abs v else if k =? 1 then v else if k =? 2 then Z.abs d else d.
(* refs: the earlier channels of the same size and shifts, the last one first *)
Definition property (w : nat) (I : Plane) (refs : list Plane) (channel stream : Z) (y x : nat) (worst : Z) (k : Z) : Z :=
  let W := nW I y x in let N := nN I y x in let NW := nNW I y x in
  if k =? 0 then channel
  else if k =? 1 then stream
  else if k =? 2 then Z.of_nat y
  else if k =? 3 then Z.of_nat x
  else if k =? 4 then Z.abs N
  else if k =? 5 then Z.abs W
  else if k =? 6 then N
  else if k =? 7 then W
  else if k =? 8 then W - match x with O => 0 | S x' => nW I y x' + nN I y x' - nNW I y x' end
  else if k =? 9 then W + N - NW
  else if k =? 10 then W - NW
  else if k =? 11 then NW - N
  else if k =? 12 then N - nNE w I y x
  else if k =? 13 then N - nNN I y x
  else if k =? 14 then W - nWW I y x
  else if k =? 15 then worst
  else match nth_error refs (Z.to_nat ((k - 16) / 4)) with Some R => reference_property R y x ((k - 16) mod 4) | None => 0 end.
