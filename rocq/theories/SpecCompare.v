(* When parameter sets are the same. *)
From Coq Require Import ZArith List.
From Verif Require Import ModelImage ModelCompare.
Import ListNotations.
Open Scope Z_scope.

(* the same number *)
Definition same (a b : Float) : Prop := exists n, a = Num n /\ b = Num n.
Definition same_matrix : list (list Float) -> list (list Float) -> Prop := Forall2 (Forall2 same).
Definition same_params (a b : DCTParam) : Prop :=
  mode a = mode b /\ same (denominator a) (denominator b) /\ same_matrix (dctParam a) (dctParam b) /\
  same_matrix (param a) (param b) /\ same_matrix (params4x4 a) (params4x4 b).
Definition number (f : Float) : Prop := f <> NaN.
Definition numbers : list (list Float) -> Prop := Forall (Forall number).
Definition all_numbers (a : DCTParam) : Prop :=
  number (denominator a) /\ numbers (dctParam a) /\ numbers (param a) /\ numbers (params4x4 a).

(* two points less than 10^-4 apart, as the sum of both coordinates *)
Definition close (a b : Z * Z) : Prop := Z.abs (fst a - fst b) + Z.abs (snd a - snd b) < 100.
Definition close_xy (a b : CIEXY) : Prop := exists p q, a = Some p /\ b = Some q /\ close p q.
Definition there (p : CIEPrimaries) : Prop := Red p <> None /\ Green p <> None /\ Blue p <> None.
Definition close_primaries (a b : CIEPrimaries) : Prop := close_xy (Red a) (Red b) /\ close_xy (Green a) (Green b) /\ close_xy (Blue a) (Blue b).
(* the biases may be NaN in both *)
Definition same_opsin (a b : Opsin) : Prop :=
  same_matrix (Matrix a) (Matrix b) /\ OpsinBias a = OpsinBias b /\ QuantBias a = QuantBias b /\
  same (QuantBiasNumerator a) (QuantBiasNumerator b) /\ close_primaries (Primaries a) (Primaries b) /\ close (WhitePoint a) (WhitePoint b).

(* channels that look the same *)
Definition same_channel (a b : ImageBuffer) : Prop :=
  ib_w a = ib_w b /\ ib_h a = ib_h b /\ ib_type a = ib_type b /\
  (ib_type a = TYPE_INT /\ ib_int a = ib_int b \/ ib_type a = TYPE_FLOAT /\ ib_float a = ib_float b).
