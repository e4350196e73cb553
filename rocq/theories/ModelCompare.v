(* Comparisons of parameter sets: frame/dctparams.go, colour/OpsinInverseMatrix.go:177-213
   and the comparisons they call.

   Simplifications: a float is NaN or a number, of which only the order is kept (0 and -0
   are the same number).  Chromaticities are whole multiples of 10^-6, as they are when
   read (colour/CustomXY.go:22-37), and their distances are exact. *)
From Coq Require Import ZArith List Bool.
From Verif Require Import GoBase ModelHelpers.
Import ListNotations.
Open Scope Z_scope.

Local Notation "x <o- m ;; k" := (obind m (fun x => k)) (at level 60, m at next level, right associativity).

Inductive Float := NaN | Num (n : Z).
(* a == b *)
Definition fEq (a b : Float) : bool := match a, b with Num x, Num y => x =? y | _, _ => false end.
(* cmp.Compare of the standard library, as documented: NaN is equal to NaN and less than
   every number *)
Definition fCompare (a b : Float) : Z :=
  match a, b with
  | NaN, NaN => 0
  | NaN, Num _ => -1
  | Num _, NaN => 1
  | Num x, Num y => if x <? y then -1 else if x >? y then 1 else 0
  end.
(* slices.Compare of the standard library, as documented *)
Fixpoint slicesCompare (a b : list Float) : Z :=
  match a, b with
  | [], [] => 0
  | [], _ :: _ => -1
  | _ :: _, [] => 1
  | x :: a, y :: b => let c := fCompare x y in if negb (c =? 0) then c else slicesCompare a b
  end.
(* util/misc.go:45-63; the loops over rows and elements are those of CompareMatrix3D *)
Definition CompareMatrix2D {T} (compare : T -> T -> bool) (a b : list (list T)) : bool :=
  if negb (length a =? length b)%nat then false else compareRows compare a b.

(* frame/dctparams.go:5-11 *)
Record DCTParam := mkDCTParam { dctParam : list (list Float); param : list (list Float); mode : Z; denominator : Float; params4x4 : list (list Float) }.
(* frame/dctparams.go:18-51 *)
Definition Equals (dct other : DCTParam) : bool :=
  if negb (mode dct =? mode other) then false
  else if negb (fEq (denominator dct) (denominator other)) then false
  else if negb (length (dctParam dct) =? length (dctParam other))%nat then false
  else if negb (length (param dct) =? length (param other))%nat then false
  else if negb (CompareMatrix2D fEq (dctParam dct) (dctParam other)) then false
  else if negb (CompareMatrix2D fEq (param dct) (param other)) then false
  else if negb (CompareMatrix2D fEq (params4x4 dct) (params4x4 other)) then false
  else true.
(* frame/dctparams.go:53-61 *)
Definition NewDCTParam : DCTParam := mkDCTParam [] [] 0 (Num 0) [].

(* colour/CIEXY.go:10-13, in units of 10^-6; None is nil *)
Definition CIEXY := option (Z * Z).
(* colour/CIEXY.go:22-28 *)
Definition xyMatches (cxy b : CIEXY) : Outcome bool :=
  match b with
  | None => Ok false
  | Some (bX, bY) => match cxy with None => Panic | Some (X, Y) => Ok (Z.abs (X - bX) + Z.abs (Y - bY) <? 100) end
  end.
(* colour/CIEPrimaries.go:3-7 and 17-23; b is not nil *)
Record CIEPrimaries := mkPrim { Red : CIEXY; Green : CIEXY; Blue : CIEXY }.
Definition primMatches (cp b : CIEPrimaries) : Outcome bool :=
  r <o- xyMatches (Red cp) (Red b) ;; if negb r then Ok false else
  g <o- xyMatches (Green cp) (Green b) ;; if negb g then Ok false else
  xyMatches (Blue cp) (Blue b).

(* colour/OpsinInverseMatrix.go, the fields that are compared *)
Record Opsin := mkOpsin { Matrix : list (list Float); OpsinBias : list Float; QuantBias : list Float; QuantBiasNumerator : Float;
  Primaries : CIEPrimaries; WhitePoint : Z * Z }.
(* colour/OpsinInverseMatrix.go:178-213 *)
Definition Matches (oim other : Opsin) : Outcome bool :=
  if negb (CompareMatrix2D fEq (Matrix oim) (Matrix other)) then Ok false
  else if negb (slicesCompare (OpsinBias oim) (OpsinBias other) =? 0) then Ok false
  else if negb (slicesCompare (QuantBias oim) (QuantBias other) =? 0) then Ok false
  else if negb (fEq (QuantBiasNumerator oim) (QuantBiasNumerator other)) then Ok false
  else
  r <o- xyMatches (Red (Primaries oim)) (Red (Primaries other)) ;; if negb r then Ok false else
  g <o- xyMatches (Green (Primaries oim)) (Green (Primaries other)) ;; if negb g then Ok false else
  b <o- xyMatches (Blue (Primaries oim)) (Blue (Primaries other)) ;; if negb b then Ok false else
  w <o- xyMatches (Some (WhitePoint oim)) (Some (WhitePoint other)) ;; if negb w then Ok false else
  Ok true.
