(* Discrete cosine transforms: util/MathsHelper.go:20-34 (cosineLUT), 314-321
   (TransposeMatrixInto), 339-433 (InverseDCT2D, inverseDCTHorizontal,
   ForwardDCT2D, forwardDCTHorizontal), and the variable block transforms of
   frame/PassGroup.go:108-283 and 410-436.

   Simplifications:
   - float32 and float64 numbers are exact real numbers (standard library
     type R), so rounding, overflow and NaN are not modelled;
   - index arithmetic is exact: positions are far below 2^31;
   - the matrices passed to one call do not share rows, so each is a value of
     its own; a function returns the new value of every matrix it writes;
   - the debug output of PassGroup.go is left out. *)
From Coq Require Import ZArith List Bool Reals.
From Verif Require Import GoBase GoLoop ModelUtil.
Import ListNotations.
Open Scope Z_scope.

Local Notation "x <o- m ;; k" := (obind m (fun x => k)) (at level 61, m at next level, right associativity).

(* m[y][x] and m[y][x] = v *)
Definition rget2 (m : list (list R)) (y x : Z) : Outcome R := r <o- slice_get m y ;; slice_get r x.
Definition rset2 (m : list (list R)) (y x : Z) (v : R) : Outcome (list (list R)) :=
  r <o- slice_get m y ;; r' <o- slice_set r x v ;; slice_set m y r'.

(* util/MathsHelper.go:20-34, generateCosineLUT *)
Definition cosineLUT : list (list (list R)) :=
  map (fun l =>
    let s := Nat.pow 2 l in
    map (fun n => map (fun k => (sqrt 2 * cos (PI * (INR n + 1) * (INR k + 1 / 2) / INR s))%R) (seq 0 s)) (seq 0 (s - 1)))
  (seq 0 9).

(* util/MathsHelper.go:374-392, inverseDCTHorizontal *)
Definition inverseDCTHorizontal (src dest : list R) (xStartIn xStartOut xLogLength : Z) (xLength : nat) : Outcome (list R) :=
  dest <o- oloop xLength 0 (fun i dest => v <o- slice_get src xStartIn ;; slice_set dest (xStartOut + Z.of_nat i) v) dest ;;
  lutX <o- slice_get cosineLUT xLogLength ;;
  oloop (xLength - 1) 1 (fun n dest =>
    lut <o- slice_get lutX (Z.of_nat n - 1) ;;
    s2 <o- slice_get src (xStartIn + Z.of_nat n) ;;
    oloop xLength 0 (fun k dest =>
      d <o- slice_get dest (xStartOut + Z.of_nat k) ;;
      c <o- slice_get lut (Z.of_nat k) ;;
      slice_set dest (xStartOut + Z.of_nat k) (d + s2 * c)%R) dest) dest.

(* util/MathsHelper.go:415-433, forwardDCTHorizontal *)
Definition forwardDCTHorizontal (src dest : list R) (xStartIn xStartOut xLogLength : Z) (xLength : nat) : Outcome (list R) :=
  let invLength := (1 / INR xLength)%R in
  d0 <o- slice_get src xStartIn ;;
  d2 <o- oloop (xLength - 1) 1 (fun x d2 => v <o- slice_get src (xStartIn + Z.of_nat x) ;; Ok (d2 + v)%R) d0 ;;
  dest <o- slice_set dest xStartOut (d2 * invLength)%R ;;
  oloop (xLength - 1) 1 (fun k dest =>
    lutX <o- slice_get cosineLUT xLogLength ;;
    lut <o- slice_get lutX (Z.of_nat k - 1) ;;
    c0 <o- slice_get lut 0 ;;
    d2 <o- oloop (xLength - 1) 1 (fun n d2 =>
      v <o- slice_get src (xStartIn + Z.of_nat n) ;;
      c <o- slice_get lut (Z.of_nat n) ;; Ok (d2 + v * c)%R) (d0 * c0)%R ;;
    slice_set dest (xStartOut + Z.of_nat k) (d2 * invLength)%R) dest.

(* util/MathsHelper.go:314-321, TransposeMatrixInto; points are (Y, X) *)
Definition TransposeMatrixInto (src dest : list (list R)) (srcStart destStart : Z * Z) (sizeY sizeX : nat) : Outcome (list (list R)) :=
  oloop sizeY 0 (fun y dest =>
    srcY <o- slice_get src (Z.of_nat y + fst srcStart) ;;
    oloop sizeX 0 (fun x dest =>
      v <o- slice_get srcY (snd srcStart + Z.of_nat x) ;;
      rset2 dest (fst destStart + Z.of_nat x) (snd destStart + Z.of_nat y) v) dest) dest.

(* for y := 0; y < n; y++ { f(src[sy+y], dest[dy+y]) } with f writing to its second row *)
Definition eachRow (n : nat) (f : list R -> list R -> Outcome (list R)) (src dest : list (list R)) (sy dy : Z) : Outcome (list (list R)) :=
  oloop n 0 (fun y dest =>
    s <o- slice_get src (sy + Z.of_nat y) ;;
    d <o- slice_get dest (dy + Z.of_nat y) ;;
    d' <o- f s d ;;
    slice_set dest (dy + Z.of_nat y) d') dest.

(* util/MathsHelper.go:339-369, InverseDCT2D; returns dest, scratchSpace0, scratchSpace1 *)
Definition InverseDCT2D (src dest : list (list R)) (startIn startOut : Z * Z) (height width : nat)
    (s0 s1 : list (list R)) (transposed : bool) : Outcome (list (list R) * list (list R) * list (list R)) :=
  let logHeight := CeilLog2_u32 (Z.of_nat height) in
  let logWidth := CeilLog2_u32 (Z.of_nat width) in
  if transposed then
    s1 <o- eachRow height (fun s d => inverseDCTHorizontal s d (snd startIn) 0 logWidth width) src s1 (fst startIn) 0 ;;
    s0 <o- TransposeMatrixInto s1 s0 (0, 0) (0, 0) height width ;;
    dest <o- eachRow width (fun s d => inverseDCTHorizontal s d 0 (snd startOut) logHeight height) s0 dest 0 (fst startOut) ;;
    Ok (dest, s0, s1)
  else
    s0 <o- TransposeMatrixInto src s0 startIn (0, 0) height width ;;
    s1 <o- eachRow width (fun s d => inverseDCTHorizontal s d 0 0 logHeight height) s0 s1 0 0 ;;
    s0 <o- TransposeMatrixInto s1 s0 (0, 0) (0, 0) width height ;;
    dest <o- eachRow height (fun s d => inverseDCTHorizontal s d 0 (snd startOut) logWidth width) s0 dest 0 (fst startOut) ;;
    Ok (dest, s0, s1).

(* util/MathsHelper.go:394-413, ForwardDCT2D; returns dest, scratchSpace0, scratchSpace1 *)
Definition ForwardDCT2D (src dest : list (list R)) (startIn startOut : Z * Z) (height width : nat)
    (s0 s1 : list (list R)) : Outcome (list (list R) * list (list R) * list (list R)) :=
  let yLogLength := CeilLog2_u32 (Z.of_nat height) in
  let xLogLength := CeilLog2_u32 (Z.of_nat width) in
  s0 <o- eachRow height (fun s d => forwardDCTHorizontal s d (snd startIn) 0 xLogLength width) src s0 (fst startIn) 0 ;;
  s1 <o- TransposeMatrixInto s0 s1 (0, 0) (0, 0) height width ;;
  s0 <o- eachRow width (fun s d => forwardDCTHorizontal s d 0 0 yLogLength height) s1 s0 0 0 ;;
  dest <o- TransposeMatrixInto s0 dest (0, 0) startOut width height ;;
  Ok (dest, s0, s1).
