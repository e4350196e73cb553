(* Colour: util/MathsHelper.go:36-41 (SignedPow), 206-299 (matrices),
   305-312 (TransposeMatrix), colour/CIEXY.go, colour/CIEPrimaries.go,
   colour/colour_management.go, colour/colour_flags.go:25-105,
   colour/OpsinInverseMatrix.go:21-52, 98-175 and colour/transfer_function.go.

   Simplifications:
   - float32 and float64 numbers are exact real numbers, so rounding,
     overflow, infinities and NaN are not modelled; a power that is NaN in Go
     (negative base, fractional exponent) is None;
   - a nil matrix and a matrix without rows are both [];
   - a matrix that is only read may share rows with others, so sharing does
     not matter here; InvertXYB writes to the rows of its argument and returns
     them. *)
From Coq Require Import ZArith List Bool Reals.
From Verif Require Import GoBase GoLoop ModelDCT.
Import ListNotations.
Open Scope Z_scope.

Local Notation "x <o- m ;; k" := (obind m (fun x => k)) (at level 61, m at next level, right associativity).

Definition is_nil {A} (l : list A) : bool := match l with [] => true | _ => false end.

(* util/MathsHelper.go:206-213, MatrixIdentity *)
Definition MatrixIdentity (n : nat) : list (list R) :=
  map (fun j => map (fun i => if (i =? j)%nat then 1%R else 0%R) (seq 0 n)) (seq 0 n).

(* util/MathsHelper.go:215-239, MatrixVectorMultiply; copy(total[h:], v[w:]) *)
Definition MatrixVectorMultiply (matrix : list (list R)) (v : list R) : Outcome (list R) :=
  if is_nil matrix then Ok v
  else
    m0 <o- slice_get matrix 0 ;;
    if (length v <? length m0)%nat || is_nil v then Err
    else
      let extra := (length v - length m0)%nat in
      total <o- oloop (length matrix) 0 (fun y total =>
        row <o- slice_get matrix (Z.of_nat y) ;;
        oloop (length row) 0 (fun x total =>
          t <o- slice_get total (Z.of_nat y) ;;
          a <o- slice_get row (Z.of_nat x) ;;
          b <o- slice_get v (Z.of_nat x) ;;
          slice_set total (Z.of_nat y) (t + a * b)%R) total) (repeat 0%R (length matrix + extra)) ;;
      Ok (firstn (length matrix) total ++ skipn (length m0) v).

(* util/MathsHelper.go:256-286, MatrixMatrixMultiply *)
Definition MatrixMatrixMultiply (left right : list (list R)) : Outcome (list (list R)) :=
  if is_nil left then Ok right
  else if is_nil right then Ok left
  else
    l0 <o- slice_get left 0 ;;
    if negb (length l0 =? length right)%nat then Err
    else
      r0 <o- slice_get right 0 ;;
      oloop (length left) 0 (fun i result =>
        resultI <o- slice_get result (Z.of_nat i) ;;
        leftI <o- slice_get left (Z.of_nat i) ;;
        resultI <o- oloop (length right) 0 (fun k resultI =>
          leftIK <o- slice_get leftI (Z.of_nat k) ;;
          rightK <o- slice_get right (Z.of_nat k) ;;
          oloop (length rightK) 0 (fun j resultI =>
            a <o- slice_get resultI (Z.of_nat j) ;;
            b <o- slice_get rightK (Z.of_nat j) ;;
            slice_set resultI (Z.of_nat j) (a + leftIK * b)%R) resultI) resultI ;;
        slice_set result (Z.of_nat i) resultI) (repeat (repeat 0%R (length r0)) (length left)).

(* util/MathsHelper.go:242-254, MatrixMultiply of three matrices and of two *)
Definition MatrixMultiply3 (a b c : list (list R)) : Outcome (list (list R)) :=
  left <o- MatrixMatrixMultiply a b ;; MatrixMatrixMultiply left c.
Definition MatrixMultiply2 (a b : list (list R)) : Outcome (list (list R)) := MatrixMatrixMultiply a b.

(* util/MathsHelper.go:288-299, InvertMatrix3x3 *)
Definition InvertMatrix3x3 (m : list (list R)) : Outcome (list (list R)) :=
  m00 <o- rget2 m 0 0 ;; m11 <o- rget2 m 1 1 ;; m22 <o- rget2 m 2 2 ;;
  m01 <o- rget2 m 0 1 ;; m12 <o- rget2 m 1 2 ;; m20 <o- rget2 m 2 0 ;;
  m02 <o- rget2 m 0 2 ;; m10 <o- rget2 m 1 0 ;; m21 <o- rget2 m 2 1 ;;
  let det := (m00 * m11 * m22 + m01 * m12 * m20 + m02 * m10 * m21 - m02 * m11 * m20 - m01 * m10 * m22 - m00 * m12 * m21)%R in
  if Req_EM_T det 0 then Ok []
  else
    let invDet := (1 / det)%R in
    Ok [[((m11 * m22 - m12 * m21) * invDet)%R; ((m02 * m21 - m01 * m22) * invDet)%R; ((m01 * m12 - m02 * m11) * invDet)%R];
        [((m12 * m20 - m10 * m22) * invDet)%R; ((m00 * m22 - m02 * m20) * invDet)%R; ((m02 * m10 - m00 * m12) * invDet)%R];
        [((m10 * m21 - m11 * m20) * invDet)%R; ((m01 * m20 - m00 * m21) * invDet)%R; ((m00 * m11 - m01 * m10) * invDet)%R]].

(* util/MathsHelper.go:305-312, TransposeMatrix for a size that is not 0 *)
Definition TransposeMatrix (m : list (list R)) (sizeY sizeX : nat) : Outcome (list (list R)) :=
  TransposeMatrixInto m (repeat (repeat 0%R sizeY) sizeX) (0, 0) (0, 0) sizeY sizeX.

(* colour/CIEXY.go:10-13; colour/CIEPrimaries.go:3-7 *)
Definition CIEXY := (R * R)%type.
Record CIEPrimaries := mkPrim { pr_red : CIEXY; pr_green : CIEXY; pr_blue : CIEXY }.

(* colour/CIEXY.go:22-28, CIEXY.Matches; colour/CIEPrimaries.go:17-23 *)
Definition xy_matches (a b : CIEXY) : bool :=
  if Rlt_dec (Rabs (fst a - fst b) + Rabs (snd a - snd b)) (1 / 10000) then true else false.
Definition pr_matches (a b : CIEPrimaries) : bool :=
  xy_matches (pr_red a) (pr_red b) && xy_matches (pr_green a) (pr_green b) && xy_matches (pr_blue a) (pr_blue b).

(* colour/colour_flags.go:70-91, GetPrimaries, and 93-105, GetWhitePoint *)
Definition PRI_SRGB := mkPrim (0.639998686, 0.330010138)%R (0.300003784, 0.600003357)%R (0.150002046, 0.059997204)%R.
Definition PRI_BT2100 := mkPrim (0.708, 0.292)%R (0.170, 0.797)%R (0.131, 0.046)%R.
Definition PRI_P3 := mkPrim (0.680, 0.320)%R (0.265, 0.690)%R (0.150, 0.060)%R.
Definition WP_D65 : CIEXY := (0.3127, 0.3290)%R.
Definition WP_E : CIEXY := (1 / 3, 1 / 3)%R.
Definition WP_DCI : CIEXY := (0.314, 0.351)%R.
Definition WP_D50 : CIEXY := (0.34567, 0.34567)%R.

(* colour/colour_management.go:99-104, validateXY; 70 has the same test *)
Definition validateXY (xy : CIEXY) : bool :=
  negb ((if Rlt_dec (fst xy) 0 then true else false) || (if Rlt_dec 1 (fst xy) then true else false) ||
        (if Rle_dec (snd xy) 0 then true else false) || (if Rlt_dec 1 (snd xy) then true else false)).
(* colour/colour_management.go:106-112, GetXYZ *)
Definition GetXYZ (xy : CIEXY) : Outcome (list R) :=
  if validateXY xy then
    let invY := (1 / snd xy)%R in
    Ok [(fst xy * invY)%R; 1%R; ((1 - fst xy - snd xy) * invY)%R]
  else Err.

(* colour/colour_management.go:62-97, primariesToXYZ; the arguments are not nil *)
Definition primariesToXYZ (primaries : CIEPrimaries) (wp : CIEXY) : Outcome (list (list R)) :=
  if negb (validateXY wp) then Err
  else
    r <o- GetXYZ (pr_red primaries) ;;
    g <o- GetXYZ (pr_green primaries) ;;
    b <o- GetXYZ (pr_blue primaries) ;;
    primariesMatrix <o- TransposeMatrix [r; g; b] 3 3 ;;
    inversePrimaries <o- InvertMatrix3x3 primariesMatrix ;;
    w <o- GetXYZ wp ;;
    xyz <o- MatrixVectorMultiply inversePrimaries w ;;
    x0 <o- slice_get xyz 0 ;; x1 <o- slice_get xyz 1 ;; x2 <o- slice_get xyz 2 ;;
    MatrixMatrixMultiply primariesMatrix [[x0; 0%R; 0%R]; [0%R; x1; 0%R]; [0%R; 0%R; x2]].

(* colour/colour_management.go:17-23 *)
Definition BRADFORD : list (list R) :=
  [[0.8951; 0.2664; -0.1614]; [-0.7502; 1.7135; 0.0367]; [0.0389; -0.0685; 1.0296]]%R.
Definition BRADFORD_INVERSE : list (list R) := match InvertMatrix3x3 BRADFORD with Ok m => m | _ => [] end.

(* colour/CIEXY.go:69-76, isLMSValid *)
Definition isLMSValid (lms : list R) : bool := forallb (fun v => if Rlt_dec (Rabs v) (1 / 100000000) then false else true) lms.
(* colour/CIEXY.go:30-67, AdaptWhitePoint; the arguments are not nil *)
Definition AdaptWhitePoint (targetWP currentWP : CIEXY) : Outcome (list (list R)) :=
  wCurrent <o- GetXYZ currentWP ;;
  lmsCurrent <o- MatrixVectorMultiply BRADFORD wCurrent ;;
  wTarget <o- GetXYZ targetWP ;;
  lmsTarget <o- MatrixVectorMultiply BRADFORD wTarget ;;
  if negb (isLMSValid lmsCurrent) then Err
  else
    a <o- oloop 3 0 (fun i a =>
      t <o- slice_get lmsTarget (Z.of_nat i) ;;
      c <o- slice_get lmsCurrent (Z.of_nat i) ;;
      rset2 a (Z.of_nat i) (Z.of_nat i) (t / c)%R) (repeat (repeat 0%R 3) 3) ;;
    MatrixMultiply3 BRADFORD_INVERSE a BRADFORD.

(* colour/colour_management.go:31-60, GetConversionMatrix *)
Definition GetConversionMatrix (targetPrim : CIEPrimaries) (targetWP : CIEXY) (currentPrim : CIEPrimaries) (currentWP : CIEXY) : Outcome (list (list R)) :=
  if pr_matches targetPrim currentPrim && xy_matches targetWP currentWP then Ok (MatrixIdentity 3)
  else
    whitePointConv <o- (if negb (xy_matches targetWP currentWP) then AdaptWhitePoint targetWP currentWP else Ok []) ;;
    forward <o- primariesToXYZ currentPrim currentWP ;;
    t <o- primariesToXYZ targetPrim targetWP ;;
    reverse <o- InvertMatrix3x3 t ;;
    MatrixMultiply3 reverse whitePointConv forward.

(* math.Pow(x, y) for x >= 0, y > 0; NaN (None) for x < 0, which is right
   unless y is an integer *)
Definition gpow (x y : R) : option R :=
  if Rlt_dec x 0 then None else if Req_EM_T x 0 then Some 0%R else Some (Rpower x y).
(* util/MathsHelper.go:36-41, SignedPow *)
Definition SignedPow (base exponent : R) : option R :=
  if Rlt_dec base 0 then option_map Ropp (gpow (- base) exponent) else gpow base exponent.

(* colour/OpsinInverseMatrix.go:21-29, without Primaries, WhitePoint and the
   quantisation biases, which InvertXYB does not read *)
Record OpsinInverseMatrix := mkOIM { oim_Matrix : list (list R); oim_OpsinBias : list R; oim_CbrtOpsinBias : list R }.
(* colour/OpsinInverseMatrix.go:98-103, bakeCbrtBias; no power is NaN here *)
Definition bakeCbrtBias (bias : list R) : list R :=
  map (fun b => match SignedPow b (1 / 3) with Some v => v | None => 0%R end) bias.
(* colour/OpsinInverseMatrix.go:35-52, NewOpsinInverseMatrixAllParams *)
Definition NewOpsinInverseMatrix (matrix : list (list R)) (bias : list R) : OpsinInverseMatrix := mkOIM matrix bias (bakeCbrtBias bias).

(* colour/OpsinInverseMatrix.go:105-116, GetMatrix; both constructors set
   Primaries to those of sRGB and WhitePoint to D65 (32, 91-92) *)
Definition GetMatrix (oim : OpsinInverseMatrix) (prim : CIEPrimaries) (white : CIEXY) : Outcome OpsinInverseMatrix :=
  conversion <o- GetConversionMatrix prim white PRI_SRGB WP_D65 ;;
  matrix <o- MatrixMultiply2 conversion (oim_Matrix oim) ;;
  Ok (NewOpsinInverseMatrix matrix (oim_OpsinBias oim)).

(* colour/OpsinInverseMatrix.go:118-175, InvertXYB; the rows of the three
   channels are different *)
Definition xybPixel (oim : OpsinInverseMatrix) (itScale b0 b1 b2 : R) : Outcome (R * R * R) :=
  c0 <o- slice_get (oim_CbrtOpsinBias oim) 0 ;; c1 <o- slice_get (oim_CbrtOpsinBias oim) 1 ;; c2 <o- slice_get (oim_CbrtOpsinBias oim) 2 ;;
  o0 <o- slice_get (oim_OpsinBias oim) 0 ;; o1 <o- slice_get (oim_OpsinBias oim) 1 ;; o2 <o- slice_get (oim_OpsinBias oim) 2 ;;
  m00 <o- rget2 (oim_Matrix oim) 0 0 ;; m01 <o- rget2 (oim_Matrix oim) 0 1 ;; m02 <o- rget2 (oim_Matrix oim) 0 2 ;;
  m10 <o- rget2 (oim_Matrix oim) 1 0 ;; m11 <o- rget2 (oim_Matrix oim) 1 1 ;; m12 <o- rget2 (oim_Matrix oim) 1 2 ;;
  m20 <o- rget2 (oim_Matrix oim) 2 0 ;; m21 <o- rget2 (oim_Matrix oim) 2 1 ;; m22 <o- rget2 (oim_Matrix oim) 2 2 ;;
  let gammaL := (b1 + b0 - c0)%R in
  let gammaM := (b1 - b0 - c1)%R in
  let gammaS := (b2 - c2)%R in
  let mixL := (gammaL * gammaL * gammaL + o0)%R in
  let mixM := (gammaM * gammaM * gammaM + o1)%R in
  let mixS := (gammaS * gammaS * gammaS + o2)%R in
  Ok (((mixL * m00 + mixM * m01 + mixS * m02) * itScale)%R,
      ((mixL * m10 + mixM * m11 + mixS * m12) * itScale)%R,
      ((mixL * m20 + mixM * m21 + mixS * m22) * itScale)%R).
Definition InvertXYB (oim : OpsinInverseMatrix) (buffer : list (list (list R))) (intensityTarget : R) : Outcome (list (list (list R))) :=
  if (length buffer <? 3)%nat then Err
  else
    let itScale := (255 / intensityTarget)%R in
    buf0 <o- slice_get buffer 0 ;;
    oloop (length buf0) 0 (fun y buffer =>
      r0 <o- obind (slice_get buffer 0) (fun b => slice_get b (Z.of_nat y)) ;;
      oloop (length r0) 0 (fun x buffer =>
        b0 <o- slice_get buffer 0 ;; b1 <o- slice_get buffer 1 ;; b2 <o- slice_get buffer 2 ;;
        v0 <o- rget2 b0 (Z.of_nat y) (Z.of_nat x) ;;
        v1 <o- rget2 b1 (Z.of_nat y) (Z.of_nat x) ;;
        v2 <o- rget2 b2 (Z.of_nat y) (Z.of_nat x) ;;
        v <o- xybPixel oim itScale v0 v1 v2 ;;
        b0 <o- rset2 b0 (Z.of_nat y) (Z.of_nat x) (fst (fst v)) ;;
        b1 <o- rset2 b1 (Z.of_nat y) (Z.of_nat x) (snd (fst v)) ;;
        b2 <o- rset2 b2 (Z.of_nat y) (Z.of_nat x) (snd v) ;;
        buffer <o- slice_set buffer 0 b0 ;; buffer <o- slice_set buffer 1 b1 ;; slice_set buffer 2 b2) buffer) buffer.

(* colour/transfer_function.go; None is NaN *)
Inductive TransferFunction := Linear | SRGB | BT709 | PQ | Gamma (gamma inverseGamma : R).
Definition lift2 (f : R -> R) (x : option R) : option R := option_map f x.
Definition ToLinear (tf : TransferFunction) (input : R) : option R :=
  match tf with
  | Linear => Some input
  | SRGB => if Rlt_dec input 0.0404482362771082 then Some (input * 0.07739938080495357)%R
            else gpow ((input + 0.055) * 0.9478672985781991)%R 2.4
  | BT709 => if Rlt_dec input 0.081242858298635133011 then Some (input * 0.22222222222222222222)%R
             else gpow ((input + 0.0992968268094429403) * 0.90967241568627260377)%R 2.2222222222222222222
  | PQ => match gpow input 0.012683313515655965121 with
          | Some d => gpow ((d - 0.8359375) / (18.8515625 + 18.6875 * d))%R 6.2725880551301684533
          | None => None
          end
  | Gamma gamma inverseGamma => gpow input inverseGamma
  end.
Definition FromLinear (tf : TransferFunction) (input : R) : option R :=
  match tf with
  | Linear => Some input
  | SRGB => if Rlt_dec input 0.00313066844250063 then Some (input * 12.92)%R
            else option_map (fun p => 1.055 * p - 0.055)%R (gpow input 0.4166666666666667)
  | BT709 => if Rlt_dec input 0.018053968510807807336 then Some (4.5 * input)%R
             else option_map (fun p => 1.0992968268094429403 * p - 0.0992968268094429403)%R (gpow input 0.45)
  | PQ => match gpow input 0.159423828125 with
          | Some d => gpow ((0.8359375 + 18.8515625 * d) / (1.0 + 18.6875 * d))%R 78.84375
          | None => None
          end
  | Gamma gamma inverseGamma => gpow input gamma
  end.
(* colour/transfer_function.go:69-74, NewGammaTransferFunction *)
Definition NewGammaTransferFunction (transfer : Z) : TransferFunction := Gamma (IZR transfer / 10000000)%R (10000000 / IZR transfer)%R.
(* colour/colour_flags.go:25-31 *)
Definition TF_BT709 := 1 + 2 ^ 24.
Definition TF_UNKNOWN := 2 + 2 ^ 24.
Definition TF_LINEAR := 8 + 2 ^ 24.
Definition TF_SRGB := 13 + 2 ^ 24.
Definition TF_PQ := 16 + 2 ^ 24.
Definition TF_DCI := 17 + 2 ^ 24.
Definition TF_HLG := 18 + 2 ^ 24.
(* colour/colour_management.go:114-136, GetTransferFunction *)
Definition GetTransferFunction (transfer : Z) : Outcome TransferFunction :=
  if transfer =? TF_LINEAR then Ok Linear
  else if transfer =? TF_SRGB then Ok SRGB
  else if transfer =? TF_PQ then Ok PQ
  else if transfer =? TF_BT709 then Ok BT709
  else if transfer =? TF_DCI then Ok (NewGammaTransferFunction transfer)
  else if transfer =? TF_HLG then Err
  else if transfer <? 2 ^ 24 then Ok (NewGammaTransferFunction transfer)
  else Err.
