(* Transcription of the VarDCT block layer: frame/transformtype.go, the block
   placement of frame/hfmetadata.go, the scan orders of frame/HFPass.go and the
   contexts of frame/HFCoefficients.go, lfcoefficients.go. *)
From Coq Require Import ZArith List Bool.
From Verif Require Import GoBase GoLoop GoMatrix.
Import ListNotations.
Open Scope Z_scope.

Local Notation "x <o- m ;; k" := (obind m (fun x => k)) (at level 61, m at next level, right associativity).

(* ---- transformtype.go:43-118; names and llfScale left out ---- *)
Record TransformType := mkTT { tt_type : Z; tt_parameterIndex : Z; tt_orderID : Z; tt_method : Z; tt_pixelHeight : Z; tt_pixelWidth : Z }.
Definition tt_dctSelectWidth (t : TransformType) : Z := Z.shiftr (tt_pixelWidth t) 3.
Definition tt_dctSelectHeight (t : TransformType) : Z := Z.shiftr (tt_pixelHeight t) 3.
(* :59-87 *)
Definition allDCT : list TransformType := [
  mkTT 0 0 0 0 8 8; mkTT 1 1 1 3 8 8; mkTT 2 2 1 1 8 8; mkTT 3 3 1 2 8 8; mkTT 4 4 2 0 16 16; mkTT 5 5 3 0 32 32;
  mkTT 6 6 4 0 16 8; mkTT 7 6 4 0 8 16; mkTT 8 7 5 0 32 8; mkTT 9 7 5 0 8 32; mkTT 10 8 6 0 32 16; mkTT 11 8 6 0 16 32;
  mkTT 12 9 1 5 8 8; mkTT 13 9 1 4 8 8; mkTT 14 10 1 6 8 8; mkTT 15 10 1 6 8 8; mkTT 16 10 1 6 8 8; mkTT 17 10 1 6 8 8;
  mkTT 18 11 7 0 64 64; mkTT 19 12 8 0 64 32; mkTT 20 12 8 0 32 64; mkTT 21 13 9 0 128 128; mkTT 22 14 10 0 128 64; mkTT 23 14 10 0 64 128;
  mkTT 24 15 11 0 256 256; mkTT 25 16 12 0 256 128; mkTT 26 16 12 0 128 256].
(* :120-126; METHOD_DCT = 0 *)
Definition tt_isVertical (t : TransformType) : bool := tt_pixelWidth t <? tt_pixelHeight t.
Definition tt_flip (t : TransformType) : bool :=
  (tt_pixelWidth t <? tt_pixelHeight t) || ((tt_method t =? 0) && (tt_pixelHeight t =? tt_pixelWidth t)).
(* HFPass.go:70-78, looked up once in init (:19-28) *)
Definition getByOrderID (i : Z) : Outcome TransformType :=
  match find (fun t => (tt_orderID t =? i) && negb (tt_isVertical t)) allDCT with Some t => Ok t | None => Panic end.

(* ---- hfmetadata.go:49-112 ---- *)
(* A cell of dctSelect is 0 for nil and one more than the transform type
   otherwise (a pointer to a copy of the block's type).  The grid of an LF
   group has at most 256x256 cells: int32 does not overflow. *)
Definition cellWidth (c : Z) : Z := match nth_error allDCT (Z.to_nat (c - 1)) with Some t => tt_dctSelectWidth t | None => 1 end.
(* :90-96: the first occupied cell among row[x .. x+n-1] *)
Fixpoint firstOccupied (row : list Z) (x : Z) (n : nat) : Outcome (option Z) :=
  match n with
  | O => Ok None
  | S n' => c <o- slice_get row x ;; if c =? 0 then firstOccupied row (x + 1) n' else Ok (Some c)
  end.
(* :84-99: the position in a row; None means continue with the next row *)
Fixpoint scanRow (fuel : nat) (row : list Z) (w x : Z) : Outcome (option Z) :=
  match fuel with
  | O => Panic
  | S fuel' =>
      if Z.of_nat (length row) <=? x then Ok None
      else if Z.of_nat (length row) <? w + x then Ok None
      else o <o- firstOccupied row x (Z.to_nat w) ;;
           match o with
           | Some c => scanRow fuel' row w (x + (cellWidth c - 1) + 1)
           | None => Ok (Some x)
           end
  end.
(* :80-99: rows from lastY on *)
Fixpoint scanRows (n : nat) (grid : list (list Z)) (w y : Z) : Outcome (Z * Z) :=
  match n with
  | O => Err
  | S n' =>
      row <o- slice_get grid y ;;
      o <o- scanRow (S (length row)) row w 0 ;;
      match o with Some x => Ok (y, x) | None => scanRows n' grid w (y + 1) end
  end.
(* :102-107 *)
Definition fillBlock (t : TransformType) (y x mul : Z) (s : list (list Z) * list (list Z)) : Outcome (list (list Z) * list (list Z)) :=
  loop2 (Z.to_nat (tt_dctSelectHeight t)) (Z.to_nat (tt_dctSelectWidth t))
    (fun iy ix '(d, m) =>
       d <o- set2 d (y + Z.of_nat iy) (x + Z.of_nat ix) (tt_type t + 1) ;;
       m <o- set2 m (y + Z.of_nat iy) (x + Z.of_nat ix) mul ;;
       Ok (d, m)) s.
(* :76-112 *)
Definition placeBlock (lastY : Z) (t : TransformType) (mul : Z) (s : list (list Z) * list (list Z)) :
    Outcome ((Z * Z) * (list (list Z) * list (list Z))) :=
  yx <o- scanRows (Z.to_nat (Z.of_nat (length (fst s)) - lastY)) (fst s) (tt_dctSelectWidth t) lastY ;;
  s <o- fillBlock t (fst yx) (snd yx) mul s ;;
  Ok (yx, s).
(* :56-71; blocks are the (type, multiplier) pairs of the block-info channel *)
Fixpoint placeBlocks (blocks : list (Z * Z)) (lastY : Z) (s : list (list Z) * list (list Z)) :
    Outcome (list (Z * Z) * (list (list Z) * list (list Z))) :=
  match blocks with
  | [] => Ok ([], s)
  | (t, m) :: rest =>
      if (26 <? t) || (t <? 0) then Err
      else tt <o- slice_get allDCT t ;;
           r <o- placeBlock lastY tt (1 + m) s ;;
           let '((y, x), s) := r in
           q <o- placeBlocks rest y s ;;
           Ok ((y, x) :: fst q, snd q)
  end.
Definition placeAll (height width : Z) (blocks : list (Z * Z)) : Outcome (list (Z * Z) * (list (list Z) * list (list Z))) :=
  placeBlocks blocks 0 (zeros2 height width, zeros2 height width).

(* ---- HFPass.go:143-210 ---- *)
(* points are (y, x) *)
Definition orderCmp (t : TransformType) (a b : Z * Z) : Z :=
  let '(ay, ax) := a in let '(by_, bx) := b in
  let h := tt_dctSelectHeight t in let w := tt_dctSelectWidth t in
  let maxDim := Z.max h w in
  let aLLF := (ay <? h) && (ax <? w) in
  let bLLF := (by_ <? h) && (bx <? w) in
  if aLLF && negb bLLF then -1
  else if negb aLLF && bLLF then 1
  else if aLLF && bLLF then (if negb (by_ =? ay) then ay - by_ else ax - bx)
  else
    let hd := Z.quot maxDim h in let wd := Z.quot maxDim w in
    let aSY := ay * hd in let aSX := ax * wd in
    let bSY := by_ * hd in let bSX := bx * wd in
    let aKey1 := aSY + aSX in let bKey1 := bSY + bSX in
    if negb (aKey1 =? bKey1) then aKey1 - bKey1
    else
      let aKey2 := if Z.land aKey1 1 =? 1 then - (aSX - aSY) else aSX - aSY in
      let bKey2 := if Z.land bKey1 1 =? 1 then - (bSX - bSY) else bSX - bSY in
      aKey2 - bKey2.
(* :149-155: all positions, row by row *)
Definition positions (t : TransformType) : list (Z * Z) :=
  flat_map (fun y => map (fun x => (Z.of_nat y, Z.of_nat x)) (seq 0 (Z.to_nat (tt_pixelWidth t)))) (seq 0 (Z.to_nat (tt_pixelHeight t))).
(* slices.SortFunc: any algorithm that returns a permutation sorted by the
   comparison; :143-165 with sort standing for it *)
Definition getNaturalOrder (sort : (Z * Z -> Z * Z -> Z) -> list (Z * Z) -> list (Z * Z)) (i : Z) : Outcome (list (Z * Z)) :=
  t <o- getByOrderID i ;; Ok (sort (orderCmp t) (positions t)).
(* :116-127: the order of one channel from a permutation read from the stream *)
Fixpoint applyPerm (order : list (Z * Z)) (perm : list Z) : Outcome (list (Z * Z)) :=
  match perm with
  | [] => Ok []
  | p :: ps => a <o- slice_get order p ;; r <o- applyPerm order ps ;; Ok (a :: r)
  end.

(* ---- contexts ---- *)
Record HFBlockContext := mkHFB { hb_lfThresholds : list (list Z); hb_clusterMap : list Z; hb_numClusters : Z; hb_qfThresholds : list Z; hb_numLFContexts : Z }.
Definition countAbove (v : Z) (ts : list Z) : Z := Z.of_nat (length (filter (fun t => t <? v) ts)).
(* lfcoefficients.go:133-153; q i is the LF sample of channel i at the block *)
Definition getLFIndex (c : HFBlockContext) (q : Z -> Z) : Outcome Z :=
  t0 <o- slice_get (hb_lfThresholds c) 0 ;; t1 <o- slice_get (hb_lfThresholds c) 1 ;; t2 <o- slice_get (hb_lfThresholds c) 2 ;;
  let i0 := countAbove (q 0) t0 in let i1 := countAbove (q 1) t1 in let i2 := countAbove (q 2) t2 in
  Ok (i32 ((i0 * (Z.of_nat (length t2) + 1) + i2) * (Z.of_nat (length t1) + 1) + i1)).
(* HFCoefficients.go:212-229 *)
Definition getBlockContext (hc : HFBlockContext) (c orderID hfMult lfIndex : Z) : Outcome Z :=
  let idx := if c <? 2 then 1 - c else c in
  let idx := idx * 13 + orderID in
  let idx := idx * (Z.of_nat (length (hb_qfThresholds hc)) + 1) in
  let idx := idx + countAbove hfMult (hb_qfThresholds hc) in
  let idx := idx * hb_numLFContexts hc in
  slice_get (hb_clusterMap hc) (i32 (i32 idx + lfIndex)).
(* :231-240 *)
Definition getNonZeroContext (hc : HFBlockContext) (predicted ctx : Z) : Z :=
  let predicted := if 64 <? predicted then 64 else predicted in
  if predicted <? 8 then i32 (ctx + hb_numClusters hc * predicted)
  else i32 (ctx + hb_numClusters hc * (4 + Z.quot predicted 2)).
(* :15-25 *)
Definition coeffFreqCtx : list Z := [
  -1; 0; 1; 2; 3; 4; 5; 6; 7; 8; 9; 10; 11; 12; 13; 14;
  15; 15; 16; 16; 17; 17; 18; 18; 19; 19; 20; 20; 21; 21; 22; 22;
  23; 23; 23; 23; 24; 24; 24; 24; 25; 25; 25; 25; 26; 26; 26; 26;
  27; 27; 27; 27; 28; 28; 28; 28; 29; 29; 29; 29; 30; 30; 30; 30].
Definition coeffNumNonzeroCtx : list Z := [
  -1; 0; 31; 62; 62; 93; 93; 93; 93; 123; 123; 123; 123; 152; 152;
  152; 152; 152; 152; 152; 152; 180; 180; 180; 180; 180; 180; 180;
  180; 180; 180; 180; 180; 206; 206; 206; 206; 206; 206; 206; 206;
  206; 206; 206; 206; 206; 206; 206; 206; 206; 206; 206; 206; 206;
  206; 206; 206; 206; 206; 206; 206; 206; 206; 206].
(* :242-246 *)
Definition getCoefficientContext (k nonZeros numBlocks prev : Z) : Outcome Z :=
  let nonZeros := Z.quot (i32 (nonZeros + numBlocks - 1)) numBlocks in
  let k := Z.quot k numBlocks in
  a <o- slice_get coeffNumNonzeroCtx nonZeros ;; b <o- slice_get coeffFreqCtx k ;;
  Ok ((a + b) * 2 + prev).
(* :453-466; nz is nonZeros[c] *)
Definition getPredictedNonZeros (nz : list (list Z)) (y x : Z) : Outcome Z :=
  if (x =? 0) && (y =? 0) then Ok 32
  else if x =? 0 then get2 nz (y - 1) 0
  else if y =? 0 then get2 nz 0 (x - 1)
  else a <o- get2 nz (y - 1) x ;; b <o- get2 nz y (x - 1) ;; Ok (Z.shiftr (i32 (a + b + 1)) 1).
