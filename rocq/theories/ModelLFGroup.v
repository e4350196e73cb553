(* Transcription of NewLFCoefficientsWithReader (frame/lfcoefficients.go:23-153),
   NewHFMetadataWithReader (frame/hfmetadata.go:24-73) and the VarDCT case of
   NewLFGroupWithReader (frame/LFGroup.go:19-64) with their streams.
   Definitions only.  The samples of an LF frame are given as float32. *)
From Coq Require Import ZArith List Bool Reals.
From Verif Require Import GoBase GoLoop GoMatrix ModelBitReader ModelUtil ModelEntropy ModelMATree ModelModular ModelModStream ModelModDecode ModelLFCoeff ModelHF.
Import ListNotations.
Open Scope Z_scope.

Local Notation "x <o- m ;; k" := (obind m (fun x => k)) (at level 61, m at next level, right associativity).
(* the frame and the group: flags, shifts and sizes; block contexts; the tree
   of the frame; bit depth, group dimension; number and count of LF groups *)
Record LFGroupIn := mkLGI { lg_p : LFParams; lg_hc : HFBlockContext; lg_tree : option (list Node * ES); lg_depth : Z; lg_dim : Z; lg_id : Z; lg_num : Z }.

(* lfcoefficients.go:133-145: the sample of channel i at a block, which is
   only looked up if there are thresholds *)
Definition lfSample (p : LFParams) (hc : HFBlockContext) (lfQuant : list (list (list Z))) (i : nat) (y x : Z) : Outcome Z :=
  let third t := let '(a, b, c) := t in nth i [a; b; c] 0 in
  t <o- slice_get (hb_lfThresholds hc) (Z.of_nat i) ;;
  match t with
  | [] => Ok 0
  | _ => c <o- slice_get cMap (Z.of_nat i) ;; q <o- slice_get lfQuant c ;; get2 q (Z.shiftr y (third (lp_shiftY p))) (Z.shiftr x (third (lp_shiftX p)))
  end.
(* :123-153 *)
Definition populatedLFIndex (p : LFParams) (hc : HFBlockContext) (lfQuant : list (list (list Z))) : Outcome (list (list Z)) :=
  loop2 (Z.to_nat (lp_height p)) (Z.to_nat (lp_width p)) (fun y x m =>
    q0 <o- lfSample p hc lfQuant 0 (Z.of_nat y) (Z.of_nat x) ;;
    q1 <o- lfSample p hc lfQuant 1 (Z.of_nat y) (Z.of_nat x) ;;
    q2 <o- lfSample p hc lfQuant 2 (Z.of_nat y) (Z.of_nat x) ;;
    v <o- getLFIndex hc (fun i => if i =? 0 then q0 else if i =? 1 then q1 else q2) ;;
    set2 m (Z.of_nat y) (Z.of_nat x) v) (zeros2 (lp_height p) (lp_width p)).
(* :36-41; info[cMap[i]] is channel i *)
Definition lfInfo (p : LFParams) : list Chan :=
  let '(y0, y1, y2) := lp_shiftY p in let '(x0, x1, x2) := lp_shiftX p in
  let channel y x := newChan (i32 (Z.shiftr (lp_height p) y)) (i32 (Z.shiftr (lp_width p) x)) y x false in
  [channel y1 x1; channel y0 x0; channel y2 x2].
(* :23-121 *)
Definition NewLFCoefficients (g : LFGroupIn) (lfBuffer : list (list (list R))) : RM ((list (list R) * list (list R) * list (list R)) * list (list Z)) :=
  dq <- rlift (lfBefore (lg_p g) lfBuffer) ;;
  extraPrecision <- ReadBits 2 ;;
  chs <- decodeModular (lg_tree g) (lg_depth g) (lg_dim g) (1 + lg_id g) (lfInfo (lg_p g)) ;;
  let lfQuant := map c_buf chs in
  d <- rlift (lfAfter (lg_p g) dq extraPrecision lfQuant) ;;
  ix <- rlift (populatedLFIndex (lg_p g) (lg_hc g) lfQuant) ;;
  rret (d, ix).

(* hfmetadata.go:24-73.  The rows of the block information have nbBlocks
   elements; they are paired before the blocks are placed. *)
Definition NewHFMetadata (g : LFGroupIn) : RM (list (list (list Z)) * (list (Z * Z) * (list (list Z) * list (list Z)))) :=
  let h := lp_height (lg_p g) in let w := lp_width (lg_p g) in
  nb <- ReadBits (u32 (CeilLog2_u32 (u32 (h * w)))) ;;
  let nbBlocks := u64 (nb + 1) in
  let ch := i32 (u32 (h + 7) / 8) in let cw := i32 (u32 (w + 7) / 8) in
  chs <- decodeModular (lg_tree g) (lg_depth g) (lg_dim g) (1 + 2 * lg_num g + lg_id g)
    [newChan ch cw 0 0 false; newChan ch cw 0 0 false; newChan 2 (i32 nbBlocks) 0 0 false; newChan (i32 h) (i32 w) 0 0 false] ;;
  let buf := map c_buf chs in
  r <- rlift (info <o- slice_get buf 2 ;; types <o- slice_get info 0 ;; mults <o- slice_get info 1 ;;
              placeAll h w (combine types (map (fun m => i32 (1 + m) - 1) mults))) ;;
  rret (buf, r).

(* LFGroup.go:35-61 *)
Definition NewLFGroup (g : LFGroupIn) (replaced : list Chan) (lfBuffer : list (list (list R))) :
    RM (((list (list R) * list (list R) * list (list R)) * list (list Z)) * list Chan * (list (list (list Z)) * (list (Z * Z) * (list (list Z) * list (list Z))))) :=
  lf <- NewLFCoefficients g lfBuffer ;;
  chs <- decodeModular (lg_tree g) (lg_depth g) (lg_dim g) (1 + (lg_num g + lg_id g)) replaced ;;
  hf <- NewHFMetadata g ;;
  rret (lf, chs, hf).
