(* Transcription of frame/HFBlockContext.go and of the coefficient loop of
   frame/HFCoefficients.go. *)
From Coq Require Import ZArith List Bool.
From Verif Require Import GoBase GoLoop GoMatrix ModelBitReader ModelUtil ModelEntropy ModelHF.
Import ListNotations.
Open Scope Z_scope.

Local Notation "x <o- m ;; k" := (obind m (fun x => k)) (at level 61, m at next level, right associativity).

(* ---- HFBlockContext.go:19-86; readClusterMap is entropy.ReadClusterMap ---- *)
(* :28-30 *)
Definition defaultClusterMap : list Z := [
  0; 1; 2; 2; 3; 3; 4; 5; 6; 6; 6; 6; 6;
  7; 8; 9; 9; 10; 11; 12; 13; 14; 14; 14; 14; 14;
  7; 8; 9; 9; 10; 11; 12; 13; 14; 14; 14; 14; 14].
(* :40-55, one channel *)
Definition readLFThresholds : RM (list Z) :=
  nb <- ReadBits 4 ;;
  rrepeat (Z.to_nat (i32 nb)) (t <- ReadU32 0 4 16 8 272 16 65808 32 ;; rret (UnpackSigned t)).
Definition NewHFBlockContextWithReader : RM HFBlockContext :=
  useDefault <- ReadBool ;;
  if useDefault : bool then rret (mkHFB [[]; []; []] defaultClusterMap 15 [] 1)
  else
    lf <- rrepeat 3 readLFThresholds ;;
    let lfCtx := fold_left (fun a ts => i32 (a * (Z.of_nat (length ts) + 1))) lf 1 in
    nbQf <- ReadBits 4 ;;
    qf <- rrepeat (Z.to_nat nbQf) (t <- ReadU32 0 2 4 3 12 5 44 8 ;; rret (i32 (i32 t + 1))) ;;
    let bSize := fold_left (fun a ts => i32 (a * (Z.of_nat (length ts) + 1))) lf (i32 (39 * (i32 nbQf + 1))) in
    if 39 * 64 <? bSize then rerr
    else
      r <- ReadClusterMap (Z.to_nat bSize) 16 ;;
      rret (mkHFB lf (fst r) (i32 (snd r)) qf lfCtx).

(* ---- HFCoefficients.go ---- *)
(* :48-52, the preset; numHFPresets is at least 1 *)
Definition readHFPreset (numHFPresets : Z) : RM Z :=
  p <- ReadBits (u32 (CeilLog1p (numHFPresets - 1))) ;; rret (i32 p).
(* :56 *)
Definition presetOffset (hc : HFBlockContext) (hfPreset : Z) : Z := i32 (i32 (495 * hb_numClusters hc) * hfPreset).
(* HFPass.go:133 *)
Definition numContexts (hc : HFBlockContext) (numHFPresets : Z) : Z := i32 (i32 (495 * numHFPresets) * hb_numClusters hc).

(* :124-178, the coefficients of one block and channel.  Each call of
   ReadSymbol is taken from syms, whatever it returns; the result holds the
   contexts of the calls in order. *)
Record BlockEnv := mkBE {
  be_order : list (Z * Z); be_numBlocks : Z; be_histCtx : Z; be_flip : bool;
  be_py : Z; be_px : Z; be_shift : Z }.
Definition be_orderSize (e : BlockEnv) : Z := Z.of_nat (length (be_order e)).
Definition coeffPrev (e : BlockEnv) (k nonZero prevU : Z) : Z :=
  if k =? 0 then (if Z.quot (be_orderSize e) 16 <? nonZero then 0 else 1)
  else if negb (prevU =? 0) then 1 else 0.
Definition coeffPos (e : BlockEnv) (o : Z * Z) : Z * Z :=
  if be_flip e then (be_py e + snd o, be_px e + fst o) else (be_py e + fst o, be_px e + snd o).
Fixpoint coeffLoop (n : nat) (e : BlockEnv) (k nonZero prevU : Z) (syms : list Z) (q : list (list Z)) :
    Outcome (Z * list Z * list (list Z) * list Z) :=
  match n with
  | O => Ok (nonZero, [], q, syms)
  | S n' =>
      c <o- getCoefficientContext (k + be_numBlocks e) nonZero (be_numBlocks e) (coeffPrev e k nonZero prevU) ;;
      let ctx := i32 (be_histCtx e + c) in
      match syms with
      | [] => Err
      | uc :: syms =>
          o <o- slice_get (be_order e) (k + be_numBlocks e) ;;
          q <o- set2 q (fst (coeffPos e o)) (snd (coeffPos e o)) (i32 (Z.shiftl (UnpackSigned (u32 uc)) (be_shift e))) ;;
          if negb (uc =? 0) && (i32 (nonZero - 1) =? 0) then Ok (0, [ctx], q, syms)
          else
            r <o- coeffLoop n' e (k + 1) (if uc =? 0 then nonZero else i32 (nonZero - 1)) uc syms q ;;
            let '(nz, ctxs, q, syms) := r in Ok (nz, ctx :: ctxs, q, syms)
      end
  end.
(* :113-120, the counts of the block for later predictions *)
Definition fillCounts (t : TransformType) (y x nonZero : Z) (nz : list (list Z)) : Outcome (list (list Z)) :=
  let numBlocks := tt_dctSelectHeight t * tt_dctSelectWidth t in
  loop2 (Z.to_nat (tt_dctSelectHeight t)) (Z.to_nat (tt_dctSelectWidth t))
    (fun iy ix nz => set2 nz (y + Z.of_nat iy) (x + Z.of_nat ix) (Z.quot (i32 (nonZero + numBlocks - 1)) numBlocks)) nz.
(* :96-183, one channel of one block at (y, x) in cells of the channel.  The
   result: contexts used, new counts, new coefficients, unread symbols. *)
Definition decodeBlock (hc : HFBlockContext) (t : TransformType) (order : list (Z * Z)) (offset c hfMult lfIndex y x shift : Z)
    (syms : list Z) (nz q : list (list Z)) : Outcome (list Z * list (list Z) * list (list Z) * list Z) :=
  let numBlocks := tt_dctSelectHeight t * tt_dctSelectWidth t in
  predicted <o- getPredictedNonZeros nz y x ;;
  blockCtx <o- getBlockContext hc c (tt_orderID t) hfMult lfIndex ;;
  let nonZeroCtx := i32 (offset + getNonZeroContext hc predicted blockCtx) in
  match syms with
  | [] => Err
  | nonZero :: syms =>
      nz <o- fillCounts t y x nonZero nz ;;
      if nonZero <=? 0 then Ok ([nonZeroCtx], nz, q, syms)
      else
        let histCtx := i32 (offset + i32 (458 * blockCtx) + i32 (37 * hb_numClusters hc)) in
        let e := mkBE order numBlocks histCtx (tt_flip t) (Z.shiftl y 3) (Z.shiftl x 3) shift in
        r <o- coeffLoop (Z.to_nat (be_orderSize e - numBlocks)) e 0 nonZero 0 syms q ;;
        let '(rest, ctxs, q, syms) := r in
        if rest =? 0 then Ok (nonZeroCtx :: ctxs, nz, q, syms) else Err
  end.
