(* Transcription of NewHFCoefficientsWithReader, frame/HFCoefficients.go:40-189,
   with the symbols read from the stream.  Definitions only. *)
From Coq Require Import ZArith List Bool.
From Verif Require Import GoBase GoLoop GoMatrix ModelBitReader ModelUtil ModelEntropy ModelHF ModelHFCoeff.
Import ListNotations.
Open Scope Z_scope.

Local Notation "x <o- m ;; k" := (obind m (fun x => k)) (at level 61, m at next level, right associativity).
Definition hlift {A} (o : Outcome A) : EM A := fun s => (o, s).

(* :133-174, coeffLoop of ModelHFCoeff.v with the stream *)
Fixpoint readCoeffs (n : nat) (e : BlockEnv) (k nonZero prevU : Z) (q : list (list Z)) : EM (Z * list (list Z)) :=
  match n with
  | O => eret (nonZero, q)
  | S n' =>
      c <e- hlift (getCoefficientContext (k + be_numBlocks e) nonZero (be_numBlocks e) (coeffPrev e k nonZero prevU)) ;;
      uc <e- ReadSymbol (i32 (be_histCtx e + c)) ;;
      o <e- hlift (slice_get (be_order e) (k + be_numBlocks e)) ;;
      q <e- hlift (set2 q (fst (coeffPos e o)) (snd (coeffPos e o)) (i32 (Z.shiftl (UnpackSigned (u32 uc)) (be_shift e)))) ;;
      if negb (uc =? 0) && (i32 (nonZero - 1) =? 0) then eret (0, q)
      else readCoeffs n' e (k + 1) (if uc =? 0 then nonZero else i32 (nonZero - 1)) uc q
  end.
(* :104-179, decodeBlock of ModelHFCoeff.v with the stream: one channel of one
   block; the counts and the coefficients of the channel *)
Definition readBlock (hc : HFBlockContext) (t : TransformType) (order : list (Z * Z)) (offset c hfMult lfIndex y x shift : Z)
    (nz q : list (list Z)) : EM (list (list Z) * list (list Z)) :=
  let numBlocks := tt_dctSelectHeight t * tt_dctSelectWidth t in
  predicted <e- hlift (getPredictedNonZeros nz y x) ;;
  blockCtx <e- hlift (getBlockContext hc c (tt_orderID t) hfMult lfIndex) ;;
  nonZero <e- ReadSymbol (i32 (offset + getNonZeroContext hc predicted blockCtx)) ;;
  nz <e- hlift (fillCounts t y x nonZero nz) ;;
  if nonZero <=? 0 then eret (nz, q)
  else
    let histCtx := i32 (offset + i32 (458 * blockCtx) + i32 (37 * hb_numClusters hc)) in
    let e := mkBE order numBlocks histCtx (tt_flip t) (Z.shiftl y 3) (Z.shiftl x 3) shift in
    r <e- readCoeffs (Z.to_nat (be_orderSize e - numBlocks)) e 0 nonZero 0 q ;;
    if fst r =? 0 then eret (nz, snd r) else eerr.

(* What the function takes from the frame: the context model, the number of
   presets, the orders of the pass and its stream, the shift of the pass, the
   size of the group (height, width) and its place in the LF group (y, x), the
   shifts of the channels; of the LF group the blocks, the types of its cells
   (one more than the type, 0 for nil), the multipliers and the LF classes *)
Record GroupIn := mkGI {
  gi_hc : HFBlockContext; gi_presets : Z; gi_orders : list (list (list (Z * Z))); gi_stream : ES; gi_shift : Z;
  gi_size : Z * Z; gi_pos : Z * Z; gi_jy : list Z; gi_jx : list Z;
  gi_blocks : list (Z * Z); gi_select : list (list Z); gi_mult : list (list Z); gi_lfIndex : list (list Z) }.

(* :96-180, one turn of the loop over the channels.  The order is looked up
   only if the count is positive; it is always there. *)
Definition readChannel (i : GroupIn) (offset : Z) (t : TransformType) (hfMult lfIndex groupY groupX c : Z) (s : list (list (list Z)) * list (list (list Z)))
    : EM (list (list (list Z)) * list (list (list Z))) :=
  jy <e- hlift (slice_get (gi_jy i) c) ;; jx <e- hlift (slice_get (gi_jx i) c) ;;
  let y := Z.shiftr groupY jy in let x := Z.shiftr groupX jx in
  if negb (groupY =? Z.shiftl y jy) || negb (groupX =? Z.shiftl x jx) then eret s
  else
    nz <e- hlift (slice_get (fst s) c) ;; q <e- hlift (slice_get (snd s) c) ;;
    o <e- hlift (os <o- slice_get (gi_orders i) (tt_orderID t) ;; slice_get os c) ;;
    r <e- readBlock (gi_hc i) t o offset c hfMult lfIndex y x (gi_shift i) nz q ;;
    nzs <e- hlift (slice_set (fst s) c (fst r)) ;; qs <e- hlift (slice_set (snd s) c (snd r)) ;;
    eret (nzs, qs).
Fixpoint readChannels (i : GroupIn) (offset : Z) (t : TransformType) (hfMult lfIndex groupY groupX : Z) (cs : list Z) (s : list (list (list Z)) * list (list (list Z)))
    : EM (list (list (list Z)) * list (list (list Z))) :=
  match cs with
  | [] => eret s
  | c :: cs => s <e- readChannel i offset t hfMult lfIndex groupY groupX c s ;; readChannels i offset t hfMult lfIndex groupY groupX cs s
  end.
(* :80-182; with the blocks of the group, None for the others *)
Fixpoint readBlocks (i : GroupIn) (offset : Z) (bs : list (Z * Z)) (s : list (list (list Z)) * list (list (list Z)))
    : EM (list (option (Z * Z)) * (list (list (list Z)) * list (list (list Z)))) :=
  match bs with
  | [] => eret ([], s)
  | (py, px) :: bs =>
      let groupY := i32 (py - i32 (Z.shiftl (fst (gi_pos i)) 5)) in let groupX := i32 (px - i32 (Z.shiftl (snd (gi_pos i)) 5)) in
      if (groupY <? 0) || (groupX <? 0) || (32 <=? groupY) || (32 <=? groupX) then r <e- readBlocks i offset bs s ;; eret (None :: fst r, snd r)
      else
        cell <e- hlift (get2 (gi_select i) py px) ;;
        t <e- hlift (if cell =? 0 then Panic else slice_get allDCT (cell - 1)) ;;
        hfMult <e- hlift (get2 (gi_mult i) py px) ;; lfIndex <e- hlift (get2 (gi_lfIndex i) py px) ;;
        s <e- readChannels i offset t hfMult lfIndex groupY groupX [1; 0; 2] s ;;
        r <e- readBlocks i offset bs s ;; eret (Some (py, px) :: fst r, snd r)
  end.
(* :70-75; zeroed, see C35 *)
Definition groupChannels (i : GroupIn) : Outcome (list (list (list Z))) :=
  let one c := jy <o- slice_get (gi_jy i) c ;; jx <o- slice_get (gi_jx i) c ;; Ok (zeros2 (Z.shiftr (fst (gi_size i)) jy) (Z.shiftr (snd (gi_size i)) jx)) in
  a <o- one 0 ;; b <o- one 1 ;; c <o- one 2 ;; Ok [a; b; c].
(* :40-189; the preset, the blocks and the quantized coefficients *)
Definition NewHFCoefficients (i : GroupIn) : RM (Z * list (option (Z * Z)) * list (list (list Z))) :=
  preset <- readHFPreset (gi_presets i) ;;
  q <- rlift (groupChannels i) ;;
  fun s =>
    let '(r, (e, s')) := readBlocks i (presetOffset (gi_hc i) preset) (gi_blocks i) ([zeros2 32 32; zeros2 32 32; zeros2 32 32], q) (NewEntropyStreamWithStream (gi_stream i), s) in
    match r with
    | Ok (bs, (_, q)) => if ValidateFinalState e then (Ok (preset, bs, q), s') else (Err, s')
    | Err => (Err, s')
    | Panic => (Panic, s')
    end.
