(* Transcription of invertVarDCT, frame/PassGroup.go:108-274: from the quantized
   coefficients of a group to its samples in the frame.  Definitions only.

   Simplifications, besides those of ModelDCT.v, ModelVarBlock.v and
   ModelHFDequant.v:
   - types and multipliers of all blocks are looked up before the first block
     is worked on;
   - index arithmetic is exact: positions are far below 2^31;
   - the fifth scratch matrix, which no transform uses, is left out. *)
From Coq Require Import ZArith List Bool Reals.
From Verif Require Import GoBase GoLoop GoMatrix ModelUtil ModelDCT ModelHF ModelVarBlock ModelHFDequant.
Import ListNotations.
Open Scope Z_scope.

Local Notation "x <o- m ;; k" := (obind m (fun x => k)) (at level 61, m at next level, right associativity).

(* scratchBlock[0..3] *)
Definition Scratch : Type := (list (list R) * list (list R) * list (list R) * list (list R))%type.

(* :157-270, the switch on the transform method of invertBlock of
   ModelVarBlock.v, with the scratch matrices it leaves behind *)
Definition invertBlockS (method : Z) (tt : TTPtr) (height width : nat) (coeffs buffer : list (list R)) (ppg ppf : Z * Z) (s : Scratch)
    : Outcome (list (list R) * Scratch) :=
  let '(s0, s1, s2, s3) := s in
  if method =? 0 then r <o- InverseDCT2D coeffs buffer ppg ppf height width s0 s1 false ;; let '(b, s0, s1) := r in Ok (b, (s0, s1, s2, s3))
  else if method =? 4 then r <o- invertDCT8_4 coeffs buffer ppg ppf s0 s1 s2 ;; let '(b, s0, s1, s2) := r in Ok (b, (s0, s1, s2, s3))
  else if method =? 5 then r <o- invertDCT4_8 coeffs buffer ppg ppf s0 s1 s2 ;; let '(b, s0, s1, s2) := r in Ok (b, (s0, s1, s2, s3))
  else if method =? 6 then r <o- invertAFV coeffs buffer tt ppg ppf s0 s1 s2 s3 ;; let '(b, s0, s1, s2, s3) := r in Ok (b, (s0, s1, s2, s3))
  else if method =? 1 then r <o- invertDCT2 coeffs buffer ppg ppf s0 s1 ;; let '(b, s0, s1) := r in Ok (b, (s0, s1, s2, s3))
  else if method =? 3 then r <o- invertHornuss coeffs buffer ppg ppf s0 s1 ;; let '(b, s0, s1) := r in Ok (b, (s0, s1, s2, s3))
  else if method =? 2 then Panic
  else Err.

(* :132-272, the loop over the blocks and their channels.  location is the
   group's place in the frame in groups, (Y, X); call says which call of
   placeBlock stored the transform pointer of a block. *)
Definition invertBlocks (p : HFParams) (call : HFBlock -> nat) (location : Z * Z) (coeffs : list (list (list R))) (bs : list HFBlock)
    (frameBuffer : list (list (list R))) (s : Scratch) : Outcome (list (list (list R)) * Scratch) :=
  let locY := Z.shiftl (fst location) 8 in let locX := Z.shiftl (snd location) 8 in
  eachBlock (fun b st => oloop 3 0 (fun c st =>
    let '(frameBuffer, s) := st in
    let groupY := hb_y b - hp_groupY p in let groupX := hb_x b - hp_groupX p in
    sy <o- slice_get (hp_shiftY p) (Z.of_nat c) ;; sx <o- slice_get (hp_shiftX p) (Z.of_nat c) ;;
    match channelPos groupY groupX sy sx with
    | None => Ok st
    | Some (sGroupY, sGroupX) =>
      let ppg := (Z.shiftl sGroupY 3, Z.shiftl sGroupX 3) in
      let ppf := (fst ppg + Z.shiftr locY sy, snd ppg + Z.shiftr locX sx) in
      co <o- slice_get coeffs (Z.of_nat c) ;; fb <o- slice_get frameBuffer (Z.of_nat c) ;;
      r <o- invertBlockS (tt_method (hb_type b)) (placedPointer (call b) (tt_type (hb_type b)))
              (Z.to_nat (tt_pixelHeight (hb_type b))) (Z.to_nat (tt_pixelWidth (hb_type b))) co fb ppg ppf s ;;
      fbs <o- slice_set frameBuffer (Z.of_nat c) (fst r) ;;
      Ok (fbs, snd r)
    end) st) bs (frameBuffer, s).

(* :133-137, and the same in frame/HFCoefficients.go:276-289: the blocks of the
   group with the types and multipliers of their first cells (the type plus
   one, 0 for nil); entries that are nil are skipped *)
Definition blockAt (select mult : list (list Z)) (pos : Z * Z) : Outcome HFBlock :=
  cell <o- get2 select (fst pos) (snd pos) ;;
  t <o- (if cell =? 0 then Panic else slice_get allDCT (cell - 1)) ;;
  m <o- get2 mult (fst pos) (snd pos) ;;
  Ok (mkHB t (fst pos) (snd pos) m).
Fixpoint groupBlocks (select mult : list (list Z)) (blocks : list (option (Z * Z))) : Outcome (list HFBlock) :=
  match blocks with
  | [] => Ok []
  | None :: blocks => groupBlocks select mult blocks
  | Some pos :: blocks => b <o- blockAt select mult pos ;; bs <o- groupBlocks select mult blocks ;; Ok (b :: bs)
  end.

(* What bakeDequantizedCoeffs takes besides the coefficients: colour factor and
   base correlations, correlations of the tiles, LF coefficients, and its two
   scratch matrices *)
Record BakeIn := mkBI { bi_colour : Z; bi_baseX : R; bi_baseB : R; bi_hfX : list (list Z); bi_hfB : list (list Z);
  bi_lf : list (list (list R)); bi_s0 : list (list R); bi_s1 : list (list R) }.

(* :108-274.  dequant is the matrix the coefficients are baked into, frame/
   HFCoefficients.go:65-78; prev is whether there is an earlier pass. *)
Definition invertVarDCT (p : HFParams) (call : HFBlock -> nat) (location : Z * Z) (prev : bool) (select mult : list (list Z)) (blocks : list (option (Z * Z)))
    (quantized : list (list (list Z))) (dequant : list (list (list R))) (i : BakeIn) (frameBuffer : list (list (list R))) (s : Scratch)
    : Outcome (list (list (list R))) :=
  if prev then Panic
  else
    bs <o- groupBlocks select mult blocks ;;
    coeffs <o- bakeDequantizedCoeffs p quantized (bi_colour i) (bi_baseX i) (bi_baseB i) (bi_hfX i) (bi_hfB i) (bi_lf i) (bi_s0 i) (bi_s1 i) bs dequant ;;
    r <o- invertBlocks p call location coeffs bs frameBuffer s ;;
    Ok (fst r).

(* frame/Frame.go:798-827, one pass: the groups of the frame, each with its own
   scratch matrices.  The goroutines write different samples; here they run
   one after the other, in the order of the list.  An error of a group ends the
   frame. *)
Record GroupJob := mkGJ { gj_params : HFParams; gj_call : HFBlock -> nat; gj_location : Z * Z; gj_select : list (list Z); gj_mult : list (list Z);
  gj_blocks : list (option (Z * Z)); gj_quantized : list (list (list Z)); gj_dequant : list (list (list R)); gj_bake : BakeIn; gj_scratch : Scratch }.
Definition invertJob (prev : bool) (j : GroupJob) (frameBuffer : list (list (list R))) : Outcome (list (list (list R))) :=
  invertVarDCT (gj_params j) (gj_call j) (gj_location j) prev (gj_select j) (gj_mult j) (gj_blocks j) (gj_quantized j) (gj_dequant j) (gj_bake j) frameBuffer (gj_scratch j).
Fixpoint invertGroups (prev : bool) (js : list GroupJob) (frameBuffer : list (list (list R))) : Outcome (list (list (list R))) :=
  match js with
  | [] => Ok frameBuffer
  | j :: js => frameBuffer <o- invertJob prev j frameBuffer ;; invertGroups prev js frameBuffer
  end.
