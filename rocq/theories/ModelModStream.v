(* Transcription of the header of a modular stream and of the bookkeeping of
   its list of channels: frame/ModularStream.go.  Definitions only. *)
From Coq Require Import ZArith List Bool.
From Verif Require Import GoBase GoLoop GoMatrix ModelBitReader ModelUtil ModelEntropy ModelMATree ModelModular.
Import ListNotations.
Open Scope Z_scope.

(* :12-16 *)
Definition RCT : Z := 0. Definition PALETTE : Z := 1. Definition SQUEEZE : Z := 2.

(* :39-44 *)
Record SqueezeParam := mkSP { sp_horizontal : bool; sp_inPlace : bool; sp_beginC : Z; sp_numC : Z }.
(* :46-67 *)
Definition NewSqueezeParam : RM SqueezeParam :=
  horizontal <- ReadBool ;;
  inPlace <- ReadBool ;;
  beginC <- ReadU32 3 6 10 13 0 8 72 1096 ;;
  numC <- ReadU32 0 0 0 4 1 2 3 4 ;;
  rret (mkSP horizontal inPlace beginC numC).
Fixpoint readSqueezeParams (n : nat) : RM (list SqueezeParam) :=
  match n with O => rret [] | S n' => p <- NewSqueezeParam ;; t <- readSqueezeParams n' ;; rret (p :: t) end.

(* :69-78 *)
Record TransformInfo := mkTI {
  ti_tr : Z; ti_beginC : Z; ti_rctType : Z; ti_numC : Z; ti_nbColours : Z; ti_nbDeltas : Z; ti_dPred : Z; ti_sp : list SqueezeParam }.
(* :80-156 *)
Definition NewTransformInfo : RM TransformInfo :=
  tr <- ReadBits 2 ;;
  beginC <- (if negb (tr =? SQUEEZE) then ReadU32 0 3 8 6 72 10 1096 13 else rret 0) ;;
  rctType <- (if tr =? RCT then ReadU32 6 0 0 2 2 4 10 6 else rret 0) ;;
  numC <- (if tr =? PALETTE then ReadU32 1 0 3 0 4 0 1 13 else rret 0) ;;
  nbColours <- (if tr =? PALETTE then ReadU32 0 8 256 10 1280 12 5376 16 else rret 0) ;;
  nbDeltas <- (if tr =? PALETTE then ReadU32 0 0 1 8 257 10 1281 16 else rret 0) ;;
  dPred <- (if tr =? PALETTE then ReadBits 4 else rret 0) ;;
  sp <- (if tr =? SQUEEZE then numSq <- ReadU32 0 0 1 4 9 6 41 8 ;; readSqueezeParams (Z.to_nat numSq) else rret []) ;;
  rret (mkTI tr beginC rctType numC nbColours nbDeltas dPred sp).
Fixpoint readTransforms (n : nat) : RM (list TransformInfo) :=
  match n with O => rret [] | S n' => t <- NewTransformInfo ;; l <- readTransforms n' ;; rret (t :: l) end.

(* :202-219, the header of NewModularStreamWithChannels (channelCount > 0) *)
Definition readModularHeader : RM (bool * WPParams * list TransformInfo) :=
  useGlobalTree <- ReadBool ;;
  wp <- NewWPParams ;;
  nbTransforms <- ReadU32 0 0 1 0 2 4 18 8 ;;
  l <- readTransforms (Z.to_nat nbTransforms) ;;
  rret (useGlobalTree, wp, l).

(* :221-231, the channels when no array is given: size of the frame,
   the DimShift of the extra channel from number ecStart on *)
Definition initialChannel (height width : Z) (ecStart : Z) (dimShifts : list Z) (i : Z) : Outcome Chan :=
  dimShift <o- (if i <? ecStart then Ok 0 else slice_get dimShifts (i - ecStart)) ;;
  Ok (newChan (i32 height) (i32 width) dimShift dimShift false).

(* append(l[:pos], l[pos+1:]...) *)
Definition removeAt {A} (l : list A) (pos : Z) : Outcome (list A) :=
  if (pos <? 0) || (Z.of_nat (length l) <? pos + 1) then Panic
  else Ok (firstn (Z.to_nat pos) l ++ skipn (Z.to_nat pos + 1) l).
(* util.AddToSlice (util/sliceutil.go:3-25) on the contents of a slice;
   ProofModStream shows that this is what ModelUtil.AddToSlice computes *)
Definition insertAt {A} (l : list A) (pos : Z) (item : A) : Outcome (list A) :=
  match l with
  | [] => Ok [item]
  | _ => if (pos <? 0) || (Z.of_nat (length l) <? pos) then Panic
         else Ok (firstn (Z.to_nat pos) l ++ item :: skipn (Z.to_nat pos) l)
  end.
(* The channels are pointers to distinct channels, so a list of values
   describes them. *)
Definition set_forceWP (c : Chan) : Chan :=
  mkChan (c_height c) (c_width c) (c_vshift c) (c_hshift c) true (c_buf c) (c_decoded c) (c_pred c).
Definition set_size (c : Chan) (h w vs hs : Z) : Chan := mkChan h w vs hs (c_forceWP c) (c_buf c) (c_decoded c) (c_pred c).

(* :241-258 *)
Definition metaPalette (t : TransformInfo) (st : Z * list Chan) : Outcome (Z * list Chan) :=
  let '(nbMeta, chs) := st in
  let nbMeta := if ti_beginC t <? nbMeta then nbMeta + (2 - ti_numC t) else nbMeta + 1 in
  let start := ti_beginC t + 1 in
  chs <o- oloop (Z.to_nat (ti_beginC t + ti_numC t - start)) 0 (fun _ chs => removeAt chs start) chs ;;
  chs <o- (if (0 <? ti_nbDeltas t) && (ti_dPred t =? 6)
           then mc <o- slice_get chs (ti_beginC t) ;; slice_set chs (ti_beginC t) (set_forceWP mc) else Ok chs) ;;
  Ok (nbMeta, newChan (i32 (ti_numC t)) (i32 (ti_nbColours t)) (-1) (-1) false :: chs).

(* :276-285, the loop; every round halves a side of a uint32 size that is
   above 8, so 64 rounds are never used up *)
Fixpoint squeezeRounds (fuel : nat) (first count w h : Z) : list SqueezeParam :=
  match fuel with
  | O => []
  | S f =>
      if (8 <? w) || (8 <? h) then
        (if 8 <? w then [mkSP true true first count] else []) ++
        (if 8 <? h then [mkSP false true first count] else []) ++
        squeezeRounds f first count (if 8 <? w then u32 (w + 1) / 2 else w) (if 8 <? h then u32 (h + 1) / 2 else h)
      else []
  end.
(* :264-286, the default list *)
Definition defaultSqueezeList (nbMeta : Z) (chs : list Chan) : Outcome (list SqueezeParam) :=
  let first := nbMeta in
  let count := Z.of_nat (length chs) - first in
  c0 <o- slice_get chs 0 ;;
  let w := c_width c0 in let h := c_height c0 in
  chroma <o- (if 2 <? count then c1 <o- slice_get chs (first + 1) ;; Ok ((w =? c_width c1) && (h =? c_height c1)) else Ok false) ;;
  let tall := (w <=? h) && (8 <? h) in
  Ok ((if chroma : bool then [mkSP true false (first + 1) 2; mkSP false false (first + 1) 2] else []) ++
      (if tall then [mkSP false true first count] else []) ++
      squeezeRounds 64 first count w (if tall then u32 (h + 1) / 2 else h)).

(* :294-334, one entry of the list *)
Definition metaSqueezeStep (p : SqueezeParam) (st : Z * list Chan) : Outcome (Z * list Chan) :=
  let '(nbMeta, chs) := st in
  let begin := sp_beginC p in
  let last := begin + sp_numC p - 1 in
  let offset := if sp_inPlace p then last + 1 else Z.of_nat (length chs) in
  nbMeta <o- (if begin <? nbMeta then
                if negb (sp_inPlace p) then Err
                else if nbMeta <=? last then Err
                else Ok (nbMeta + sp_numC p)
              else Ok nbMeta) ;;
  chs <o- oloop (Z.to_nat (sp_numC p)) 0 (fun k chs =>
    let c := begin + Z.of_nat k in
    ch <o- slice_get chs c ;;
    let r := offset + c - begin in
    let ch' := if sp_horizontal p then set_size ch (c_height ch) (u32 (c_width ch + 1) / 2) (c_vshift ch) (c_hshift ch + 1)
               else set_size ch (u32 (c_height ch + 1) / 2) (c_width ch) (c_vshift ch + 1) (c_hshift ch) in
    residu <o- chanFromChan ch' ;;
    let residu := if sp_horizontal p then set_size residu (c_height residu) (c_width ch / 2) (c_vshift residu) (c_hshift residu)
                  else set_size residu (c_height ch / 2) (c_width residu) (c_vshift residu) (c_hshift residu) in
    chs <o- slice_set chs c ch' ;;
    insertAt chs r residu) chs ;;
  Ok (nbMeta, chs).
Fixpoint metaSqueezes (l : list SqueezeParam) (st : Z * list Chan) : Outcome (Z * list Chan) :=
  match l with [] => Ok st | p :: t => st <o- metaSqueezeStep p st ;; metaSqueezes t st end.

(* :237-340: the number of meta channels, the channels, and the entries of
   squeezeMap in the order of the transforms (empty for other transforms) *)
Fixpoint metaTransforms (l : list TransformInfo) (st : Z * list Chan) : Outcome (Z * list Chan * list (list SqueezeParam)) :=
  match l with
  | [] => Ok (st, [])
  | t :: l' =>
      r <o- (if ti_tr t =? PALETTE then st <o- metaPalette t st ;; Ok (st, [])
             else if ti_tr t =? SQUEEZE then
               sq <o- (match ti_sp t with [] => defaultSqueezeList (fst st) (snd st) | _ => Ok (ti_sp t) end) ;;
               st <o- metaSqueezes sq st ;; Ok (st, sq)
             else if ti_tr t =? RCT then Ok (st, [])
             else Err) ;;
      let '(st, sq) := r in
      r <o- metaTransforms l' st ;;
      let '(st, m) := r in Ok (st, sq :: m)
  end.

(* :406-441, one entry of a squeeze *)
Definition applySqueezeStep (p : SqueezeParam) (chs : list Chan) : Outcome (list Chan) :=
  let begin := sp_beginC p in
  let last := begin + sp_numC p - 1 in
  let offset := if sp_inPlace p then last + 1 else Z.of_nat (length chs) + begin - last - 1 in
  chs <o- oloop (Z.to_nat (sp_numC p)) 0 (fun k chs =>
    let c := begin + Z.of_nat k in
    let r := offset + c - begin in
    ch <o- slice_get chs c ;;
    residu <o- slice_get chs r ;;
    output <o- (if sp_horizontal p
                then inverseHorizontalSqueeze (newChan (i32 (c_height ch)) (i32 (u32 (c_width ch + c_width residu))) (c_vshift ch) (c_hshift ch - 1) false) ch residu
                else inverseVerticalSqueeze (newChan (i32 (u32 (c_height ch + c_height residu))) (i32 (c_width ch)) (c_vshift ch - 1) (c_hshift ch) false) ch residu) ;;
    slice_set chs c output) chs ;;
  oloop (Z.to_nat (sp_numC p)) 0 (fun _ chs => removeAt chs offset) chs.
Fixpoint applySqueezes (l : list SqueezeParam) (chs : list Chan) : Outcome (list Chan) :=
  match l with [] => Ok chs | p :: t => chs <o- applySqueezes t chs ;; applySqueezeStep p chs end.

(* :397-581, applyTransforms: the last transform first.  nbMetaChannels, which
   is not used any more, is left out. *)
Fixpoint applyTransforms (bitDepth : Z) (l : list (TransformInfo * list SqueezeParam)) (chs : list Chan) : Outcome (list Chan) :=
  match l with
  | [] => Ok chs
  | (t, sq) :: l' =>
      chs <o- applyTransforms bitDepth l' chs ;;
      if ti_tr t =? SQUEEZE then applySqueezes sq chs
      else if ti_tr t =? RCT then inverseRCT (ti_rctType t) (ti_beginC t) chs
      else if ti_tr t =? PALETTE then inversePalette (ti_beginC t) (ti_numC t) (ti_nbColours t) (ti_nbDeltas t) (ti_dPred t) bitDepth chs
      else Ok chs
  end.
