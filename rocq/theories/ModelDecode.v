(* Transcription of the frame loop of core/jxl_codestream_decoder.go: decode,
   performColourTransforms, blendFrame, blendAlpha, the two conversions of
   buffer types, and Equals / ImageBufferSliceEquals of image/imagebuffer.go.

   A []ImageBuffer is a reference: the canvas, the four reference frames, the
   LF buffers and the buffer of a frame can be the same slice.  mem lists the
   slices that were allocated; the id of a slice is its position.  The matrices
   of the buffers of one slice are not shared with another slice: a slice is
   allocated with fresh matrices (DecodeFrame, NewImageBuffer, or the copy of
   lines 259-264), and `canvas[c] = ...' stores fresh ones.

   What DecodeFrame, Upsample (the samples), the three noise and spline calls
   and the arithmetic of the colour transform compute is a parameter.
   Animation is rejected before the loop, so header.Duration is 0.  NaN is not
   a value of the model (Equals is false on NaN in the code). *)
From Coq Require Import ZArith List Bool.
From Verif Require Import GoBase GoLoop GoMatrix GoFloat32 ModelBitReader ModelUtil ModelHeader ModelFrameHeader ModelImage.
Import ListNotations.
Open Scope Z_scope.

Local Notation "x <o- m ;; k" := (obind m (fun x => k)) (at level 60, m at next level, right associativity).

(* ---- slices ---- *)
Definition Mem := list (list ImageBuffer).
Definition rd (mem : Mem) (id : nat) : list ImageBuffer := nth id mem [].
Definition wr (mem : Mem) (id : nat) (v : list ImageBuffer) : Mem := list_set mem id v.
(* a new slice: its id is the old length *)
Definition alloc (mem : Mem) (v : list ImageBuffer) : Mem := mem ++ [v].

(* ---- image/imagebuffer.go:128-151 and util/misc.go:45-63 ---- *)
Fixpoint listEq {A} (eq : A -> A -> bool) (a b : list A) : bool :=
  match a, b with
  | [], [] => true
  | x :: a, y :: b => eq x y && listEq eq a b
  | _, _ => false
  end.
Definition CompareMatrix2D (a b : list (list Z)) : bool := listEq (listEq Z.eqb) a b.
Definition Equals (a b : ImageBuffer) : bool :=
  if negb (ib_w a =? ib_w b) || negb (ib_h a =? ib_h b) then false
  else if negb (ib_type a =? ib_type b) then false
  else if ib_type a =? TYPE_INT then CompareMatrix2D (ib_int a) (ib_int b)
  else if ib_type a =? TYPE_FLOAT then CompareMatrix2D (ib_float a) (ib_float b)
  else false.
(* image/imagebuffer.go:261-273 *)
Definition ImageBufferSliceEquals (a b : list ImageBuffer) : bool := listEq Equals a b.

(* ---- the image header as used here ---- *)
(* bundle/image_header.go:364-370 and 388-390 *)
Definition ihColours (ih : ImageHeader) : Z := if col_space (ih_colour ih) =? ModelHeader.CE_GRAY then 1 else 3.
Definition ihHasAlpha (ih : ImageHeader) : bool := negb (length (ih_alpha ih) =? 0)%nat.
(* frame/Frame.go:500-505 *)
Definition frColours (ih : ImageHeader) (fh : FrameHeader) : Z :=
  if ih_xyb ih || (fh_enc fh =? VARDCT) then 3 else ihColours ih.
(* the bit depth of channel c when the first n channels are colours:
   core/jxl_codestream_decoder.go:996-1005 and 1050-1060 *)
Definition depthOf (ih : ImageHeader) (n c : Z) : Outcome Z :=
  if n <=? c then e <o- slice_get (ih_extra ih) (c - n) ;; Ok (bd_bits (ec_bd e)) else Ok (bd_bits (ih_bd ih)).

(* ---- core/jxl_codestream_decoder.go:690-732 ---- *)
(* hasMatrix: the image is XYB encoded.  ct is what InvertXYB and the YCbCr
   loop do to the three float matrices. *)
Definition castColour (bits : Z) (c : Z) (b : list ImageBuffer) : Outcome (list ImageBuffer) :=
  ib <o- slice_get b c ;;
  ib <o- (if IsInt ib then CastToFloatIfMax ib (depthMax bits) else Ok ib) ;; slice_set b c ib.
Definition setFloat (b : list ImageBuffer) (c : Z) (m : list (list Z)) : Outcome (list ImageBuffer) :=
  ib <o- slice_get b c ;; slice_set b c (mkIB (ib_w ib) (ib_h ib) (ib_type ib) m (ib_int ib)).
Definition performColourTransforms (ct : list (list Z) -> list (list Z) -> list (list Z) -> Outcome (list (list Z) * list (list Z) * list (list Z)))
  (ih : ImageHeader) (fh : FrameHeader) (b : list ImageBuffer) : Outcome (list ImageBuffer) :=
  if negb (ih_xyb ih) && negb (fh_ycbcr fh) then Ok b
  else
    let bits := bd_bits (ih_bd ih) in
    b <o- castColour bits 0 b ;; b <o- castColour bits 1 b ;; b <o- castColour bits 2 b ;;
    x <o- slice_get b 0 ;; y <o- slice_get b 1 ;; z <o- slice_get b 2 ;;
    r <o- ct (ib_float x) (ib_float y) (ib_float z) ;;
    b <o- setFloat b 0 (fst (fst r)) ;; b <o- setFloat b 1 (snd (fst r)) ;; setFloat b 2 (snd r).

(* ---- core/jxl_codestream_decoder.go:734-818, blendFrame ---- *)
(* 1043-1072: the canvas channel and the local copy of the frame's channel *)
Definition convertCanvas (ih : ImageHeader) (imageColours frameColours c frameC : Z) (cv fb : ImageBuffer) : Outcome (ImageBuffer * ImageBuffer) :=
  if negb (ib_type cv =? ib_type fb) then
    dc <o- depthOf ih imageColours c ;;
    df <o- depthOf ih frameColours frameC ;;
    fb <o- CastToFloatIfMax fb (depthMax df) ;;
    cv <o- CastToFloatIfMax cv (depthMax dc) ;;
    Ok (cv, fb)
  else Ok (cv, fb).
(* 983-1015: canvas channel, local copy of the reference's channel, local copy
   of the frame's channel *)
Definition convertReference (ih : ImageHeader) (mode imageColours frameColours c frameC : Z) (cv ref fb : ImageBuffer)
  : Outcome (ImageBuffer * ImageBuffer * ImageBuffer) :=
  if negb (ib_type ref =? ib_type fb) || negb (mode =? BLEND_ADD) then
    dc <o- depthOf ih imageColours c ;;
    df <o- depthOf ih frameColours frameC ;;
    fb <o- CastToFloatIfMax fb (depthMax df) ;;
    cv <o- CastToFloatIfMax cv (depthMax dc) ;;
    ref <o- CastToFloatIfMax ref (depthMax dc) ;;
    Ok (cv, ref, fb)
  else Ok (cv, ref, fb).
(* 1018-1041: rid is the slice of the reference, fid that of the frame, cw and
   ch the size of the canvas channel *)
Definition blendAlpha (ih : ImageHeader) (info : Blending) (imageColours cw ch : Z) (rid fid : nat) (mem : Mem) : Outcome Mem :=
  if ihHasAlpha ih && ((bl_mode info =? BLEND_BLEND) || (bl_mode info =? BLEND_MULADD)) then
    e <o- slice_get (ih_extra ih) (bl_alpha info) ;;
    let depth := bd_bits (ec_bd e) in
    let alphaIdx := imageColours + bl_alpha info in
    ra <o- slice_get (rd mem rid) alphaIdx ;;
    ra <o- (if (ib_w ra =? 0) && (ib_h ra =? 0) then NewImageBuffer TYPE_FLOAT ch cw else Ok ra) ;;
    ra <o- (if negb (IsFloat ra) then CastToFloatIfMax ra (depthMax depth) else Ok ra) ;;
    rs <o- slice_set (rd mem rid) alphaIdx ra ;;
    let mem := wr mem rid rs in
    fa <o- slice_get (rd mem fid) alphaIdx ;;
    fa <o- (if negb (IsFloat fa) then CastToFloatIfMax fa (depthMax depth) else Ok fa) ;;
    fs <o- slice_set (rd mem fid) alphaIdx fa ;;
    Ok (wr mem fid fs)
  else Ok mem.

(* 756-816 for channel c; cid, fid: slices of the canvas and of the frame.
   performBlending reads its matrices from the state before its loop: when the
   reference is the canvas itself, a cell is read before it is written and no
   other cell of the same matrix is read for it. *)
Definition frameChannel (imageColours frameColours c : Z) : Z :=
  if negb (frameColours =? imageColours) then (if c =? 0 then 1 else c + 2) else c.
Definition setCanvas (mem : Mem) (cid : nat) (c : Z) (ib : ImageBuffer) : Outcome Mem :=
  s <o- slice_set (rd mem cid) c ib ;; Ok (wr mem cid s).
Definition blendOne (ih : ImageHeader) (fh : FrameHeader) (rg : Region) (refs : list (option nat)) (cid fid : nat) (c : Z) (mem : Mem) : Outcome Mem :=
  let frameColours := frColours ih fh in
  let imageColours := ihColours ih in
  let hasAlpha := ihHasAlpha ih in
  let frameC := frameChannel imageColours frameColours c in
  fb <o- slice_get (rd mem fid) frameC ;;
  info <o- (if frameC <? frameColours then Ok (fh_blend fh) else slice_get (fh_ecblend fh) (frameC - frameColours)) ;;
  isAlpha <o- (if imageColours <=? c then e <o- slice_get (ih_extra ih) (c - imageColours) ;; Ok (ec_type e =? ALPHA) else Ok false) ;;
  premult <o- (if hasAlpha then e <o- slice_get (ih_extra ih) (bl_alpha info) ;; Ok (ec_assoc e) else Ok false) ;;
  ref <o- slice_get refs (bl_source info) ;;
  cv <o- slice_get (rd mem cid) c ;;
  p <o- convertCanvas ih imageColours frameColours c frameC cv fb ;;
  let cv := fst p in
  let fb := snd p in
  mem <o- setCanvas mem cid c cv ;;
  if (bl_mode info =? BLEND_REPLACE) || (match ref with None => true | _ => false end) && (bl_mode info =? BLEND_ADD) then
    if negb (ib_type cv =? ib_type fb) then Err
    else if IsInt cv then
      m <o- copyToCanvas rg (ib_int cv) (ib_int fb) ;; setCanvas mem cid c (mkIB (ib_w cv) (ib_h cv) (ib_type cv) (ib_float cv) m)
    else m <o- copyToCanvas rg (ib_float cv) (ib_float fb) ;; setCanvas mem cid c (mkIB (ib_w cv) (ib_h cv) (ib_type cv) m (ib_int cv))
  else
    match ref with
    | None => Panic
    | Some rid =>
        rb <o- slice_get (rd mem rid) c ;;
        rb <o- (if (ib_w rb =? 0) && (ib_h rb =? 0) then NewImageBuffer (ib_type fb) (ib_h cv) (ib_w cv) else Ok rb) ;;
        rs <o- slice_set (rd mem rid) c rb ;;
        let mem := wr mem rid rs in
        mem <o- blendAlpha ih info imageColours (ib_w cv) (ib_h cv) rid fid mem ;;
        cv <o- slice_get (rd mem cid) c ;;
        q <o- convertReference ih (bl_mode info) imageColours frameColours c frameC cv rb fb ;;
        let cv := fst (fst q) in
        let rb := snd (fst q) in
        let fb := snd q in
        mem <o- setCanvas mem cid c cv ;;
        let withAlpha := hasAlpha && ((bl_mode info =? BLEND_BLEND) || (bl_mode info =? BLEND_MULADD)) in
        oa <o- (if withAlpha then a <o- slice_get (rd mem rid) (imageColours + bl_alpha info) ;; Ok (ib_float a) else Ok []) ;;
        na <o- (if withAlpha then a <o- slice_get (rd mem fid) (frameColours + bl_alpha info) ;; Ok (ib_float a) else Ok []) ;;
        let int := (bl_mode info =? BLEND_ADD) && IsInt fb in
        let args := mkBA (bl_mode info) (bl_clamp info) hasAlpha isAlpha premult (IsInt fb)
                      (if int then ib_int rb else ib_float rb) (if int then ib_int fb else ib_float fb) oa na in
        m <o- performBlending args rg (if int then ib_int cv else ib_float cv) ;;
        setCanvas mem cid c (if int then mkIB (ib_w cv) (ib_h cv) (ib_type cv) (ib_float cv) m
                             else mkIB (ib_w cv) (ib_h cv) (ib_type cv) m (ib_int cv))
    end.
(* frame/Frame.go:1451-1455: the bounds after Upsample *)
Definition upBounds (fh : FrameHeader) : Z * Z * Z * Z :=
  (i32 (fh_ox fh * i32 (fh_up fh)), i32 (fh_oy fh * i32 (fh_up fh)), u32 (fh_bw fh * fh_up fh), u32 (fh_bh fh * fh_up fh)).
Definition frameRegion (ih : ImageHeader) (fh : FrameHeader) : Region :=
  match upBounds fh with (ox, oy, w, h) => blendRegion ox oy w h (dim_w (ih_size ih)) (dim_h (ih_size ih)) end.
Definition blendFrame (ih : ImageHeader) (fh : FrameHeader) (refs : list (option nat)) (cid fid : nat) (mem : Mem) : Outcome Mem :=
  let rg := frameRegion ih fh in
  oloop (length (rd mem cid)) 0 (fun c mem => blendOne ih fh rg refs cid fid (Z.of_nat c) mem) mem.

(* ---- core/jxl_codestream_decoder.go:159-280, the loop over the frames ---- *)
(* one frame of the stream: its header; what ReadTOC, SkipFrameData,
   DecodeFrame (given the LF buffer), Upsample, the calls InitializeNoise,
   RenderSplines and SynthesizeNoise, and the colour transform do *)
Record FrameIn := mkFI {
  fi_h : FrameHeader; fi_toc : Outcome unit; fi_skip : Outcome unit;
  fi_decode : option (list ImageBuffer) -> Outcome (list ImageBuffer);
  fi_up : list ImageBuffer -> Outcome (list ImageBuffer);
  fi_extra : Outcome unit;
  fi_ct : list (list Z) -> list (list Z) -> list (list Z) -> Outcome (list (list Z) * list (list Z) * list (list Z)) }.
Record DState := mkDS { d_mem : Mem; d_canvas : nat; d_refs : list (option nat); d_lf : list (option nat) }.

Definition lfValue (st : DState) (o : option nat) : option (list ImageBuffer) := option_map (rd (d_mem st)) o.
(* 241-249: the canvas gets its size with the first frame *)
Fixpoint newBuffers (n : nat) (ty h w : Z) : Outcome (list ImageBuffer) :=
  match n with
  | O => Ok []
  | S n' => b <o- NewImageBuffer ty h w ;; t <o- newBuffers n' ty h w ;; Ok (b :: t)
  end.
Definition initCanvas (ih : ImageHeader) (cid fid : nat) (mem : Mem) : Outcome Mem :=
  c0 <o- slice_get (rd mem cid) 0 ;;
  if (ib_h c0 =? 0) && (ib_w c0 =? 0) then
    f0 <o- slice_get (rd mem fid) 0 ;;
    b <o- newBuffers (length (rd mem cid)) (ib_type f0) (i32 (dim_h (ih_size ih))) (i32 (dim_w (ih_size ih))) ;;
    Ok (wr mem cid b)
  else Ok mem.
(* 251-257: is the canvas equal to a reference other than the one with index s *)
Fixpoint foundRef (i s : Z) (mem : Mem) (cv : list ImageBuffer) (refs : list (option nat)) : bool :=
  match refs with
  | [] => false
  | r :: t => ImageBufferSliceEquals (match r with None => [] | Some id => rd mem id end) cv && negb (i =? s)
              || foundRef (i + 1) s mem cv t
  end.
(* 259-266 *)
Fixpoint copyAll (l : list ImageBuffer) : Outcome (list ImageBuffer) :=
  match l with
  | [] => Ok []
  | ib :: t => b <o- NewImageBufferFromImageBuffer ib true ;; t <o- copyAll t ;; Ok (b :: t)
  end.
(* one iteration; the flag tells whether the loop is left *)
Definition frameStep (parseOnly renderVarblocks : bool) (ih : ImageHeader) (fi : FrameIn) (st : DState) : Outcome (DState * bool) :=
  let fh := fi_h fi in
  lf <o- slice_get (d_lf st) (fh_lflevel fh) ;;
  if (match lf with None => true | _ => false end) && negb (Z.land (fh_flags fh) USE_LF_FRAME =? 0) then Err
  else
    _ <o- fi_toc fi ;;
    if parseOnly : bool then _ <o- fi_skip fi ;; Ok (st, false)
    else
      buf <o- fi_decode fi (lfValue st lf) ;;
      let fid := length (d_mem st) in
      let mem := alloc (d_mem st) buf in
      lfs <o- (if 0 <? fh_lflevel fh then slice_set (d_lf st) (fh_lflevel fh - 1) (Some fid) else Ok (d_lf st)) ;;
      if fh_type fh =? LF_FRAME then Ok (mkDS mem (d_canvas st) (d_refs st) lfs, false)
      else
        let save := negb (fh_last fh) in
        b <o- fi_up fi (rd mem fid) ;;
        let mem := wr mem fid b in
        refs <o- (if save && fh_savect fh then slice_set (d_refs st) (fh_saveref fh) (Some fid) else Ok (d_refs st)) ;;
        _ <o- fi_extra fi ;;
        b <o- performColourTransforms (fi_ct fi) ih fh (rd mem fid) ;;
        let mem := wr mem fid b in
        if (fh_enc fh =? VARDCT) && renderVarblocks then Panic
        else
          mem <o- initCanvas ih (d_canvas st) fid mem ;;
          p <o- (if (fh_type fh =? REGULAR_FRAME) || (fh_type fh =? SKIP_PROGRESSIVE) then
                   p <o- (if foundRef 0 (fh_saveref fh) mem (rd mem (d_canvas st)) refs
                          then b <o- copyAll (rd mem (d_canvas st)) ;; Ok (alloc mem b, length mem)
                          else Ok (mem, d_canvas st)) ;;
                   mem <o- blendFrame ih fh refs (snd p) fid (fst p) ;; Ok (mem, snd p)
                 else Ok (mem, d_canvas st)) ;;
          let mem := fst p in
          let cid := snd p in
          refs <o- (if save && negb (fh_savect fh) then slice_set refs (fh_saveref fh) (Some cid) else Ok refs) ;;
          Ok (mkDS mem cid refs lfs, fh_last fh).
(* the loop over the frames that follow in the stream; after the last of them
   ReadFrameHeader fails *)
Fixpoint frameLoop (parseOnly renderVarblocks : bool) (ih : ImageHeader) (frames : list FrameIn) (st : DState) : Outcome DState :=
  match frames with
  | [] => Err
  | fi :: t =>
      r <o- frameStep parseOnly renderVarblocks ih fi st ;;
      if snd r : bool then Ok (fst r) else frameLoop parseOnly renderVarblocks ih t (fst r)
  end.
(* 292-299 *)
Fixpoint orientAll (orientation : Z) (l : list ImageBuffer) : Outcome (list ImageBuffer) :=
  match l with
  | [] => Ok []
  | ib :: t => b <o- transposeBuffer ib orientation ;; t <o- orientAll orientation t ;; Ok (b :: t)
  end.
Definition ZERO_IB : ImageBuffer := mkIB 0 0 TYPE_INT [] [].
Definition initState (ih : ImageHeader) : DState :=
  mkDS [repeat ZERO_IB (Z.to_nat (ihColours ih) + length (ih_extra ih))] 0 (repeat None 4) (repeat None 5).
(* 136-310: the loop over the boxes.  A box gives the frames that are read
   from its offset on (for the only box: from the end of the image header on);
   atEnd tells whether the reader is at the end there, pad is the result of
   ZeroPadToByte after the last frame.  The result is the oriented canvas, or
   None for the nil image. *)
Record BoxIn := mkBx { bx_atEnd : bool; bx_frames : list FrameIn; bx_pad : Outcome unit }.
Definition decodeBoxes (parseOnly renderVarblocks : bool) (ih : ImageHeader) (boxes : list BoxIn) : Outcome (option (list ImageBuffer)) :=
  match (if 1 <? Z.of_nat (length boxes) then tl boxes else boxes) with
  | [] => Ok None
  | bx :: _ =>
      if bx_atEnd bx then Ok None
      else
        st <o- frameLoop parseOnly renderVarblocks ih (bx_frames bx) (initState ih) ;;
        _ <o- bx_pad bx ;;
        if parseOnly : bool then Ok None
        else b <o- orientAll (ih_orientation ih) (rd (d_mem st) (d_canvas st)) ;; Ok (Some b)
  end.
