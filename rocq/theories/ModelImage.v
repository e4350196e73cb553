(* Transcription of image/imagebuffer.go, of the orientation step and of the
   blending of one channel in core/jxl_codestream_decoder.go, of the copy
   constructor in core/jxl_image.go, and of options/jxl_options.go.

   A float32 is its value in units of 2^-149 (GoFloat32.v).  Matrices are lists
   of rows; nil is the empty list.  Capacity of a row = its length. *)
From Coq Require Import ZArith List Bool.
From Verif Require Import GoBase GoLoop GoMatrix GoFloat32.
Import ListNotations.
Open Scope Z_scope.

Local Notation "x <o- m ;; k" := (obind m (fun x => k)) (at level 60, m at next level, right associativity).

(* ---- image/imagebuffer.go ---- *)
(* image/imagebuffer.go:9-23 *)
Definition TYPE_INT : Z := 0.
Definition TYPE_FLOAT : Z := 1.
Record ImageBuffer := mkIB {
  ib_w : Z; ib_h : Z; ib_type : Z; ib_float : list (list Z); ib_int : list (list Z) }.
Definition IsFloat (ib : ImageBuffer) : bool := ib_type ib =? TYPE_FLOAT.
Definition IsInt (ib : ImageBuffer) : bool := ib_type ib =? TYPE_INT.

(* util/misc.go:12-18, MakeMatrix2D: make panics for negative sizes *)
Definition MakeMatrix2D (h w : Z) : Outcome (list (list Z)) :=
  if (h <? 0) || ((0 <? h) && (w <? 0)) then Panic else Ok (zeros2 h w).

(* image/imagebuffer.go:26-48 *)
Definition NewImageBuffer (bufferType height width : Z) : Outcome ImageBuffer :=
  if negb (bufferType =? TYPE_INT) && negb (bufferType =? TYPE_FLOAT) then Err
  else if (height <? 0) || (2 ^ 30 <? height) || (width <? 0) || (2 ^ 30 <? width) then Err
  else if bufferType =? TYPE_INT then
    m <o- MakeMatrix2D height width ;; Ok (mkIB width height bufferType [] m)
  else m <o- MakeMatrix2D height width ;; Ok (mkIB width height bufferType m []).

(* image/imagebuffer.go:49-56 and 58-65; int32(len) *)
Definition NewImageBufferFromInts (buffer : list (list Z)) : Outcome ImageBuffer :=
  r <o- slice_get buffer 0 ;;
  Ok (mkIB (i32 (Z.of_nat (length r))) (i32 (Z.of_nat (length buffer))) TYPE_INT [] buffer).
Definition NewImageBufferFromFloats (buffer : list (list Z)) : Outcome ImageBuffer :=
  r <o- slice_get buffer 0 ;;
  Ok (mkIB (i32 (Z.of_nat (length r))) (i32 (Z.of_nat (length buffer))) TYPE_FLOAT buffer []).

(* builtin copy(dst, src): the new contents of dst *)
Definition gocopy (dst src : list Z) : list Z := firstn (length dst) src ++ skipn (length src) dst.

(* image/imagebuffer.go:84-91 and 93-100, the row copied into a zeroed row *)
Definition copyMatrix (src : list (list Z)) : list (list Z) :=
  map (fun r => gocopy (repeat 0 (length r)) r) src.
(* image/imagebuffer.go:67-82 *)
Definition NewImageBufferFromImageBuffer (ib : ImageBuffer) (copyBuffer : bool) : Outcome ImageBuffer :=
  if copyBuffer then Ok (mkIB (ib_w ib) (ib_h ib) (ib_type ib) (copyMatrix (ib_float ib)) (copyMatrix (ib_int ib)))
  else i <o- MakeMatrix2D (ib_h ib) (ib_w ib) ;; f <o- MakeMatrix2D (ib_h ib) (ib_w ib) ;;
       Ok (mkIB (ib_w ib) (ib_h ib) (ib_type ib) f i).

(* image/imagebuffer.go:168-188; the new state of the buffer *)
Definition castToFloatBuffer (ib : ImageBuffer) (maxValue : Z) : Outcome ImageBuffer :=
  if IsFloat ib then Err
  else if maxValue <? 1 then Err
  else
    newBuffer <o- MakeMatrix2D (ib_h ib) (ib_w ib) ;;
    let scaleFactor := f_div F_ONE (f_of_int maxValue) in
    newBuffer <o- loop2 (Z.to_nat (ib_h ib)) (Z.to_nat (ib_w ib)) (fun y x nb =>
      v <o- get2 (ib_int ib) (Z.of_nat y) (Z.of_nat x) ;;
      set2 nb (Z.of_nat y) (Z.of_nat x) (f_mul (f_of_int v) scaleFactor)) newBuffer ;;
    Ok (mkIB (ib_w ib) (ib_h ib) TYPE_FLOAT newBuffer (ib_int ib)).
(* image/imagebuffer.go:161-166 *)
Definition CastToFloatIfMax (ib : ImageBuffer) (maxValue : Z) : Outcome ImageBuffer :=
  if IsFloat ib then Ok ib else castToFloatBuffer ib maxValue.

(* image/imagebuffer.go:200-230 *)
Definition castToIntBuffer (ib : ImageBuffer) (maxValue : Z) : Outcome ImageBuffer :=
  if IsInt ib then Err
  else if maxValue <? 1 then Err
  else
    newBuffer <o- MakeMatrix2D (ib_h ib) (ib_w ib) ;;
    let scaleFactor := f_of_int maxValue in
    newBuffer <o- loop2 (Z.to_nat (ib_h ib)) (Z.to_nat (ib_w ib)) (fun y x nb =>
      f <o- get2 (ib_float ib) (Z.of_nat y) (Z.of_nat x) ;;
      let v := f_to_i32 (f_add (f_mul f scaleFactor) F_HALF) in
      set2 nb (Z.of_nat y) (Z.of_nat x) (if v <? 0 then 0 else if maxValue <? v then maxValue else v)) newBuffer ;;
    Ok (mkIB (ib_w ib) (ib_h ib) TYPE_INT (ib_float ib) newBuffer).
(* image/imagebuffer.go:190-198.  On an error the buffer is also marked as an
   integer buffer; that state is not returned here, no caller goes on after
   an error. *)
Definition CastToIntIfMax (ib : ImageBuffer) (maxValue : Z) : Outcome ImageBuffer :=
  if IsInt ib then Ok ib else castToIntBuffer ib maxValue.

(* image/imagebuffer.go:232-252 *)
Definition Clamp (ib : ImageBuffer) (maxValue : Z) : Outcome ImageBuffer :=
  if IsFloat ib then Err
  else
    buf <o- MakeMatrix2D (ib_h ib) (ib_w ib) ;;
    buf <o- loop2 (Z.to_nat (ib_h ib)) (Z.to_nat (ib_w ib)) (fun y x buf =>
      v <o- get2 (ib_int ib) (Z.of_nat y) (Z.of_nat x) ;;
      set2 buf (Z.of_nat y) (Z.of_nat x) (if v <? 0 then 0 else if maxValue <? v then maxValue else v)) buf ;;
    Ok (mkIB (ib_w ib) (ib_h ib) (ib_type ib) (ib_float ib) buf).

(* ^(^0 << depth) in int32 *)
Definition depthMax (depth : Z) : Z := Z.lnot (i32 (Z.shiftl (-1) depth)).

(* ---- orientation ---- *)
(* for y < h { for x < w { dest[fy][fx] = src[y][x] } } *)
Definition permuteLoop (h w : Z) (fy fx : Z -> Z -> Z) (src dest : list (list Z)) : Outcome (list (list Z)) :=
  loop2 (Z.to_nat h) (Z.to_nat w) (fun y x d =>
    v <o- get2 src (Z.of_nat y) (Z.of_nat x) ;;
    set2 d (fy (Z.of_nat y) (Z.of_nat x)) (fx (Z.of_nat y) (Z.of_nat x)) v) dest.

(* core/jxl_codestream_decoder.go:1110-1180 (int32) and 1182-1252 (float32),
   which are the same code *)
Definition transposeMatrix (src : list (list Z)) (orientation : Z) : Outcome (list (list Z)) :=
  let srcHeight := Z.of_nat (length src) in
  r0 <o- slice_get src 0 ;;
  let srcWidth := Z.of_nat (length r0) in
  let srcH1 := srcHeight - 1 in
  let srcW1 := srcWidth - 1 in
  let dest := if 4 <? orientation then zeros2 srcWidth srcHeight
              else if 1 <? orientation then zeros2 srcHeight srcWidth else [] in
  if orientation =? 1 then Ok src
  else if orientation =? 2 then permuteLoop srcHeight srcWidth (fun y x => y) (fun y x => srcW1 - x) src dest
  else if orientation =? 3 then permuteLoop srcHeight srcWidth (fun y x => srcH1 - y) (fun y x => srcW1 - x) src dest
  else if orientation =? 4 then
    oloop (length src) 0 (fun y d =>
      dr <o- slice_get d (srcH1 - Z.of_nat y) ;;
      sr <o- slice_get src (Z.of_nat y) ;;
      slice_set d (srcH1 - Z.of_nat y) (gocopy dr sr)) dest
  else if orientation =? 5 then permuteLoop srcHeight srcWidth (fun y x => x) (fun y x => y) src dest
  else if orientation =? 6 then permuteLoop srcHeight srcWidth (fun y x => x) (fun y x => srcH1 - y) src dest
  else if orientation =? 7 then permuteLoop srcHeight srcWidth (fun y x => srcW1 - x) (fun y x => srcH1 - y) src dest
  else if orientation =? 8 then permuteLoop srcHeight srcWidth (fun y x => srcW1 - x) (fun y x => y) src dest
  else Err.
(* core/jxl_codestream_decoder.go:1094-1108 *)
Definition transposeBuffer (src : ImageBuffer) (orientation : Z) : Outcome ImageBuffer :=
  if IsInt src then m <o- transposeMatrix (ib_int src) orientation ;; NewImageBufferFromInts m
  else m <o- transposeMatrix (ib_float src) orientation ;; NewImageBufferFromFloats m.

(* ---- core/jxl_image.go ---- *)
(* core/jxl_image.go:21-38.  im_header stands for the image header, of which
   the writers use im_bits (BitDepth.BitsPerSample), im_hasAlpha, im_colours
   (GetColourChannelCount) and im_intent; im_primS and im_primP are the tests
   Prim.Matches(CM_PRI_SRGB) and Prim.Matches(CM_PRI_P3) of isHDR. *)
Record Header := mkHd { hd_bits : Z; hd_hasAlpha : bool; hd_colours : Z; hd_intent : Z; hd_primS : bool; hd_primP : bool }.
Record JXLImage := mkJI {
  im_buffer : list ImageBuffer; im_icc : list Z; im_depths : list Z;
  im_primariesXY : Z; im_whiteXY : Z; im_header : Header; im_w : Z; im_h : Z;
  im_encoding : Z; im_alphaIndex : Z; im_primaries : Z; im_whitePoint : Z;
  im_transfer : Z; im_tagged : Z; im_premult : bool }.

(* core/jxl_image.go:84-110.  The loop ranges over the buffers of the new
   image, jxl.Buffer, which is nil, and appends to it: a range loop evaluates
   its operand once, so it runs zero times. *)
Definition NewJXLImageFromJXLImage (img : JXLImage) (copyBuffer : bool) : Outcome JXLImage :=
  let jxlBuffer : list ImageBuffer := [] in
  buf <o- fold_left (fun acc ib => a <o- acc ;; b <o- NewImageBufferFromImageBuffer ib copyBuffer ;; Ok (a ++ [b]))
            jxlBuffer (Ok jxlBuffer) ;;
  Ok (mkJI buf (im_icc img) (gocopy (repeat 0 (length (im_depths img))) (im_depths img))
        (im_primariesXY img) (im_whiteXY img) (im_header img) (im_w img) (im_h img)
        (im_encoding img) (im_alphaIndex img) (im_primaries img) (im_whitePoint img)
        (im_transfer img) (im_tagged img) (im_premult img)).

(* core/jxl_image.go:460-486, transferWithOp, for a transfer function f on
   float32; the channel loop over colours channels *)
Fixpoint castAll (n : nat) (c : Z) (depths : list Z) (bufs : list ImageBuffer) : Outcome (list ImageBuffer) :=
  match n with
  | O => Ok bufs
  | S n' => ib <o- slice_get bufs c ;; d <o- slice_get depths c ;;
            ib <o- CastToFloatIfMax ib (depthMax d) ;; bufs <o- slice_set bufs c ib ;;
            castAll n' (c + 1) depths bufs
  end.
Definition CE_GRAY : Z := 1.
Definition transferWithOp (f : Z -> Z) (img : JXLImage) : Outcome JXLImage :=
  let colours := if im_encoding img =? CE_GRAY then 1 else 3 in
  bufs <o- castAll (Z.to_nat colours) 0 (im_depths img) (im_buffer img) ;;
  new <o- NewJXLImageFromJXLImage img false ;;
  nb <o- oloop (Z.to_nat colours) 0 (fun c nb =>
    src <o- slice_get bufs (Z.of_nat c) ;;
    b <o- slice_get nb (Z.of_nat c) ;;
    m <o- loop2 (Z.to_nat (im_h img)) (Z.to_nat (im_w img)) (fun y x m =>
      v <o- get2 (ib_float src) (Z.of_nat y) (Z.of_nat x) ;; set2 m (Z.of_nat y) (Z.of_nat x) (f v)) (ib_float b) ;;
    slice_set nb (Z.of_nat c) (mkIB (ib_w b) (ib_h b) (ib_type b) m (ib_int b))) (im_buffer new) ;;
  Ok (mkJI nb (im_icc new) (im_depths new) (im_primariesXY new) (im_whiteXY new) (im_header new) (im_w new) (im_h new)
        (im_encoding new) (im_alphaIndex new) (im_primaries new) (im_whitePoint new)
        (im_transfer new) (im_tagged new) (im_premult new)).

(* ---- options/jxl_options.go ---- *)
(* options/jxl_options.go:5-10 *)
Record JXLOptions := mkOpt { o_debug : bool; o_parseOnly : bool; o_renderVarblocks : bool; o_maxGoroutines : Z }.
(* options/jxl_options.go:12-29; gomaxprocs is runtime.GOMAXPROCS(-1) *)
Definition NewJXLOptions (gomaxprocs : Z) (options : option JXLOptions) : JXLOptions :=
  match options with
  | None => mkOpt false false false gomaxprocs
  | Some o => mkOpt (o_debug o) (o_parseOnly o) false
                (if 1 <? o_maxGoroutines o then o_maxGoroutines o else gomaxprocs)
  end.

(* ---- blending one channel ---- *)
Definition BLEND_REPLACE : Z := 0.
Definition BLEND_ADD : Z := 1.
Definition BLEND_BLEND : Z := 2.
Definition BLEND_MULADD : Z := 3.
Definition BLEND_MULT : Z := 4.

(* core/jxl_codestream_decoder.go:736-751: where the frame with origin
   (ox, oy) and size fw x fh meets the image of size iw x ih.  frameStartY
   depends on Origin.X. *)
Record Region := mkRg { rg_startY : Z; rg_startX : Z; rg_offY : Z; rg_offX : Z; rg_h : Z; rg_w : Z }.
Definition blendRegion (ox oy fw fh iw ih : Z) : Region :=
  let frameStartY := if 0 <=? ox then oy else 0 in
  let frameStartX := if 0 <=? ox then ox else 0 in
  let lowerX := i32 (ox + i32 fw) in
  let lowerY := i32 (oy + i32 fh) in
  mkRg frameStartY frameStartX (i32 (frameStartY - oy)) (i32 (frameStartX - ox))
       (i32 (Z.min lowerY (i32 ih) - frameStartY)) (i32 (Z.min lowerX (i32 iw) - frameStartX)).

(* row[lo:hi] *)
Definition subslice (row : list Z) (lo hi : Z) : Outcome (list Z) :=
  if (lo <? 0) || (hi <? lo) || (Z.of_nat (length row) <? hi) then Panic
  else Ok (firstn (Z.to_nat (hi - lo)) (skipn (Z.to_nat lo) row)).
(* core/jxl_codestream_decoder.go:1074-1092, on the int or float matrices *)
Definition copyToCanvas (rg : Region) (canvas frame : list (list Z)) : Outcome (list (list Z)) :=
  oloop (Z.to_nat (u32 (rg_h rg))) 0 (fun y cv =>
    let cy := u32 (Z.of_nat y + u32 (rg_startY rg)) in
    let fy := u32 (Z.of_nat y + u32 (rg_offY rg)) in
    crow <o- slice_get cv cy ;;
    dst <o- subslice crow (rg_startX rg) (Z.of_nat (length crow)) ;;
    frow <o- slice_get frame fy ;;
    src <o- subslice frow (rg_offX rg) (u32 (u32 (rg_offX rg) + u32 (rg_w rg))) ;;
    slice_set cv cy (firstn (Z.to_nat (rg_startX rg)) crow ++ gocopy dst src)) canvas.

(* core/jxl_codestream_decoder.go:822-981, performBlending: all modes loop over
   the region and write canvas[cy][cx].  ref, frame, oldA and newA are the
   matrices rf/ri, ff/fi, oaf, naf; isInt = frameBuffer.IsInt(). *)
Definition blendLoop (rg : Region) (pixel : Z -> Z -> Z -> Z -> Outcome Z) (canvas : list (list Z)) : Outcome (list (list Z)) :=
  loop2 (Z.to_nat (rg_h rg)) (Z.to_nat (rg_w rg)) (fun y x cv =>
    let cy := i32 (Z.of_nat y + rg_startY rg) in
    let fy := i32 (Z.of_nat y + rg_offY rg) in
    let cx := i32 (Z.of_nat x + rg_startX rg) in
    let fx := i32 (Z.of_nat x + rg_offX rg) in
    v <o- pixel cy cx fy fx ;; set2 cv cy cx v) canvas.
Definition clamp01 (clamp : bool) (v : Z) : Z :=
  if clamp then (if v <? 0 then 0 else if F_ONE <? v then F_ONE else v) else v.
Record BlendArgs := mkBA {
  ba_mode : Z; ba_clamp : bool; ba_hasAlpha : bool; ba_isAlpha : bool; ba_premult : bool; ba_isInt : bool;
  ba_ref : list (list Z); ba_frame : list (list Z); ba_oldA : list (list Z); ba_newA : list (list Z) }.
Definition performBlending (a : BlendArgs) (rg : Region) (canvas : list (list Z)) : Outcome (list (list Z)) :=
  let rf := ba_ref a in
  let ff := ba_frame a in
  if ba_mode a =? BLEND_ADD then
    if ba_isInt a then
      blendLoop rg (fun cy cx fy fx => r <o- get2 rf cy cx ;; f <o- get2 ff fy fx ;; Ok (i32 (r + f))) canvas
    else
      blendLoop rg (fun cy cx fy fx => r <o- get2 rf cy cx ;; f <o- get2 ff fy fx ;; Ok (f_add r f)) canvas
  else if ba_mode a =? BLEND_MULT then
    blendLoop rg (fun cy cx fy fx =>
      f <o- get2 ff fy fx ;;
      let newSample := clamp01 (ba_clamp a) f in
      r <o- get2 rf cy cx ;; Ok (f_mul newSample r)) canvas
  else if ba_mode a =? BLEND_BLEND then
    blendLoop rg (fun cy cx fy fx =>
      oldAlpha <o- (if ba_hasAlpha a then get2 (ba_oldA a) cy cx else Ok F_ONE) ;;
      newAlpha <o- (if ba_hasAlpha a then get2 (ba_newA a) fy fx else Ok F_ONE) ;;
      let newAlpha := clamp01 (ba_clamp a) newAlpha in
      oldSample <o- get2 rf cy cx ;;
      newSample <o- get2 ff fy fx ;;
      let alpha := if ba_isAlpha a || ba_hasAlpha a && negb (ba_premult a)
                   then f_add oldAlpha (f_mul newAlpha (f_sub F_ONE oldAlpha)) else F_ONE in
      if ba_isAlpha a then Ok alpha
      else if negb (ba_hasAlpha a) || ba_premult a then Ok (f_add newSample (f_mul oldSample (f_sub F_ONE newAlpha)))
      else Ok (f_div (f_add (f_mul newSample newAlpha) (f_mul (f_mul oldSample oldAlpha) (f_sub F_ONE newAlpha))) alpha)) canvas
  else if ba_mode a =? BLEND_MULADD then
    blendLoop rg (fun cy cx fy fx =>
      oldAlpha <o- (if ba_hasAlpha a then get2 (ba_oldA a) cy cx else Ok F_ONE) ;;
      newAlpha <o- (if ba_hasAlpha a then get2 (ba_newA a) fy fx else Ok F_ONE) ;;
      let newAlpha := clamp01 (ba_clamp a) newAlpha in
      oldSample <o- get2 rf cy cx ;;
      newSample <o- get2 ff fy fx ;;
      Ok (if ba_isAlpha a then oldAlpha else f_add oldSample (f_mul newAlpha newSample))) canvas
  else Err.
(* core/jxl_codestream_decoder.go:782-817 for one channel whose canvas, frame
   and reference buffers have the same type; ref = None when reference[Source]
   is nil: then refBuffer[c] is out of range *)
Definition blendChannel (a : BlendArgs) (refPresent : bool) (rg : Region) (canvas : list (list Z)) : Outcome (list (list Z)) :=
  if (ba_mode a =? BLEND_REPLACE) || negb refPresent && (ba_mode a =? BLEND_ADD) then copyToCanvas rg canvas (ba_frame a)
  else if refPresent then performBlending a rg canvas else Panic.

(* ---- samples of a modular frame ---- *)
(* frame/Frame.go:416-460 for one channel that is not modular XYB
   (scaleFactor = 1.0) *)
Definition modularToInt (h w : Z) (m out : list (list Z)) : Outcome (list (list Z)) :=
  loop2 (Z.to_nat h) (Z.to_nat w) (fun y x o =>
    v <o- get2 m (Z.of_nat y) (Z.of_nat x) ;;
    set2 o (Z.of_nat y) (Z.of_nat x) (f_to_i32 (f_mul F_ONE (f_of_int v)))) out.
Definition modularToFloat (h w : Z) (m out : list (list Z)) : Outcome (list (list Z)) :=
  loop2 (Z.to_nat h) (Z.to_nat w) (fun y x o =>
    v <o- get2 m (Z.of_nat y) (Z.of_nat x) ;;
    set2 o (Z.of_nat y) (Z.of_nat x) (f_mul F_ONE (f_of_int v))) out.
