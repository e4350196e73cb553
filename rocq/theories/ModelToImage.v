(* Conversion of a decoded image to a Go image.Image: core/jxl_image.go:181-564
   without transferWithOp and the copy constructor (ModelImage.v), isHDR and
   the clamping and casting loops (ModelWriters.v).

   Simplifications:
   - a function that changes the image it is called on returns the image; the
     state after an error is not modelled;
   - primaries.Matches(jxl.primariesXY) && whitePoint.Matches(jxl.whiteXY) is
     a parameter, and so are the functions FromLinear of the transfer
     functions, rounded to float32 (C76 is about their values);
   - sizes are not negative; iccProfile is nil exactly when it is empty. *)
From Coq Require Import ZArith List Bool.
From Verif Require Import GoBase GoLoop GoMatrix GoFloat32 ModelImage ModelWriters.
Import ListNotations.
Open Scope Z_scope.

Local Notation "x <o- m ;; k" := (obind m (fun x => k)) (at level 60, m at next level, right associativity).

(* colour/colour_flags.go:28 *)
Definition TF_SRGB : Z := 13 + 2 ^ 24.
(* core/jxl_image.go:16-18 *)
Definition PEAK_DETECT_AUTO : Z := -1.
Definition PEAK_DETECT_ON : Z := 1.

(* image/imagebuffer.go:103-113 and 115-125 *)
Definition maxOf (m : list (list Z)) : Z :=
  fold_left (fun a r => fold_left (fun a v => if a <? v then v else a) r a) m 0.

(* core/jxl_image.go:529-536 *)
Definition linearize (img : JXLImage) : Outcome JXLImage :=
  if im_transfer img =? TF_LINEAR then Ok img else Panic.

(* core/jxl_image.go:435-458; the recursive call is on a linear image *)
Definition determinePeak (img : JXLImage) : Outcome Z :=
  lin <o- (if im_transfer img =? TF_LINEAR then Ok img else linearize img) ;;
  let c := if im_encoding lin =? CE_GRAY then 0 else 1 in
  ib <o- slice_get (im_buffer lin) c ;;
  if IsInt ib then
    d <o- slice_get (im_depths lin) c ;;
    Ok (f_div (f_of_int (maxOf (ib_int ib))) (f_of_int (Z.lnot (i64 (Z.shiftl (-1) d)))))
  else Ok (maxOf (ib_float ib)).

(* core/jxl_image.go:542-564; the bound passed to the cast is the bit depth
   itself.  The matrices buffers[c] are those of the image, so the second loop
   changes the image. *)
Definition castDepth (c : Z) (img : JXLImage) : Outcome JXLImage :=
  ib <o- slice_get (im_buffer img) c ;; d <o- slice_get (im_depths img) c ;;
  ib <o- CastToFloatIfMax ib (i32 d) ;; bufs <o- slice_set (im_buffer img) c ib ;;
  Ok (set_buffer img bufs).
Definition transferChannel (f : Z -> Z) (c : Z) (img : JXLImage) : Outcome JXLImage :=
  ib <o- slice_get (im_buffer img) c ;;
  m <o- loop2 (Z.to_nat (im_h img)) (Z.to_nat (im_w img)) (fun y x m =>
    v <o- get2 m (Z.of_nat y) (Z.of_nat x) ;; set2 m (Z.of_nat y) (Z.of_nat x) (f v)) (ib_float ib) ;;
  bufs <o- slice_set (im_buffer img) c (mkIB (ib_w ib) (ib_h ib) (ib_type ib) m (ib_int ib)) ;;
  Ok (set_buffer img bufs).
Definition transferInPlace (f : Z -> Z) (img : JXLImage) : Outcome JXLImage :=
  let colours := if im_encoding img =? CE_GRAY then 1%nat else 3%nat in
  img <o- oloop colours 0 (fun c img => castDepth (Z.of_nat c) img) img ;;
  oloop colours 0 (fun c img => transferChannel f (Z.of_nat c) img) img.

(* core/jxl_image.go:488-527; fromLinear t = None when GetTransferFunction
   fails.  1.0/0 is +Inf, which is above 1. *)
Definition transferImage (fromLinear : Z -> option (Z -> Z)) (transfer peakDetect : Z) (img : JXLImage) : Outcome JXLImage :=
  if transfer =? im_transfer img then Ok img
  else
    img <o- linearize img ;;
    img <o- (if (im_tagged img =? TF_PQ) && ((peakDetect =? PEAK_DETECT_AUTO) || (peakDetect =? PEAK_DETECT_ON)) then
               let toPQ := (transfer =? TF_PQ) || (transfer =? TF_LINEAR) in
               let fromPQ := (im_transfer img =? TF_PQ) || (im_transfer img =? TF_LINEAR) in
               if fromPQ && negb toPQ then
                 peak <o- determinePeak img ;;
                 let scale := f_div F_ONE peak in
                 if (peak =? 0) || (F_ONE <? scale) || (peakDetect =? PEAK_DETECT_ON)
                 then transferWithOp (fun v => f_mul v scale) img else Ok img
               else Ok img
             else Ok img) ;;
    match fromLinear transfer with
    | None => Err
    | Some f => transferInPlace f img
    end.

(* core/jxl_image.go:380-401; toneMapLinear (538-540) does nothing *)
Definition transform (fromLinear : Z -> option (Z -> Z)) (matches : bool) (transfer peakDetect : Z) (img : JXLImage) : Outcome JXLImage :=
  if matches then transferImage fromLinear transfer peakDetect img
  else img <o- linearize img ;; transferImage fromLinear transfer peakDetect img.

(* image.Gray and image.NRGBA: width, height, bytes *)
Inductive GoImage :=
| Gray (w h : Z) (pix : list Z)
| NRGBA (w h : Z) (pix : list Z).

(* uint8(f * 255) of a float32, as computed on amd64 *)
Definition byte255 (v : Z) : Z := u8 (f_to_i32 (f_mul v (f_of_int 255))).

(* for y < dy { for x < dx { pix[pos] = ...; pos++ } }: the bytes of all pixels
   one after another; pix has as many as are written *)
Definition pixels (w h : Z) (bytes : Z -> Z -> Outcome (list Z)) : Outcome (list Z) :=
  loop2 (Z.to_nat h) (Z.to_nat w) (fun y x pix => b <o- bytes (Z.of_nat y) (Z.of_nat x) ;; Ok (pix ++ b)) [].

(* one byte of the channel c *)
Definition floatByte (buffer : list ImageBuffer) (c y x : Z) : Outcome Z :=
  ib <o- slice_get buffer c ;; v <o- get2 (ib_float ib) y x ;; Ok (byte255 v).
Definition intByte (buffer : list ImageBuffer) (c y x : Z) : Outcome Z :=
  ib <o- slice_get buffer c ;; v <o- get2 (ib_int ib) y x ;; Ok (u8 v).

(* core/jxl_image.go:191-212 and 289-316, the grey image of channel c; the
   type and the size are those of channel 0 *)
Definition grayOfChannel (buffer : list ImageBuffer) (c : Z) : Outcome GoImage :=
  b0 <o- slice_get buffer 0 ;;
  pix <o- pixels (ib_w b0) (ib_h b0) (fun y x =>
    v <o- (if IsFloat b0 then floatByte buffer c y x else intByte buffer c y x) ;; Ok [v]) ;;
  Ok (Gray (ib_w b0) (ib_h b0) pix).
Definition createGrayScaleImage (buffer : list ImageBuffer) : Outcome GoImage := grayOfChannel buffer 0.

(* core/jxl_image.go:318-368; without alpha the float branch leaves the fourth
   byte 0 *)
Definition create24BitImage (hasAlpha : bool) (buffer : list ImageBuffer) : Outcome GoImage :=
  b0 <o- slice_get buffer 0 ;;
  pix <o- pixels (ib_w b0) (ib_h b0) (fun y x =>
    if IsFloat b0 then
      r <o- floatByte buffer 0 y x ;; g <o- floatByte buffer 1 y x ;; b <o- floatByte buffer 2 y x ;;
      Ok [r; g; b; if hasAlpha then 255 else 0]
    else
      r <o- intByte buffer 0 y x ;; g <o- intByte buffer 1 y x ;; b <o- intByte buffer 2 y x ;;
      a <o- (if hasAlpha then intByte buffer 3 y x else Ok 255) ;;
      Ok [r; g; b; a]) ;;
  Ok (NRGBA (ib_w b0) (ib_h b0) pix).

(* core/jxl_image.go:405-433 with makeCopy; MakeMatrix2D cannot fail for the
   sizes NewImageBuffer accepts *)
Fixpoint copyBuffers (l : list ImageBuffer) : Outcome (list ImageBuffer) :=
  match l with
  | [] => Ok []
  | ib :: t =>
      nb <o- NewImageBuffer (ib_type ib) (ib_h ib) (ib_w ib) ;;
      nb <o- (if IsInt nb then
                m <o- loop2 (Z.to_nat (ib_h ib)) (Z.to_nat (ib_w ib)) (fun y x m =>
                  v <o- get2 (ib_int ib) (Z.of_nat y) (Z.of_nat x) ;; set2 m (Z.of_nat y) (Z.of_nat x) v) (ib_int nb) ;;
                Ok (mkIB (ib_w nb) (ib_h nb) (ib_type nb) (ib_float nb) m)
              else
                m <o- loop2 (Z.to_nat (ib_h ib)) (Z.to_nat (ib_w ib)) (fun y x m =>
                  v <o- get2 (ib_float ib) (Z.of_nat y) (Z.of_nat x) ;; set2 m (Z.of_nat y) (Z.of_nat x) v) (ib_float nb) ;;
                Ok (mkIB (ib_w nb) (ib_h nb) (ib_type nb) m (ib_int nb))) ;;
      t <o- copyBuffers t ;; Ok (nb :: t)
  end.

(* core/jxl_image.go:181-213 *)
Definition ChannelToImage (img : JXLImage) (channelNo : Z) : Outcome GoImage :=
  buffer <o- copyBuffers (im_buffer img) ;;
  if (channelNo <? 0) || (Z.of_nat (length buffer) <=? channelNo) then Err
  else grayOfChannel buffer channelNo.

(* core/jxl_image.go:218-240: the transform is skipped for an image with an
   ICC profile *)
Definition target (img : JXLImage) : Z := if isHDR img then TF_PQ else TF_SRGB.
Definition imageDepth (img : JXLImage) : Z := if 8 <? hd_bits (im_header img) then 16 else 8.
Definition toTarget (fromLinear : Z -> option (Z -> Z)) (matches : bool) (img : JXLImage) : Outcome JXLImage :=
  if (length (im_icc img) =? 0)%nat then transform fromLinear matches (target img) PEAK_DETECT_AUTO img else Ok img.
(* core/jxl_image.go:216-287; returns the Go image and the image as it is
   left.  Lines 241-277 are those of the PNG writer (pngPrepare). *)
Definition ToImage (fromLinear : Z -> option (Z -> Z)) (matches : bool) (img : JXLImage) : Outcome (GoImage * JXLImage) :=
  let bitDepth := imageDepth img in
  img <o- toTarget fromLinear matches img ;;
  img <o- pngPrepare bitDepth img ;;
  g <o- (if hd_colours (im_header img) =? 1 then createGrayScaleImage (im_buffer img)
         else create24BitImage (hd_hasAlpha (im_header img)) (im_buffer img)) ;;
  Ok (g, img).
