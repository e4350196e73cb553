(* Transcription of core/pfm_writer.go and core/png_writer.go.  The bytes
   written to output are the result; a write error of output is not modelled.
   zlib compression is a parameter. *)
From Coq Require Import ZArith List Bool.
From Verif Require Import GoBase GoLoop GoMatrix GoFloat32 ModelImage.
Import ListNotations.
Open Scope Z_scope.

Local Notation "x <o- m ;; k" := (obind m (fun x => k)) (at level 60, m at next level, right associativity).

(* binary.BigEndian.PutUint32 *)
Definition be32 (v : Z) : list Z := [Z.shiftr v 24 mod 256; Z.shiftr v 16 mod 256; Z.shiftr v 8 mod 256; v mod 256].
(* math.Float32bits of a finite value in units of 2^-149 (zero is +0) *)
Definition f_bits (a : Z) : Z :=
  let m := Z.abs a in
  let e := Z.max 0 (Z.log2 m - 23) in
  (if a <? 0 then 2 ^ 31 else 0) + e * 2 ^ 23 + m / 2 ^ e.
(* fmt %d of a uint32: decimal digits *)
Fixpoint decDigits (fuel : nat) (n : Z) (acc : list Z) : list Z :=
  match fuel with
  | O => acc
  | S k => let acc := (48 + n mod 10) :: acc in if n <? 10 then acc else decDigits k (n / 10) acc
  end.
Definition sprintD (n : Z) : list Z := decDigits 11 n [].

(* ---- core/pfm_writer.go:13-68 ---- *)
(* core/pfm_writer.go:37-44 *)
Fixpoint pfmCheck (l : list ImageBuffer) : Outcome (list ImageBuffer) :=
  match l with
  | [] => Ok []
  | ib :: t => if IsInt ib then Panic else r <o- pfmCheck t ;; Ok (ib :: r)
  end.
(* core/pfm_writer.go:51-61: for y := int32(height-1); y >= 0; y-- ; n rows
   remain, the next is y *)
Fixpoint pfmRows (n : nat) (y : Z) (width : Z) (cCount : nat) (nb : list ImageBuffer) (buf : list Z) : Outcome (list Z) :=
  match n with
  | O => Ok buf
  | S n' =>
      buf <o- oloop (Z.to_nat width) 0 (fun x buf =>
        oloop cCount 0 (fun c buf =>
          ib <o- slice_get nb (Z.of_nat c) ;;
          v <o- get2 (ib_float ib) y (Z.of_nat x) ;;
          Ok (buf ++ be32 (f_bits v))) buf) buf ;;
      pfmRows n' (y - 1) width cCount nb buf
  end.
Definition WritePFM (img : JXLImage) : Outcome (list Z) :=
  let gray := im_encoding img =? CE_GRAY in
  let header := [80; if gray then 102 else 70; 10] ++ sprintD (im_w img) ++ [32] ++ sprintD (im_h img) ++ [10; 49; 46; 48; 10] in
  let cCount := if gray then 1%nat else 3%nat in
  nb <o- pfmCheck (im_buffer img) ;;
  let y0 := i32 (u32 (im_h img - 1)) in
  buf <o- pfmRows (Z.to_nat (y0 + 1)) y0 (i32 (im_w img)) cCount nb [] ;;
  Ok (header ++ buf).

(* ---- core/png_writer.go ---- *)
(* hash/crc32.ChecksumIEEE (standard library) *)
Fixpoint crcBits (n : nat) (c : Z) : Z :=
  match n with
  | O => c
  | S n' => crcBits n' (if Z.odd c then Z.lxor (Z.shiftr c 1) 0xEDB88320 else Z.shiftr c 1)
  end.
Definition crc32 (l : list Z) : Z :=
  Z.lxor (fold_left (fun c b => crcBits 8 (Z.lxor c b)) l 0xFFFFFFFF) 0xFFFFFFFF.

(* core/jxl_image.go:370-378 *)
Definition TF_LINEAR : Z := 8 + 2 ^ 24.
Definition TF_PQ : Z := 16 + 2 ^ 24.
Definition TF_HLG : Z := 18 + 2 ^ 24.
Definition isHDR (img : JXLImage) : bool :=
  if (im_tagged img =? TF_PQ) || (im_tagged img =? TF_HLG) || (im_tagged img =? TF_LINEAR) then true
  else negb (hd_primS (im_header img)) && negb (hd_primP (im_header img)).
Definition pngBitDepth (img : JXLImage) : Z :=
  if isHDR img then 16 else if 8 <? hd_bits (im_header img) then 16 else 8.

Definition set_buffer (img : JXLImage) (b : list ImageBuffer) : JXLImage :=
  mkJI b (im_icc img) (im_depths img) (im_primariesXY img) (im_whiteXY img) (im_header img) (im_w img) (im_h img)
    (im_encoding img) (im_alphaIndex img) (im_primaries img) (im_whitePoint img) (im_transfer img) (im_tagged img) (im_premult img).
(* for c := 0; c < len(buffer); c++ { buffer[c] = f(bitDepths[c], buffer[c]) } *)
Fixpoint mapBuffers (f : Z -> ImageBuffer -> Outcome ImageBuffer) (c : Z) (depths : list Z) (l : list ImageBuffer) : Outcome (list ImageBuffer) :=
  match l with
  | [] => Ok []
  | ib :: t => d <o- slice_get depths c ;; ib <o- f d ib ;; t <o- mapBuffers f (c + 1) depths t ;; Ok (ib :: t)
  end.
(* core/png_writer.go:84-91 *)
Fixpoint needsCoerce (c : Z) (bitDepth : Z) (depths : list Z) (l : list ImageBuffer) : Outcome bool :=
  match l with
  | [] => Ok false
  | ib :: t => if IsInt ib then d <o- slice_get depths c ;; if negb (d =? bitDepth) then Ok true else needsCoerce (c + 1) bitDepth depths t
               else needsCoerce (c + 1) bitDepth depths t
  end.
(* core/png_writer.go:103-113 and 327-337 *)
Definition clampOrCast (bitDepth maxValue d : Z) (ib : ImageBuffer) : Outcome ImageBuffer :=
  if IsInt ib && (d =? bitDepth) then Clamp ib maxValue else CastToIntIfMax ib maxValue.
(* core/png_writer.go:79-113 *)
Definition pngPrepare (bitDepth : Z) (img : JXLImage) : Outcome JXLImage :=
  let maxValue := depthMax bitDepth in
  coerce <o- (if im_premult img then Ok true else needsCoerce 0 bitDepth (im_depths img) (im_buffer img)) ;;
  bufs <o- (if coerce : bool then mapBuffers (fun d ib => CastToFloatIfMax ib (depthMax d)) 0 (im_depths img) (im_buffer img)
            else Ok (im_buffer img)) ;;
  if im_premult img then Panic
  else bufs <o- mapBuffers (clampOrCast bitDepth maxValue) 0 (im_depths img) bufs ;; Ok (set_buffer img bufs).

(* the pattern common to writeICCP, writeIHDR, writeIDAT: length of raw minus
   the type, raw, checksum *)
Definition pngChunk (raw : list Z) : list Z :=
  be32 (u32 (u32 (Z.of_nat (length raw)) - 4)) ++ raw ++ be32 (crc32 raw).
(* core/png_writer.go:253-283 *)
Definition writeIHDR (bitDepth colourMode : Z) (img : JXLImage) : list Z :=
  pngChunk ([73; 72; 68; 82] ++ be32 (im_w img) ++ be32 (im_h img) ++ [u8 bitDepth; colourMode; 0; 0; 0]).
(* core/png_writer.go:168-210 *)
Definition writeICCP (deflate1 : list Z -> list Z) (img : JXLImage) : list Z :=
  pngChunk ([105; 67; 67; 80] ++ [106; 120; 108; 97; 116; 116; 101] ++ [0] ++ [0] ++ deflate1 (im_icc img)).
(* core/png_writer.go:212-251; the colour encoding bundle is present *)
Definition writeSRGB (hdr : bool) (img : JXLImage) : list Z :=
  if hdr then []
  else let raw := [115; 82; 71; 66] ++ [u8 (hd_intent (im_header img))] in be32 1 ++ raw ++ be32 (crc32 raw).
(* the bytes of one sample: core/png_writer.go:346-359, 363-375 *)
Definition sampleBytes (depth dat : Z) : list Z :=
  if depth =? 8 then [u8 dat]
  else [u8 (Z.shiftr (Z.land dat 0xFF00) 8); u8 (Z.land dat 0xFF)].
(* IntBuffer[y][x] of channel c, as written *)
Definition putSample (img : JXLImage) (c y x : Z) (out : list Z) : Outcome (list Z) :=
  ib <o- slice_get (im_buffer img) c ;;
  dat <o- get2 (ib_int ib) y x ;;
  d <o- slice_get (im_depths img) c ;;
  Ok (out ++ sampleBytes d dat).
(* core/png_writer.go:338-379, the uncompressed image data *)
Definition pngRaw (img : JXLImage) : Outcome (list Z) :=
  oloop (Z.to_nat (im_h img)) 0 (fun y out =>
    oloop (Z.to_nat (im_w img)) 0 (fun x out =>
      out <o- oloop (Z.to_nat (hd_colours (im_header img))) 0 (fun c out =>
        putSample img (Z.of_nat c) (Z.of_nat y) (Z.of_nat x) out) out ;;
      if hd_hasAlpha (im_header img) then putSample img 3 (Z.of_nat y) (Z.of_nat x) out else Ok out)
      (out ++ [0])) [].
(* core/png_writer.go:305-325: buffers 0, 1, 2 and, with alpha, 3 are cast *)
Definition castAt (maxValue c : Z) (l : list ImageBuffer) : Outcome (list ImageBuffer) :=
  ib <o- slice_get l c ;; ib <o- CastToIntIfMax ib maxValue ;; slice_set l c ib.
(* core/png_writer.go:285-400 *)
Definition writeIDAT (deflate : list Z -> list Z) (img : JXLImage) : Outcome (list Z) :=
  let bitDepth := if 8 <? hd_bits (im_header img) then 16 else 8 in
  let maxValue := depthMax bitDepth in
  let b := im_buffer img in
  b <o- castAt maxValue 0 b ;;
  b <o- (if 1 <? Z.of_nat (length b) then castAt maxValue 1 b else Ok b) ;;
  b <o- (if 2 <? Z.of_nat (length b) then castAt maxValue 2 b else Ok b) ;;
  b <o- (if hd_hasAlpha (im_header img) then castAt maxValue 3 b else Ok b) ;;
  b <o- mapBuffers (clampOrCast bitDepth maxValue) 0 (im_depths img) b ;;
  raw <o- pngRaw (set_buffer img b) ;;
  Ok (pngChunk ([73; 68; 65; 84] ++ deflate raw)).

(* core/png_writer.go:25-166 from line 58 on, after the colour transform: img
   is the image returned by transform (or the image itself when it has an ICC
   profile).  writeSRGBICC is the field of the writer. *)
Definition WritePNG (deflate deflate1 : list Z -> list Z) (writeSRGBICC : bool) (img : JXLImage) : Outcome (list Z) :=
  let hdr := isHDR img in
  let bitDepth := pngBitDepth img in
  let gray := im_encoding img =? CE_GRAY in
  let colourMode := if gray then (if 0 <=? im_alphaIndex img then 4 else 0) else (if 0 <=? im_alphaIndex img then 6 else 2) in
  img <o- pngPrepare bitDepth img ;;
  let ihdr := writeIHDR bitDepth colourMode img in
  let colour := if hdr || negb (length (im_icc img) =? 0)%nat || writeSRGBICC then writeICCP deflate1 img
                else writeSRGB hdr img in
  idat <o- writeIDAT deflate img ;;
  Ok ([0x89; 0x50; 0x4E; 0x47; 0x0D; 0x0A; 0x1A; 0x0A] ++ ihdr ++ colour ++ idat
      ++ [0; 0; 0; 0] ++ [0x49; 0x45; 0x4E; 0x44] ++ [0xAE; 0x42; 0x60; 0x82]).
