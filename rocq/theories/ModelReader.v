(* The entry points for the image package of Go's standard library: reader.go,
   GetImageHeader of core/jxl_codestream_decoder.go:51-82, and the image made of
   the oriented canvas, core/jxl_image.go:41-82.

   Simplifications:
   - a reader is its bytes, read from the start, and whether it can seek and
     peek;
   - the image keeps the fields of the header that the conversions use, so the
     header itself is returned beside it; it is parsed again from the same bytes;
   - chromaticities are in millionths, as in ModelHeader.v, so Matches
     (colour/CIEXY.go:22-28) compares without the rounding of float32; a nil
     receiver, excluded by C53, does not match;
   - primariesXY and whiteXY are not kept: their tests are done on the header. *)
From Coq Require Import ZArith List Bool.
From Verif Require Import GoBase GoLoop GoMatrix GoFloat32 ModelBitReader ModelUtil ModelHeader ModelFrameHeader ModelBoxes ModelICC ModelImage ModelWriters ModelToImage ModelDecode ModelFile.
Import ListNotations.
Open Scope Z_scope.

Local Notation "x <o- m ;; k" := (obind m (fun x => k)) (at level 60, m at next level, right associativity).

(* core/jxl_codestream_decoder.go:51-82 (one: with the check of lines 59-61)
   and 84-107; None = nil *)
Definition headerOfFile (one : bool) (icc : Z -> RM (list Z)) (d : list Z) : Outcome (option ImageHeader) :=
  match ReadBoxHeader (S (length d)) (NewBitStreamReader d) with
  | None => Panic
  | Some (Ok (level, boxes), s) =>
      if one && (1 <? length boxes)%nat then Err
      else
        match boxes with
        | [] => Panic
        | box :: _ =>
            match AtEnd (set_pos (Z.to_nat (bh_offset box)) s) with
            | (true, _) => Ok None
            | (false, s) =>
                match ParseImageHeader icc level s with
                | (Ok ih, _) => Ok (Some ih)
                | (Err, _) => Err
                | (Panic, _) => Panic
                end
            end
        end
  | Some (Err, _) => Err
  | Some (Panic, _) => Panic
  end.
Definition GetImageHeader := headerOfFile true.

(* colour/CIEXY.go:22-28 and colour/CIEPrimaries.go:17-23 *)
Definition xyMatches (a b : option XY) : bool :=
  match a, b with
  | Some a, Some b => Z.abs (xy_x a - xy_x b) + Z.abs (xy_y a - xy_y b) <? 100
  | _, _ => false
  end.
Definition primMatches (a b : option (XY * XY * XY)) : bool :=
  match a, b with
  | Some (r, g, b), Some (r', g', b') => xyMatches (Some r) (Some r') && xyMatches (Some g) (Some g') && xyMatches (Some b) (Some b')
  | _, _ => false
  end.

(* core/jxl_image.go:41-82 *)
Fixpoint bitDepths (n : nat) (c : Z) (ih : ImageHeader) : Outcome (list Z) :=
  match n with
  | O => Ok []
  | S n =>
      d <o- (if c <? ihColours ih then Ok (bd_bits (ih_bd ih))
             else e <o- slice_get (ih_extra ih) (c - ihColours ih) ;; Ok (bd_bits (ec_bd e))) ;;
      t <o- bitDepths n (c + 1) ih ;; Ok (d :: t)
  end.
Definition NewJXLImageWithBuffer (buffer : list ImageBuffer) (ih : ImageHeader) : Outcome JXLImage :=
  let col := ih_colour ih in
  alphaIndex <o- (if ihHasAlpha ih then slice_get (ih_alpha ih) 0 else Ok (-1)) ;;
  icc <o- (if ih_xyb ih then Ok [] else match ih_icc ih with None => Ok [] | Some enc => GetDecodedICC enc end) ;;
  premult <o- (if ihHasAlpha ih then e <o- slice_get (ih_extra ih) alphaIndex ;; Ok (ec_assoc e) else Ok false) ;;
  depths <o- bitDepths (length buffer) 0 ih ;;
  Ok (mkJI buffer icc depths 0 0
        (mkHd (bd_bits (ih_bd ih)) (ihHasAlpha ih) (ihColours ih) (col_intent col)
           (primMatches (col_primXY col) (GetPrimaries 1)) (primMatches (col_primXY col) (GetPrimaries 11)))
        (ih_ow ih) (ih_oh ih) (col_space col) alphaIndex (col_prim col) (col_wp col)
        (if ih_xyb ih then TF_LINEAR else col_tf col) (col_tf col) premult).
(* core/jxl_codestream_decoder.go:84-312, with the image of line 302 *)
Definition decodeImage (o : Rest) (d : list Z) : Outcome (option (JXLImage * ImageHeader)) :=
  r <o- decodeFile o false false d ;;
  match r with
  | None => Ok None
  | Some b =>
      h <o- headerOfFile false (o_icc o) d ;;
      match h with
      | None => Ok None
      | Some ih => j <o- NewJXLImageWithBuffer b ih ;; Ok (Some (j, ih))
      end
  end.

(* core/jxl_image.go:227-234 and 382: the primaries and the white point of the
   image are those of the target *)
Definition matchesTarget (img : JXLImage) (ih : ImageHeader) : bool :=
  primMatches (GetPrimaries (if isHDR img then 9 else 1)) (col_primXY (ih_colour ih)) &&
  xyMatches (GetWhitePoint 1) (col_white (ih_colour ih)).

(* an io.Reader *)
Record Reader := mkRd { rd_bytes : list Z; rd_seek : bool; rd_peek : bool }.
(* reader.go:19-41; ToImage of the nil image panics *)
Definition Decode (o : Rest) (fromLinear : Z -> option (Z -> Z)) (r : Reader) : Outcome GoImage :=
  if negb (rd_seek r) then Err
  else
    j <o- decodeImage o (rd_bytes r) ;;
    match j with
    | None => Panic
    | Some (j, ih) => g <o- ToImage fromLinear (matchesTarget j ih) j ;; Ok (fst g)
    end.
(* reader.go:43-77; the colour models of image/color; methods of the nil header
   panic *)
Inductive ColorModel := RGBAModel | NRGBAModel | GrayModel.
Record Config := mkCfg { cfg_model : ColorModel; cfg_w : Z; cfg_h : Z }.
Definition DecodeConfig (o : Rest) (r : Reader) : Outcome Config :=
  if negb (rd_seek r) then Err
  else
    h <o- GetImageHeader (o_icc o) (rd_bytes r) ;;
    match h with
    | None => Panic
    | Some ih =>
        let space := col_space (ih_colour ih) in
        Ok (mkCfg (if space =? CE_RGB then RGBAModel else if space =? CE_XYB then GrayModel
                   else if space =? ModelHeader.CE_GRAY then GrayModel else RGBAModel)
              (dim_w (ih_size ih)) (dim_h (ih_size ih)))
    end.

(* reader.go:13-17, and Decode and DecodeConfig of the standard library
   (image/format.go) when this is the only registered format: a reader that
   cannot peek is wrapped in a bufio.Reader, which can peek but not seek; the
   format is chosen by the first bytes. *)
Definition jxlHeader : list Z := [0; 0; 0; 12; 74; 88; 76; 32; 13; 10; 135; 10].
Definition asReader (r : Reader) : Reader := if rd_peek r then r else mkRd (rd_bytes r) false true.
Definition sniff (r : Reader) : bool := bytesEq jxlHeader (firstn (length jxlHeader) (rd_bytes r)).
Definition imageDecode (o : Rest) (fromLinear : Z -> option (Z -> Z)) (r : Reader) : Outcome GoImage :=
  let r := asReader r in if sniff r then Decode o fromLinear r else Err.
Definition imageDecodeConfig (o : Rest) (r : Reader) : Outcome Config :=
  let r := asReader r in if sniff r then DecodeConfig o r else Err.
