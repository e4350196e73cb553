(* Model of bundle/ and of the header readers of colour/.  Definitions only. *)
From Coq Require Import ZArith List Bool.
From Verif Require Import GoBase ModelBitReader.
Import ListNotations.
Open Scope Z_scope.

(* util.Dimension *)
Record Dim := mkDim { dim_w : Z; dim_h : Z }.

(* bundle/image_header.go:844-863, getWidthFromRatio (uint32 arithmetic) *)
Definition getWidthFromRatio (ratio height : Z) : Outcome Z :=
  if ratio =? 1 then Ok height
  else if ratio =? 2 then Ok (u32 (height * 6) / 5)
  else if ratio =? 3 then Ok (u32 (height * 4) / 3)
  else if ratio =? 4 then Ok (u32 (height * 3) / 2)
  else if ratio =? 5 then Ok (u32 (height * 16) / 9)
  else if ratio =? 6 then Ok (u32 (height * 5) / 4)
  else if ratio =? 7 then Ok (u32 (height * 2))
  else Err.

Definition lift {A} (o : Outcome A) : RM A :=
  fun s => match o with Ok a => (Ok a, s) | Err => (Err, s) | Panic => (Panic, s) end.

(* bundle/image_header.go:780-842, readSizeHeader *)
Definition readSizeHeader (level : Z) : RM Dim :=
  div8 <- ReadBool ;;
  height <- (if div8 : bool then h <- ReadBits 5 ;; rret (u32 (Z.shiftl (u32 (1 + u32 h)) 3))
             else ReadU32 1 9 1 13 1 18 1 30) ;;
  ratio <- ReadBits 3 ;;
  width <- (if negb (ratio =? 0) then lift (getWidthFromRatio (u32 ratio) height)
            else if div8 : bool then w <- ReadBits 5 ;; rret (u32 (Z.shiftl (u32 (1 + u32 w)) 3))
            else ReadU32 1 9 1 13 1 18 1 30) ;;
  let maxDim := if level <=? 5 then 2 ^ 18 else 2 ^ 28 in
  let maxTimes := if level <=? 5 then 2 ^ 30 else 2 ^ 40 in
  if (u32 maxDim <? width) || (u32 maxDim <? height) then rerr
  else if maxTimes <? u32 (width * height) then rerr
  else rret (mkDim width height).

(* bundle/image_header.go:724-778, readPreviewHeader *)
Definition readPreviewHeader : RM Dim :=
  div8 <- ReadBool ;;
  height <- (if div8 : bool then ReadU32 16 0 32 0 1 5 33 9 else ReadU32 1 6 65 8 321 10 1345 12) ;;
  ratio <- ReadBits 3 ;;
  width <- (if negb (ratio =? 0) then lift (getWidthFromRatio (u32 ratio) height)
            else if div8 : bool then ReadU32 16 0 32 0 1 5 33 9
            else ReadU32 1 6 65 8 321 10 1345 12) ;;
  if (4096 <? width) || (4096 <? height) then rerr else rret (mkDim width height).

(* bundle/BitDepthHeader.go:5-43 *)
Record BitDepth := mkBD { bd_bits : Z; bd_exp : Z; bd_float : bool }.
Definition NewBitDepthHeader : BitDepth := mkBD 8 0 false.
Definition readBitDepth : RM BitDepth :=
  fl <- ReadBool ;;
  if fl : bool then
    bits <- ReadU32 32 0 16 0 24 0 1 6 ;;
    e <- ReadBits 4 ;;
    rret (mkBD bits (u32 (1 + u32 e)) true)
  else bits <- ReadU32 8 0 10 0 12 0 1 6 ;; rret (mkBD bits 0 false).

(* n times ReadBits(8), keeping the low byte (the loops over nameBuffer and
   over the extension payloads) *)
Fixpoint readByteList (n : nat) : RM (list Z) :=
  match n with
  | O => rret []
  | S n' => b <- ReadBits 8 ;; t <- readByteList n' ;; rret (u8 b :: t)
  end.

(* n times ReadF16 *)
Fixpoint readF16List (n : nat) : RM (list F32) :=
  match n with
  | O => rret []
  | S n' => f <- ReadF16 ;; t <- readF16List n' ;; rret (f :: t)
  end.

(* bundle/ExtraChannelType.go *)
Definition ALPHA : Z := 0.
Definition SPOT_COLOR : Z := 2.
Definition COLOR_FILTER_ARRAY : Z := 5.
Definition ValidateExtraChannel (ec : Z) : bool :=
  ((0 <=? ec) && (ec <=? 6)) || (ec =? 15) || (ec =? 16).

(* bundle/extra_channel_info.go; the four floats are a list, empty when the
   channel is not a spot colour (all zero in Go) *)
Record ExtraChannel := mkEC {
  ec_type : Z; ec_bd : BitDepth; ec_dimShift : Z; ec_name : list Z;
  ec_assoc : bool; ec_spot : list F32; ec_cfa : Z }.
Definition readExtraChannel : RM ExtraChannel :=
  dAlpha <- ReadBool ;;
  base <- (if dAlpha : bool then rret (ALPHA, NewBitDepthHeader, 0, [], false)
           else
             ty <- ReadEnum ;;
             if negb (ValidateExtraChannel ty) then rerr
             else
               bd <- readBitDepth ;;
               shift <- ReadU32 0 0 3 0 4 0 1 3 ;;
               nameLen <- ReadU32 0 0 0 4 16 5 48 10 ;;
               name <- readByteList (Z.to_nat nameLen) ;;
               assoc <- (if ty =? ALPHA then ReadBool else rret false) ;;
               rret (ty, bd, i32 shift, name, assoc)) ;;
  let '(ty, bd, shift, name, assoc) := base in
  spot <- (if ty =? SPOT_COLOR then readF16List 4 else rret []) ;;
  cfa <- (if ty =? COLOR_FILTER_ARRAY then c <- ReadU32 1 0 0 2 3 4 19 8 ;; rret (i32 c) else rret 1) ;;
  rret (mkEC ty bd shift name assoc spot cfa).

Fixpoint readExtraChannels (n : nat) : RM (list ExtraChannel) :=
  match n with
  | O => rret []
  | S n' => e <- readExtraChannel ;; t <- readExtraChannels n' ;; rret (e :: t)
  end.

(* bundle/Extensions.go: lengths first, then the payloads *)
Record Ext := mkExt { ext_key : Z; ext_payloads : list (list Z) }.
Fixpoint readExtLengths (key : Z) (i n : nat) : RM (list Z) :=
  match n with
  | O => rret []
  | S n' =>
      l <- (if negb (Z.land (Z.shiftl 1 (Z.of_nat i)) key =? 0) then
              len <- ReadU64 ;;
              if 2 ^ 32 - 1 <? len then rerr else rret len
            else rret 0) ;;
      t <- readExtLengths key (S i) n' ;; rret (l :: t)
  end.
Fixpoint readPayloads (lens : list Z) : RM (list (list Z)) :=
  match lens with
  | [] => rret []
  | l :: t => p <- readByteList (Z.to_nat l) ;; r <- readPayloads t ;; rret (p :: r)
  end.
Definition NewExtensions : Ext := mkExt 0 (repeat [] 64).
Definition readExtensions : RM Ext :=
  key <- ReadU64 ;;
  lens <- readExtLengths key 0 64 ;;
  ps <- readPayloads lens ;;
  rret (mkExt key ps).

(* colour/colour_flags.go *)
Definition PRI_SRGB : Z := 1. Definition PRI_CUSTOM : Z := 2.
Definition PRI_BT2100 : Z := 9. Definition PRI_P3 : Z := 11.
Definition WP_D65 : Z := 1. Definition WP_CUSTOM : Z := 2.
Definition WP_E : Z := 10. Definition WP_DCI : Z := 11.
Definition CE_RGB : Z := 0. Definition CE_GRAY : Z := 1. Definition CE_XYB : Z := 2.
Definition RI_RELATIVE : Z := 1.
Definition TF_SRGB : Z := 13 + 2 ^ 24.
Definition ValidateColourEncoding (c : Z) : bool := (0 <=? c) && (c <=? 3).
Definition ValidateWhitePoint (w : Z) : bool := (w =? 1) || (w =? 2) || (w =? 10) || (w =? 11).
Definition ValidatePrimaries (p : Z) : bool := (p =? 1) || (p =? 2) || (p =? 9) || (p =? 11).
Definition ValidateRenderingIntent (r : Z) : bool := (0 <=? r) && (r <=? 3).
Definition ValidateTransfer (t : Z) : bool :=
  if t <? 0 then false
  else if t <=? 10000000 then true
  else if t <? 2 ^ 24 then false
  else (t =? 1 + 2 ^ 24) || (t =? 2 + 2 ^ 24) || (t =? 8 + 2 ^ 24) || (t =? 13 + 2 ^ 24)
       || (t =? 16 + 2 ^ 24) || (t =? 17 + 2 ^ 24) || (t =? 18 + 2 ^ 24).

(* CIE xy coordinates, in millionths (the float32 multiplication by 1e-6 is
   not modelled), colour/CustomXY.go:23-38 *)
Record XY := mkXY { xy_x : Z; xy_y : Z }.
Definition readCustomXY : RM XY :=
  ux <- ReadU32 0 19 524288 19 1048576 20 2097152 21 ;;
  uy <- ReadU32 0 19 524288 19 1048576 20 2097152 21 ;;
  rret (mkXY (UnpackSigned ux) (UnpackSigned uy)).

(* colour/colour_flags.go:72-105, colour/colour_encoding_bundle.go:145-158;
   values rounded to millionths; None = nil pointer *)
Definition GetWhitePoint (w : Z) : option XY :=
  if w =? 1 then Some (mkXY 312700 329000)
  else if w =? 10 then Some (mkXY 333333 333333)
  else if w =? 11 then Some (mkXY 314000 351000)
  else if w =? -1 then Some (mkXY 345670 345670)
  else None.
Definition GetPrimaries (p : Z) : option (XY * XY * XY) :=
  if p =? 1 then Some (mkXY 639999 330010, mkXY 300004 600003, mkXY 150002 59997)
  else if p =? 9 then Some (mkXY 708000 292000, mkXY 170000 797000, mkXY 131000 46000)
  else if p =? 11 then Some (mkXY 680000 320000, mkXY 265000 690000, mkXY 150000 60000)
  else None.

(* colour/colour_encoding_bundle.go:9-143 *)
Record Colour := mkCol {
  col_icc : bool; col_space : Z; col_wp : Z; col_white : option XY;
  col_prim : Z; col_primXY : option (XY * XY * XY); col_tf : Z; col_intent : Z }.
Definition NewColourEncodingBundle : Colour :=
  mkCol false CE_RGB WP_D65 (GetWhitePoint WP_D65) PRI_SRGB (GetPrimaries PRI_SRGB) TF_SRGB RI_RELATIVE.
Definition readColourEncoding : RM Colour :=
  allDefault <- ReadBool ;;
  icc <- (if negb allDefault then ReadBool else rret false) ;;
  space <- (if negb allDefault then ReadEnum else rret CE_RGB) ;;
  if negb (ValidateColourEncoding space) then rerr
  else
    wp <- (if negb allDefault && negb icc && negb (space =? CE_XYB) then ReadEnum else rret WP_D65) ;;
    if negb (ValidateWhitePoint wp) then rerr
    else
      white <- (if wp =? WP_CUSTOM then xy <- readCustomXY ;; rret (Some xy) else rret (GetWhitePoint wp)) ;;
      pr <- (if negb allDefault && negb icc && negb (space =? CE_XYB) && negb (space =? CE_GRAY)
             then ReadEnum else rret PRI_SRGB) ;;
      if negb (ValidatePrimaries pr) then rerr
      else
        prim <- (if pr =? PRI_CUSTOM then
                   r <- readCustomXY ;; g <- readCustomXY ;; b <- readCustomXY ;; rret (Some (r, g, b))
                 else rret (GetPrimaries pr)) ;;
        tfri <- (if negb allDefault && negb icc then
                   useGamma <- ReadBool ;;
                   tf <- (if useGamma : bool then t <- ReadBits 24 ;; rret (i32 t)
                          else e <- ReadEnum ;; rret (i32 (2 ^ 24 + e))) ;;
                   if negb (ValidateTransfer tf) then rerr
                   else ri <- ReadEnum ;;
                        if negb (ValidateRenderingIntent ri) then rerr else rret (tf, ri)
                 else rret (TF_SRGB, RI_RELATIVE)) ;;
        rret (mkCol icc space wp white pr prim (fst tfri) (snd tfri)).

(* Value of a float32 in units of 2^-150 (an integer for every finite value),
   for comparisons. *)
Definition f32_units (f : F32) : Z :=
  (if f_neg f then -1 else 1) * f_mant f * 2 ^ (f_exp f + 150).
Definition f32_of_Z (z : Z) : F32 := mkF32 (z <? 0) (Z.abs z) 0.

(* colour/ToneMapping.go *)
Record Tone := mkTone { tm_target : F32; tm_min : F32; tm_linear : F32; tm_rel : bool }.
Definition NewToneMapping : Tone := mkTone (f32_of_Z 255) (f32_of_Z 0) (f32_of_Z 0) false.
Definition readToneMapping : RM Tone :=
  def <- ReadBool ;;
  if def : bool then rret NewToneMapping
  else
    it <- ReadF16 ;;
    if f32_units it <=? 0 then rerr
    else
      mn <- ReadF16 ;;
      if f32_units mn <? 0 then rerr
      else if f32_units it <? f32_units mn then rerr
      else
        rel <- ReadBool ;;
        lin <- ReadF16 ;;
        if rel && ((f32_units lin <? 0) || (f32_units (f32_of_Z 1) <? f32_units lin)) then rerr
        else if negb rel && (f32_units lin <? 0) then rerr
        else rret (mkTone it mn lin rel).

(* colour/OpsinInverseMatrix.go:54-97; None = the built-in default.  The
   sixteen values are matrix (row major), opsin bias, quant bias, quant bias
   numerator. *)
Definition readOpsin : RM (option (list F32)) :=
  def <- ReadBool ;;
  if def : bool then rret None else l <- readF16List 16 ;; rret (Some l).

(* bundle/image_header.go:99-121 *)
Record ImageHeader := mkIH {
  ih_level : Z; ih_size : Dim; ih_orientation : Z; ih_ow : Z; ih_oh : Z;
  ih_intrinsic : option Dim; ih_preview : option Dim;
  ih_bd : BitDepth; ih_mod16 : bool; ih_extra : list ExtraChannel; ih_alpha : list Z;
  ih_xyb : bool; ih_colour : Colour; ih_tone : Tone; ih_ext : Ext;
  ih_opsin : option (list F32);
  ih_up2 : option (list F32); ih_up4 : option (list F32); ih_up8 : option (list F32);
  ih_icc : option (list Z) }.

(* bundle/image_header.go:204-224: positions of the ALPHA channels *)
Fixpoint alphaIndices (i : Z) (l : list ExtraChannel) : list Z :=
  match l with
  | [] => []
  | e :: t => if ec_type e =? ALPHA then i :: alphaIndices (i + 1) t else alphaIndices (i + 1) t
  end.

Definition opt {A} (b : bool) (m : RM A) : RM (option A) :=
  if b then v <- m ;; rret (Some v) else rret None.

(* bundle/image_header.go:150-183, the extra fields: orientation, intrinsic
   size, preview; animation is always an error (bundle/AnimationHeader.go) *)
Definition readExtraFields (level : Z) : RM (Z * option Dim * option Dim) :=
  o <- ReadBits 3 ;;
  bi <- ReadBool ;; intr <- opt bi (readSizeHeader level) ;;
  bp <- ReadBool ;; prev <- opt bp readPreviewHeader ;;
  ba <- ReadBool ;;
  if ba : bool then rerr else rret (u32 (1 + u32 o), intr, prev).

(* bundle/image_header.go:129-357, ParseImageHeader up to the final padding.
   icc is the entropy coded ICC payload of the given size (lines 341-357). *)
Definition parseHeaderBody (icc : Z -> RM (list Z)) (level : Z) : RM ImageHeader :=
  hb <- ReadBits 16 ;;
  if negb (u32 hb =? 0x0AFF) then rerr
  else if negb (level =? 5) && negb (level =? 10) then rerr
  else
    size <- readSizeHeader level ;;
    allDefault <- ReadBool ;;
    extraFields <- (if negb allDefault then ReadBool else rret false) ;;
    xf <- (if extraFields : bool then readExtraFields level else rret (1, None, None)) ;;
    let '(orientation, intr, prev) := xf in
    let ow := if 4 <? orientation then dim_h size else dim_w size in
    let oh := if 4 <? orientation then dim_w size else dim_h size in
    mid <- (if allDefault : bool then rret (NewBitDepthHeader, true, [], [], true, NewColourEncodingBundle)
            else
              bd <- readBitDepth ;;
              m16 <- ReadBool ;;
              n <- ReadU32 0 0 1 0 2 4 1 12 ;;
              ecs <- readExtraChannels (Z.to_nat n) ;;
              xyb <- ReadBool ;;
              col <- readColourEncoding ;;
              rret (bd, m16, ecs, alphaIndices 0 ecs, xyb, col)) ;;
    let '(bd, m16, ecs, alpha, xyb, col) := mid in
    tone <- (if extraFields : bool then readToneMapping else rret NewToneMapping) ;;
    ext <- (if allDefault : bool then rret NewExtensions else readExtensions) ;;
    defaultMatrix <- ReadBool ;;
    opsin <- (if negb defaultMatrix && xyb then readOpsin else rret None) ;;
    cwMask <- (if defaultMatrix : bool then rret 0 else ReadBits 3) ;;
    up2 <- opt (negb (Z.land (i32 cwMask) 1 =? 0)) (readF16List 15) ;;
    up4 <- opt (negb (Z.land (i32 cwMask) 2 =? 0)) (readF16List 55) ;;
    up8 <- opt (negb (Z.land (i32 cwMask) 4 =? 0)) (readF16List 210) ;;
    iccData <- (if col_icc col then
                  n <- ReadU64 ;;
                  if 2 ^ 32 - 1 <? n then rerr else l <- icc n ;; rret (Some l)
                else rret None) ;;
    rret (mkIH level size orientation ow oh intr prev bd m16 ecs alpha xyb col tone ext opsin up2 up4 up8 iccData).

(* bundle/image_header.go:129-362, ParseImageHeader *)
Definition ParseImageHeader (icc : Z -> RM (list Z)) (level : Z) : RM ImageHeader :=
  h <- parseHeaderBody icc level ;; _ <- ZeroPadToByte ;; rret h.
