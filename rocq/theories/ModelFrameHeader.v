(* Model of frame/FrameHeader.go, frame/BlendingInfo.go, frame/PassesInfo.go
   and frame/RestorationFilter.go.  Definitions only. *)
From Coq Require Import ZArith List Bool.
From Verif Require Import GoBase ModelBitReader ModelUtil ModelHeader.
Import ListNotations.
Open Scope Z_scope.

(* frame/FrameHeader.go:11-33 *)
Definition REGULAR_FRAME : Z := 0. Definition LF_FRAME : Z := 1.
Definition REFERENCE_ONLY : Z := 2. Definition SKIP_PROGRESSIVE : Z := 3.
Definition VARDCT : Z := 0. Definition MODULAR : Z := 1.
Definition USE_LF_FRAME : Z := 32.
Definition BM_REPLACE : Z := 0. Definition BM_BLEND : Z := 2.
Definition BM_MULADD : Z := 3. Definition BM_MULT : Z := 4.

(* frame/BlendingInfo.go:7-21 *)
Record Blending := mkBl { bl_mode : Z; bl_alpha : Z; bl_clamp : bool; bl_source : Z }.
Definition NewBlendingInfo : Blending := mkBl BM_REPLACE 0 false 0.

(* frame/BlendingInfo.go:23-63, NewBlendingInfoWithReader *)
Definition readBlending (extra fullFrame : bool) : RM Blending :=
  mode <- ReadU32 0 0 1 0 2 0 3 2 ;;
  alpha <- (if extra && ((mode =? BM_BLEND) || (mode =? BM_MULADD)) then ReadU32 0 0 1 0 2 0 3 3 else rret 0) ;;
  clamp <- (if extra && ((mode =? BM_BLEND) || (mode =? BM_MULT) || (mode =? BM_MULADD)) then ReadBool else rret false) ;;
  source <- (if negb (mode =? BM_REPLACE) || negb fullFrame then b <- ReadBits 2 ;; rret (u32 b) else rret 0) ;;
  rret (mkBl mode alpha clamp source).
Fixpoint readBlendings (n : nat) (fullFrame : bool) : RM (list Blending) :=
  match n with
  | O => rret []
  | S n' => b <- readBlending true fullFrame ;; t <- readBlendings n' fullFrame ;; rret (b :: t)
  end.

(* frame/PassesInfo.go:7-24 *)
Record Passes := mkPs { ps_num : Z; ps_ds : Z; ps_shift : list Z; ps_down : list Z; ps_last : list Z }.
Definition NewPassesInfo : Passes := mkPs 1 0 [] [] [].
(* the three loops: n times a reader *)
Fixpoint readMany (n : nat) (m : RM Z) : RM (list Z) :=
  match n with O => rret [] | S n' => v <- m ;; t <- readMany n' m ;; rret (v :: t) end.
(* frame/PassesInfo.go:26-69, NewPassesInfoWithReader.  The slices are filled
   from index 0 and the last element is assigned separately, so they are the
   values read followed by that element. *)
Definition readPasses : RM Passes :=
  num <- ReadU32 1 0 2 0 3 0 4 3 ;;
  ds <- (if negb (num =? 1) then ReadU32 0 0 1 0 2 0 3 1 else rret 0) ;;
  shift <- readMany (Z.to_nat (u32 (num - 1))) (b <- ReadBits 2 ;; rret (u32 b)) ;;
  down <- readMany (Z.to_nat ds) (b <- ReadBits 2 ;; rret (u32 (Z.shiftl 1 (u32 b)))) ;;
  last <- readMany (Z.to_nat ds) (ReadU32 0 0 1 0 2 0 0 3) ;;
  rret (mkPs num ds (shift ++ [0]) (down ++ [1]) (last ++ [u32 (num - 1)])).

(* frame/RestorationFilter.go:8-25.  None = the built-in constants.  The
   product of the sharpness table with epfQuantMul (lines 184-186) is not
   modelled. *)
Record Restoration := mkRf {
  rf_gab : bool; rf_gabWeights : option (list F32); rf_iters : Z; rf_sharp : option (list F32);
  rf_scale : option (list F32); rf_quantMul : option F32; rf_sigma : option (list F32);
  rf_modular : option F32; rf_ext : Ext }.
(* frame/RestorationFilter.go:27-50 *)
Definition NewRestorationFilter : Restoration := mkRf true None 2 None None None None None NewExtensions.

(* frame/RestorationFilter.go:52-189, NewRestorationFilterWithReader *)
Definition readRestoration (encoding : Z) : RM Restoration :=
  def <- ReadBool ;;
  gab <- (if def : bool then rret true else ReadBool) ;;
  customGab <- (if negb def && gab then ReadBool else rret false) ;;
  gabw <- opt customGab (readF16List 6) ;;
  iters <- (if def : bool then rret 2 else b <- ReadBits 2 ;; rret (u32 b)) ;;
  sharpCustom <- (if negb def && (0 <? iters) && (encoding =? VARDCT) then ReadBool else rret false) ;;
  sharp <- opt sharpCustom (readF16List 8) ;;
  weightCustom <- (if negb def && (9 <? iters) then ReadBool else rret false) ;;
  scale <- opt weightCustom (l <- readF16List 3 ;; fun s => (Ok l, snd (ReadBits 32 s))) ;;
  sigmaCustom <- (if negb def && (0 <? iters) then ReadBool else rret false) ;;
  quantMul <- opt (sigmaCustom && (encoding =? VARDCT)) ReadF16 ;;
  sigma <- opt sigmaCustom (readF16List 3) ;;
  modular <- opt (negb def && (0 <? iters) && (encoding =? MODULAR)) ReadF16 ;;
  ext <- (if def : bool then rret NewExtensions else readExtensions) ;;
  rret (mkRf gab gabw iters sharp scale quantMul sigma modular ext).

(* frame/FrameHeader.go:36-69.  Bounds is ox, oy, bw, bh; duration and
   timecode (animation) are always zero: image headers with animation are
   rejected (bundle/AnimationHeader.go), so the panic of line 311 cannot be
   reached. *)
Record FrameHeader := mkFH {
  fh_type : Z; fh_enc : Z; fh_flags : Z; fh_ycbcr : bool; fh_jx : list Z; fh_jy : list Z;
  fh_up : Z; fh_ecup : list Z; fh_gshift : Z; fh_gdim : Z; fh_lfdim : Z; fh_loggdim : Z; fh_loglfdim : Z;
  fh_xqm : Z; fh_bqm : Z; fh_passes : Passes; fh_lflevel : Z; fh_crop : bool; fh_w : Z; fh_h : Z;
  fh_ox : Z; fh_oy : Z; fh_bw : Z; fh_bh : Z; fh_blend : Blending; fh_ecblend : list Blending;
  fh_last : bool; fh_saveref : Z; fh_savect : bool; fh_name : list Z; fh_rf : Restoration; fh_ext : Ext }.

(* frame/FrameHeader.go:114-124: (x, y) of a 2-bit mode *)
Definition jpegMode (mode : Z) : Z * Z :=
  if mode =? 1 then (1, 1) else if mode =? 2 then (1, 0) else if mode =? 3 then (0, 1) else (0, 0).
Definition max3 (l : list Z) : Z := fold_left Z.max (tl l) (hd 0 l).

(* frame/FrameHeader.go:71-399, NewFrameHeaderWithReader *)
Definition readFrameHeader (parent : ImageHeader) : RM FrameHeader :=
  def <- ReadBool ;;
  ftype <- (if def : bool then rret REGULAR_FRAME else b <- ReadBits 2 ;; rret (u32 b)) ;;
  enc <- (if def : bool then rret VARDCT else b <- ReadBits 1 ;; rret (u32 b)) ;;
  flags <- (if def : bool then rret 0 else ReadU64) ;;
  ycbcr <- (if negb def && negb (ih_xyb parent) then ReadBool else rret false) ;;
  modes <- (if ycbcr && (Z.land flags USE_LF_FRAME =? 0) then readMany 3 (ReadBits 2) else rret [0; 0; 0]) ;;
  let jx := map (fun m => fst (jpegMode m)) modes in
  let jy := map (fun m => snd (jpegMode m)) modes in
  up <- (if negb def && (Z.land flags USE_LF_FRAME =? 0) then b <- ReadBits 2 ;; rret (u32 (Z.shiftl 1 b)) else rret 1) ;;
  ecup <- (if negb def && (Z.land flags USE_LF_FRAME =? 0)
           then readMany (length (ih_extra parent)) (b <- ReadBits 2 ;; rret (u32 (Z.shiftl 1 b)))
           else rret (repeat 1 (length (ih_extra parent)))) ;;
  gshift <- (if enc =? MODULAR then b <- ReadBits 2 ;; rret (u32 b) else rret 1) ;;
  let gdim := u32 (Z.shiftl 128 gshift) in
  let lfdim := u32 (Z.shiftl gdim 3) in
  xqm <- (if ih_xyb parent && (enc =? VARDCT) then (if negb def then b <- ReadBits 3 ;; rret (u32 b) else rret 3) else rret 2) ;;
  bqm <- (if ih_xyb parent && (enc =? VARDCT) then (if negb def then b <- ReadBits 3 ;; rret (u32 b) else rret 2) else rret 2) ;;
  passes <- (if negb def && negb (ftype =? REFERENCE_ONLY) then readPasses else rret NewPassesInfo) ;;
  lflevel <- (if ftype =? LF_FRAME then b <- ReadBits 2 ;; rret (u32 (u32 b + 1)) else rret 0) ;;
  crop <- (if negb def && negb (ftype =? LF_FRAME) then ReadBool else rret false) ;;
  x0 <- (if crop && negb (ftype =? REFERENCE_ONLY) then ReadU32 0 8 256 11 2304 14 18688 30 else rret 0) ;;
  y0 <- (if crop && negb (ftype =? REFERENCE_ONLY) then ReadU32 0 8 256 11 2304 14 18688 30 else rret 0) ;;
  let ox := UnpackSigned x0 in
  let oy := UnpackSigned y0 in
  width <- (if crop : bool then ReadU32 0 8 256 11 2304 14 18688 30 else rret 0) ;;
  height <- (if crop : bool then ReadU32 0 8 256 11 2304 14 18688 30 else rret 0) ;;
  let bw := if crop : bool then width else dim_w (ih_size parent) in
  let bh := if crop : bool then height else dim_h (ih_size parent) in
  let normal := negb def && ((ftype =? REGULAR_FRAME) || (ftype =? SKIP_PROGRESSIVE)) in
  let full := (oy <=? 0) && (ox <=? 0) && (i32 (dim_h (ih_size parent)) <=? i32 (oy + i32 bh))
              && (i32 (dim_w (ih_size parent)) <=? i32 (ox + i32 bw)) in
  bh <- lift (CeilDiv bh up) ;;
  bw <- lift (CeilDiv bw up) ;;
  bh <- lift (CeilDiv bh (u32 (Z.shiftl 1 (u32 (3 * lflevel))))) ;;
  bw <- lift (CeilDiv bw (u32 (Z.shiftl 1 (u32 (3 * lflevel))))) ;;
  blend <- (if normal : bool then readBlending (0 <? length (ih_extra parent))%nat full else rret NewBlendingInfo) ;;
  ecblend <- (if normal : bool then readBlendings (length (ih_extra parent)) full
              else rret (repeat NewBlendingInfo (length (ih_extra parent)))) ;;
  last <- (if normal : bool then ReadBool else rret (ftype =? REGULAR_FRAME)) ;;
  saveref <- (if negb def && negb (ftype =? LF_FRAME) && negb last then b <- ReadBits 2 ;; rret (u32 b) else rret 0) ;;
  savect <- (if negb def && ((ftype =? REFERENCE_ONLY) ||
                  full && ((ftype =? REGULAR_FRAME) || (ftype =? SKIP_PROGRESSIVE)) && negb last && (bl_mode blend =? BM_REPLACE))
             then ReadBool else rret false) ;;
  name <- (if def : bool then rret [] else n <- ReadU32 0 0 0 4 16 5 48 10 ;; readByteList (Z.to_nat n)) ;;
  rf <- (if def : bool then rret NewRestorationFilter else readRestoration enc) ;;
  ext <- (if def : bool then rret NewExtensions else readExtensions) ;;
  let my := max3 jy in
  let mx := max3 jx in
  bh <- lift (CeilDiv bh (u32 (Z.shiftl 1 my))) ;;
  bw <- lift (CeilDiv bw (u32 (Z.shiftl 1 mx))) ;;
  rret (mkFH ftype enc flags ycbcr (map (fun j => mx - j) jx) (map (fun j => my - j) jy) up ecup
             gshift gdim lfdim (CeilLog2_i64 gdim) (CeilLog2_i64 lfdim) xqm bqm passes lflevel crop width height
             ox oy (u32 (Z.shiftl bw mx)) (u32 (Z.shiftl bh my)) blend ecblend last saveref savect name rf ext).
