(* Independent grammar of the frame header, as a table of fields, each with
   the condition under which it is present and its value when absent. *)
From Coq Require Import ZArith List Bool.
From Verif Require Import GoBase Bits ModelBitReader SpecBitReader SpecCodes SpecGrammar ModelHeader SpecHeader ModelFrameHeader.
Import ListNotations.
Open Scope Z_scope.

(* a field that is present when b holds and has the value d otherwise *)
Definition c_when {A} (b : bool) (R : code A) (d : A) : code A := if b then R else c_ret d.
(* 2^x for an x of n bits *)
Definition c_pow2 (n : nat) : code Z := x <== c_fixed n ;;; c_ret (2 ^ x).

(* Where decoder and standard differ *)
Record fdialect := mkFD {
  fd_size : Z -> Z -> Z -> Z -> Z;  (* coded size of a side: length, upsampling, LF level, subsampling *)
  fd_crop : Z -> Z -> Prop;         (* sizes allowed for a cropped frame *)
  fd_iters : Z -> Prop;             (* numbers of EPF iterations handled *)
  fd_blend : bool -> Z -> Prop;     (* blend modes handled, with or without extra channels *)
  fd_weights : Z -> bool;           (* is the EPF weight flag present, given the number of iterations *)
  fd_clamp : bool -> Z -> bool;     (* is the clamp flag present, given extra channels and the blend mode *)
  fd_ext : dialect }.               (* extensions *)

(* blend modes: 0 replace, 1 add, 2 blend, 3 multiply-add, 4 multiply *)
Definition uses_alpha (mode : Z) : bool := (mode =? 2) || (mode =? 3).
Definition blending_code (D : fdialect) (extra full : bool) : code Blending :=
  mode <== c_u32 0 0 1 0 2 0 3 2 ;;;
  c_guard (fd_blend D extra mode)
  (alpha <== c_when (extra && uses_alpha mode) (c_u32 0 0 1 0 2 0 3 3) 0 ;;;
  clamp <== c_when (fd_clamp D extra mode) c_bool false ;;;
  source <== c_when (negb ((mode =? 0) && full)) (c_fixed 2) 0 ;;;
  c_ret (mkBl mode alpha clamp source)).

Definition passes_code : code Passes :=
  n <== c_u32 1 0 2 0 3 0 4 3 ;;;
  ds <== c_when (negb (n =? 1)) (c_u32 0 0 1 0 2 0 3 1) 0 ;;;
  shift <== c_list (Z.to_nat (n - 1)) (c_fixed 2) ;;;
  down <== c_list (Z.to_nat ds) (c_pow2 2) ;;;
  last <== c_list (Z.to_nat ds) (c_u32 0 0 1 0 2 0 0 3) ;;;
  c_ret (mkPs n ds (shift ++ [0]) (down ++ [1]) (last ++ [n - 1])).

Definition no_extensions : Ext := mkExt 0 (repeat [] 64).
Definition default_filter : Restoration := mkRf true None 2 None None None None None no_extensions.
Definition restoration_code (D : fdialect) (vardct : bool) : code Restoration :=
  def <== c_bool ;;;
  if def : bool then c_ret default_filter
  else
    gab <== c_bool ;;;
    custom <== c_when gab c_bool false ;;;
    gabw <== c_opt custom (c_list 6 c_f16) ;;;
    iters <== c_fixed 2 ;;;
    c_guard (fd_iters D iters)
    (cs <== c_when ((0 <? iters) && vardct) c_bool false ;;;
    sharp <== c_opt cs (c_list 8 c_f16) ;;;
    cw <== c_when (fd_weights D iters) c_bool false ;;;
    (* three scales; the two following half floats are not kept *)
    scale <== c_opt cw (l <== c_list 3 c_f16 ;;; _ <== c_list 2 c_f16 ;;; c_ret l) ;;;
    cg <== c_when (0 <? iters) c_bool false ;;;
    qm <== c_opt (cg && vardct) c_f16 ;;;
    sg <== c_opt cg (c_list 3 c_f16) ;;;
    md <== c_opt ((0 <? iters) && negb vardct) c_f16 ;;;
    ext <== ext_code (fd_ext D) ;;;
    c_ret (mkRf gab gabw iters sharp scale qm sg md ext)).

(* chroma subsampling: which axes of a channel are stored at full
   resolution (0) or half (1), for the mode; reported relative to the
   largest *)
Definition sub_x (mode : Z) : Z := nth (Z.to_nat mode) [0; 1; 1; 0] 0.
Definition sub_y (mode : Z) : Z := nth (Z.to_nat mode) [0; 1; 0; 1] 0.
Definition largest (l : list Z) : Z := fold_right Z.max 0 l.
Definition frame_pos : code Z := c_u32 0 8 256 11 2304 14 18688 30.

Definition frame_code (D : fdialect) (img : ImageHeader) : code FrameHeader :=
  let extra := length (ih_extra img) in
  def <== c_bool ;;;
  ty <== c_when (negb def) (c_fixed 2) 0 ;;;
  enc <== c_when (negb def) (c_fixed 1) 0 ;;;
  flags <== c_when (negb def) u64_code 0 ;;;
  let lf := Z.testbit flags 5 in               (* low frequencies from another frame *)
  ycc <== c_when (negb def && negb (ih_xyb img)) c_bool false ;;;
  modes <== c_when (ycc && negb lf) (c_list 3 (c_fixed 2)) [0; 0; 0] ;;;
  up <== c_when (negb def && negb lf) (c_pow2 2) 1 ;;;
  ecup <== c_when (negb def && negb lf) (c_list extra (c_pow2 2)) (repeat 1 extra) ;;;
  gs <== c_when (enc =? 1) (c_fixed 2) 1 ;;;
  xq <== c_when (negb def && ih_xyb img && (enc =? 0)) (c_fixed 3) (if ih_xyb img && (enc =? 0) then 3 else 2) ;;;
  bq <== c_when (negb def && ih_xyb img && (enc =? 0)) (c_fixed 3) 2 ;;;
  ps <== c_when (negb def && negb (ty =? 2)) passes_code (mkPs 1 0 [] [] []) ;;;
  lv <== c_when (ty =? 1) (x <== c_fixed 2 ;;; c_ret (x + 1)) 0 ;;;
  crop <== c_when (negb def && negb (ty =? 1)) c_bool false ;;;
  ux <== c_when (crop && negb (ty =? 2)) frame_pos 0 ;;;
  uy <== c_when (crop && negb (ty =? 2)) frame_pos 0 ;;;
  w <== c_when crop frame_pos 0 ;;;
  h <== c_when crop frame_pos 0 ;;;
  c_guard (crop = true -> fd_crop D w h)
  (  let x := unzigzag ux in let y := unzigzag uy in
  let fw := if crop : bool then w else dim_w (ih_size img) in
  let fh := if crop : bool then h else dim_h (ih_size img) in
  (* the frame covers the image *)
  let full := (x <=? 0) && (y <=? 0) && (dim_w (ih_size img) <=? x + fw) && (dim_h (ih_size img) <=? y + fh) in
  let normal := negb def && ((ty =? 0) || (ty =? 3)) in
  bl <== c_when normal (blending_code D (0 <? extra)%nat full) (mkBl 0 0 false 0) ;;;
  ebl <== c_when normal (c_list extra (blending_code D true full)) (repeat (mkBl 0 0 false 0) extra) ;;;
  last <== c_when normal c_bool (ty =? 0) ;;;
  sref <== c_when (negb def && negb (ty =? 1) && negb last) (c_fixed 2) 0 ;;;
  sct <== c_when (negb def && ((ty =? 2) || full && ((ty =? 0) || (ty =? 3)) && negb last && (bl_mode bl =? 0))) c_bool false ;;;
  name <== c_when (negb def) (n <== c_u32 0 0 0 4 16 5 48 10 ;;; c_list (Z.to_nat n) (c_fixed 8)) [] ;;;
  rf <== c_when (negb def) (restoration_code D (enc =? 0)) default_filter ;;;
  ext <== c_when (negb def) (ext_code (fd_ext D)) no_extensions ;;;
  let sx := map sub_x modes in let sy := map sub_y modes in
  c_ret (mkFH ty enc flags ycc (map (fun s => largest sx - s) sx) (map (fun s => largest sy - s) sy) up ecup
              gs (128 * 2 ^ gs) (1024 * 2 ^ gs) (7 + gs) (10 + gs) xq bq ps lv crop w h x y
              (fd_size D fw up lv (largest sx)) (fd_size D fh up lv (largest sy)) bl ebl last sref sct name rf ext)).

(* the smallest q with q * b >= a *)
Definition ceil_div (a b : Z) : Z := (a + b - 1) / b.
(* divided by the upsampling, then by 8 per level, then rounded up to a
   multiple of the subsampling *)
Definition iso_side (v up lv s : Z) : Z := ceil_div (ceil_div (ceil_div v up) (8 ^ lv)) (2 ^ s) * 2 ^ s.
Definition iso_clamp (extra : bool) (mode : Z) : bool := extra && uses_alpha mode || (mode =? 4).
Definition fiso : fdialect :=
  mkFD iso_side (fun w h => 1 <= w /\ 1 <= h) (fun _ => True) (fun _ _ => True)
       (fun it => 0 <? it) iso_clamp iso.
(* What the decoder accepts: zero sizes wrap, the EPF weight flag is never
   read, the clamp flag of the multiply mode only with extra channels,
   extension lengths in bytes. *)
Definition wrapped_ceil (a b : Z) : Z := if a =? 0 then ((2 ^ 32 - 1) / b + 1) mod 2 ^ 32 else ceil_div a b.
Definition wrapped_side (v up lv s : Z) : Z :=
  wrapped_ceil (wrapped_ceil (wrapped_ceil v up) (8 ^ lv)) (2 ^ s) * 2 ^ s mod 2 ^ 32.
Definition fimplemented : fdialect :=
  mkFD wrapped_side (fun _ _ => True) (fun _ => True) (fun _ _ => True)
       (fun _ => false) (fun extra mode => extra && (uses_alpha mode || (mode =? 4))) implemented.
(* The part of the standard the decoder handles: no EPF (or the default
   filter), no multiply mode without extra channels, empty extensions. *)
Definition fhandled : fdialect :=
  mkFD iso_side (fun w h => 1 <= w /\ 1 <= h) (fun it => it = 0) (fun extra mode => extra = false -> mode <> 4)
       (fun it => 0 <? it) iso_clamp iso_handled.

(* Geometry of a frame of an image of width iw and height ih: the size before
   cropping, upsampling in {1,2,4,8}, group sizes, and the coded size. *)
Definition is_side (v up lv s q : Z) : Prop := exists a b,
  (a - 1) * up < v <= a * up /\ (b - 1) * 8 ^ lv < a <= b * 8 ^ lv /\ (2 ^ s | q) /\ b <= q < b + 2 ^ s.
Definition geometry_ok (img : ImageHeader) (f : FrameHeader) : Prop :=
  In (fh_up f) [1; 2; 4; 8] /\ Forall (fun u => In u [1; 2; 4; 8]) (fh_ecup f) /\
  length (fh_ecup f) = length (ih_extra img) /\ length (fh_ecblend f) = length (ih_extra img) /\
  0 <= fh_gshift f <= 3 /\ (fh_enc f = 0 -> fh_gshift f = 1) /\
  fh_gdim f = 2 ^ fh_loggdim f /\ fh_loggdim f = 7 + fh_gshift f /\
  fh_lfdim f = 8 * fh_gdim f /\ fh_lfdim f = 2 ^ fh_loglfdim f /\
  0 <= fh_lflevel f <= 4 /\ (fh_lflevel f = 0 <-> fh_type f <> 1) /\
  (fh_crop f = false -> fh_ox f = 0 /\ fh_oy f = 0) /\
  length (fh_jx f) = 3%nat /\ length (fh_jy f) = 3%nat /\
  Forall (fun j => j = 0 \/ j = 1) (fh_jx f) /\ Forall (fun j => j = 0 \/ j = 1) (fh_jy f) /\
  1 <= ps_num (fh_passes f) <= 11 /\ 0 <= ps_ds (fh_passes f) <= 4.
(* the coded size is the requested size, scaled down *)
Definition size_ok (img : ImageHeader) (f : FrameHeader) : Prop :=
  let w := if fh_crop f then fh_w f else dim_w (ih_size img) in
  let h := if fh_crop f then fh_h f else dim_h (ih_size img) in
  (exists s, 0 <= s <= 1 /\ Forall (fun j => j <= s) (fh_jx f) /\ is_side w (fh_up f) (fh_lflevel f) s (fh_bw f)) /\
  (exists s, 0 <= s <= 1 /\ Forall (fun j => j <= s) (fh_jy f) /\ is_side h (fh_up f) (fh_lflevel f) s (fh_bh f)) /\
  1 <= fh_bw f /\ 1 <= fh_bh f.
