(* Independent grammar of the JPEG XL image header (size header, image
   metadata, colour encoding, tone mapping, extensions, custom weights), in
   two dialects: the one of the standard and the one of the decoder. *)
From Coq Require Import ZArith List Bool.
From Verif Require Import GoBase Bits ModelBitReader SpecBitReader SpecCodes SpecGrammar ModelHeader.
Import ListNotations.
Open Scope Z_scope.

Notation "x <== R ;;; S" := (c_seq R (fun x => S)) (at level 61, R at next level, right associativity).

(* Aspect ratios: width : height *)
Definition ratio_num (r : Z) : Z := nth (Z.to_nat r) [0; 1; 6; 4; 3; 16; 5; 2] 0.
Definition ratio_den (r : Z) : Z := nth (Z.to_nat r) [1; 1; 5; 3; 2; 9; 4; 1] 1.
Definition ratio_width (r h : Z) : Z := h * ratio_num r / ratio_den r.
Definition wrapped_ratio_width (r h : Z) : Z := (h * ratio_num r) mod 2 ^ 32 / ratio_den r.

(* Size limits of the levels *)
Definition iso_size_ok (level w h : Z) : Prop :=
  (level = 5 /\ w <= 2 ^ 18 /\ h <= 2 ^ 18 /\ w * h <= 2 ^ 28) \/
  (level = 10 /\ w <= 2 ^ 30 /\ h <= 2 ^ 30 /\ w * h <= 2 ^ 40).
Definition code_size_ok (level w h : Z) : Prop :=
  if level <=? 5 then w <= 2 ^ 18 /\ h <= 2 ^ 18 /\ (w * h) mod 2 ^ 32 <= 2 ^ 30
  else w <= 2 ^ 28 /\ h <= 2 ^ 28.

Record dialect := mkDialect {
  d_size : Z -> code Dim;                (* size header at a level *)
  d_preview : code Dim;
  d_animation : code unit;
  d_ext_payload : Z -> code (list Z)     (* payload of declared length n *)
}.

Definition size_field (div8 : bool) : code Z :=
  if div8 then x <== c_fixed 5 ;;; c_ret (8 * (1 + x))
  else c_u32 1 9 1 13 1 18 1 30.
Definition size_code (ratio : Z -> Z -> Z) (size_ok : Z -> Z -> Z -> Prop) (level : Z) : code Dim :=
  div8 <== c_bool ;;;
  h <== size_field div8 ;;;
  r <== c_fixed 3 ;;;
  w <== (if r =? 0 then size_field div8 else c_ret (ratio r h)) ;;;
  c_guard (size_ok level w h) (c_ret (mkDim w h)).

(* div8 preview sizes are given in units of k pixels *)
Definition preview_field (k : Z) (div8 : bool) : code Z :=
  if div8 then x <== c_u32 16 0 32 0 1 5 33 9 ;;; c_ret (k * x)
  else c_u32 1 6 65 8 321 10 1345 12.
Definition preview_code (ratio : Z -> Z -> Z) (k : Z) (allow_div8 : Prop) : code Dim :=
  div8 <== c_bool ;;;
  c_guard (div8 = true -> allow_div8)
  (h <== preview_field k div8 ;;;
   r <== c_fixed 3 ;;;
   w <== (if r =? 0 then preview_field k div8 else c_ret (ratio r h)) ;;;
   c_guard (w <= 4096 /\ h <= 4096) (c_ret (mkDim w h))).

Definition bitdepth_code : code BitDepth :=
  fl <== c_bool ;;;
  if fl : bool then
    b <== c_u32 32 0 16 0 24 0 1 6 ;;; e <== c_fixed 4 ;;; c_ret (mkBD b (1 + e) true)
  else b <== c_u32 8 0 10 0 12 0 1 6 ;;; c_ret (mkBD b 0 false).

(* kinds of extra channel: alpha, depth, spot colour, selection mask, black,
   CFA, thermal; non-optional, optional *)
Definition extra_kind (t : Z) : Prop := 0 <= t <= 6 \/ t = 15 \/ t = 16.
Definition extra_tail (t : Z) (bd : BitDepth) (shift : Z) (name : list Z) (assoc : bool) : code ExtraChannel :=
  spot <== (if t =? 2 then c_list 4 c_f16 else c_ret []) ;;;
  cfa <== (if t =? 5 then c_u32 1 0 0 2 3 4 19 8 else c_ret 1) ;;;
  c_ret (mkEC t bd shift name assoc spot cfa).
Definition extra_code : code ExtraChannel :=
  d <== c_bool ;;;
  if d : bool then extra_tail 0 (mkBD 8 0 false) 0 [] false
  else
    t <== c_enum ;;;
    c_guard (extra_kind t)
    (bd <== bitdepth_code ;;;
     shift <== c_u32 0 0 3 0 4 0 1 3 ;;;
     n <== c_u32 0 0 0 4 16 5 48 10 ;;;
     name <== c_list (Z.to_nat n) (c_fixed 8) ;;;
     assoc <== (if t =? 0 then c_bool else c_ret false) ;;;
     extra_tail t bd shift name assoc).

Fixpoint ext_lengths (key : Z) (i : nat) (n : nat) : code (list Z) :=
  match n with
  | O => c_ret []
  | S n' => l <== (if Z.testbit key (Z.of_nat i) then l <== u64_code ;;; c_guard (l < 2 ^ 32) (c_ret l)
                   else c_ret 0) ;;;
            t <== ext_lengths key (S i) n' ;;; c_ret (l :: t)
  end.
Fixpoint ext_payloads_code (D : dialect) (ls : list Z) : code (list (list Z)) :=
  match ls with
  | [] => c_ret []
  | l :: t => p <== d_ext_payload D l ;;; r <== ext_payloads_code D t ;;; c_ret (p :: r)
  end.
Definition ext_code (D : dialect) : code Ext :=
  key <== u64_code ;;;
  ls <== ext_lengths key 0 64 ;;;
  ps <== ext_payloads_code D ls ;;;
  c_ret (mkExt key ps).

(* Colour *)
Definition space_kind (s : Z) : Prop := s = 0 \/ s = 1 \/ s = 2 \/ s = 3.       (* RGB, grey, XYB, unknown *)
Definition white_kind (w : Z) : Prop := w = 1 \/ w = 2 \/ w = 10 \/ w = 11.     (* D65, custom, E, DCI *)
Definition prim_kind (p : Z) : Prop := p = 1 \/ p = 2 \/ p = 9 \/ p = 11.       (* sRGB, custom, BT.2100, P3 *)
Definition intent_kind (i : Z) : Prop := 0 <= i <= 3.
Definition tf_kind (e : Z) : Prop := e = 1 \/ e = 2 \/ e = 8 \/ e = 13 \/ e = 16 \/ e = 17 \/ e = 18.

Definition xy_code : code XY :=
  x <== c_u32 0 19 524288 19 1048576 20 2097152 21 ;;;
  y <== c_u32 0 19 524288 19 1048576 20 2097152 21 ;;;
  c_ret (mkXY (unzigzag x) (unzigzag y)).
Definition white_xy (w : Z) : option XY :=
  if w =? 1 then Some (mkXY 312700 329000)
  else if w =? 10 then Some (mkXY 333333 333333)
  else if w =? 11 then Some (mkXY 314000 351000) else None.
Definition prim_xy (p : Z) : option (XY * XY * XY) :=
  if p =? 1 then Some (mkXY 639999 330010, mkXY 300004 600003, mkXY 150002 59997)
  else if p =? 9 then Some (mkXY 708000 292000, mkXY 170000 797000, mkXY 131000 46000)
  else if p =? 11 then Some (mkXY 680000 320000, mkXY 265000 690000, mkXY 150000 60000) else None.
(* transfer function: a gamma in ten-millionths, or 2^24 + an enumerated kind *)
Definition tf_code : code Z :=
  g <== c_bool ;;;
  if g : bool then x <== c_fixed 24 ;;; c_guard (x <= 10000000) (c_ret x)
  else e <== c_enum ;;; c_guard (tf_kind e) (c_ret (2 ^ 24 + e)).
Definition white_code : code (Z * option XY) :=
  w <== c_enum ;;; c_guard (white_kind w)
  (if w =? 2 then xy <== xy_code ;;; c_ret (w, Some xy) else c_ret (w, white_xy w)).
Definition prim_code : code (Z * option (XY * XY * XY)) :=
  p <== c_enum ;;; c_guard (prim_kind p)
  (if p =? 2 then r <== xy_code ;;; g <== xy_code ;;; b <== xy_code ;;; c_ret (p, Some (r, g, b))
   else c_ret (p, prim_xy p)).
Definition srgb : Colour :=
  mkCol false 0 1 (white_xy 1) 1 (prim_xy 1) (2 ^ 24 + 13) 1.
Definition colour_code : code Colour :=
  def <== c_bool ;;;
  if def : bool then c_ret srgb
  else
    icc <== c_bool ;;;
    s <== c_enum ;;;
    c_guard (space_kind s)
    (if icc : bool then c_ret (mkCol true s 1 (white_xy 1) 1 (prim_xy 1) (2 ^ 24 + 13) 1)
     else
       w <== (if s =? 2 then c_ret (1, white_xy 1) else white_code) ;;;
       p <== (if (s =? 2) || (s =? 1) then c_ret (1, prim_xy 1) else prim_code) ;;;
       tf <== tf_code ;;;
       ri <== c_enum ;;;
       c_guard (intent_kind ri)
       (c_ret (mkCol false s (fst w) (snd w) (fst p) (snd p) tf ri))).

Definition tone_default : Tone := mkTone (mkF32 false 255 0) (mkF32 false 0 0) (mkF32 false 0 0) false.
(* 0 < target, 0 <= min <= target, 0 <= linear, linear <= 1 when relative *)
Definition tone_code : code Tone :=
  def <== c_bool ;;;
  if def : bool then c_ret tone_default
  else
    t <== c_f16 ;;; m <== c_f16 ;;; rel <== c_bool ;;; l <== c_f16 ;;;
    c_guard (0 < f32_units t /\ 0 <= f32_units m <= f32_units t /\ 0 <= f32_units l /\
             (rel = true -> f32_units l <= 2 ^ 150))
    (c_ret (mkTone t m l rel)).

Definition opsin_code : code (option (list F32)) :=
  def <== c_bool ;;;
  if def : bool then c_ret None else l <== c_list 16 c_f16 ;;; c_ret (Some l).

Definition extra_fields_code (D : dialect) (level : Z) : code (Z * option Dim * option Dim) :=
  o <== c_fixed 3 ;;;
  bi <== c_bool ;;; intr <== c_opt bi (d_size D level) ;;;
  bp <== c_bool ;;; prev <== c_opt bp (d_preview D) ;;;
  ba <== c_bool ;;;
  _ <== (if ba : bool then d_animation D else c_ret tt) ;;;
  c_ret (1 + o, intr, prev).

(* Image metadata between the extra fields and the tone mapping *)
Definition midpart : Type := (BitDepth * bool * list ExtraChannel * bool * Colour)%type.
Definition mid_default : midpart := (mkBD 8 0 false, true, [], true, srgb).
Definition mid_code : code midpart :=
  bd <== bitdepth_code ;;;
  m16 <== c_bool ;;;
  n <== c_u32 0 0 1 0 2 4 1 12 ;;;
  ecs <== c_list (Z.to_nat n) extra_code ;;;
  xyb <== c_bool ;;;
  col <== colour_code ;;;
  c_ret (bd, m16, ecs, xyb, col).

(* positions of the alpha channels, in increasing order *)
Definition alpha_positions (l : list ExtraChannel) : list Z :=
  map Z.of_nat (filter (fun k => match nth_error l k with Some e => ec_type e =? 0 | None => false end)
                       (seq 0 (length l))).

Definition header_code (D : dialect) (icc : Z -> code (list Z)) (level : Z) : code ImageHeader :=
  sig <== c_fixed 16 ;;;
  c_guard (sig = 0x0AFF /\ (level = 5 \/ level = 10))
  (size <== d_size D level ;;;
   def <== c_bool ;;;
   xfb <== (if def : bool then c_ret false else c_bool) ;;;
   xf <== (if xfb : bool then extra_fields_code D level else c_ret (1, None, None)) ;;;
   mid <== (if def : bool then c_ret mid_default else mid_code) ;;;
   tone <== (if xfb : bool then tone_code else c_ret tone_default) ;;;
   ext <== (if def : bool then c_ret (mkExt 0 (repeat [] 64)) else ext_code D) ;;;
   dm <== c_bool ;;;
   opsin <== (if negb dm && snd (fst mid) then opsin_code else c_ret None) ;;;
   mask <== (if dm : bool then c_ret 0 else c_fixed 3) ;;;
   u2 <== c_opt (Z.testbit mask 0) (c_list 15 c_f16) ;;;
   u4 <== c_opt (Z.testbit mask 1) (c_list 55 c_f16) ;;;
   u8 <== c_opt (Z.testbit mask 2) (c_list 210 c_f16) ;;;
   iccd <== (if col_icc (snd mid) then
               n <== u64_code ;;; c_guard (n < 2 ^ 32) (l <== icc n ;;; c_ret (Some l))
             else c_ret None) ;;;
   let '(orient, intr, prev) := xf in
   let '(bd, m16, ecs, xyb, col) := mid in
   c_ret (mkIH level size orient
            (if 4 <? orient then dim_h size else dim_w size)
            (if 4 <? orient then dim_w size else dim_h size)
            intr prev bd m16 ecs (alpha_positions ecs) xyb col tone ext opsin u2 u4 u8 iccd)).

(* The standard: exact ratios, the level limits, previews in units of 8,
   animation headers, extension lengths in bits (payload zero padded into
   bytes here). *)
Definition iso_animation : code unit :=
  _ <== c_u32 100 0 1000 0 1 10 1 30 ;;;
  _ <== c_u32 1 0 1001 0 1 8 1 10 ;;;
  _ <== c_u32 0 0 0 3 0 16 0 32 ;;;
  _ <== c_bool ;;; c_ret tt.
Definition bits_payload (n : Z) : code (list Z) := fun c l =>
  length c = Z.to_nat n /\
  l = map (fun k => bz (firstn 8 (skipn (8 * k) c))) (seq 0 ((Z.to_nat n + 7) / 8)).
Definition iso : dialect :=
  mkDialect (size_code ratio_width iso_size_ok) (preview_code ratio_width 8 True) iso_animation bits_payload.
(* What the decoder accepts: ratios wrap at 2^32, previews are not
   multiplied, animations are not accepted, extension lengths count bytes. *)
Definition implemented : dialect :=
  mkDialect (size_code wrapped_ratio_width code_size_ok) (preview_code wrapped_ratio_width 1 True) c_none
    (fun n => c_list (Z.to_nat n) (c_fixed 8)).
(* The part of the standard dialect the decoder handles: sizes up to 2^28,
   previews not coded in units of 8, no animation, empty extensions. *)
Definition iso_handled : dialect :=
  mkDialect (size_code ratio_width (fun l w h => iso_size_ok l w h /\ w <= 2 ^ 28 /\ h <= 2 ^ 28))
    (preview_code ratio_width 8 False) c_none (fun n => c_guard (n = 0) (c_ret [])).

(* Invariants of accepted headers. *)
Definition colour_ok (c : Colour) : Prop :=
  space_kind (col_space c) /\ white_kind (col_wp c) /\ col_white c <> None /\
  prim_kind (col_prim c) /\ col_primXY c <> None /\
  (0 <= col_tf c <= 10000000 \/ exists e, tf_kind e /\ col_tf c = 2 ^ 24 + e) /\ intent_kind (col_intent c).
Definition extra_ok (e : ExtraChannel) : Prop :=
  extra_kind (ec_type e) /\ 1 <= bd_bits (ec_bd e) <= 64 /\ 0 <= ec_dimShift e <= 8 /\
  (length (ec_name e) <= 1071)%nat /\ Forall is_byte (ec_name e).
Definition header_ok (level : Z) (h : ImageHeader) : Prop :=
  ih_level h = level /\ (level = 5 \/ level = 10) /\
  0 <= dim_w (ih_size h) <= (if level =? 5 then 2 ^ 18 else 2 ^ 28) /\
  1 <= dim_h (ih_size h) <= (if level =? 5 then 2 ^ 18 else 2 ^ 28) /\
  1 <= ih_orientation h <= 8 /\
  (ih_orientation h <= 4 -> ih_ow h = dim_w (ih_size h) /\ ih_oh h = dim_h (ih_size h)) /\
  (4 < ih_orientation h -> ih_ow h = dim_h (ih_size h) /\ ih_oh h = dim_w (ih_size h)) /\
  1 <= bd_bits (ih_bd h) <= 64 /\ 0 <= bd_exp (ih_bd h) <= 16 /\
  (length (ih_extra h) <= 4096)%nat /\ Forall extra_ok (ih_extra h) /\
  ih_alpha h = alpha_positions (ih_extra h) /\
  colour_ok (ih_colour h) /\
  (forall l, ih_up2 h = Some l -> length l = 15%nat) /\ (forall l, ih_up4 h = Some l -> length l = 55%nat) /\
  (forall l, ih_up8 h = Some l -> length l = 210%nat) /\
  (ih_icc h <> None <-> col_icc (ih_colour h) = true).
