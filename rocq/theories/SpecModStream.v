(* Independent description of the header of a modular stream (annex H of
   ISO/IEC 18181-1) and of what its transforms do to the list of channels,
   seen from the encoder. *)
From Coq Require Import ZArith List Bool.
From Verif Require Import GoBase GoMatrix SpecBitReader SpecGrammar SpecHeader SpecFrameHeader SpecModular SpecPalette ModelModular ModelModStream.
Import ListNotations.
Open Scope Z_scope.

(* ---- grammar ---- *)
Definition wp_code : code WPParams :=
  default <== c_bool ;;;
  if default then c_ret (mkWP 16 10 7 7 7 0 0 [13; 12; 12; 12])
  else
    p <== c_list 7 (c_fixed 5) ;;;
    w <== c_list 4 (c_fixed 4) ;;;
    c_ret (mkWP (nth 0 p 0) (nth 1 p 0) (nth 2 p 0) (nth 3 p 0) (nth 4 p 0) (nth 5 p 0) (nth 6 p 0) w).

(* Where decoder and standard differ *)
Record mdialect := mkMD {
  md_begin : code Z;       (* first channel of an explicit squeeze *)
  md_num : code Z;         (* number of its channels *)
  md_kind : Z -> Prop;     (* kinds of transforms *)
  md_rct : Z -> Prop }.    (* types of colour transforms *)
Definition channel_code : code Z := c_u32 0 3 8 6 72 10 1096 13.
Definition mstandard : mdialect := mkMD channel_code (c_u32 1 0 2 0 3 0 4 4) (fun k => k <= 2) (fun t => t < 42).
(* the decoder reads constants for lengths and lengths for constants *)
Definition mimplemented : mdialect :=
  mkMD (fun c v => c_u32 3 6 10 13 0 8 0 0 c v /\ firstn 2 c <> [true; true]) (c_u32 0 0 0 4 1 2 3 4) (fun _ => True) (fun _ => True).

Definition squeeze_code (D : mdialect) : code SqueezeParam :=
  horizontal <== c_bool ;;;
  in_place <== c_bool ;;;
  first <== md_begin D ;;;
  num <== md_num D ;;;
  c_ret (mkSP horizontal in_place first num).
Definition transform_code (D : mdialect) : code TransformInfo :=
  kind <== c_fixed 2 ;;;
  c_guard (md_kind D kind)
  (first <== c_when (negb (kind =? 2)) channel_code 0 ;;;
   rct <== c_when (kind =? 0) (c_u32 6 0 0 2 2 4 10 6) 0 ;;;
   c_guard (md_rct D rct)
   (num <== c_when (kind =? 1) (c_u32 1 0 3 0 4 0 1 13) 0 ;;;
    colours <== c_when (kind =? 1) (c_u32 0 8 256 10 1280 12 5376 16) 0 ;;;
    deltas <== c_when (kind =? 1) (c_u32 0 0 1 8 257 10 1281 16) 0 ;;;
    pred <== c_when (kind =? 1) (c_fixed 4) 0 ;;;
    sq <== c_when (kind =? 2) (n <== c_u32 0 0 1 4 9 6 41 8 ;;; c_list (Z.to_nat n) (squeeze_code D)) [] ;;;
    c_ret (mkTI kind first rct num colours deltas pred sq))).
Definition modular_code (D : mdialect) : code (bool * WPParams * list TransformInfo) :=
  global <== c_bool ;;;
  wp <== wp_code ;;;
  n <== c_u32 0 0 1 0 2 4 18 8 ;;;
  l <== c_list (Z.to_nat n) (transform_code D) ;;;
  c_ret (global, wp, l).

(* ---- channels ---- *)
(* A channel of an image: size, log2 of its subsampling, samples *)
Record Plane := mkPl { p_h : nat; p_w : nat; p_vs : Z; p_hs : Z; p_px : list (list Z) }.
Definition good_plane (p : Plane) : Prop :=
  rect (p_h p) (p_w p) (p_px p) /\ Z.of_nat (p_h p) < 2 ^ 31 - 1 /\ Z.of_nat (p_w p) < 2 ^ 31 - 1.
Definition same_layout (p q : Plane) : Prop := p_h p = p_h q /\ p_w p = p_w q /\ p_vs p = p_vs q /\ p_hs p = p_hs q.

(* The two halves of a squeezed channel *)
Definition low (horizontal : bool) (p : Plane) : Plane :=
  if horizontal then mkPl (p_h p) ((p_w p + 1) / 2) (p_vs p) (p_hs p + 1) (squeezeH_avg (p_h p) (p_w p) (p_px p))
  else mkPl ((p_h p + 1) / 2) (p_w p) (p_vs p + 1) (p_hs p) (squeezeV_avg (p_h p) (p_w p) (p_px p)).
Definition high (horizontal : bool) (p : Plane) : Plane :=
  if horizontal then mkPl (p_h p) (p_w p / 2) (p_vs p) (p_hs p + 1) (squeezeH_res tend (p_h p) (p_w p) (p_px p))
  else mkPl (p_h p / 2) (p_w p) (p_vs p + 1) (p_hs p) (squeezeV_res tend (p_h p) (p_w p) (p_px p)).
(* One squeeze of a state (number of meta channels, channels): num channels
   from number begin on; the residuals follow them or come last *)
Inductive squeezed (p : SqueezeParam) : nat * list Plane -> nat * list Plane -> Prop :=
| Squeezed (meta : nat) (pre mid post : list Plane) :
    sp_beginC p = Z.of_nat (length pre) -> sp_numC p = Z.of_nat (length mid) ->
    Forall (fun c => (1 <= p_h c)%nat /\ (1 <= p_w c)%nat /\ samples_within (2 ^ 28 - 1) (p_px c)) mid ->
    ((length pre < meta)%nat -> sp_inPlace p = true /\ (length pre + length mid <= meta)%nat) ->
    squeezed p (meta, pre ++ mid ++ post)
      ((if (length pre <? meta)%nat then meta + length mid else meta)%nat,
       pre ++ map (low (sp_horizontal p)) mid ++
       (if sp_inPlace p then map (high (sp_horizontal p)) mid ++ post else post ++ map (high (sp_horizontal p)) mid)).
Inductive squeezed_by : list SqueezeParam -> nat * list Plane -> nat * list Plane -> Prop :=
| SqNone s : squeezed_by [] s s
| SqOne p l s s' s'' : squeezed p s s' -> squeezed_by l s' s'' -> squeezed_by (p :: l) s s''.

(* The default list of squeezes: chroma first, then the longer side, then
   both sides in turn until they are at most 8 *)
Inductive rounds (first count : Z) : Z -> Z -> list SqueezeParam -> Prop :=
| RoundsEnd w h : w <= 8 -> h <= 8 -> rounds first count w h []
| RoundsW w h l : 8 < w -> h <= 8 -> rounds first count ((w + 1) / 2) h l -> rounds first count w h (mkSP true true first count :: l)
| RoundsH w h l : w <= 8 -> 8 < h -> rounds first count w ((h + 1) / 2) l -> rounds first count w h (mkSP false true first count :: l)
| RoundsWH w h l : 8 < w -> 8 < h -> rounds first count ((w + 1) / 2) ((h + 1) / 2) l ->
    rounds first count w h (mkSP true true first count :: mkSP false true first count :: l).
Definition blankPlane : Plane := mkPl 0 0 0 0 [].
Definition default_squeezes (meta : nat) (P : list Plane) (l : list SqueezeParam) : Prop :=
  (meta < length P)%nat /\
  let first := Z.of_nat meta in let count := Z.of_nat (length P) - first in
  let c := nth meta P blankPlane in let c1 := nth (meta + 1) P blankPlane in
  let w := Z.of_nat (p_w c) in let h := Z.of_nat (p_h c) in
  let chroma := (2 <? count) && (p_w c =? p_w c1)%nat && (p_h c =? p_h c1)%nat in
  exists r, l = (if chroma then [mkSP true false (first + 1) 2; mkSP false false (first + 1) 2] else []) ++ r /\
    if (w <=? h) && (8 <? h) then exists r', r = mkSP false true first count :: r' /\ rounds first count w ((h + 1) / 2) r'
    else rounds first count w h r.

(* the sizes the code looks at are those of channel 0 *)
Definition first_like_meta (meta : nat) (P : list Plane) : Prop :=
  p_w (nth 0 P blankPlane) = p_w (nth meta P blankPlane) /\ p_h (nth 0 P blankPlane) = p_h (nth meta P blankPlane).

(* One transform, with the squeezes it stands for.  A palette replaces nc
   channels by one of indices and puts the palette in front of the list. *)
Section transforms.
  (* the standard allows any channels behind those of a palette, and a
     default squeeze after any transforms: behind and default hold always *)
  Context (depth : Z) (behind : list Plane -> Prop) (default : nat -> list Plane -> Prop) (delta : nat -> nat -> Z).
  Inductive transformed (t : TransformInfo) : list SqueezeParam -> nat * list Plane -> nat * list Plane -> Prop :=
  | ByRct meta pre (o : Z -> Plane) post :
      ti_tr t = 0 -> ti_beginC t = Z.of_nat (length pre) -> 0 <= ti_rctType t < 42 ->
      (forall j, 0 <= j <= 2 -> same_layout (o j) (o 0) /\ rect (p_h (o 0)) (p_w (o 0)) (p_px (o j)) /\ samples_i32 (p_px (o j))) ->
      let p := ti_rctType t / 7 in let ty := ti_rctType t mod 7 in
      let a := p_px (o (rct_position p 0)) in let b := p_px (o (rct_position p 1)) in let c := p_px (o (rct_position p 2)) in
      let mk f := mkPl (p_h (o 0)) (p_w (o 0)) (p_vs (o 0)) (p_hs (o 0)) (plane (p_h (o 0)) (p_w (o 0)) f ty a b c) in
      transformed t [] (meta, pre ++ [o 0; o 1; o 2] ++ post) (meta, pre ++ [mk fst3; mk snd3; mk thd3] ++ post)
  | BySqueeze sq s s' :
      ti_tr t = 2 -> squeezed_by sq s s' ->
      (ti_sp t <> [] -> sq = ti_sp t) -> (ti_sp t = [] -> default_squeezes (fst s) (snd s) sq /\ default (fst s) (snd s)) ->
      transformed t sq s s'
  | ByPalette meta pre outs post idx pal :
      ti_tr t = 1 -> ti_beginC t = Z.of_nat (length pre) -> ti_numC t = Z.of_nat (length outs) -> ti_numC t < 2 ^ 20 -> outs <> [] -> behind post ->
      0 <= ti_nbColours t < 2 ^ 20 -> 0 <= ti_nbDeltas t < 2 ^ 20 -> 0 <= ti_dPred t <= 13 -> ti_dPred t <> 6 ->
      ((length pre < meta)%nat -> (length pre + length outs <= meta)%nat) ->
      same_layout pal (mkPl (length outs) (Z.to_nat (ti_nbColours t)) (-1) (-1) []) -> rect (length outs) (Z.to_nat (ti_nbColours t)) (p_px pal) ->
      (1 <= p_h idx)%nat -> (1 <= p_w idx)%nat -> samples_i32 (p_px idx) -> good_plane idx ->
      Forall (Forall (fun v => ti_nbDeltas t <= v)) (p_px idx) ->
      Forall (fun o => same_layout o idx) outs ->
      (forall k, (k < length outs)%nat -> let o := p_px (nth k outs blankPlane) in rect (p_h idx) (p_w idx) o /\
         forall y x, (y < p_h idx)%nat -> (x < p_w idx)%nat -> px o y x = pal_value delta (p_px pal) (ti_nbColours t) depth k (px (p_px idx) y x)) ->
      transformed t [] (meta, pre ++ outs ++ post)
        ((if (length pre <? meta)%nat then meta + 2 - length outs else meta + 1)%nat, pal :: pre ++ [idx] ++ post).
  (* All transforms in order *)
  Inductive encoded : list (TransformInfo * list SqueezeParam) -> nat * list Plane -> nat * list Plane -> Prop :=
  | EncNone s : encoded [] s s
  | EncStep t sq l s s' s'' : Forall good_plane (snd s) -> transformed t sq s s' -> encoded l s' s'' -> encoded ((t, sq) :: l) s s''.
End transforms.

(* Channels of the decoder: of the size of a plane and not yet decoded, and
   with the samples of a plane.  A channel with an empty side has no rows. *)
Definition laid (c : Chan) (p : Plane) : Prop :=
  c_height c = Z.of_nat (p_h p) /\ c_width c = Z.of_nat (p_w p) /\ c_vshift c = p_vs p /\ c_hshift c = p_hs p /\ c_buf c = [] /\
  c_decoded c = false /\ c_forceWP c = false.
Definition shows (c : Chan) (p : Plane) : Prop :=
  c_height c = Z.of_nat (p_h p) /\ c_width c = Z.of_nat (p_w p) /\ c_vshift c = p_vs p /\ c_hshift c = p_hs p /\
  (c_buf c = p_px p \/ (p_h p = O \/ p_w p = O) /\ c_buf c = []).
