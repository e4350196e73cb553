(* Independent description of VarDCT frames, seen from the encoder: what is
   sent, and which section has which bits. *)
From Coq Require Import ZArith List Bool Reals.
From Verif Require Import GoBase GoMatrix Bits ModelBitReader ModelGroups ModelHF ModelLF ModelLFCoeff ModelMATree ModelHFGlobal ModelVarFrame.
From Verif Require Import SpecBitReader SpecCodes SpecGrammar SpecGroups SpecHF SpecHFGroup SpecStream SpecDist SpecSymbols SpecLF SpecModDecode SpecModFrame SpecLFCoeff SpecLFGroup SpecHFPass SpecHFGlobal.
Import ListNotations.
Open Scope Z_scope.

(* ---- sections ---- *)
(* Bits for section i are in the only section if there is one. *)
Definition slot (rs : list BR) (i : nat) : nat := if (length rs <=? 1)%nat then 0%nat else i.
Definition slot_bits (rs : list BR) (parts : list (nat * list bool)) (j : nat) : list bool :=
  concat (map snd (filter (fun q => (slot rs (fst q) =? j)%nat) parts)).
(* The parts are next in their sections, in this order. *)
Definition pending (rs : list BR) (parts : list (nat * list bool)) : Prop :=
  forall q, In q parts -> holds rs (slot rs (fst q)) (slot_bits rs parts (slot rs (fst q))).

(* ---- geometry ---- *)
(* Groups of 256x256 samples and LF groups of 2048x2048 samples, row by row;
   those at the right and at the bottom may be smaller. *)
Definition frame_h (g : Geo) : Z := round_up (g_height g) (pad_unit g (g_fy g)).
Definition frame_w (g : Geo) : Z := round_up (g_width g) (pad_unit g (g_fx g)).
Definition across (g : Geo) (d : Z) : Z := (g_width g - 1) / d + 1.
Definition down (g : Geo) (d : Z) : Z := (g_height g - 1) / d + 1.
Definition tile_count (g : Geo) (d : Z) : nat := Z.to_nat (across g d * down g d).
Definition tile_place (g : Geo) (d : Z) (id : nat) : Z * Z := (Z.of_nat id / across g d, Z.of_nat id mod across g d).
Definition tile_size (g : Geo) (d : Z) (id : nat) : Z * Z :=
  (Z.min d (frame_h g - fst (tile_place g d id) * d), Z.min d (frame_w g - snd (tile_place g d id) * d)).
(* the LF group of a group, and the place of the group in it *)
Definition lf_of (g : Geo) (id : nat) : nat :=
  Z.to_nat (fst (tile_place g 256 id) / 8 * across g 2048 + snd (tile_place g 256 id) / 8).
Definition place_in_lf (g : Geo) (id : nat) : Z * Z := (fst (tile_place g 256 id) mod 8, snd (tile_place g 256 id) mod 8).

(* ---- LF global ---- *)
(* Maps of block contexts have at most 16 clusters. *)
Definition map16 (n : Z) : code (list Z * Z) := fun c v => cluster_map n c v /\ snd v <= 16.
Definition global_bits (lg : LFGlobal) (tree : option (list Node * header)) (c : list bool) : Prop :=
  exists c1 c2, lf_global_code standard_threshold map16 true c1 lg /\
    (if lg_hasGlobalTree lg then exists nodes h, tree = Some (nodes, h) /\ tree_sent nodes h c2 else tree = None /\ c2 = []) /\ c = c1 ++ c2.

(* ---- LF groups ---- *)
Definition float_value (f : F32) : R :=
  let m := if f_neg f then - f_mant f else f_mant f in
  if f_exp f <? 0 then (IZR m / 2 ^ Z.to_nat (- f_exp f))%R else (IZR m * 2 ^ Z.to_nat (f_exp f))%R.
(* Bit 5 of the flags says that the LF samples come from an LF frame, bit 7
   that they are not smoothed; sizes and places in cells of 8x8 samples. *)
Definition lf_params (f : VF) (lg : LFGlobal) (k : nat) : LFParams :=
  let (h, w) := tile_size (vf_geo f) 2048 k in let (y, x) := tile_place (vf_geo f) 2048 k in let cc := lg_lfChanCorr lg in
  let step i := lf_step (float_value (nth i (lg_lfDequant lg) (mkF32 false 0 0))) (lg_globalScale lg) (lg_quantLF lg) in
  {| lp_useLFFrame := Z.testbit (vf_flags f) 5; lp_skipSmoothing := Z.testbit (vf_flags f) 7; lp_shiftY := vf_jy f; lp_shiftX := vf_jx f;
     lp_height := h / 8; lp_width := w / 8; lp_pY := 256 * y; lp_pX := 256 * x; lp_scaled := (step 0%nat, step 1%nat, step 2%nat);
     lp_colorFactor := cc_colorFactor cc; lp_baseX := float_value (cc_baseCorrelationX cc); lp_baseB := float_value (cc_baseCorrelationB cc);
     lp_xFactorLF := cc_xFactorLF cc; lp_bFactorLF := cc_bFactorLF cc |}.
(* Extra precision, LF samples, correlation factors, types and multipliers of
   the blocks, sharpness, the places of the blocks, and the LF image *)
Record LFSent := mkLS { ls_e : Z; ls_q : nat -> list (list Z); ls_xfy : list (list Z); ls_bfy : list (list Z); ls_blocks : list (Z * Z); ls_sharp : list (list Z);
  ls_rects : list Rect; ls_image : list (list R) * list (list R) * list (list R) }.
Definition covers_b (r : Rect) (y x : nat) : bool :=
  (r_y r <=? Z.of_nat y) && (Z.of_nat y <? r_y r + r_h r) && ((r_x r <=? Z.of_nat x) && (Z.of_nat x <? r_x r + r_w r)).
(* per cell, the type plus one and the multiplier of the block there *)
Definition cell_map (v : Z * Z -> Z) (L : LFSent) (y x : nat) : Z :=
  match find (fun br => covers_b (snd br) y x) (combine (ls_blocks L) (ls_rects L)) with Some (b, _) => v b + 1 | None => 0 end.

(* ---- groups ---- *)
(* Preset and coefficients *)
Record GroupSent := mkGS { gs_preset : Z; gs_coef : nat -> nat -> nat -> Z }.
