(* Independent description of a modular frame, seen from the encoder: which
   samples of which channel are in which section. *)
From Coq Require Import ZArith List Bool.
From Verif Require Import GoMatrix ModelBitReader ModelFrameHeader ModelMATree ModelModular ModelModStream SpecBitReader SpecCodes SpecGrammar SpecLF ModelLF SpecStream SpecModular SpecPalette SpecModStream SpecModDecode.
Import ListNotations.
Open Scope Z_scope.

(* ---- groups ---- *)
(* A group is a square of side dim of the frame.  Its part of a channel has
   this height and width. *)
Definition group_h (dim : nat) (q : Plane) : nat := (dim / 2 ^ Z.to_nat (p_vs q))%nat.
Definition group_w (dim : nat) (q : Plane) : nat := (dim / 2 ^ Z.to_nat (p_hs q))%nat.
(* groups along a side *)
Definition count (size side : nat) : nat := ((size - 1) / side + 1)%nat.
Definition tile (dim gy gx : nat) (q : Plane) : Plane :=
  let y0 := (gy * group_h dim q)%nat in let x0 := (gx * group_w dim q)%nat in
  let h := Nat.min (group_h dim q) (p_h q - y0) in let w := Nat.min (group_w dim q) (p_w q - x0) in
  mkPl h w (p_vs q) (p_hs q) (mat h w (fun y x => px (p_px q) (y0 + y) (x0 + x))).
(* The channel ends in the last row and the last column of groups (not
   before, not behind) *)
Definition spread (dim rows cols : nat) (q : Plane) : Prop :=
  0 <= p_vs q /\ 0 <= p_hs q /\ (1 <= group_h dim q)%nat /\ (1 <= group_w dim q)%nat /\
  ((rows - 1) * group_h dim q <= p_h q <= rows * group_h dim q)%nat /\ ((cols - 1) * group_w dim q < p_w q <= cols * group_w dim q)%nat.

(* ---- passes ---- *)
(* The frame header says after which passes the image is complete at which
   scale (1, 2, 4 or 8): pairs (scale, number of the pass).  With the last of
   num passes it is complete at scale 1. *)
Definition log2_scale (d : Z) : Z := if d =? 8 then 3 else if d =? 4 then 2 else if d =? 2 then 1 else 0.
Definition scale_after (num : nat) (ds : list (Z * Z)) (p : nat) : option Z :=
  if (S p =? num)%nat then Some 1 else option_map fst (find (fun d => snd d =? Z.of_nat p) ds).
(* the logarithm of the scale that is complete before pass p *)
Fixpoint level (num : nat) (ds : list (Z * Z)) (p : nat) : Z :=
  match p with
  | O => 3
  | S p' => match scale_after num ds p' with Some d => log2_scale d | None => level num ds p' end
  end.
Definition scales_ok (num : nat) (ds : list (Z * Z)) : Prop :=
  (1 <= num)%nat /\ Forall (fun d => (fst d = 1 \/ fst d = 2 \/ fst d = 4 \/ fst d = 8) /\ 0 <= snd d < Z.of_nat num - 1) ds.
(* the passes as the header has them *)
Definition passes_of (num : nat) (shift : list Z) (ds : list (Z * Z)) : Passes :=
  mkPs (Z.of_nat num) (Z.of_nat (length ds)) shift (map fst ds ++ [1]) (map snd ds ++ [Z.of_nat num - 1]).
(* the channels of pass p *)
Definition in_pass (num : nat) (ds : list (Z * Z)) (p : nat) (q : Plane) : bool :=
  let m := Z.min (p_hs q) (p_vs q) in (level num ds (S p) <=? m) && (m <? level num ds p).

(* ---- sections ---- *)
Definition holds (rs : list BR) (i : nat) (c : list bool) : Prop :=
  exists s d p, nth_error rs i = Some s /\ reader_at s d p /\ bits_at d p c /\ (p + length c + 15 <= 8 * length d)%nat.

(* A stream of some channels P: transforms l that give Q.  In streams of
   groups, reversible colour transforms and palettes of single channels. *)
Definition keeps_place (t : TransformInfo) : Prop := ti_tr t = 0 \/ ti_tr t = 1 /\ ti_numC t = 1.
Definition stream_bits (global : option (list Node * header)) (depth stream : Z) (P : list Plane) (c : list bool) : Prop :=
  exists l meta Q, encoded depth (eq []) first_like_meta deltaTable l (0%nat, P) (meta, Q) /\ Forall (fun t => ti_sp t = []) (map fst l) /\
    Forall keeps_place (map fst l) /\ Forall good_plane Q /\ Z.of_nat (length Q) < 2 ^ 28 /\
    modular_bits global stream (widest Q) (map fst l) Q c.

(* The first section: dequantisation, tree of the frame, global stream *)
Definition first_bits (global : option (list Node * header)) (l : list TransformInfo) (now Q : list Plane) (c : list bool) : Prop :=
  exists c1 c2 c3 lg, lf_global_code standard_threshold (fun _ _ _ => False) false c1 lg /\
    (if lg_hasGlobalTree lg then exists nodes h, global = Some (nodes, h) /\ tree_sent nodes h c2 else global = None /\ c2 = []) /\
    modular_bits global 0 (widest Q) l now c3 /\ c = c1 ++ c2 ++ c3.

(* The sections of a frame of h by w samples that carry the image P: one
   section if there is one group and one pass; otherwise the first one, one
   for each LF group, one between, and one for each group in each pass. *)
Definition frame_sent (depth : Z) (h w dim num : nat) (ds : list (Z * Z)) (P : list Plane) (sections : list (list bool)) : Prop :=
  let rows := count h dim in let cols := count w dim in let nLF := (count h (8 * dim) * count w (8 * dim))%nat in let nG := (rows * cols)%nat in
  exists l meta now later global c0,
    encoded depth (eq []) first_like_meta deltaTable l (0%nat, P) (meta, now ++ later) /\ Forall (fun t => ti_sp t = []) (map fst l) /\
    Forall good_plane (now ++ later) /\ Z.of_nat (length (now ++ later)) < 2 ^ 28 /\ global_part meta (Z.of_nat dim) now later /\
    Forall (spread dim rows cols) later /\ Forall (fun q => Z.min (p_hs q) (p_vs q) < 3) later /\
    length sections = (if (nG =? 1)%nat && (num =? 1)%nat then 1 else 2 + nLF + num * nG)%nat /\
    nth_error sections 0 = Some c0 /\ first_bits global (map fst l) now (now ++ later) c0 /\
    forall p g, (p < num)%nat -> (g < nG)%nat -> filter (in_pass num ds p) later <> [] -> exists c,
      nth_error sections (2 + nLF + p * nG + g) = Some c /\
      stream_bits global depth (Z.of_nat (18 + 3 * nLF + p * nG + g)) (map (tile dim (g / cols) (g mod cols)) (filter (in_pass num ds p) later)) c.
