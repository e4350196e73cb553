(* Independent description of the LF groups of VarDCT frames: LF samples, the
   modular channels of the group, and the layout of the blocks. *)
From Coq Require Import ZArith List Bool.
From Verif Require Import Bits SpecCodes SpecHF SpecModStream SpecModDecode SpecStream SpecPalette ModelMATree ModelModStream.
Import ListNotations.
Open Scope Z_scope.

(* The bits c of stream number stream with the channels P, transformed and
   coded in any way.  A stream without channels has no bits. *)
Definition stream_bits (depth : Z) (global : option (list Node * header)) (stream : Z) (P : list Plane) (c : list bool) : Prop :=
  P = [] /\ c = [] \/
  P <> [] /\ exists l meta Q, encoded depth (eq []) first_like_meta deltaTable l (0%nat, P) (meta, Q) /\ Forall (fun t => ti_sp t = []) (map fst l) /\
    Forall good_plane Q /\ Z.of_nat (length Q) < 2 ^ 28 /\ modular_bits global stream (widest Q) (map fst l) Q c.
(* The LF samples of X, Y and B, sent in the order Y, X, B *)
Definition lf_plane (h w vs hs : Z) (m : list (list Z)) : Plane := mkPl (Z.to_nat (h / 2 ^ vs)) (Z.to_nat (w / 2 ^ hs)) vs hs m.
Definition lf_planes (h w : Z) (vs hs : nat -> Z) (q : nat -> list (list Z)) : list Plane := map (fun i => lf_plane h w (vs i) (hs i) (q i)) [1; 0; 2]%nat.
(* The LF context of a block: how many thresholds are below the sample of
   each channel, X first, then B, then Y *)
Definition below (t : list Z) (v : Z) : Z := Z.of_nat (length (filter (fun a => a <? v) t)).
Definition lf_context (tx ty tb : list Z) (vx vy vb : Z) : Z :=
  below ty vy + (Z.of_nat (length ty) + 1) * (below tb vb + (Z.of_nat (length tb) + 1) * below tx vx).
(* The layout: correlation factors per 8x8 blocks, type and multiplier of
   each block, sharpness of each cell *)
Definition layout_planes (h w : Z) (xfy bfy : list (list Z)) (blocks : list (Z * Z)) (sharp : list (list Z)) : list Plane :=
  let ch := Z.to_nat ((h + 7) / 8) in let cw := Z.to_nat ((w + 7) / 8) in
  [mkPl ch cw 0 0 xfy; mkPl ch cw 0 0 bfy; mkPl 2 (length blocks) 0 0 [map fst blocks; map snd blocks]; mkPl (Z.to_nat h) (Z.to_nat w) 0 0 sharp].
Definition layout_bits (depth : Z) (global : option (list Node * header)) (stream h w : Z) (xfy bfy : list (list Z)) (blocks : list (Z * Z)) (sharp : list (list Z)) (c : list bool) : Prop :=
  exists c', stream_bits depth global stream (layout_planes h w xfy bfy blocks sharp) c' /\
    c = zbits (Z.to_nat (Z.log2_up (h * w))) (Z.of_nat (length blocks) - 1) ++ c'.
(* The group: two bits of extra precision, LF samples, other channels, layout *)
Definition lf_group_bits (depth : Z) (global : option (list Node * header)) (groups id h w : Z) (vs hs : nat -> Z) (e : Z) (q : nat -> list (list Z)) (others : list Plane)
    (xfy bfy : list (list Z)) (blocks : list (Z * Z)) (sharp : list (list Z)) (c : list bool) : Prop :=
  exists c1 c2 c3, 0 <= e < 4 /\ stream_bits depth global (1 + id) (lf_planes h w vs hs q) c1 /\ stream_bits depth global (1 + groups + id) others c2 /\
    layout_bits depth global (1 + 2 * groups + id) h w xfy bfy blocks sharp c3 /\ c = (zbits 2 e ++ c1) ++ c2 ++ c3.
