(* Independent description of the layout of blocks in a VarDCT frame without
   subsampled channels. *)
From Coq Require Import ZArith List Bool.
From Verif Require Import SpecHF SpecVarFrame.
Import ListNotations.
Open Scope Z_scope.

(* Blocks in an LF group of h by w cells of 8x8 samples: every cell has a block,
   no block crosses the border of a group of 32x32 cells, and blocks that cross
   a row of tiles of 8x8 cells start at the corner of a tile. *)
Record tiling (h w : Z) (L : LFSent) : Prop := {
  tl_full : forall y x, 0 <= y < h -> 0 <= x < w -> exists r, In r (ls_rects L) /\ covers r y x;
  tl_group : forall r, In r (ls_rects L) -> r_y r mod 32 + r_h r <= 32 /\ r_x r mod 32 + r_w r <= 32;
  tl_tile : forall r, In r (ls_rects L) -> r_y r mod 8 + r_h r <= 8 \/ r_y r mod 8 = 0 /\ r_x r mod 8 = 0 }.
