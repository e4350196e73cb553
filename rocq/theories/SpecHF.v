(* Packings of blocks and scan orders, independent of the code. *)
From Coq Require Import ZArith List Bool Sorted Permutation.
Import ListNotations.
Open Scope Z_scope.

(* A placed block: top-left cell, height and width in cells. *)
Record Rect := mkR { r_y : Z; r_x : Z; r_h : Z; r_w : Z }.
Definition covers (r : Rect) (y x : Z) : Prop := r_y r <= y < r_y r + r_h r /\ r_x r <= x < r_x r + r_w r.
Definition inside (height width : Z) (r : Rect) : Prop := 0 <= r_y r /\ r_y r + r_h r <= height /\ 0 <= r_x r /\ r_x r + r_w r <= width.
Definition disjoint (a b : Rect) : Prop := forall y x, covers a y x -> ~ covers b y x.
(* blocks in the order they were placed *)
Definition packing (height width : Z) (rs : list Rect) : Prop :=
  Forall (inside height width) rs /\ ForallOrdPairs disjoint rs /\ StronglySorted (fun a b => r_y a <= r_y b) rs.

(* The standard's rule: a block goes to the first cell, row by row, that is
   not yet covered. *)
Definition before (y x y' x' : Z) : Prop := y < y' \/ y = y' /\ x < x'.
Definition first_free (width : Z) (placed : list Rect) (r : Rect) : Prop :=
  (forall p, In p placed -> ~ covers p (r_y r) (r_x r)) /\
  forall y x, 0 <= y -> 0 <= x < width -> before y x (r_y r) (r_x r) -> exists p, In p placed /\ covers p y x.
(* rs extends placed by blocks each of which sits at the first free cell,
   inside the grid and without covering a cell twice *)
Inductive standard_packing (height width : Z) : list Rect -> list Rect -> Prop :=
| sp_done placed : standard_packing height width placed []
| sp_block placed r rs : inside height width r -> Forall (fun p => disjoint p r) placed -> first_free width placed r ->
    standard_packing height width (placed ++ [r]) rs -> standard_packing height width placed (r :: rs).

(* Sizes of the 27 transform types in cells of 8x8 samples: height, width. *)
Definition cells (t : Z) : Z * Z :=
  match t with
  | 4 => (2, 2) | 5 => (4, 4) | 6 => (2, 1) | 7 => (1, 2) | 8 => (4, 1) | 9 => (1, 4) | 10 => (4, 2) | 11 => (2, 4)
  | 18 => (8, 8) | 19 => (8, 4) | 20 => (4, 8) | 21 => (16, 16) | 22 => (16, 8) | 23 => (8, 16) | 24 => (32, 32) | 25 => (32, 16) | 26 => (16, 32)
  | _ => (1, 1)
  end.

(* Scan orders.  A comparison is a strict total order on a set of positions. *)
Definition strict_total (cmp : Z * Z -> Z * Z -> Z) (P : Z * Z -> Prop) : Prop :=
  (forall a b, P a -> P b -> cmp a b = 0 <-> a = b) /\
  (forall a b, P a -> P b -> cmp a b < 0 <-> 0 < cmp b a) /\
  (forall a b c, P a -> P b -> P c -> cmp a b < 0 -> cmp b c < 0 -> cmp a c < 0).
Definition sorted_by (cmp : Z * Z -> Z * Z -> Z) (l : list (Z * Z)) : Prop := StronglySorted (fun a b => cmp a b <= 0) l.
Definition is_sort (sort : (Z * Z -> Z * Z -> Z) -> list (Z * Z) -> list (Z * Z)) (cmp : Z * Z -> Z * Z -> Z) (l : list (Z * Z)) : Prop :=
  Permutation (sort cmp l) l /\ sorted_by cmp (sort cmp l).
(* Block shapes of the 13 orders in cells: height, width. *)
Definition order_cells (i : Z) : Z * Z :=
  match i with
  | 0 => (1, 1) | 1 => (1, 1) | 2 => (2, 2) | 3 => (4, 4) | 4 => (1, 2) | 5 => (1, 4) | 6 => (2, 4) | 7 => (8, 8) | 8 => (4, 8)
  | 9 => (16, 16) | 10 => (8, 16) | 11 => (32, 32) | _ => (16, 32)
  end.
(* The standard's order of positions outside the corner: along the
   antidiagonals of the square the block is scaled to, alternately up and
   down. *)
Definition zigzag (h w : Z) (p : Z * Z) : Z * Z :=
  let m := Z.max h w in
  let sy := fst p * (m / h) in let sx := snd p * (m / w) in
  (sy + sx, if Z.even (sy + sx) then sx - sy else sy - sx).
Definition lex (a b : Z * Z) : Prop := fst a < fst b \/ fst a = fst b /\ snd a < snd b.
Definition in_corner (h w : Z) (p : Z * Z) : Prop := fst p < h /\ snd p < w.
Definition natural_before (h w : Z) (a b : Z * Z) : Prop :=
  in_corner h w a /\ ~ in_corner h w b \/
  in_corner h w a /\ in_corner h w b /\ lex a b \/
  ~ in_corner h w a /\ ~ in_corner h w b /\ lex (zigzag h w a) (zigzag h w b).
(* all positions of a block, row by row *)
Definition raster (h w : nat) : list (Z * Z) := flat_map (fun y => map (fun x => (Z.of_nat y, Z.of_nat x)) (seq 0 w)) (seq 0 h).
(* a scan order of the block's shape, the LF corner first *)
Definition scan_order (h w : Z) (order : list (Z * Z)) : Prop :=
  NoDup order /\ Z.of_nat (length order) = 64 * (h * w) /\ Forall (fun o => 0 <= fst o < 8 * h /\ 0 <= snd o < 8 * w) order /\
  Forall (fun o => fst o < h /\ snd o < w) (firstn (Z.to_nat (h * w)) order) /\
  Forall (fun o => ~ (fst o < h /\ snd o < w)) (skipn (Z.to_nat (h * w)) order).
(* symbols different from zero *)
Definition nonzeros (l : list Z) : Z := Z.of_nat (length (filter (fun v => negb (v =? 0)) l)).
