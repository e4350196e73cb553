(* Specification of the final coefficients of a group. *)
From Coq Require Import ZArith List Bool Arith Reals.
From Verif Require Import ModelHF ModelHFDequant SpecDCT SpecColour GoMatrix.
Import ListNotations.
Open Scope R_scope.

(* Value of a quantised coefficient: small ones are biased towards zero *)
Definition hf_value (bias num : R) (q : Z) : R :=
  match q with
  | 0%Z => 0
  | 1%Z => bias
  | (-1)%Z => - bias
  | _ => IZR q - num / IZR q
  end.
(* Step of a channel: 2^16 (4/5)^(qm-2) / (scale mult), where qm is 2 for Y *)
Definition hf_qm (q : Z) : R := powerRZ (4 / 5) (q - 2).
Definition hf_channel_qm (x b : Z) (c : nat) : Z := match c with O => x | 1%nat => 2%Z | _ => b end.
Definition hf_block_step (scale qm mult : Z) : R := 2 ^ 16 * hf_qm qm / (IZR scale * IZR mult).
(* Weight of coefficient (y, x): tables have their shorter side as rows, and
   square cosine transforms keep their coefficients transposed *)
Definition hf_weight (t : TransformType) (w : list (list R)) (y x : nat) : R :=
  if ((tt_pixelWidth t <? tt_pixelHeight t) || ((tt_method t =? 0) && (tt_pixelHeight t =? tt_pixelWidth t)))%Z then pixel w x y else pixel w y x.

(* Blocks in a channel with shifts sy and sx; sizes and places in samples *)
Definition b_h (b : HFBlock) : nat := Z.to_nat (tt_pixelHeight (hb_type b)).
Definition b_w (b : HFBlock) : nat := Z.to_nat (tt_pixelWidth (hb_type b)).
Definition present (p : HFParams) (sy sx : Z) (b : HFBlock) : Prop :=
  ((hb_y b - hp_groupY p) mod 2 ^ sy = 0 /\ (hb_x b - hp_groupX p) mod 2 ^ sx = 0)%Z.
Definition b_top (p : HFParams) (sy : Z) (b : HFBlock) : nat := (8 * Z.to_nat ((hb_y b - hp_groupY p) / 2 ^ sy))%nat.
Definition b_left (p : HFParams) (sx : Z) (b : HFBlock) : nat := (8 * Z.to_nat ((hb_x b - hp_groupX p) / 2 ^ sx))%nat.
Definition covers_px (p : HFParams) (sy sx : Z) (b : HFBlock) (y x : nat) : bool :=
  in_block (b_top p sy b) (b_left p sx b) (b_h b) (b_w b) y x.
(* The lowest frequencies of a block, one per 8x8 samples *)
Definition in_llf (b : HFBlock) (y x : nat) : bool := ((y <? b_h b / 8) && (x <? b_w b / 8))%nat.
(* the blocks of a list that are in a channel do not overlap and lie inside
   matrices of H rows and W columns *)
Definition layout (p : HFParams) (sy sx : Z) (H W : nat) (bs : list HFBlock) : Prop :=
  (forall b, In b bs -> (0 <= hb_y b - hp_groupY p /\ 0 <= hb_x b - hp_groupX p)%Z /\
     (present p sy sx b -> (b_top p sy b + b_h b <= H /\ b_left p sx b + b_w b <= W)%nat)) /\
  ForallOrdPairs (fun a b => present p sy sx a -> present p sy sx b -> forall y x, covers_px p sy sx a y x = true -> covers_px p sy sx b y x = false) bs.

(* m' is m with the blocks of a channel replaced: by f b y x at (y, x) in
   block b *)
Definition blocks_replaced (p : HFParams) (sy sx : Z) (H W : nat) (bs : list HFBlock) (f : HFBlock -> nat -> nat -> R -> R) (m m' : list (list R)) : Prop :=
  rrect H W m' /\
  (forall b y x, In b bs -> present p sy sx b -> (y < b_h b)%nat -> (x < b_w b)%nat ->
     pixel m' (b_top p sy b + y) (b_left p sx b + x) = f b y x (pixel m (b_top p sy b + y) (b_left p sx b + x))) /\
  (forall y x, (forall b, In b bs -> present p sy sx b -> covers_px p sy sx b y x = false) -> pixel m' y x = pixel m y x).

(* Correlation of X or B with Y in the tile of 64x64 samples (ty, tx) *)
Definition hf_correlation (base : R) (colour : Z) (factors : list (list Z)) (ty tx : nat) : R :=
  base + IZR (px factors ty tx) / IZR colour.
(* the sample (y, x) of the LF group is in block b *)
Definition in_lf_block (b : HFBlock) (y x : nat) : bool :=
  in_block (8 * Z.to_nat (hb_y b)) (8 * Z.to_nat (hb_x b)) (b_h b) (b_w b) y x.
(* the correlation is known once the corner of its tile is in one of the
   blocks bs *)
Definition hf_cfl_used (base : R) (colour : Z) (factors : list (list Z)) (bs : list HFBlock) (ty tx : nat) : R :=
  if existsb (fun b => in_lf_block b (64 * ty) (64 * tx)) bs then hf_correlation base colour factors ty tx else 0.
(* blocks in the order in which their first samples are met row by row *)
Definition in_order (bs : list HFBlock) : Prop :=
  ForallOrdPairs (fun a b => hb_y a < hb_y b \/ hb_y a = hb_y b /\ hb_x a < hb_x b)%Z bs.
(* the block does not cross a horizontal tile border, or starts at the corner
   of a tile *)
Definition within_tile (b : HFBlock) : Prop :=
  ((8 * Z.to_nat (hb_y b)) mod 64 + b_h b <= 64 \/ (8 * Z.to_nat (hb_y b)) mod 64 = 0 /\ (8 * Z.to_nat (hb_x b)) mod 64 = 0)%nat.

(* ---- lowest frequencies ---- *)
(* With the first n of 8n coefficients of a transform scaled by these factors
   each mean of 8 samples is the sample of the n coefficients (C82) *)
Definition llf_factor (n k : nat) : R :=
  1 / (cos (PI * INR k / (16 * INR n)) * cos (PI * INR k / (8 * INR n)) * cos (PI * INR k / (4 * INR n))).
(* the coefficients of a block of H by W cells of 8x8 samples whose lowest
   ones come from the LF samples f, the others being zero *)
Definition llf_only (factor : nat -> nat -> R) (H W : nat) (f : nat -> nat -> R) (v u : nat) : R :=
  if ((v <? H) && (u <? W))%nat then dct2 H W f v u * (factor H v * factor W u) else 0.
(* mean of the samples of cell (i, j) *)
Definition cell_mean (f : nat -> nat -> R) (i j : nat) : R :=
  sum 8 (fun a => sum 8 (fun b => f (8 * i + a)%nat (8 * j + b)%nat)) / 64.
