(* Independent description of the HF coefficients of a group, seen from the
   encoder: contexts and values of the symbols that stand for them. *)
From Coq Require Import ZArith List Bool.
From Verif Require Import GoMatrix SpecCodes SpecHF ModelHF.
Import ListNotations.
Open Scope Z_scope.

(* ---- transform types ---- *)
(* The scan order a type uses, and whether its coefficients are stored with
   rows and columns exchanged: tall blocks and square cosine transforms. *)
Definition order_of (t : Z) : Z :=
  match t with
  | 0 => 0 | 4 => 2 | 5 => 3 | 6 | 7 => 4 | 8 | 9 => 5 | 10 | 11 => 6 | 18 => 7 | 19 | 20 => 8 | 21 => 9 | 22 | 23 => 10 | 24 => 11 | 25 | 26 => 12
  | _ => 1
  end.
Definition exchanged (t : Z) : bool := existsb (Z.eqb t) [0; 4; 5; 6; 8; 10; 18; 19; 21; 22; 24; 25].
Definition blocks8 (t : Z) : Z := fst (cells t) * snd (cells t).

(* ---- contexts ---- *)
(* Classes of scan positions and of counts, per 8x8 block *)
Definition freq_class (k : Z) : Z := if k <? 16 then k - 1 else if k <? 32 then 15 + (k - 16) / 2 else 23 + (k - 32) / 4.
Definition count_class (n : Z) : Z :=
  if n <=? 1 then 0 else if n <=? 2 then 31 else if n <=? 4 then 62 else if n <=? 8 then 93 else if n <=? 12 then 123 else if n <=? 20 then 152
  else if n <=? 32 then 180 else 206.
Definition zero_density (nb k count prev : Z) : Z := 2 * (count_class ((count + nb - 1) / nb) + freq_class (k / nb)) + prev.
Definition above (v : Z) (ts : list Z) : Z := Z.of_nat (length (filter (fun t => t <? v) ts)).
(* Y comes first *)
Definition place (c : nat) : Z := match c with O => 1 | 1%nat => 0 | _ => 2 end.
Definition block_context (hc : HFBlockContext) (c : nat) (t mult lf : Z) : Z :=
  let q := Z.of_nat (length (hb_qfThresholds hc)) + 1 in
  nth (Z.to_nat (((place c * 13 + order_of t) * q + above mult (hb_qfThresholds hc)) * hb_numLFContexts hc + lf)) (hb_clusterMap hc) 0.
Definition count_context (n b predicted : Z) : Z := b + n * (if predicted <? 8 then predicted else 4 + Z.min predicted 64 / 2).
(* The number of nonzero coefficients is predicted from above and from the
   left. *)
Definition prediction (N : nat -> nat -> Z) (y x : nat) : Z :=
  match y, x with
  | O, O => 32
  | S y', O => N y' 0%nat
  | O, S x' => N 0%nat x'
  | S y', S x' => (N y' x + N y x' + 1) / 2
  end.

(* ---- symbols of a block ---- *)
(* used are the coefficients in scan order after the zigzag code of signed
   numbers, up to the last one that is not zero *)
Definition coef_context (nb start : Z) (used : list Z) (j : nat) : Z :=
  start + zero_density nb (nb + Z.of_nat j) (nonzeros (skipn j used))
    (match j with
     | O => if 4 * nb <? nonzeros used then 0 else 1
     | S i => if nth i used 0 =? 0 then 0 else 1
     end).
Definition block_symbols (n offset b nb predicted : Z) (used : list Z) : list (Z * Z) :=
  (offset + count_context n b predicted, nonzeros used) ::
  map (fun j => (coef_context nb (offset + 37 * n + 458 * b) used j, nth j used 0)) (seq 0 (length used)).

(* ---- groups ---- *)
(* A block: type, first cell, multiplier and class of its LF coefficients.
   Cells are those of the LF group. *)
Record hblock := HB { b_type : Z; b_y : nat; b_x : nat; b_mult : Z; b_lf : Z }.
(* A group: its first cell, the context model and the first context of the
   preset, the scan orders, and the logarithms of the subsampling *)
Record hgroup := HG { g_y : nat; g_x : nat; g_ctx : HFBlockContext; g_offset : Z; g_order : Z -> nat -> list (Z * Z); g_sy : nat -> nat; g_sx : nat -> nat }.
Definition in_group (g : hgroup) (b : hblock) : Prop := (g_y g <= b_y b < g_y g + 32)%nat /\ (g_x g <= b_x b < g_x g + 32)%nat.
(* the first cell of the block in a channel, if the channel has it *)
Definition in_channel (g : hgroup) (c : nat) (b : hblock) : Prop :=
  ((b_y b - g_y g) mod 2 ^ g_sy g c = 0)%nat /\ ((b_x b - g_x g) mod 2 ^ g_sx g c = 0)%nat.
Definition cell_y (g : hgroup) (c : nat) (b : hblock) : nat := ((b_y b - g_y g) / 2 ^ g_sy g c)%nat.
Definition cell_x (g : hgroup) (c : nat) (b : hblock) : nat := ((b_x b - g_x g) / 2 ^ g_sx g c)%nat.
(* where its HF coefficients are stored, in scan order *)
Definition stored (t : Z) (o : Z * Z) : Z * Z := if exchanged t then (snd o, fst o) else o.
Definition hf_positions (g : hgroup) (c : nat) (b : hblock) : list (nat * nat) :=
  map (fun o => (8 * cell_y g c b + Z.to_nat (fst (stored (b_type b) o)), 8 * cell_x g c b + Z.to_nat (snd (stored (b_type b) o))))%nat
    (skipn (Z.to_nat (blocks8 (b_type b))) (g_order g (order_of (b_type b)) c)).
Definition covers_cell (g : hgroup) (c : nat) (b : hblock) (y x : nat) : bool :=
  (cell_y g c b <=? y)%nat && (Z.of_nat y <? Z.of_nat (cell_y g c b) + fst (cells (b_type b))) &&
  ((cell_x g c b <=? x)%nat && (Z.of_nat x <? Z.of_nat (cell_x g c b) + snd (cells (b_type b)))).

(* Q: the coefficients of a channel; N: the counts per cell before the block,
   N' after it *)
Definition block_sends (g : hgroup) (c : nat) (b : hblock) (Q : nat -> nat -> Z) (N : nat -> nat -> Z) (l : list (Z * Z)) (N' : nat -> nat -> Z) : Prop :=
  let nb := blocks8 (b_type b) in let n := hb_numClusters (g_ctx g) in
  exists used k, (used = [] \/ last used 0 <> 0) /\ Forall (fun v => 0 <= v < 2 ^ 31) used /\
    map (fun p => Q (fst p) (snd p)) (hf_positions g c b) = map unzigzag used ++ repeat 0 k /\
    l = block_symbols n (g_offset g) (block_context (g_ctx g) c (b_type b) (b_mult b) (b_lf b)) nb (prediction N (cell_y g c b) (cell_x g c b)) used /\
    forall y x, N' y x = if covers_cell g c b y x then (nonzeros used + nb - 1) / nb else N y x.
Definition upd {A} (f : nat -> A) (c : nat) (v : A) : nat -> A := fun i => if (i =? c)%nat then v else f i.
Inductive channels_send (g : hgroup) (b : hblock) (Q : nat -> nat -> nat -> Z) : list nat -> (nat -> nat -> nat -> Z) -> list (Z * Z) -> (nat -> nat -> nat -> Z) -> Prop :=
| cs_nil N : channels_send g b Q [] N [] N
| cs_skip c cs N l N' : ~ in_channel g c b -> channels_send g b Q cs N l N' -> channels_send g b Q (c :: cs) N l N'
| cs_send c cs N l M l' N' : in_channel g c b -> block_sends g c b (Q c) (N c) l M -> channels_send g b Q cs (upd N c M) l' N' ->
    channels_send g b Q (c :: cs) N (l ++ l') N'.
(* Blocks of other groups are left out.  Y is sent first. *)
Inductive group_sends (g : hgroup) (Q : nat -> nat -> nat -> Z) : list hblock -> (nat -> nat -> nat -> Z) -> list (Z * Z) -> Prop :=
| gs_nil N : group_sends g Q [] N []
| gs_other b bs N l : ~ in_group g b -> group_sends g Q bs N l -> group_sends g Q (b :: bs) N l
| gs_block b bs N l M l' : in_group g b -> channels_send g b Q [1; 0; 2]%nat N l M -> group_sends g Q bs M l' -> group_sends g Q (b :: bs) N (l ++ l').
(* Blocks that do not overlap in any channel *)
Definition separate (g : hgroup) (b b' : hblock) : Prop := in_group g b -> in_group g b' -> forall c, (c < 3)%nat -> in_channel g c b -> in_channel g c b' ->
  forall y x, covers_cell g c b y x = true -> covers_cell g c b' y x = false.
