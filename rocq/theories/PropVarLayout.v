(* Properties of the layout of VarDCT frames without subsampled channels: C107. *)
From Coq Require Import ZArith List Bool Arith Lia Lra Reals ZifyBool ZifyNat.
From Verif Require Import GoBase GoLoop GoMatrix GoMatrixR Bits ModelBitReader ModelUtil ModelHeader ModelEntropy ModelMATree ModelModular ModelModStream ModelModDecode.
From Verif Require Import ModelVarBlock ModelGroups ModelSections ModelHF ModelHFCoeff ModelLF ModelLFCoeff ModelLFGroup ModelHFGlobal ModelHFPass ModelHFGroup ModelHFDequant ModelVarDCT ModelModFrame ModelVarFrame.
From Verif Require Import SpecBitReader SpecCodes SpecGrammar SpecEntropy SpecLZ SpecGroups SpecHF SpecHFGroup SpecStream SpecDist SpecSymbols SpecLF SpecModDecode SpecModFrame SpecLFCoeff SpecLFGroup SpecHFPass SpecHFGlobal SpecVarBlock SpecHFDequant SpecModular SpecVarFrame SpecVarLayout.
From Verif Require Import SpecColour SpecDCT SpecTypes SpecVarDCT ProofDCTMath ProofDCT ProofHFDequant ProofCfL ProofVarDCT ProofReads ProofCodes ProofGroups ProofModFrame ProofVarSections ProofHFCoeff ProofHFGroup ProofLF ProofLFMaps ProofVarFrame ProofVarLayout.
From Verif Require Import PropSymbols PropLF PropTreeCode PropModDecode PropHF PropHFGlobal PropHFPass PropHFGroup PropHFDequant PropLFGroup PropTypes PropVarDCT PropVarGroup PropVarFrame.
Import ListNotations.
Open Scope Z_scope.

(* ---- C107: layouts of VarDCT frames ---- *)
(* blocks of a type have the size of the type *)
Lemma type_size t : 0 <= t <= 26 -> let T := nth (Z.to_nat t) allDCT (hb_type one_block) in tt_pixelHeight T = 8 * fst (cells t) /\ tt_pixelWidth T = 8 * snd (cells t) /\ In T allDCT.
Proof.
  intros Ht T. assert (E : In (Z.to_nat t) (seq 0 27)) by (apply in_seq; lia). split; [|split].
  - unfold T. clear T. rewrite <- (Z2Nat.id t) at 2 by lia. set (n := Z.to_nat t) in *. clearbody n. clear Ht. repeat (destruct E as [<-|E]; [reflexivity|]). destruct E.
  - unfold T. clear T. rewrite <- (Z2Nat.id t) at 2 by lia. set (n := Z.to_nat t) in *. clearbody n. clear Ht. repeat (destruct E as [<-|E]; [reflexivity|]). destruct E.
  - apply nth_In. change (length allDCT) with 27%nat. lia.
Qed.
Definition whole_samples (f : VF) : Prop := vf_jy f = (0, 0, 0) /\ vf_jx f = (0, 0, 0).

Section Layout.
Variables (f : VF) (lg : LFGlobal).
Hypotheses (V : var_geo (vf_geo f)) (WS : whole_samples f).
Let g := vf_geo f.
Definition lf_h (k : nat) : Z := lp_height (lf_params f lg k).
Definition lf_w (k : nat) : Z := lp_width (lf_params f lg k).
Lemma zero_shifts c : part (vf_jy f) c = 0 /\ part (vf_jx f) c = 0.
Proof using WS. destruct WS as [-> ->]. do 2 (destruct c as [|c]; [split; reflexivity|]). split; reflexivity. Qed.
Lemma whole_shifts : shifts_ok g (vf_jy f) (vf_jx f).
Proof using V WS. destruct V as [[_ _ _ C D _] _ _]. intros i _. destruct (zero_shifts i) as [-> ->]. unfold g. lia. Qed.
Lemma lf_size k : (k < tile_count g 2048)%nat -> 8 * lf_h k = Z.min 2048 (frame_h g - 2048 * fst (tile_place g 2048 k)) /\ 8 * lf_w k = Z.min 2048 (frame_w g - 2048 * snd (tile_place g 2048 k)).
Proof using V.
  intros Hk. destruct (frame_unit g V) as ((U1 & U2) & _). unfold lf_h, lf_w, lf_params. fold g. unfold tile_size. destruct (tile_place g 2048 k) as [y x]. cbn [fst snd lp_height lp_width].
  split; lia.
Qed.
(* what group id has of LF group lf_of id *)
Definition in_rect_group (id : nat) (r : Rect) : Prop :=
  32 * fst (place_in_lf g id) <= r_y r < 32 * fst (place_in_lf g id) + 32 /\ 32 * snd (place_in_lf g id) <= r_x r < 32 * snd (place_in_lf g id) + 32.
Lemma place_range id : 0 <= fst (place_in_lf g id) < 8 /\ 0 <= snd (place_in_lf g id) < 8.
Proof using . unfold place_in_lf. cbn [fst snd]. split; apply Z.mod_pos_bound; lia. Qed.
Variables (hc : HFBlockContext) (order : Z -> nat -> list (Z * Z)) (L : LFSent) (k id : nat) (S : GroupSent).
Hypotheses (SP : standard_packing (lf_h k) (lf_w k) [] (ls_rects L)) (SZ : Forall2 sized (ls_blocks L) (ls_rects L)).
Let G := sent_group f hc order id S.
Let bs := group_blocks G (sent_blocks f lg hc k L).
Lemma sized_pair b r : In (b, r) (combine (ls_blocks L) (ls_rects L)) -> sized b r.
Proof using SZ. intros HI. clear - SZ HI. revert HI. induction SZ as [|b' r' bs rs s SZ' IH]; [intros []|]. intros [E|HI]; [apply pair_equal_spec in E as [-> ->]; exact s|exact (IH SZ' HI)]. Qed.
Lemma rect_positive r : In r (ls_rects L) -> 1 <= r_h r /\ 1 <= r_w r.
Proof using SZ. intros Hr. destruct (sized_in _ _ r SZ Hr) as (b & Hb). destruct (sized_pair _ _ Hb) as (_ & E). pose proof (cells_positive (fst b)) as C. rewrite <- E in C. exact C. Qed.
Definition to_block (br : Z * Z * Rect) : HFBlock := to_hf (HB (fst (fst br)) (Z.to_nat (r_y (snd br))) (Z.to_nat (r_x (snd br))) (snd (fst br) + 1) (block_lf (lf_params f lg k) hc (ls_q L) (Z.to_nat (r_y (snd br))) (Z.to_nat (r_x (snd br))))).
Lemma to_block_rect br : In br (combine (ls_blocks L) (ls_rects L)) -> is_rect (to_block br) (snd br).
Proof using SP SZ.
  destruct br as [[t mu] r]. intros HI. destruct (sized_pair _ _ HI) as (Ht & E). cbn [fst snd] in *. pose proof (in_combine_r _ _ _ _ HI) as Hr. pose proof (packing_in _ _ _ _ _ SP Hr) as IN. unfold SpecHF.inside in IN. pose proof (rect_positive r Hr) as P.
  destruct (type_size t Ht) as (T1 & T2 & T3). rewrite <- E in T1, T2. cbn [fst snd] in T1, T2.
  constructor; unfold to_block, to_hf; cbn [hb_y hb_x hb_type b_type b_y b_x b_mult fst snd]; try lia; assumption.
Qed.
Definition chosen (br : Z * Z * Rect) : bool := in_groupb G (HB (fst (fst br)) (Z.to_nat (r_y (snd br))) (Z.to_nat (r_x (snd br))) (snd (fst br) + 1) (block_lf (lf_params f lg k) hc (ls_q L) (Z.to_nat (r_y (snd br))) (Z.to_nat (r_x (snd br))))).
Lemma chosen_spec br : In br (combine (ls_blocks L) (ls_rects L)) -> chosen br = true <-> in_rect_group id (snd br).
Proof using SP.
  destruct br as [b r]. intros HI. pose proof (packing_in _ _ _ _ _ SP (in_combine_r _ _ _ _ HI)) as IN. unfold SpecHF.inside in IN. unfold chosen. rewrite in_groupb_spec. unfold SpecHFGroup.in_group, in_rect_group, G, sent_group. cbn [b_y b_x g_y g_x fst snd]. fold g.
  pose proof (place_range id) as P. cbn [snd]. lia.
Qed.
Lemma bs_eq : bs = map to_block (filter chosen (combine (ls_blocks L) (ls_rects L))).
Proof using .
  unfold bs, group_blocks, sent_blocks. induction (combine (ls_blocks L) (ls_rects L)) as [|br l IH]; [reflexivity|]. cbn [map filter]. fold (chosen br). destruct (chosen br); cbn [map]; rewrite IH; reflexivity.
Qed.
Lemma block_rect b : In b bs -> exists br, In br (combine (ls_blocks L) (ls_rects L)) /\ b = to_block br /\ is_rect b (snd br) /\ in_rect_group id (snd br).
Proof using SP SZ.
  rewrite bs_eq. intros Hb. apply in_map_iff in Hb. destruct Hb as (br & <- & Hbr). apply filter_In in Hbr. destruct Hbr as [H1 H2]. exists br. split; [exact H1|]. split; [reflexivity|]. split; [exact (to_block_rect br H1)|]. apply chosen_spec; assumption.
Qed.
Lemma rect_block r : In r (ls_rects L) -> in_rect_group id r -> exists b, In b bs /\ is_rect b r.
Proof using SP SZ.
  intros Hr HG. destruct (sized_in _ _ r SZ Hr) as (b & Hb). exists (to_block (b, r)). rewrite bs_eq. split; [|exact (to_block_rect _ Hb)]. apply in_map. apply filter_In. split; [exact Hb|]. apply chosen_spec; assumption.
Qed.
(* the cells of a block are in the group and in the LF group *)
Lemma rect_inside r (TL : tiling (lf_h k) (lf_w k) L) : In r (ls_rects L) -> in_rect_group id r -> 0 <= r_y r /\ r_y r + r_h r <= lf_h k /\ 0 <= r_x r /\ r_x r + r_w r <= lf_w k /\
  r_y r + r_h r <= 32 * fst (place_in_lf g id) + 32 /\ r_x r + r_w r <= 32 * snd (place_in_lf g id) + 32.
Proof using SP.
  intros Hr [G1 G2]. pose proof (packing_in _ _ _ _ _ SP Hr) as IN. unfold SpecHF.inside in IN. destruct (tl_group _ _ _ TL r Hr) as [T1 T2]. repeat (split; [lia|]).
  assert (A : forall a p, 32 * p <= a < 32 * p + 32 -> a mod 32 = a - 32 * p) by (intros a p H; symmetry; apply (Z.mod_unique _ _ p); lia). rewrite (A _ _ G1) in T1. rewrite (A _ _ G2) in T2. lia.
Qed.
Lemma blocks_ordered : ForallOrdPairs (fun a b => exists r r', is_rect a r /\ is_rect b r' /\ SpecHF.disjoint r r' /\ SpecHF.before (r_y r) (r_x r) (r_y r') (r_x r')) bs.
Proof using SP SZ.
  rewrite bs_eq. apply FOP_map. apply (FOP_impl (fun a b => SpecHF.disjoint (snd a) (snd b) /\ SpecHF.before (r_y (snd a)) (r_x (snd a)) (r_y (snd b)) (r_x (snd b)))).
  - intros a b Ha Hb [D B]. apply filter_In in Ha. apply filter_In in Hb. exists (snd a), (snd b). split; [apply to_block_rect; apply Ha|]. split; [apply to_block_rect; apply Hb|]. split; assumption.
  - apply FOP_filter. apply (FOP_combine (fun r r' => SpecHF.disjoint r r' /\ SpecHF.before (r_y r) (r_x r) (r_y r') (r_x r'))). apply FOP_and; [exact (proj1 (packing_disjoint _ _ _ _ SP))|]. apply (packing_order _ _ _ _ SP).
    apply Forall_forall. exact rect_positive.
Qed.
End Layout.

(* What a frame needs besides its bits: samples of all channels at full size, a
   tiling of each LF group, multipliers that are not zero, samples and factors
   for all cells, and tables for the types used *)
Record layout_sent (f : VF) (lg : LFGlobal) (w : list (list (list (list R)))) (L : nat -> LFSent) : Prop := {
  ly_whole : whole_samples f;
  ly_tiling : forall k, (k < tile_count (vf_geo f) 2048)%nat -> tiling (lf_h f lg k) (lf_w f lg k) (L k);
  ly_mult : forall k b, (k < tile_count (vf_geo f) 2048)%nat -> In b (ls_blocks (L k)) -> snd b <> -1;
  ly_image : forall k c, (k < tile_count (vf_geo f) 2048)%nat -> (c < 3)%nat -> rrect (Z.to_nat (lf_h f lg k)) (Z.to_nat (lf_w f lg k)) (part (ls_image (L k)) c);
  ly_factors : forall k, (k < tile_count (vf_geo f) 2048)%nat -> let hc := Z.to_nat ((lf_h f lg k + 7) / 8) in let wc := Z.to_nat ((lf_w f lg k + 7) / 8) in rect hc wc (ls_xfy (L k)) /\ rect hc wc (ls_bfy (L k));
  ly_tables : forall k b, (k < tile_count (vf_geo f) 2048)%nat -> In b (ls_blocks (L k)) -> let t := nth (Z.to_nat (fst b)) allDCT (hb_type one_block) in
    0 <= tt_parameterIndex t < Z.of_nat (length w) /\ length (nth (Z.to_nat (tt_parameterIndex t)) w []) = 3%nat /\
    forall c, (c < 3)%nat -> table_ok t (nth c (nth (Z.to_nat (tt_parameterIndex t)) w []) []);
  ly_kinds : forall k b, (k < tile_count (vf_geo f) 2048)%nat -> In b (ls_blocks (L k)) -> supported (kind_of (nth (Z.to_nat (fst b)) allDCT (hb_type one_block)));
  ly_bias : length (vf_bias f) = 3%nat;
  ly_scales : 2 <= vf_xqm f < 2 ^ 32 /\ 2 <= vf_bqm f < 2 ^ 32 /\ lg_globalScale lg <> 0 }.

Section Jobs.
Variables (f : VF) (lg : LFGlobal) (hc : HFBlockContext) (w : list (list (list (list R)))) (call : nat -> HFBlock -> nat) (order : Z -> nat -> list (Z * Z)) (L : nat -> LFSent) (S : nat -> GroupSent).
Hypotheses (V : var_geo (vf_geo f)) (LS : layout_sent f lg w L) (SH : hb_shape hc)
  (SP : forall k, (k < tile_count (vf_geo f) 2048)%nat -> standard_packing (lf_h f lg k) (lf_w f lg k) [] (ls_rects (L k)))
  (SZ : forall k, (k < tile_count (vf_geo f) 2048)%nat -> Forall2 sized (ls_blocks (L k)) (ls_rects (L k))).
Let g := vf_geo f.
Let WS := ly_whole _ _ _ _ LS.
Definition blocks_of (id : nat) : list HFBlock := group_blocks (sent_group f hc order id (S id)) (sent_blocks f lg hc (lf_of g id) (L (lf_of g id))).
Definition job (id : nat) : GroupJob := sent_job f lg hc w call order L S id.
Lemma job_shifts id c : sY (gj_params (job id)) c = 0 /\ sX (gj_params (job id)) c = 0.
Proof. unfold job, sent_job, sY, sX. cbn [gj_params hp_shiftY hp_shiftX]. destruct WS as [-> ->]. split; exact (zero_nth 3 c). Qed.
Lemma lf_positive k : (k < tile_count g 2048)%nat -> 1 <= lf_h f lg k <= 256 /\ 1 <= lf_w f lg k <= 256.
Proof. intros Hk. destruct (geo_cells f lg k V (whole_shifts f V WS) Hk) as (W & B1 & B2). destruct W as (W1 & W2 & _). unfold lf_h, lf_w. lia. Qed.
(* a block of a group: its rectangle, in cells of the LF group *)
Lemma job_rect id b : (id < tile_count g 256)%nat -> In b (blocks_of id) -> exists bt r, In (bt, r) (combine (ls_blocks (L (lf_of g id))) (ls_rects (L (lf_of g id)))) /\
  b = to_block f lg hc (L (lf_of g id)) (lf_of g id) (bt, r) /\ is_rect b r /\ in_rect_group f id r /\
  0 <= r_y r /\ r_y r + r_h r <= lf_h f lg (lf_of g id) /\ 0 <= r_x r /\ r_x r + r_w r <= lf_w f lg (lf_of g id) /\
  r_y r + r_h r <= 32 * fst (place_in_lf g id) + 32 /\ r_x r + r_w r <= 32 * snd (place_in_lf g id) + 32.
Proof.
  intros Hid Hb. destruct (geo_place g id V Hid) as (_ & Hk & _). destruct (block_rect f lg hc order (L (lf_of g id)) (lf_of g id) id (S id) (SP _ Hk) (SZ _ Hk) b Hb) as ((bt & r) & H1 & H2 & H3 & H4). cbn [snd] in *.
  exists bt, r. split; [exact H1|]. split; [exact H2|]. split; [exact H3|]. split; [exact H4|]. pose proof (in_combine_r _ _ _ _ H1) as Hr.
  exact (rect_inside f lg (L (lf_of g id)) (lf_of g id) id (SP _ Hk) r (ly_tiling _ _ _ _ LS _ Hk) Hr H4).
Qed.
(* places in the frame *)
Lemma place_split id : (id < tile_count g 256)%nat -> let T := tile_place g 256 id in
  0 <= fst T < down g 256 /\ 0 <= snd T < across g 256 /\ fst (place_in_lf g id) = fst T mod 8 /\ snd (place_in_lf g id) = snd T mod 8 /\ (lf_of g id < tile_count g 2048)%nat /\
  8 * lf_h f lg (lf_of g id) = Z.min 2048 (frame_h g - 2048 * (fst T / 8)) /\ 8 * lf_w f lg (lf_of g id) = Z.min 2048 (frame_w g - 2048 * (snd T / 8)).
Proof.
  intros Hid T. destruct (geo_place g id V Hid) as (E & Hk & P1 & P2). destruct (lf_size f lg V (lf_of g id) Hk) as [S1 S2]. fold g in S1, S2. rewrite E in S1, S2. cbn [fst snd] in S1, S2.
  split; [exact P1|]. split; [exact P2|]. split; [reflexivity|]. split; [reflexivity|]. split; [exact Hk|]. split; assumption.
Qed.
Lemma group_size id c : (id < tile_count g 256)%nat -> Z.of_nat (group_h f id c) = Z.max 0 (Z.min 256 (frame_h g - 256 * fst (tile_place g 256 id))) /\
  Z.of_nat (group_w f id c) = Z.max 0 (Z.min 256 (frame_w g - 256 * snd (tile_place g 256 id))).
Proof.
  intros Hid. unfold group_h, group_w, tile_size. destruct (zero_shifts f WS c) as [-> ->]. fold g. cbn [fst snd]. rewrite !Z.shiftr_0_r. lia.
Qed.
Lemma frame_size c : Z.of_nat (frame_rows f c) = frame_h g /\ Z.of_nat (frame_cols f c) = frame_w g.
Proof. unfold frame_rows, frame_cols. destruct (zero_shifts f WS c) as [-> ->]. fold g. rewrite !Z.shiftr_0_r. destruct (frame_small g V). lia. Qed.
Lemma block_ends id b c : (id < tile_count g 256)%nat -> In b (blocks_of id) -> exists r, is_rect b r /\ in_rect_group f id r /\ r_y r + r_h r <= lf_h f lg (lf_of g id) /\ r_x r + r_w r <= lf_w f lg (lf_of g id) /\
  8 * (r_y r - 32 * fst (place_in_lf g id) + r_h r) <= Z.of_nat (group_h f id c) /\ 8 * (r_x r - 32 * snd (place_in_lf g id) + r_w r) <= Z.of_nat (group_w f id c) /\
  r_y r - 32 * fst (place_in_lf g id) + r_h r <= 32 /\ r_x r - 32 * snd (place_in_lf g id) + r_w r <= 32.
Proof.
  intros Hid Hb. destruct (job_rect id b Hid Hb) as (bt & r & _ & _ & IR & IG & I1 & I2 & I3 & I4 & I5 & I6). exists r. split; [exact IR|]. split; [exact IG|]. split; [exact I2|]. split; [exact I4|].
  destruct (place_split id Hid) as (P1 & P2 & E1 & E2 & Hk & Z1 & Z2). destruct (group_size id c Hid) as [-> ->]. destruct (lf_positive _ Hk) as [L1 L2]. rewrite E1, E2 in *.
  set (ty := fst (tile_place g 256 id)) in *. set (tx := snd (tile_place g 256 id)) in *. clearbody ty tx. clear - I1 I2 I3 I4 I5 I6 P1 P2 Z1 Z2. lia.
Qed.
Lemma job_fits id b : (id < tile_count g 256)%nat -> In b (sent_blocks f lg hc (lf_of g id) (L (lf_of g id))) -> SpecHFGroup.in_group (sent_group f hc order id (S id)) b ->
  forall c, (c < 3)%nat -> ProofHFGroup.block_fits (sent_group f hc order id (S id)) (group_h f id) (group_w f id) c b.
Proof.
  intros Hid Hb HG c Hc. assert (I : In (to_hf b) (blocks_of id)) by (apply in_map; apply filter_In; split; [exact Hb|apply in_groupb_spec; exact HG]).
  destruct (block_ends id (to_hf b) c Hid I) as (r & [R1 R2 R3 R4 _ _] & [G1 G2] & _ & _ & B1 & B2 & B3 & B4).
  unfold sent_blocks in Hb. apply in_map_iff in Hb. destruct Hb as ([[t mu] r0] & <- & HI). cbn [fst snd] in *.
  destruct (place_split id Hid) as (_ & _ & _ & _ & Hk & _). destruct (sized_pair (L (lf_of g id)) (SZ _ Hk) (t, mu) r0 HI) as (Ht & _). cbn [fst] in Ht. destruct (type_size t Ht) as (T1 & T2 & _).
  cbn [to_hf hb_y hb_x hb_type b_y b_x b_type] in R1, R2, R3, R4. rewrite T1 in R3. rewrite T2 in R4.
  unfold ProofHFGroup.block_fits, cell_y, cell_x, sent_group. cbn [g_sy g_sx b_y b_x g_y g_x b_type]. fold g. destruct (zero_shifts f WS c) as [-> ->]. change (2 ^ Z.to_nat 0)%nat with 1%nat. rewrite !Nat.div_1_r.
  pose proof (place_range f id) as P. fold g in P, G1, G2. lia.
Qed.
Lemma job_separate id : (id < tile_count g 256)%nat -> ForallOrdPairs (separate (sent_group f hc order id (S id))) (sent_blocks f lg hc (lf_of g id) (L (lf_of g id))).
Proof.
  intros Hid. destruct (place_split id Hid) as (_ & _ & _ & _ & Hk & _). apply FOP_map. apply (FOP_impl (fun a b => SpecHF.disjoint (snd a) (snd b))).
  - intros [ba ra] [bb rb] Ha Hb D. cbn [snd] in D. pose proof (in_combine_r _ _ _ _ Ha) as Ra. pose proof (in_combine_r _ _ _ _ Hb) as Rb.
    pose proof (packing_in _ _ _ _ _ (SP _ Hk) Ra) as Ia. pose proof (packing_in _ _ _ _ _ (SP _ Hk) Rb) as Ib. unfold SpecHF.inside in Ia, Ib.
    destruct (sized_pair (L (lf_of g id)) (SZ _ Hk) _ _ Ha) as (_ & Sa). destruct (sized_pair (L (lf_of g id)) (SZ _ Hk) _ _ Hb) as (_ & Sb).
    assert (Sa1 : r_h ra = fst (cells (fst ba))) by now rewrite <- Sa. assert (Sa2 : r_w ra = snd (cells (fst ba))) by now rewrite <- Sa.
    assert (Sb1 : r_h rb = fst (cells (fst bb))) by now rewrite <- Sb. assert (Sb2 : r_w rb = snd (cells (fst bb))) by now rewrite <- Sb.
    intros [G1 G2] [G3 G4] c Hc _ _ y x CA. unfold covers_cell, cell_y, cell_x, sent_group in *. cbn [g_sy g_sx b_y b_x g_y g_x b_type fst snd] in *. fold g in G1, G2, G3, G4, CA |- *.
    destruct (zero_shifts f WS c) as [E1 E2]. rewrite E1, E2 in *. change (2 ^ Z.to_nat 0)%nat with 1%nat in *. rewrite !Nat.div_1_r in *. rewrite <- Sa1, <- Sa2 in CA. rewrite <- Sb1, <- Sb2. unfold SpecHF.disjoint in D.
    pose proof (place_range f id) as P. fold g in P. unfold SpecHF.covers in D.
    match goal with |- ?t = false => destruct t eqn:CB; [|reflexivity] end. exfalso. rewrite !andb_true_iff, !Nat.leb_le, !Z.ltb_lt in CA, CB. specialize (D (Z.of_nat y + 32 * fst (place_in_lf g id)) (Z.of_nat x + 32 * snd (place_in_lf g id))).
    set (py := fst (place_in_lf g id)) in *. set (px := snd (place_in_lf g id)) in *. clearbody py px. clear - D CA CB G1 G2 G3 G4 Ia Ib P. destruct CA as [[A1 A2] [A3 A4]], CB as [[B1 B2] [B3 B4]].
    assert (N : forall a p, 0 <= a -> 0 <= p -> (Z.to_nat (32 * p) <= Z.to_nat a)%nat -> Z.of_nat (Z.to_nat a - Z.to_nat (32 * p)) = a - 32 * p) by (clear; lia).
    pose proof (N (r_y ra) py ltac:(lia) ltac:(lia) ltac:(lia)) as N1. pose proof (N (r_x ra) px ltac:(lia) ltac:(lia) ltac:(lia)) as N2. pose proof (N (r_y rb) py ltac:(lia) ltac:(lia) ltac:(lia)) as N3.
    pose proof (N (r_x rb) px ltac:(lia) ltac:(lia) ltac:(lia)) as N4. apply inj_le in A1, A3, B1, B3. rewrite N1 in A1, A2. rewrite N2 in A3, A4. rewrite N3 in B1, B2. rewrite N4 in B3, B4. clear - D A1 A2 A3 A4 B1 B2 B3 B4. apply D; lia.
  - apply (FOP_combine SpecHF.disjoint). apply (packing_disjoint _ _ _ _ (SP _ Hk)).
Qed.
Lemma job_blocks_ok id : (id < tile_count g 256)%nat -> groupBlocks (gj_select (job id)) (gj_mult (job id)) (gj_blocks (job id)) = Ok (blocks_of id).
Proof.
  intros Hid. destruct (place_split id Hid) as (_ & _ & _ & _ & Hk & _). destruct flat_sent as (hc0 & Hh0 & _). destruct (C83_nested_partial 1 false ltac:(lia) _ _ Hh0) as (e0 & _).
  destruct (blocks_given f lg hc 1 [] e0 order (lf_of g id) id (L (lf_of g id)) (S id) V (whole_shifts f V WS) Hk SH (SP _ Hk) (SZ _ Hk)) as (_ & BG).
  { intros b Hb HG c Hc _. exact (job_fits id b Hid Hb HG c Hc). }
  exact (groupBlocks_given _ _ _ _ _ BG).
Qed.
Lemma job_blocks_eq id : (id < tile_count g 256)%nat -> job_blocks (job id) = blocks_of id.
Proof. intros Hid. unfold job_blocks. rewrite (job_blocks_ok id Hid). reflexivity. Qed.
(* every cell of the group is in a block of it *)
Lemma cell_block id cy cx : (id < tile_count g 256)%nat -> 32 * fst (place_in_lf g id) <= cy < 32 * fst (place_in_lf g id) + 32 -> 32 * snd (place_in_lf g id) <= cx < 32 * snd (place_in_lf g id) + 32 ->
  cy < lf_h f lg (lf_of g id) -> cx < lf_w f lg (lf_of g id) -> exists b r, In b (blocks_of id) /\ is_rect b r /\ in_rect_group f id r /\ SpecHF.covers r cy cx.
Proof.
  intros Hid Hy Hx Hh Hw. destruct (place_split id Hid) as (_ & _ & _ & _ & Hk & _). pose proof (place_range f id) as P. fold g in P.
  destruct (tl_full _ _ _ (ly_tiling _ _ _ _ LS _ Hk) cy cx ltac:(lia) ltac:(lia)) as (r & Hr & C). destruct (tl_group _ _ _ (ly_tiling _ _ _ _ LS _ Hk) r Hr) as [T1 T2].
  pose proof (packing_in _ _ _ _ _ (SP _ Hk) Hr) as I. unfold SpecHF.inside in I. unfold SpecHF.covers in C.
  assert (G : in_rect_group f id r). { unfold in_rect_group. fold g. set (py := fst (place_in_lf g id)) in *. set (px := snd (place_in_lf g id)) in *. clearbody py px. clear - Hy Hx C T1 T2 I. split; lia. }
  destruct (rect_block f lg hc order (L (lf_of g id)) (lf_of g id) id (S id) (SP _ Hk) (SZ _ Hk) r Hr G) as (b & Hb & IR). exists b, r. split; [exact Hb|]. split; [exact IR|]. split; assumption.
Qed.
Lemma job_ready id : (id < tile_count g 256)%nat -> group_ready (gj_params (job id)) (group_h f id) (group_w f id) (gj_quantized (job id)) (gj_dequant (job id)) (gj_bake (job id)) (blocks_of id).
Proof.
  intros Hid. destruct (place_split id Hid) as (P1 & P2 & E1 & E2 & Hk & Z1 & Z2). pose proof (place_range f id) as P. fold g in P. pose proof (lf_positive _ Hk) as [LP1 LP2].
  set (p := gj_params (job id)). assert (HS : forall c, sY p c = 0 /\ sX p c = 0) by (intros c; exact (job_shifts id c)).
  assert (GY : hp_groupY p = 32 * fst (place_in_lf g id)) by reflexivity. assert (GX : hp_groupX p = 32 * snd (place_in_lf g id)) by reflexivity.
  assert (EQ : forall c c', group_h f id c = group_h f id c' /\ group_w f id c = group_w f id c').
  { intros c c'. destruct (group_size id c Hid) as [A1 A2]. destruct (group_size id c' Hid) as [A3 A4]. lia. }
  assert (DJ : ForallOrdPairs (disjoint_px p) (blocks_of id)).
  { apply (FOP_impl (fun a b => exists r r', is_rect a r /\ is_rect b r' /\ SpecHF.disjoint r r' /\ SpecHF.before (r_y r) (r_x r) (r_y r') (r_x r'))).
    - intros a b Ha Hb (r & r' & IA & IB & D & _) y x CA. destruct (block_ends id a 0%nat Hid Ha) as (ra & RA & [G1 G2] & _). destruct (block_ends id b 0%nat Hid Hb) as (rb & RB & [G3 G4] & _). fold g in G1, G2, G3, G4.
      destruct (covers_px p 0 0 b y x) eqn:CB; [|reflexivity]. exfalso. pose proof IA as [Y1 X1 _ _ _ _]. pose proof IB as [Y2 X2 _ _ _ _]. pose proof RA as [Y3 X3 _ _ _ _]. pose proof RB as [Y4 X4 _ _ _ _].
      apply (rect_covers p a r y x IA) in CA; [|rewrite GY; lia|rewrite GX; lia]. apply (rect_covers p b r' y x IB) in CB; [|rewrite GY; lia|rewrite GX; lia]. exact (D _ _ CA CB).
    - exact (blocks_ordered f lg hc order (L (lf_of g id)) (lf_of g id) id (S id) (SP _ Hk) (SZ _ Hk)). }
  assert (FT : forall b c, In b (blocks_of id) -> (0 <= hb_y b - hp_groupY p /\ 0 <= hb_x b - hp_groupX p) /\ (b_top p 0 b + b_h b <= group_h f id c /\ b_left p 0 b + b_w b <= group_w f id c)%nat).
  { intros b c Hb. destruct (block_ends id b c Hid Hb) as (r & IR & [G1 G2] & _ & _ & B1 & B2 & _). fold g in G1, G2. destruct (ProofVarLayout.rect_size b r IR) as [S1 S2]. destruct (rect_top p b r IR) as [T1 T2]; [rewrite GY; lia|rewrite GX; lia|].
    destruct IR as [Y X _ _ _ _]. rewrite GY, GX in *. rewrite Y, X. lia. }
  constructor.
  - split; [reflexivity|]. split; [reflexivity|]. split; [intros c; change (0 <= sY p c /\ 0 <= sX p c); destruct (HS c) as [-> ->]; lia|]. split; [exact (ly_bias _ _ _ _ LS)|].
    intros b Hb. destruct (job_rect id b Hid Hb) as ([t mu] & r & HI & -> & IR & _). pose proof IR as [_ _ RH RW RP _]. split; [split; [lia|split; [lia|]]|]; apply (ly_tables _ _ _ _ LS _ _ Hk (in_combine_l _ _ _ _ HI)).
  - reflexivity.
  - reflexivity.
  - reflexivity.
  - intros c Hc. destruct (HS c) as [-> ->]. split; [|split].
    + split; [intros b Hb; destruct (FT b c Hb) as [A B]; split; [exact A|intros _; exact B]|]. apply (FOP_impl (disjoint_px p)); [|exact DJ]. intros a b _ _ D _ _. exact D.
    + assert (c = 0 \/ c = 1 \/ c = 2)%nat as [->|[->| ->]] by lia; apply rect_mat.
    + assert (c = 0 \/ c = 1 \/ c = 2)%nat as [->|[->| ->]] by lia; apply (rect_repeat _ _ 0%R).
  - exact (ly_scales _ _ _ _ LS).
  - intros b Hb. destruct (job_rect id b Hid Hb) as ([t mu] & r & HI & -> & _). pose proof (ly_mult _ _ _ _ LS _ _ Hk (in_combine_l _ _ _ _ HI)) as M. cbn [snd] in M. unfold to_block, to_hf. cbn [hb_mult b_mult fst snd]. lia.
  - intros b Hb. destruct (job_rect id b Hid Hb) as (bt & r & HI & _ & IR & _ & I1 & I2 & I3 & I4 & _). destruct (ProofVarLayout.rect_size b r IR) as [S1 S2]. pose proof IR as [Y X _ _ _ RT]. split; [exact RT|]. rewrite Y, X. split; [exact I1|]. split; [exact I3|].
    intros c Hc _. destruct (HS c) as [-> ->]. change (2 ^ 0) with 1. rewrite !Z.div_1_r.
    assert (EI : nth c (ModelVarDCT.bi_lf (gj_bake (job id))) [] = part (ls_image (L (lf_of g id))) c) by (assert (c = 0 \/ c = 1 \/ c = 2)%nat as [->|[->| ->]] by lia; reflexivity). rewrite EI.
    apply (inside_rrect _ _ _ _ _ _ _ (ly_image _ _ _ _ LS _ c Hk Hc)); lia.
  - split; apply (inside_rrect 32 32); try lia; apply (rect_repeat 32 32 0%R).
  - intros _. exists (Z.to_nat ((lf_h f lg (lf_of g id) + 7) / 8)), (Z.to_nat ((lf_w f lg (lf_of g id) + 7) / 8)).
    destruct (ly_factors _ _ _ _ LS _ Hk) as [F1 F2]. split; [|split; [|split; [|split]]].
    + split; [reflexivity|]. split; [reflexivity|]. split; [exact HS|]. split; [reflexivity|]. split; [lia|]. split; [exact F1|]. split; [exact F2|].
      destruct (group_size id 0%nat Hid) as [S1 S2]. split; [|split; [lia|split; [lia|split; [rewrite GY; rewrite Z.mul_comm; apply Z.mod_mul; lia|split; [rewrite GX; rewrite Z.mul_comm; apply Z.mod_mul; lia|split; [|exact DJ]]]]]].
      * intros c Hc. destruct (EQ 0%nat c) as [-> ->]. assert (c = 0 \/ c = 1 \/ c = 2)%nat as [->|[->| ->]] by lia; apply (rect_repeat _ _ 0%R).
      * apply Forall_forall. intros b Hb. destruct (FT b 0%nat Hb) as [A B]. destruct (job_rect id b Hid Hb) as (bt & r & HI & _ & IR & _ & I1 & I2 & I3 & I4 & _). destruct (ProofVarLayout.rect_size b r IR) as [Sh Sw]. pose proof IR as [Y X H0 W0 RP _].
        split; [rewrite <- Y in I1; rewrite <- X in I3; lia|]. split; [apply B|]. split; [apply B|]. rewrite Y, X. clear - I1 I2 I3 I4 Sh Sw RP. lia.
    + intros c Hc. apply EQ.
    + apply (FOP_impl (fun a b => exists r r', is_rect a r /\ is_rect b r' /\ SpecHF.disjoint r r' /\ SpecHF.before (r_y r) (r_x r) (r_y r') (r_x r'))).
      * intros a b _ _ (r & r' & [Y X _ _ _ _] & [Y' X' _ _ _ _] & _ & B). rewrite Y, X, Y', X'. exact B.
      * exact (blocks_ordered f lg hc order (L (lf_of g id)) (lf_of g id) id (S id) (SP _ Hk) (SZ _ Hk)).
    + apply Forall_forall. intros b Hb. destruct (job_rect id b Hid Hb) as (bt & r & HI & _ & IR & _ & I1 & I2 & I3 & I4 & _). destruct (ProofVarLayout.rect_size b r IR) as [Sh Sw]. destruct (tl_tile _ _ _ (ly_tiling _ _ _ _ LS _ Hk) r (in_combine_r _ _ _ _ HI)) as [T|T];
        pose proof IR as [Y X _ _ _ _]; unfold within_tile; rewrite Y, X; clear - T I1 I3 Sh Sw; [left|right]; lia.
    + intros b y x Hb Hy Hx. destruct (job_rect id b Hid Hb) as (bt & r & HI & _ & IR & [G1 G2] & I1 & I2 & I3 & I4 & I5 & I6). fold g in G1, G2. destruct (ProofVarLayout.rect_size b r IR) as [Sh Sw]. pose proof IR as [Y X _ _ _ _].
      set (ty := tile_y b y). set (tx := tile_x b x). assert (Ty : Z.of_nat ty = (8 * r_y r + Z.of_nat y) / 64) by (unfold ty, tile_y; rewrite Y; clear - I1; lia). assert (Tx : Z.of_nat tx = (8 * r_x r + Z.of_nat x) / 64) by (unfold tx, tile_x; rewrite X; clear - I3; lia).
      destruct (cell_block id (8 * Z.of_nat ty) (8 * Z.of_nat tx) Hid) as (a & ra & Ha & IA & _ & CV).
      * rewrite Ty. clear - G1 I5 Sh Hy. lia.
      * rewrite Tx. clear - G2 I6 Sw Hx. lia.
      * rewrite Ty. clear - I1 I2 Sh Hy. lia.
      * rewrite Tx. clear - I3 I4 Sw Hx. lia.
      * exists a. split; [exact Ha|]. destruct (ProofVarLayout.rect_size a ra IA) as [Ah Aw]. destruct IA as [Ya Xa _ _ RP _]. unfold in_lf_block, in_block. rewrite Ya, Xa. unfold SpecHF.covers in CV. clearbody ty tx. clear - CV Ah Aw RP. rewrite !andb_true_iff, !Nat.leb_le, !Nat.ltb_lt. lia.
Qed.
(* the samples of the block with rectangle r of LF group k *)
Definition block_samples (F : nat -> nat -> nat -> R) (k : nat) (r : Rect) (c y x : nat) : R :=
  F c (Z.to_nat (8 * (256 * fst (tile_place g 2048 k) + r_y r)) + y)%nat (Z.to_nat (8 * (256 * snd (tile_place g 2048 k) + r_x r)) + x)%nat.
(* the coefficients of each block are the transforms of the samples *)
Definition samples_meant (F : nat -> nat -> nat -> R) : Prop := forall id bt r c y x, (id < tile_count g 256)%nat -> let k := lf_of g id in In (bt, r) (combine (ls_blocks (L k)) (ls_rects (L k))) -> in_rect_group f id r ->
  (c < 3)%nat -> let b := to_block f lg hc (L k) k (bt, r) in (y < b_h b)%nat -> (x < b_w b)%nat ->
  final_of (gj_params (job id)) (gj_quantized (job id)) (gj_bake (job id)) c b y x = encode (pixel AFV_BASIS) (kind_of (hb_type b)) (block_samples F k r c) y x.
Definition q_of (id : nat) : HFParams := in_frame (gj_params (job id)) (gj_location (job id)).
Lemma frame_top id b r : (id < tile_count g 256)%nat -> is_rect b r -> in_rect_group f id r -> let K := tile_place g 2048 (lf_of g id) in
  hp_groupY (q_of id) = - (256 * fst K) /\ hp_groupX (q_of id) = - (256 * snd K) /\ 0 <= fst K /\ 0 <= snd K /\
  Z.of_nat (b_top (q_of id) 0 b) = 8 * (256 * fst K + r_y r) /\ Z.of_nat (b_left (q_of id) 0 b) = 8 * (256 * snd K + r_x r).
Proof.
  intros Hid IR [G1 G2] K. destruct (geo_place g id V Hid) as (E & _ & P1 & P2). destruct (place_split id Hid) as (_ & _ & E1 & E2 & _). pose proof (place_range f id) as P. fold g in P, G1, G2.
  assert (GY : hp_groupY (q_of id) = 32 * fst (place_in_lf g id) - 32 * fst (tile_place g 256 id)) by reflexivity. assert (GX : hp_groupX (q_of id) = 32 * snd (place_in_lf g id) - 32 * snd (tile_place g 256 id)) by reflexivity.
  assert (K1 : fst K = fst (tile_place g 256 id) / 8) by (unfold K; rewrite E; reflexivity). assert (K2 : snd K = snd (tile_place g 256 id) / 8) by (unfold K; rewrite E; reflexivity).
  clearbody K. rewrite E1 in *. rewrite E2 in *. set (ty := fst (tile_place g 256 id)) in *. set (tx := snd (tile_place g 256 id)) in *. clearbody ty tx.
  assert (Y : hp_groupY (q_of id) = - (256 * fst K)) by (rewrite GY, K1; clear; lia). assert (X : hp_groupX (q_of id) = - (256 * snd K)) by (rewrite GX, K2; clear; lia).
  assert (N : 0 <= fst K /\ 0 <= snd K) by (rewrite K1, K2; clear - P1 P2; lia).
  destruct (rect_top (q_of id) b r IR) as [T1 T2]; [rewrite Y; destruct IR; lia|rewrite X; destruct IR; lia|]. rewrite Y in T1. rewrite X in T2. repeat (split; [lia|]). lia.
Qed.
Lemma frame_covers id b r y x : (id < tile_count g 256)%nat -> is_rect b r -> in_rect_group f id r -> let K := tile_place g 2048 (lf_of g id) in
  covers_px (q_of id) 0 0 b y x = true <-> SpecHF.covers r (Z.of_nat y / 8 - 256 * fst K) (Z.of_nat x / 8 - 256 * snd K).
Proof.
  intros Hid IR IG K. destruct (frame_top id b r Hid IR IG) as (Y & X & N1 & N2 & _). fold K in Y, X, N1, N2. pose proof IR as [_ _ _ _ RP _].
  rewrite (rect_covers (q_of id) b r y x IR) by (try rewrite Y; try rewrite X; lia). rewrite Y, X, !Z.add_opp_r. reflexivity.
Qed.
Lemma job_sent_ok F id : samples_meant F -> (id < tile_count g 256)%nat -> job_sent (frame_rows f) (frame_cols f) F (job id).
Proof.
  intros SM Hid. unfold job_sent. rewrite (job_blocks_eq id Hid). split; [exact (job_blocks_ok id Hid)|]. pose proof (job_ready id Hid) as RD. destruct (place_split id Hid) as (P1 & P2 & E1 & E2 & Hk & Z1 & Z2).
  destruct (geo_place g id V Hid) as (EK & _). constructor.
  - exists (group_h f id), (group_w f id). exact RD.
  - intros c. destruct (job_shifts id c) as [-> ->]. lia.
  - change (0 <= fst (tile_place g 256 id) /\ 0 <= snd (tile_place g 256 id)). lia.
  - intros c Hc. destruct (job_shifts id c) as [-> ->]. fold (q_of id). split.
    + intros b Hb. destruct (job_rect id b Hid Hb) as (bt & r & HI & _ & IR & IG & I1 & I2 & I3 & I4 & _). destruct (frame_top id b r Hid IR IG) as (Y & X & N1 & N2 & T1 & T2). destruct (ProofVarLayout.rect_size b r IR) as [Sh Sw].
      rewrite Y, X. rewrite EK in *. cbn [fst snd] in *. destruct (frame_size c) as [F1 F2]. pose proof IR as [-> -> _ _ _ _]. split; [lia|]. intros _. lia.
    + destruct (gr_shapes _ _ _ _ _ _ _ RD c Hc) as ((_ & D) & _). destruct (job_shifts id c) as [E3 E4]. rewrite E3, E4 in D.
      apply (FOP_impl (fun a b => exists r r', is_rect a r /\ is_rect b r' /\ SpecHF.disjoint r r' /\ SpecHF.before (r_y r) (r_x r) (r_y r') (r_x r'))).
      * intros a b Ha Hb (r & r' & IA & IB & DJ & _) _ _ y x CA. destruct (job_rect id a Hid Ha) as (_ & ra & _ & _ & RA & GA & _). destruct (job_rect id b Hid Hb) as (_ & rb & _ & _ & RB & GB & _).
        assert (GA' : in_rect_group f id r) by (destruct RA as [Y1 X1 _ _ _ _], IA as [Y2 X2 _ _ _ _]; unfold in_rect_group in *; rewrite <- Y2, <- X2, Y1, X1; exact GA).
        assert (GB' : in_rect_group f id r') by (destruct RB as [Y1 X1 _ _ _ _], IB as [Y2 X2 _ _ _ _]; unfold in_rect_group in *; rewrite <- Y2, <- X2, Y1, X1; exact GB).
        apply (frame_covers id a r y x Hid IA GA') in CA. destruct (covers_px (q_of id) 0 0 b y x) eqn:CB; [|reflexivity]. apply (frame_covers id b r' y x Hid IB GB') in CB. destruct (DJ _ _ CA CB).
      * exact (blocks_ordered f lg hc order (L (lf_of g id)) (lf_of g id) id (S id) (SP _ Hk) (SZ _ Hk)).
  - intros b Hb. destruct (job_rect id b Hid Hb) as (bt & r & HI & -> & _). exact (ly_kinds _ _ _ _ LS _ _ Hk (in_combine_l _ _ _ _ HI)).
  - intros c b y x Hc Hb _ Hy Hx. destruct (job_rect id b Hid Hb) as (bt & r & HI & -> & IR & IG & _). rewrite (SM id bt r c y x Hid HI IG Hc Hy Hx). f_equal.
    unfold block_samples, block_of. destruct (job_shifts id c) as [-> ->]. fold (q_of id). destruct (frame_top id _ r Hid IR IG) as (_ & _ & _ & _ & T1 & T2). rewrite <- T1, <- T2, !Nat2Z.id. reflexivity.
  - split; [|split; [|split]]; apply (rect_repeat 256 256 0%R).
Qed.
Lemma jobs_apart_ok : ForallOrdPairs jobs_apart (map job (seq 0 (tile_count g 256))).
Proof.
  apply FOP_map. apply FOP_seq. intros a b Hab Hb. assert (Ha : (a < tile_count g 256)%nat) by lia. assert (Hb' : (b < tile_count g 256)%nat) by lia. intros c ba bb y x Hc [Ia _] [Ib _] CA.
  rewrite (job_blocks_eq a Ha) in Ia. rewrite (job_blocks_eq b Hb') in Ib. unfold job_covers in *. fold (q_of a) in CA. fold (q_of b). destruct (job_shifts a c) as [E1 E2]. rewrite E1, E2 in CA. destruct (job_shifts b c) as [-> ->].
  destruct (covers_px (q_of b) 0 0 bb y x) eqn:CB; [|reflexivity]. exfalso. destruct (job_rect a ba Ha Ia) as (_ & ra & _ & _ & RA & GA & A1 & A2 & A3 & A4 & A5 & A6). destruct (job_rect b bb Hb' Ib) as (_ & rb & _ & _ & RB & GB & B1 & B2 & B3 & B4 & B5 & B6).
  apply (frame_covers a ba ra y x Ha RA GA) in CA. apply (frame_covers b bb rb y x Hb' RB GB) in CB. destruct GA as [GA1 GA2], GB as [GB1 GB2]. fold g in GA1, GA2, GB1, GB2. unfold SpecHF.covers in CA, CB.
  destruct (place_split a Ha) as (P1 & P2 & L1 & L2 & _). destruct (place_split b Hb') as (P3 & P4 & L3 & L4 & _). destruct (geo_place g a V Ha) as (Ka & _). destruct (geo_place g b V Hb') as (Kb & _). rewrite Ka in CA. rewrite Kb in CB. cbn [fst snd] in CA, CB.
  rewrite L1, L2 in *. rewrite L3, L4 in *.
  assert (T : tile_place g 256 a = tile_place g 256 b).
  { destruct (tile_place g 256 a) as [ya xa], (tile_place g 256 b) as [yb xb]. cbn [fst snd] in *. f_equal; [clear - CA CB GA1 GB1 A5 B5|clear - CA CB GA2 GB2 A6 B6]; lia. }
  apply tile_inj in T; lia.
Qed.
Lemma jobs_cover c y x : (y < frame_rows f c)%nat -> (x < frame_cols f c)%nat -> exists j b, In j (map job (seq 0 (tile_count g 256))) /\ job_has j c b /\ job_covers j c b y x = true.
Proof.
  intros Hy Hx. destruct (frame_size c) as [F1 F2]. destruct (frame_unit g V) as ((U1 & U2) & D & A). destruct (tile_exists g (Z.of_nat y / 256) (Z.of_nat x / 256)) as (id & Hid & T); [split; [lia|apply D; lia]|split; [lia|apply A; lia]|].
  destruct (place_split id Hid) as (_ & _ & E1 & E2 & _ & Z1 & Z2). destruct (geo_place g id V Hid) as (EK & _). rewrite T in *. cbn [fst snd] in *.
  destruct (cell_block id (Z.of_nat y / 8 - 256 * (Z.of_nat y / 256 / 8)) (Z.of_nat x / 8 - 256 * (Z.of_nat x / 256 / 8)) Hid) as (b & r & Hb & IR & IG & CV).
  - rewrite E1. clear. lia.
  - rewrite E2. clear. lia.
  - clear - Z1 U1 Hy F1. lia.
  - clear - Z2 U2 Hx F2. lia.
  - exists (job id), b. split; [apply in_map; apply in_seq; lia|]. unfold job_has, job_covers. rewrite (job_blocks_eq id Hid). fold (q_of id). destruct (job_shifts id c) as [-> ->]. split; [split; [exact Hb|split; apply Z.mod_1_r]|].
    apply (frame_covers id b r y x Hid IR IG). rewrite EK. cbn [fst snd]. exact CV.
Qed.
End Jobs.

Lemma frame_layout f raw_code weights natural lfBuffer lg hc tree ps np w order h L S c0 cl ch cg : frame_sent f raw_code weights natural lfBuffer lg hc tree ps np w order h L S c0 cl ch cg ->
  var_geo (vf_geo f) /\ hb_shape hc /\ (forall k, (k < tile_count (vf_geo f) 2048)%nat -> standard_packing (lf_h f lg k) (lf_w f lg k) [] (ls_rects (L k))) /\
  forall k, (k < tile_count (vf_geo f) 2048)%nat -> Forall2 sized (ls_blocks (L k)) (ls_rects (L k)).
Proof.
  intros FS. destruct (fs_global _ _ _ _ _ _ _ _ _ _ _ _ _ _ _ _ _ _ _ FS) as (c1 & c2 & G & _). destruct (context_of_global _ _ _ _ G (fs_ctx _ _ _ _ _ _ _ _ _ _ _ _ _ _ _ _ _ _ _ FS)) as (SH & _).
  split; [exact (fs_geo _ _ _ _ _ _ _ _ _ _ _ _ _ _ _ _ _ _ _ FS)|]. split; [exact SH|]. split; intros k Hk; destruct (fs_lf _ _ _ _ _ _ _ _ _ _ _ _ _ _ _ _ _ _ _ FS k Hk) as [_ _ A B _ _ _]; assumption.
Qed.
(* The blocks of tilings fit into their groups and do not overlap: of what C106
   asks of a group only the values and bits are left. *)
Theorem C107_groups : forall f lg hc w np order h L id S c, var_geo (vf_geo f) -> layout_sent f lg w L ->
  (forall k, (k < tile_count (vf_geo f) 2048)%nat -> standard_packing (lf_h f lg k) (lf_w f lg k) [] (ls_rects (L k)) /\ Forall2 sized (ls_blocks (L k)) (ls_rects (L k))) ->
  (id < tile_count (vf_geo f) 256)%nat -> let G := sent_group f hc order id S in let bs := sent_blocks f lg hc (lf_of (vf_geo f) id) (L (lf_of (vf_geo f) id)) in
  0 <= gs_preset S < np -> (forall c y x, - 2 ^ 31 <= gs_coef S c y x * 2 ^ vf_shift f < 2 ^ 31) ->
  (forall c y x, (forall b, In b bs -> SpecHFGroup.in_group G b -> in_channel G c b -> ~ In (y, x) (hf_positions G c b)) -> gs_coef S c y x = 0) ->
  (exists l sc x, group_sends G (gs_coef S) bs (fun _ _ _ => 0) l /\ Z.of_nat (length l) < 2 ^ 31 /\ symbols h 0 sst0 l sc x /\ (ss_x x = None \/ ss_x x = Some 1245184) /\
    c = zbits (Z.to_nat (Z.log2_up np)) (gs_preset S) ++ sc) ->
  group_ok f lg hc np order h (L (lf_of (vf_geo f) id)) id S c.
Proof.
  intros f lg hc w np order h L id S c V LS PK Hid G bs H1 H2 H3 H4.
  constructor; try assumption.
  - intros b Hb HG c' Hc _. exact (job_fits f lg hc w (fun _ _ => 0%nat) order L (fun _ => S) V LS (fun k Hk => proj1 (PK k Hk)) (fun k Hk => proj2 (PK k Hk)) id b Hid Hb HG c' Hc).
  - exact (job_separate f lg hc w order L (fun _ => S) V LS (fun k Hk => proj1 (PK k Hk)) (fun k Hk => proj2 (PK k Hk)) id Hid).
Qed.
Print Assumptions C107_groups.
(* So a frame whose LF groups are tiled is decoded to the samples F that its
   coefficients stand for; nothing is asked of the order, the borders or the
   overlap of blocks and groups. *)
Theorem C107_frame_partial : forall f raw raw_code weights sort natural call lfBuffer lg hc tree ps np w order h L S c0 cl ch cg rs F,
  frame_sent f raw_code weights natural lfBuffer lg hc tree ps np w order h L S c0 cl ch cg ->
  (forall i, 0 <= i < 17 -> exact (raw i) (raw_code i)) -> sorts_positions sort -> (forall o, 0 <= o <= 12 -> natural_order o (natural o)) ->
  pending rs (frame_parts f c0 cl ch cg) ->
  layout_sent f lg w L -> (forall k b, (k < tile_count (vf_geo f) 2048)%nat -> In b (ls_blocks (L k)) -> exact_kind (kind_of (nth (Z.to_nat (fst b)) allDCT (hb_type one_block)))) ->
  samples_meant f lg hc w call order L S F ->
  fst (decodeVarFrame f raw weights sort call lfBuffer rs) = Ok (map (fun c => rmat (frame_rows f c) (frame_cols f c) (F c)) [0; 1; 2]%nat).
Proof.
  intros f raw raw_code weights sort natural call lfBuffer lg hc tree ps np w order h L S c0 cl ch cg rs F FS HR Hs Hn HP LS HK SM.
  destruct (frame_layout _ _ _ _ _ _ _ _ _ _ _ _ _ _ _ _ _ _ _ FS) as (V & SH & PK & SZ).
  apply (C106_frame_partial f raw raw_code weights sort natural call lfBuffer lg hc tree ps np w order h L S c0 cl ch cg rs F FS HR Hs Hn HP).
  - apply Forall_map. apply Forall_forall. intros id Hid. apply in_seq in Hid. apply (job_sent_ok f lg hc w call order L S V LS SH PK SZ F id SM). lia.
  - exact (jobs_apart_ok f lg hc w call order L S V LS SH PK SZ).
  - intros j b Hj Hb. apply in_map_iff in Hj. destruct Hj as (id & <- & Hid). apply in_seq in Hid. assert (Hid' : (id < tile_count (vf_geo f) 256)%nat) by lia. fold (job f lg hc w call order L S id) in Hb.
    rewrite (job_blocks_eq f lg hc w call order L S V LS SH PK SZ id Hid') in Hb. destruct (job_rect f lg hc w order L S V LS PK SZ id b Hid' Hb) as (bt & r & HI & -> & _).
    destruct (geo_place (vf_geo f) id V Hid') as (_ & Hk & _). exact (HK _ _ Hk (in_combine_l _ _ _ _ HI)).
  - intros c y x _ Hy Hx. exact (jobs_cover f lg hc w call order L S V LS SH PK SZ c y x Hy Hx).
Qed.
Print Assumptions C107_frame_partial.
(* With AFV blocks the samples are near those sent, everywhere in the frame. *)
Theorem C107_near_partial : forall f raw raw_code weights sort natural call lfBuffer lg hc tree ps np w order h L S c0 cl ch cg rs F M,
  frame_sent f raw_code weights natural lfBuffer lg hc tree ps np w order h L S c0 cl ch cg ->
  (forall i, 0 <= i < 17 -> exact (raw i) (raw_code i)) -> sorts_positions sort -> (forall o, 0 <= o <= 12 -> natural_order o (natural o)) ->
  pending rs (frame_parts f c0 cl ch cg) ->
  layout_sent f lg w L -> samples_meant f lg hc w call order L S F -> (forall c y x, Rabs (F c y x) <= M)%R ->
  exists fbs, fst (decodeVarFrame f raw weights sort call lfBuffer rs) = Ok fbs /\ length fbs = 3%nat /\ forall c, (c < 3)%nat -> rrect (frame_rows f c) (frame_cols f c) (nth c fbs []) /\
    forall y x, (y < frame_rows f c)%nat -> (x < frame_cols f c)%nat -> (Rabs (pixel (nth c fbs []) y x - F c y x) <= 16 * M / IZR (10 ^ 14))%R.
Proof.
  intros f raw raw_code weights sort natural call lfBuffer lg hc tree ps np w order h L S c0 cl ch cg rs F M FS HR Hs Hn HP LS SM HM.
  destruct (frame_layout _ _ _ _ _ _ _ _ _ _ _ _ _ _ _ _ _ _ _ FS) as (V & SH & PK & SZ).
  destruct (C106_near_partial f raw raw_code weights sort natural call lfBuffer lg hc tree ps np w order h L S c0 cl ch cg rs F M FS HR Hs Hn HP) as (fbs & E & L3 & P).
  - apply Forall_map. apply Forall_forall. intros id Hid. apply in_seq in Hid. apply (job_sent_ok f lg hc w call order L S V LS SH PK SZ F id SM). lia.
  - exact (jobs_apart_ok f lg hc w call order L S V LS SH PK SZ).
  - apply Forall_forall. intros j _. unfold bounded. intros. apply HM.
  - exists fbs. split; [exact E|]. split; [exact L3|]. intros c Hc. destruct (P c Hc) as [RC A]. split; [exact RC|]. intros y x Hy Hx.
    destruct (jobs_cover f lg hc w call order L S V LS SH PK SZ c y x Hy Hx) as (j & b & Hj & JH & JC). unfold job_covers, covers_px, in_block in JC. rewrite !andb_true_iff, !Nat.leb_le, !Nat.ltb_lt in JC. destruct JC as (((C1 & C2) & C3) & C4).
    set (q := in_frame (gj_params j) (gj_location j)) in *. specialize (A j b (y - b_top q (sY (gj_params j) c) b)%nat (x - b_left q (sX (gj_params j) c) b)%nat Hj JH ltac:(lia) ltac:(lia)).
    unfold block_of in A. fold q in A. assert (M0 : (0 <= M)%R) by (pose proof (HM 0 0 0)%nat; pose proof (Rabs_pos (F 0 0 0)%nat); lra).
    assert (B : forall u v : R, u = v -> (Rabs (u - v) <= 16 * M / IZR (10 ^ 14))%R). { intros u v ->. rewrite Rminus_diag_eq, Rabs_R0 by reflexivity. apply Rmult_le_pos; [lra|]. left. apply Rinv_0_lt_compat. apply IZR_lt. reflexivity. }
    unfold near in A. replace (b_top q (sY (gj_params j) c) b + (y - b_top q (sY (gj_params j) c) b))%nat with y in A by lia. replace (b_left q (sX (gj_params j) c) b + (x - b_left q (sX (gj_params j) c) b))%nat with x in A by lia.
    destruct (kind_of (hb_type b)); try (apply B; exact A). destruct (_ && _)%bool; [exact A|apply B; exact A].
Qed.
Print Assumptions C107_near_partial.

(* The frame of C106 meets all of this. *)
Lemma ex_counts k : (k < tile_count (vf_geo ex_vf) 2048)%nat -> k = 0%nat.
Proof. change (tile_count (vf_geo ex_vf) 2048) with 1%nat. lia. Qed.
Lemma ex_layout_sent d : (forall i, (i < 3)%nat -> rrect 1 1 (part d i)) -> layout_sent ex_vf ex_lg ex_w (fun _ => ex_lf_sent d).
Proof.
  intros RD. constructor.
  - split; reflexivity.
  - intros k Hk. apply ex_counts in Hk as ->. change (lf_h ex_vf ex_lg 0) with 1. change (lf_w ex_vf ex_lg 0) with 1. constructor.
    + intros y x Hy Hx. exists (mkR 0 0 1 1). split; [left; reflexivity|]. unfold SpecHF.covers. cbn. lia.
    + intros r [<-|[]]. cbn. lia.
    + intros r [<-|[]]. left. cbn. lia.
  - intros k b _ [<-|[]]. discriminate.
  - intros k c Hk Hc. apply ex_counts in Hk as ->. exact (RD c Hc).
  - intros k Hk. apply ex_counts in Hk as ->. split; (split; [reflexivity|repeat constructor]).
  - intros k b _ [<-|[]]. split; [cbn; lia|]. split; [reflexivity|]. intros c Hc. exact (one_nth 8 8 0.5%R c [] Hc).
  - intros k b _ [<-|[]]. exact I.
  - reflexivity.
  - cbn. lia.
Qed.
Example C107_example : exists ord p1 d h c0 cl ch cg F, ex_coef p1 0 (fst p1) (snd p1) = -7 /\ layout_sent ex_vf ex_lg ex_w (fun _ => ex_lf_sent d) /\
  frame_sent ex_vf (fun _ _ _ => False) (fun _ => Ok ex_w) ord [] ex_lg ex_hc None (repeat PLibrary 17) 1 ex_w (fun o _ => ord o) h (fun _ => ex_lf_sent d) (fun _ => ex_gs p1) c0 cl ch cg /\
  forall rs call, pending rs (frame_parts ex_vf c0 cl ch cg) -> samples_meant ex_vf ex_lg ex_hc ex_w call (fun o _ => ord o) (fun _ => ex_lf_sent d) (fun _ => ex_gs p1) F /\
    fst (decodeVarFrame ex_vf (fun _ => rerr) (fun _ => Ok ex_w) isort call [] rs) = Ok (map (fun c => rmat 8 8 (F c)) [0; 1; 2]%nat).
Proof.
  destruct C106_example as (ord & p1 & d & h & c0 & cl & ch & cg & _ & E & RD & N1 & FS & _). set (order := fun (o : Z) (_ : nat) => ord o) in *.
  set (J := fun call => job ex_vf ex_lg ex_hc ex_w call order (fun _ => ex_lf_sent d) (fun _ => ex_gs p1) 0).
  set (b := to_block ex_vf ex_lg ex_hc (ex_lf_sent d) 0 (0, 4, mkR 0 0 1 1)).
  set (F := fun c => idct2 8 8 (final_of (gj_params (J (fun _ _ => 0%nat))) (gj_quantized (J (fun _ _ => 0%nat))) (gj_bake (J (fun _ _ => 0%nat))) c b)).
  exists ord, p1, d, h, c0, cl, ch, cg, F. pose proof (ex_layout_sent d RD) as LS. split; [exact E|]. split; [exact LS|]. split; [exact FS|]. intros rs call HP.
  assert (SM : samples_meant ex_vf ex_lg ex_hc ex_w call order (fun _ => ex_lf_sent d) (fun _ => ex_gs p1) F).
  { intros id bt r c y x Hid k HI _ Hc bb Hy Hx. change (tile_count (vf_geo ex_vf) 256) with 1%nat in Hid. assert (id = 0%nat) as -> by lia. change k with 0%nat in *. destruct HI as [HI|[]]. apply pair_equal_spec in HI as [<- <-].
    change bb with b in *. change (b_h b) with 8%nat in Hy. change (b_w b) with 8%nat in Hx. change (kind_of (hb_type b)) with (Dct 8 8). cbn [encode]. change (Z.to_nat 8) with 8%nat. symmetry.
    change (dct2 8 8 (fun y x => F c y x) y x = final_of (gj_params (J call)) (gj_quantized (J call)) (gj_bake (J call)) c b y x). unfold F. apply (dct2_idct2 8 8); lia. }
  split; [exact SM|]. apply (C107_frame_partial ex_vf (fun _ => rerr) (fun _ _ _ => False) (fun _ => Ok ex_w) isort ord call [] ex_lg ex_hc None (repeat PLibrary 17) 1 ex_w order h (fun _ => ex_lf_sent d) (fun _ => ex_gs p1) c0 cl ch cg rs F FS).
  - intros k Hk. split; [intros c v []|]. intros s dd p Hr. exact I.
  - exact isort_ok.
  - exact N1.
  - exact HP.
  - exact LS.
  - intros k bb _ [<-|[]]. exact I.
  - exact SM.
Qed.
