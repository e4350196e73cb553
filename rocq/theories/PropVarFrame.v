(* Properties of VarDCT frames: C106. *)
From Coq Require Import ZArith List Bool Arith Lia Reals ZifyBool ZifyNat.
From Verif Require Import GoBase GoLoop GoMatrix GoMatrixR Bits ModelBitReader ModelUtil ModelHeader ModelEntropy ModelMATree ModelModular ModelModStream ModelModDecode.
From Verif Require Import ModelGroups ModelSections ModelHF ModelHFCoeff ModelLF ModelLFCoeff ModelLFGroup ModelHFGlobal ModelHFPass ModelHFGroup ModelHFDequant ModelVarDCT ModelModFrame ModelVarFrame.
From Verif Require Import SpecBitReader SpecCodes SpecGrammar SpecEntropy SpecLZ SpecGroups SpecHF SpecHFGroup SpecStream SpecDist SpecSymbols SpecLF SpecModDecode SpecModFrame SpecLFCoeff SpecLFGroup SpecHFPass SpecHFGlobal SpecVarBlock SpecHFDequant SpecModular SpecVarFrame.
From Verif Require Import SpecColour SpecDCT SpecTypes SpecVarDCT ProofDCTMath ProofDCT ProofHFDequant ProofVarDCT ProofReads ProofCodes ProofGroups ProofModFrame ProofVarSections ProofHFCoeff ProofHFGroup ProofLF ProofLFMaps ProofVarFrame.
From Verif Require Import PropSymbols PropLF PropTreeCode PropModDecode PropHF PropHFGlobal PropHFPass PropHFGroup PropHFDequant PropLFGroup PropVarDCT PropVarGroup.
Import ListNotations.
Open Scope Z_scope.

Lemma reads_to_ahead {A} (m : RM A) c v : reads_ahead 15 m c v -> reads_to m c (fun u => u = v).
Proof. intros H s d p Hr Hb Hk. destruct (H s d p Hr Hb Hk) as (s' & E & R). exists v, s'. auto. Qed.
Lemma reads_to_bind {A B} (m : RM A) (k : A -> RM B) c1 c2 (P : A -> Prop) (Q : B -> Prop) : reads_to m c1 P -> (forall v, P v -> reads_to (k v) c2 Q) -> reads_to (rbind m k) (c1 ++ c2) Q.
Proof.
  intros H1 H2 s d p Hr Hb Hk. apply bits_at_app in Hb. destruct Hb as [B1 B2]. rewrite app_length in *.
  destruct (H1 s d p Hr B1 ltac:(lia)) as (v & s1 & E1 & P1 & R1). destruct (H2 v P1 s1 d _ R1 B2 ltac:(lia)) as (u & s2 & E2 & P2 & R2).
  exists u, s2. rewrite (rbind_ok _ _ _ _ _ E1). split; [exact E2|]. split; [exact P2|]. rewrite Nat.add_assoc. exact R2.
Qed.
Lemma reads_to_ret {A} (v : A) (P : A -> Prop) : P v -> reads_to (rret v) [] P.
Proof. intros H s d p Hr _ _. exists v, s. cbn [length]. rewrite Nat.add_0_r. auto. Qed.
Lemma reads_to_pure {A B} (m : RM A) v (k : A -> RM B) c (Q : B -> Prop) : (forall s, m s = (Ok v, s)) -> reads_to (k v) c Q -> reads_to (rbind m k) c Q.
Proof. intros H HQ s d p Hr Hb Hk. rewrite (rbind_ok _ _ _ _ _ (H s)). exact (HQ s d p Hr Hb Hk). Qed.
Lemma reads_to_weaken {A} (m : RM A) c (P Q : A -> Prop) : (forall v, P v -> Q v) -> reads_to m c P -> reads_to m c Q.
Proof. intros H HP s d p Hr Hb Hk. destruct (HP s d p Hr Hb Hk) as (v & s' & E & V & R). exists v, s'. auto. Qed.

(* ---- C106: VarDCT frames from sections to samples ---- *)
(* LF global information with the block contexts of the standard, their maps
   entropy coded or not, is read as sent, with the tree of the frame. *)
Theorem C106_global_partial : forall f lg tree c, Z.testbit (vf_flags f) 0 = false -> Z.testbit (vf_flags f) 1 = false -> Z.testbit (vf_flags f) 4 = false ->
  global_bits lg tree c -> (forall h, lg_hfBlockCtx lg = Some h -> thresholds_ok h) ->
  reads_to (newLFGlobalVar f) c (fun r => fst r = lg /\ frame_tree (snd r) tree).
Proof.
  intros f lg tree c F0 F1 F4 (c1 & c2 & Hlg & Ht & ->) HT. unfold newLFGlobalVar.
  eapply reads_to_bind; [apply reads_to_ahead; exact (reads15_lf_global _ F0 F1 F4 c1 lg (lf_global_standard _ _ _ _ Hlg HT))|]. intros v ->.
  rewrite <- (app_nil_r c2). apply (reads_to_bind _ _ _ _ (fun gd => frame_tree gd tree)).
  - destruct (lg_hasGlobalTree lg).
    + destruct Ht as (nodes & h & -> & T). destruct (C97_tree_partial nodes h c2) as (e & He & _ & Re); [apply T|apply T|apply T|].
      rewrite <- (app_nil_r c2). eapply reads_to_bind; [apply reads_to_ahead; exact Re|]. intros v ->. apply reads_to_ret. exists e, c2. auto.
    + destruct Ht as [-> ->]. apply reads_to_ret. exact I.
  - intros gd FT. eapply reads_to_pure; [intros s; reflexivity|]. eapply reads_to_pure; [intros s; reflexivity|]. apply reads_to_ret. split; [reflexivity|exact FT].
Qed.
Print Assumptions C106_global_partial.

(* What the LF groups hold *)
Definition sent_lf (f : VF) (lg : LFGlobal) (hc : HFBlockContext) (k : nat) (L : LFSent) : VarLF :=
  let p := lf_params f lg k in let m := mat (Z.to_nat (lp_height p)) (Z.to_nat (lp_width p)) in
  (((ls_image L, m (block_lf p hc (ls_q L))), []),
   ([ls_xfy L; ls_bfy L; [map fst (ls_blocks L); map snd (ls_blocks L)]; ls_sharp L], (map (fun r => (r_y r, r_x r)) (ls_rects L), (m (cell_map fst L), m (cell_map snd L))))).
Record lf_ok (f : VF) (lg : LFGlobal) (tree : option (list Node * header)) (lfBuffer : list (list (list R))) (k : nat) (L : LFSent) (c : list bool) : Prop := {
  lo_samples : forall i, (i < 3)%nat -> rect (chan_h (lf_params f lg k) i) (chan_w (lf_params f lg k) i) (ls_q L i);
  lo_image : lfCoefficients (lf_params f lg k) lfBuffer (ls_e L) (samples (ls_q L)) = Ok (ls_image L);
  lo_packing : standard_packing (lp_height (lf_params f lg k)) (lp_width (lf_params f lg k)) [] (ls_rects L);
  lo_sizes : Forall2 sized (ls_blocks L) (ls_rects L);
  lo_mult : Forall (fun b => - 2 ^ 31 <= snd b < 2 ^ 31 - 1) (ls_blocks L);
  lo_count : 1 <= Z.of_nat (length (ls_blocks L)) <= lp_height (lf_params f lg k) * lp_width (lf_params f lg k);
  lo_bits : lf_group_bits (vf_depth f) tree (Z.of_nat (tile_count (vf_geo f) 2048)) (Z.of_nat k) (lp_height (lf_params f lg k)) (lp_width (lf_params f lg k)) (part (vf_jy f)) (part (vf_jx f))
    (ls_e L) (ls_q L) [] (ls_xfy L) (ls_bfy L) (ls_blocks L) (ls_sharp L) c }.
Lemma covers_b_spec r y x : covers_b r y x = true <-> SpecHF.covers r (Z.of_nat y) (Z.of_nat x).
Proof. unfold covers_b, SpecHF.covers. lia. Qed.
Lemma sized_in blocks rs r : Forall2 sized blocks rs -> In r rs -> exists b, In (b, r) (combine blocks rs).
Proof. induction 1 as [|b r' bs rs' S F IH]; intros []; [subst; exists b; left; reflexivity|]. destruct (IH H) as (b' & Hb). exists b'. right. exact Hb. Qed.
Lemma maps_given h w L d m : 0 <= h -> 0 <= w -> Forall2 sized (ls_blocks L) (ls_rects L) -> cells_given h w (ls_blocks L) (ls_rects L) d m ->
  d = mat (Z.to_nat h) (Z.to_nat w) (cell_map fst L) /\ m = mat (Z.to_nat h) (Z.to_nat w) (cell_map snd L).
Proof.
  intros Hh Hw S (R1 & R2 & C).
  assert (K : forall y x, (y < Z.to_nat h)%nat -> (x < Z.to_nat w)%nat -> px d y x = cell_map fst L y x /\ px m y x = cell_map snd L y x).
  { intros y x Hy Hx. destruct (C (Z.of_nat y) (Z.of_nat x) ltac:(lia) ltac:(lia)) as [C1 C2]. rewrite !Nat2Z.id in C1, C2. unfold cell_map.
    destruct (find _ _) as [[b r]|] eqn:E.
    - apply find_some in E as [HI HC]. apply (C1 b r HI). apply covers_b_spec. exact HC.
    - apply C2. intros r HI HC. destruct (sized_in _ _ _ S HI) as (b & Hb). pose proof (find_none _ _ E _ Hb) as N. cbn [snd] in N. apply covers_b_spec in HC. congruence. }
  split; (apply (rect_ext (Z.to_nat h) (Z.to_nat w)); [assumption|apply rect_mat|]; intros y x Hy Hx; rewrite px_mat by assumption; apply K; assumption).
Qed.
Lemma lf_piece f lg hc gd tree lfBuffer k L c : var_geo (vf_geo f) -> shifts_ok (vf_geo f) (vf_jy f) (vf_jx f) -> 3 <= vf_depth f <= 24 -> 3 * Z.of_nat (tile_count (vf_geo f) 2048) < 2 ^ 31 ->
  frame_tree gd tree -> hb_shape hc -> (k < tile_count (vf_geo f) 2048)%nat -> lf_ok f lg tree lfBuffer k L c ->
  reads_to (NewLFGroup (mkLGI (lf_params f lg k) hc gd (vf_depth f) (g_dim (vf_geo f)) (Z.of_nat k) (Z.of_nat (tile_count (vf_geo f) 2048))) [] lfBuffer) c (fun v => v = sent_lf f lg hc k L).
Proof.
  intros V HS Hd Hn FT SH Hk [O1 O2 O3 O4 O5 O6 O7] s d p Hr Hb Hl.
  destruct (geo_cells f lg k V HS Hk) as (W & _). pose proof (vg_dim _ V) as D.
  destruct (C103_lf_group_partial (mkLGI (lf_params f lg k) hc gd (vf_depth f) (g_dim (vf_geo f)) (Z.of_nat k) (Z.of_nat (tile_count (vf_geo f) 2048))) tree (ls_e L) (ls_q L) (ls_image L) lfBuffer [] []
    (ls_xfy L) (ls_bfy L) (ls_blocks L) (ls_sharp L) (ls_rects L) c s d p) as (chs & dm & mm & s' & E & SW & CG & R'); try assumption.
  - constructor; cbn [lg_depth lg_dim lg_id lg_num lg_tree lg_p lg_hc]; try assumption; rewrite ?D; lia.
  - constructor.
  - cbn [lg_p lg_hc] in *. inversion SW. subst. destruct W as (W1 & W2 & _). destruct (maps_given (lp_height (lf_params f lg k)) (lp_width (lf_params f lg k)) L dm mm ltac:(lia) ltac:(lia) O4 CG) as [-> ->].
    eexists. exists s'. split; [exact E|]. split; [reflexivity|exact R'].
Qed.

(* The tables, the number of presets and the pass *)
Lemma pass_piece raw raw_code weights sort hc numG c1 c2 ps np w natural order h : 1 <= numG <= 2 ^ 30 ->
  (forall i, 0 <= i < 17 -> exact (raw i) (raw_code i)) -> hf_global_code true raw_code (fun ps => exists w, weights ps = Ok w) numG c1 (ps, np) -> (forall d m f, ~ In (PGiven 4 d m f) ps) -> weights ps = Ok w ->
  sorts_positions sort -> (forall o, 0 <= o <= 12 -> natural_order o (natural o)) -> 0 < hb_numClusters hc <= 16 -> 0 < np -> 495 * 16 * np < 2 ^ 29 ->
  pass_bits natural order (495 * hb_numClusters hc * np) h c2 ->
  reads_to (hfGlobalAndPass raw weights sort hc numG) (c1 ++ c2) (fun r => fst r = (w, np) /\
    (forall o k, 0 <= o <= 12 -> (k < 3)%nat -> obind (slice_get (fst (snd r)) o) (fun l => slice_get l (Z.of_nat k)) = Ok (order o k)) /\
    (forall o k, 0 <= o <= 12 -> (k < 3)%nat -> scan_order (fst (order_cells o)) (snd (order_cells o)) (order o k)) /\
    stream_of h (snd (snd r)) /\ proper_header h).
Proof.
  intros HG HR Hc N4 Hw Hs Hn Hcl Hnp Hmax Hp. unfold hfGlobalAndPass.
  assert (R1 : reads (readHFGlobal raw (fun ps => match weights ps with Ok _ => true | _ => false end) numG) c1 (ps, np)).
  { apply (C80_standard_partial raw raw_code _ (fun ps => exists w, weights ps = Ok w) numG c1 ps np HG HR); [|exact Hc|exact N4].
    intros l. destruct (weights l) as [w'| |]; split; try discriminate; [intros _; exists w'; reflexivity|reflexivity|intros (? & ?); discriminate|intros (? & ?); discriminate]. }
  eapply reads_to_bind; [apply reads_to_ahead; intros s d p Hr Hb _; exact (R1 s d p Hr Hb)|]. intros v ->. cbn [fst snd].
  eapply reads_to_pure; [intros s; unfold rlift; rewrite Hw; reflexivity|].
  rewrite <- (app_nil_r c2). apply (reads_to_bind _ _ _ _ (fun r => (forall o k, 0 <= o <= 12 -> (k < 3)%nat -> obind (slice_get (fst r) o) (fun l => slice_get l (Z.of_nat k)) = Ok (order o k)) /\
    (forall o k, 0 <= o <= 12 -> (k < 3)%nat -> scan_order (fst (order_cells o)) (snd (order_cells o)) (order o k)) /\ stream_of h (snd r) /\ proper_header h)).
  - intros s d p Hr Hb Hk. destruct (C102_pass_partial sort hc np natural order h c2 s d p Hs Hn Hcl Hnp Hmax Hp Hr Hb Hk) as (os & e & s' & E & A1 & A2 & A3 & _ & A4 & R').
    exists (os, e), s'. cbn [fst snd]. split; [exact E|]. split; [|exact R']. split; [exact A1|]. split; [exact A2|]. split; assumption.
  - intros r Hr. apply reads_to_ret. cbn [fst snd]. auto.
Qed.

(* What the groups hold *)
Definition sent_blocks (f : VF) (lg : LFGlobal) (hc : HFBlockContext) (k : nat) (L : LFSent) : list hblock :=
  map (fun br => let y := Z.to_nat (r_y (snd br)) in let x := Z.to_nat (r_x (snd br)) in HB (fst (fst br)) y x (snd (fst br) + 1) (block_lf (lf_params f lg k) hc (ls_q L) y x))
    (combine (ls_blocks L) (ls_rects L)).
Definition sent_group (f : VF) (hc : HFBlockContext) (order : Z -> nat -> list (Z * Z)) (id : nat) (S : GroupSent) : hgroup :=
  HG (Z.to_nat (32 * fst (place_in_lf (vf_geo f) id))) (Z.to_nat (32 * snd (place_in_lf (vf_geo f) id))) hc (495 * hb_numClusters hc * gs_preset S) order
    (fun c => Z.to_nat (part (vf_jy f) c)) (fun c => Z.to_nat (part (vf_jx f) c)).
Definition group_h (f : VF) (id c : nat) : nat := Z.to_nat (Z.shiftr (fst (tile_size (vf_geo f) 256 id)) (part (vf_jy f) c)).
Definition group_w (f : VF) (id c : nat) : nat := Z.to_nat (Z.shiftr (snd (tile_size (vf_geo f) 256 id)) (part (vf_jx f) c)).
Definition sent_job (f : VF) (lg : LFGlobal) (hc : HFBlockContext) (w : list (list (list (list R)))) (call : nat -> HFBlock -> nat) (order : Z -> nat -> list (Z * Z))
    (L : nat -> LFSent) (S : nat -> GroupSent) (id : nat) : GroupJob :=
  let k := lf_of (vf_geo f) id in let cc := lg_lfChanCorr lg in let p := lf_params f lg k in let cell v := mat (Z.to_nat (lp_height p)) (Z.to_nat (lp_width p)) (cell_map v (L k)) in
  {| gj_params := {| hp_globalScale := lg_globalScale lg; hp_xqmScale := vf_xqm f; hp_bqmScale := vf_bqm f; hp_shiftY := map (part (vf_jy f)) [0; 1; 2]%nat; hp_shiftX := map (part (vf_jx f)) [0; 1; 2]%nat;
       hp_groupY := 32 * fst (place_in_lf (vf_geo f) id); hp_groupX := 32 * snd (place_in_lf (vf_geo f) id); hp_quantBias := vf_bias f; hp_quantBiasNumerator := vf_biasNum f; hp_weights := w |};
     gj_call := call id; gj_location := tile_place (vf_geo f) 256 id; gj_select := cell fst; gj_mult := cell snd;
     gj_blocks := map (fun b => if in_groupb (sent_group f hc order id (S id)) b then Some (block_place b) else None) (sent_blocks f lg hc k (L k));
     gj_quantized := map (fun c => mat (group_h f id c) (group_w f id c) (fun y x => gs_coef (S id) c y x * 2 ^ vf_shift f)) [0; 1; 2]%nat;
     gj_dequant := map (fun c => repeat (repeat 0%R (group_w f id c)) (group_h f id c)) [0; 1; 2]%nat;
     gj_bake := mkBI (cc_colorFactor cc) (float_value (cc_baseCorrelationX cc)) (float_value (cc_baseCorrelationB cc)) (ls_xfy (L k)) (ls_bfy (L k)) (map (part (ls_image (L k))) [0; 1; 2]%nat)
       (repeat (repeat 0%R 32) 32) (repeat (repeat 0%R 32) 32);
     gj_scratch := let z := repeat (repeat 0%R 256) 256 in (z, z, z, z) |}.
Lemma sent_job_ok f lg hc w call order L S id : let k := lf_of (vf_geo f) id in
  jobOf f lg w call id (tile_size (vf_geo f) 256 id) (place_in_lf (vf_geo f) id) (tile_place (vf_geo f) 256 id) (sent_lf f lg hc k (L k))
    (map (fun b => if in_groupb (sent_group f hc order id (S id)) b then Some (block_place b) else None) (sent_blocks f lg hc k (L k)))
    (map (fun c => mat (group_h f id c) (group_w f id c) (fun y x => gs_coef (S id) c y x * 2 ^ vf_shift f)) [0; 1; 2]%nat) = sent_job f lg hc w call order L S id.
Proof.
  intros k. unfold jobOf, sent_job, sent_lf. fold k. destruct (ls_image (L k)) as [[d0 d1] d2]. unfold group_h, group_w. destruct (vf_jy f) as [[y0 y1] y2], (vf_jx f) as [[x0 x1] x2].
  rewrite !Z.shiftl_mul_pow2, !float_value_ok by lia. rewrite !(Z.mul_comm _ (2 ^ 5)). reflexivity.
Qed.
Record group_ok (f : VF) (lg : LFGlobal) (hc : HFBlockContext) (np : Z) (order : Z -> nat -> list (Z * Z)) (h : header) (L : LFSent) (id : nat) (S : GroupSent) (c : list bool) : Prop := {
  go_preset : 0 <= gs_preset S < np;
  go_range : forall c y x, - 2 ^ 31 <= gs_coef S c y x * 2 ^ vf_shift f < 2 ^ 31;
  go_fits : forall b, In b (sent_blocks f lg hc (lf_of (vf_geo f) id) L) -> SpecHFGroup.in_group (sent_group f hc order id S) b -> forall c, (c < 3)%nat -> in_channel (sent_group f hc order id S) c b ->
    ProofHFGroup.block_fits (sent_group f hc order id S) (group_h f id) (group_w f id) c b;
  go_apart : ForallOrdPairs (separate (sent_group f hc order id S)) (sent_blocks f lg hc (lf_of (vf_geo f) id) L);
  go_zero : forall c y x, (forall b, In b (sent_blocks f lg hc (lf_of (vf_geo f) id) L) -> SpecHFGroup.in_group (sent_group f hc order id S) b -> in_channel (sent_group f hc order id S) c b ->
    ~ In (y, x) (hf_positions (sent_group f hc order id S) c b)) -> gs_coef S c y x = 0;
  go_bits : exists l sc x, group_sends (sent_group f hc order id S) (gs_coef S) (sent_blocks f lg hc (lf_of (vf_geo f) id) L) (fun _ _ _ => 0) l /\ Z.of_nat (length l) < 2 ^ 31 /\
    symbols h 0 sst0 l sc x /\ (ss_x x = None \/ ss_x x = Some 1245184) /\ c = zbits (Z.to_nat (Z.log2_up np)) (gs_preset S) ++ sc }.

Lemma packing_inside h w placed rs : standard_packing h w placed rs -> Forall (SpecHF.inside h w) rs.
Proof. induction 1; constructor; assumption. Qed.
Lemma part_triple {A} (t : A * A * A) c : (c < 3)%nat -> slice_get (triple t) (Z.of_nat c) = Ok (part t c).
Proof. destruct t as [[a b] d]. intros H. do 3 (destruct c as [|c]; [reflexivity|]). lia. Qed.
Lemma sent_positions f lg hc k L : Forall2 sized (ls_blocks L) (ls_rects L) -> Forall (fun r => 0 <= r_y r /\ 0 <= r_x r) (ls_rects L) ->
  map (fun r => (r_y r, r_x r)) (ls_rects L) = map block_place (sent_blocks f lg hc k L).
Proof.
  unfold sent_blocks. intros S F. rewrite map_map. revert F. induction S as [|b r bs rs _ _ IH]; intros F; [reflexivity|]. inversion F as [|? ? [A B] F']; subst. cbn [map combine fst snd]. rewrite (IH F').
  unfold block_place. cbn [b_y b_x]. rewrite !Z2Nat.id by assumption. reflexivity.
Qed.
Lemma cells_positive t : 1 <= fst (cells t) /\ 1 <= snd (cells t).
Proof. unfold cells. repeat (match goal with |- context [match ?x with _ => _ end] => destruct x end; try (cbn; lia)). Qed.
Lemma block_lf_range p hc q y x : hb_shape hc -> 0 <= block_lf p hc q y x < hb_numLFContexts hc.
Proof.
  intros H. unfold block_lf. cbv zeta. match goal with |- 0 <= lf_context _ _ _ ?a ?b ?c < _ => destruct (C43_lf_index hc (fun i => if i =? 0 then a else if i =? 1 then b else c) H) as (i & E & B); rewrite (context_value hc a b c H) in E end.
  injection E as ->. exact B.
Qed.
Lemma blocks_given f lg hc np orders stream order k id L S : var_geo (vf_geo f) -> shifts_ok (vf_geo f) (vf_jy f) (vf_jx f) -> (k < tile_count (vf_geo f) 2048)%nat -> hb_shape hc ->
  let i := groupIn f hc np orders stream (tile_size (vf_geo f) 256 id) (place_in_lf (vf_geo f) id) (sent_lf f lg hc k L) in
  standard_packing (lp_height (lf_params f lg k)) (lp_width (lf_params f lg k)) [] (ls_rects L) -> Forall2 sized (ls_blocks L) (ls_rects L) ->
  (forall b, In b (sent_blocks f lg hc k L) -> SpecHFGroup.in_group (sent_group f hc order id S) b -> forall c, (c < 3)%nat -> in_channel (sent_group f hc order id S) c b ->
    ProofHFGroup.block_fits (sent_group f hc order id S) (group_h f id) (group_w f id) c b) ->
  gi_blocks i = map block_place (sent_blocks f lg hc k L) /\ Forall (block_given i (sent_group f hc order id S) (group_h f id) (group_w f id)) (sent_blocks f lg hc k L).
Proof.
  intros V HS Hk SH i SP SZ FT. destruct (geo_cells f lg k V HS Hk) as (W & B1 & B2). destruct W as (W1 & W2 & _).
  set (h := lp_height (lf_params f lg k)) in *. set (w := lp_width (lf_params f lg k)) in *.
  pose proof (packing_inside _ _ _ _ SP) as IN. rewrite Forall_forall in IN.
  destruct (places h w _ _ ltac:(lia) ltac:(lia) SP SZ) as (d & m & _ & CG). destruct (maps_given h w L d m ltac:(lia) ltac:(lia) SZ CG) as [-> ->]. destruct CG as (_ & _ & CG).
  split; [apply (sent_positions f lg hc k L SZ); apply Forall_forall; intros r Hr; specialize (IN r Hr); unfold SpecHF.inside in IN; lia|].
  apply Forall_forall. intros b Hb. pose proof Hb as Hb'. unfold sent_blocks in Hb. apply in_map_iff in Hb. destruct Hb as ([[t mu] r] & <- & HI). cbn [fst snd] in *.
  assert (Hr : In r (ls_rects L)) by exact (in_combine_r _ _ _ _ HI). specialize (IN r Hr). unfold SpecHF.inside in IN.
  assert (SR : sized (t, mu) r). { clear - SZ HI. induction SZ as [|b r' bs rs s _ IH]; [destruct HI|]. destruct HI as [E|HI]; [injection E as -> ->; exact s|exact (IH HI)]. }
  destruct SR as (St & Sc). cbn [fst] in *. pose proof (cells_positive t) as CP. rewrite <- Sc in CP. cbn [fst snd] in CP.
  assert (CV : SpecHF.covers r (r_y r) (r_x r)) by (unfold SpecHF.covers; lia).
  destruct (CG (r_y r) (r_x r) ltac:(lia) ltac:(lia)) as [C1 _]. destruct (C1 (t, mu) r HI CV) as [C2 C3]. cbn [fst snd] in C2, C3.
  unfold block_given. cbn [b_y b_x b_type b_mult b_lf g_ctx]. split; [lia|]. split; [lia|]. intros IG. split; [exact St|]. split; [apply block_lf_range; exact SH|].
  unfold i, groupIn, sent_lf. cbn [gi_select gi_mult gi_lfIndex]. fold h w. rewrite !Z2Nat.id by lia.
  split; [rewrite (get2_ok (Z.to_nat h) (Z.to_nat w)) by (try apply rect_mat; lia); f_equal; exact C2|]. split; [rewrite (get2_ok (Z.to_nat h) (Z.to_nat w)) by (try apply rect_mat; lia); f_equal; exact C3|].
  split; [rewrite (get2_ok (Z.to_nat h) (Z.to_nat w)) by (try apply rect_mat; lia); rewrite px_mat by lia; reflexivity|]. exact (FT _ Hb' IG).
Qed.
Lemma sent_inputs f lg hc np orders stream order k id (L : LFSent) (S : GroupSent) : shifts_ok (vf_geo f) (vf_jy f) (vf_jx f) -> 0 <= vf_shift f -> 495 * 16 * np < 2 ^ 29 ->
  hb_shape hc -> Forall (fun c => 0 <= c) (hb_clusterMap hc) ->
  (forall o k, 0 <= o <= 12 -> (k < 3)%nat -> obind (slice_get orders o) (fun l => slice_get l (Z.of_nat k)) = Ok (order o k)) ->
  (forall o k, 0 <= o <= 12 -> (k < 3)%nat -> scan_order (fst (order_cells o)) (snd (order_cells o)) (order o k)) ->
  0 <= gs_preset S < np -> (forall c y x, - 2 ^ 31 <= gs_coef S c y x * 2 ^ vf_shift f < 2 ^ 31) ->
  group_inputs (groupIn f hc np orders stream (tile_size (vf_geo f) 256 id) (place_in_lf (vf_geo f) id) (sent_lf f lg hc k L)) (sent_group f hc order id S) (gs_coef S).
Proof.
  intros HS Hsh Hmax SH HM HO HN P1 P2. assert (N16 : 0 <= hb_numClusters hc <= 16) by (destruct SH as (? & ? & ? & _ & _ & _ & _ & _ & ?); assumption).
  assert (PL : 0 <= fst (place_in_lf (vf_geo f) id) < 8 /\ 0 <= snd (place_in_lf (vf_geo f) id) < 8) by (unfold place_in_lf; cbn [fst snd]; split; apply Z.mod_pos_bound; lia).
  assert (SY : forall c, (c < 3)%nat -> 0 <= part (vf_jy f) c /\ 0 <= part (vf_jx f) c) by (intros c Hc; specialize (HS c Hc); lia).
  set (i := groupIn f hc np orders stream (tile_size (vf_geo f) 256 id) (place_in_lf (vf_geo f) id) (sent_lf f lg hc k L)).
  constructor; try assumption; try reflexivity.
  - cbn [g_offset sent_group]. clear - P1 Hmax N16. nia.
  - intros c Hc. destruct (SY c Hc). cbn [g_sy sent_group]. rewrite Z2Nat.id by assumption. exact (part_triple _ _ Hc).
  - intros c Hc. destruct (SY c Hc). cbn [g_sx sent_group]. rewrite Z2Nat.id by assumption. exact (part_triple _ _ Hc).
  - cbn [g_y sent_group]. change (gi_pos i) with (place_in_lf (vf_geo f) id). lia.
  - cbn [g_x sent_group]. change (gi_pos i) with (place_in_lf (vf_geo f) id). lia.
Qed.
Lemma group_piece f lg hc gd np w orders stream order h call num numG id (L : nat -> LFSent) (S : nat -> GroupSent) c tree lfBuffer cl :
  var_geo (vf_geo f) -> shifts_ok (vf_geo f) (vf_jy f) (vf_jx f) -> 0 <= vf_shift f -> (id < tile_count (vf_geo f) 256)%nat -> 0 < np -> 495 * 16 * np < 2 ^ 29 ->
  hb_shape hc -> Forall (fun c => 0 <= c) (hb_clusterMap hc) ->
  (forall o k, 0 <= o <= 12 -> (k < 3)%nat -> obind (slice_get orders o) (fun l => slice_get l (Z.of_nat k)) = Ok (order o k)) ->
  (forall o k, 0 <= o <= 12 -> (k < 3)%nat -> scan_order (fst (order_cells o)) (snd (order_cells o)) (order o k)) -> stream_of h stream -> proper_header h ->
  lf_ok f lg tree lfBuffer (lf_of (vf_geo f) id) (L (lf_of (vf_geo f) id)) cl -> group_ok f lg hc np order h (L (lf_of (vf_geo f) id)) id (S id) c ->
  reads_to (r <- NewHFCoefficients (groupIn f hc np orders stream (tile_size (vf_geo f) 256 id) (place_in_lf (vf_geo f) id) (sent_lf f lg hc (lf_of (vf_geo f) id) (L (lf_of (vf_geo f) id)))) ;;
      _ <- decodeModular gd (vf_depth f) (g_dim (vf_geo f)) (passStream num numG 0 (Z.of_nat id)) [] ;;
      rret (jobOf f lg w call id (tile_size (vf_geo f) 256 id) (place_in_lf (vf_geo f) id) (tile_place (vf_geo f) 256 id) (sent_lf f lg hc (lf_of (vf_geo f) id) (L (lf_of (vf_geo f) id))) (snd (fst r)) (snd r)))
    c (fun j => j = sent_job f lg hc w call order L S id).
Proof.
  intros V HS Hsh Hid Hnp Hmax SH HM HO HN Hst Hpr LO [P1 P2 P3 P4 P5 (l & sc & x & GS & Ll & Sy & Fx & ->)].
  destruct (geo_group _ id V Hid) as (_ & _ & _ & Hk & _ & Z1 & Z2 & T1 & T2). set (k := lf_of (vf_geo f) id) in *.
  set (i := groupIn f hc np orders stream (tile_size (vf_geo f) 256 id) (place_in_lf (vf_geo f) id) (sent_lf f lg hc k (L k))).
  set (g := sent_group f hc order id (S id)) in *.
  destruct (blocks_given f lg hc np orders stream order k id (L k) (S id) V HS Hk SH (lo_packing _ _ _ _ _ _ _ LO) (lo_sizes _ _ _ _ _ _ _ LO) P3) as (EB & GB). fold i g in EB, GB.
  assert (SY : forall c, (c < 3)%nat -> 0 <= part (vf_jy f) c /\ 0 <= part (vf_jx f) c) by (intros c Hc; specialize (HS c Hc); lia).
  assert (GI : group_inputs i g (gs_coef (S id))) by exact (sent_inputs f lg hc np orders stream order k id (L k) (S id) HS Hsh Hmax SH HM HO HN P1 P2).
  assert (HI : forall c, (c < 3)%nat -> height_in i g c = group_h f id c /\ width_in i g c = group_w f id c).
  { intros c Hc. destruct (SY c Hc). unfold height_in, width_in, group_h, group_w. cbn [g g_sy g_sx sent_group]. rewrite !Z2Nat.id by assumption. split; reflexivity. }
  assert (GB' : Forall (block_given i g (height_in i g) (width_in i g)) (sent_blocks f lg hc k (L k))).
  { eapply Forall_impl; [|exact GB]. intros b (A1 & A2 & A3). split; [exact A1|]. split; [exact A2|]. intros IG. destruct (A3 IG) as (B1 & B2 & B3 & B4 & B5 & B6). repeat (split; [assumption|]).
    intros c Hc IC. destruct (HI c Hc) as [E1 E2]. specialize (B6 c Hc IC). unfold ProofHFGroup.block_fits in *. rewrite E1, E2. exact B6. }
  intros s d p Hr Hb Hl.
  destruct (C101_group_partial i g (gs_coef (S id)) _ h (gs_preset (S id)) l sc x s d p GI P1 Hmax eq_refl EB GB' P4 P5 GS Ll Hst Hpr Sy Fx Hr Hb Hl) as (qs & s' & E & Lq & VQ & R').
  assert (Eq : qs = map (fun c => mat (group_h f id c) (group_w f id c) (fun y x => gs_coef (S id) c y x * 2 ^ vf_shift f)) [0; 1; 2]%nat).
  { assert (K : forall c, (c < 3)%nat -> nth c qs [] = mat (group_h f id c) (group_w f id c) (fun y x => gs_coef (S id) c y x * 2 ^ vf_shift f)).
    { intros c Hc. destruct (VQ c Hc) as [V1 V2]. destruct (HI c Hc) as [E1 E2]. rewrite E1, E2 in V1. apply (rect_ext (group_h f id c) (group_w f id c)); [exact V1|apply rect_mat|]. intros y z Hy Hz. rewrite px_mat by assumption. apply V2. }
    destruct qs as [|a [|b [|c [|]]]]; try discriminate. cbn [map]. f_equal; [apply (K 0%nat); lia|]. f_equal; [apply (K 1%nat); lia|]. f_equal. apply (K 2%nat). lia. }
  subst qs. eexists. exists s'. split; [erewrite rbind_ok by exact E; erewrite rbind_ok by reflexivity; reflexivity|]. split; [exact (sent_job_ok f lg hc w call order L S id)|exact R'].
Qed.

Lemma context_of_global u lg hc c : lf_global_code u map16 true c lg -> lg_hfBlockCtx lg = Some hc -> hb_shape hc /\ 0 < hb_numClusters hc <= 16 /\ Forall (fun c => 0 <= c) (hb_clusterMap hc).
Proof.
  intros (c1 & r1 & d & -> & _ & c2 & r2 & q & -> & _ & c3 & r3 & h & -> & Hh & c4 & r4 & k & -> & _ & c5 & r5 & t & -> & _ & -> & ->) HC.
  cbn [lg_hfBlockCtx] in HC. injection HC as ->. exact (context_shape _ _ _ Hh).
Qed.

(* A frame as an encoder writes it: LF global, one section per LF group, tables
   and the pass, one section per group *)
Record frame_sent (f : VF) (raw_code : Z -> code (list (list (list Z)))) (weights : list TableParams -> Outcome (list (list (list (list R))))) (natural : Z -> list (Z * Z))
    (lfBuffer : list (list (list R))) (lg : LFGlobal) (hc : HFBlockContext) (tree : option (list Node * header)) (ps : list TableParams) (np : Z) (w : list (list (list (list R))))
    (order : Z -> nat -> list (Z * Z)) (h : header) (L : nat -> LFSent) (S : nat -> GroupSent)
    (c0 : list bool) (cl : nat -> list bool) (ch : list bool) (cg : nat -> list bool) : Prop := {
  fs_geo : var_geo (vf_geo f); fs_shifts : shifts_ok (vf_geo f) (vf_jy f) (vf_jx f);
  fs_flags : Z.testbit (vf_flags f) 0 = false /\ Z.testbit (vf_flags f) 1 = false /\ Z.testbit (vf_flags f) 4 = false;
  fs_depth : 3 <= vf_depth f <= 24; fs_shift : 0 <= vf_shift f;
  fs_counts : 3 * Z.of_nat (tile_count (vf_geo f) 2048) < 2 ^ 31 /\ Z.of_nat (tile_count (vf_geo f) 256) <= 2 ^ 30;
  fs_scale : 0 <= lg_globalScale lg * lg_quantLF lg < 2 ^ 31; fs_global : global_bits lg tree c0; fs_ctx : lg_hfBlockCtx lg = Some hc; fs_thresholds : thresholds_ok hc;
  fs_lf : forall k, (k < tile_count (vf_geo f) 2048)%nat -> lf_ok f lg tree lfBuffer k (L k) (cl k);
  fs_presets : 0 < np /\ 495 * 16 * np < 2 ^ 29; fs_weights : weights ps = Ok w; fs_tables : forall d m t, ~ In (PGiven 4 d m t) ps;
  fs_pass : exists c1 c2, hf_global_code true raw_code (fun ps => exists w, weights ps = Ok w) (Z.of_nat (tile_count (vf_geo f) 256)) c1 (ps, np) /\
    pass_bits natural order (495 * hb_numClusters hc * np) h c2 /\ ch = c1 ++ c2;
  fs_groups : forall id, (id < tile_count (vf_geo f) 256)%nat -> group_ok f lg hc np order h (L (lf_of (vf_geo f) id)) id (S id) (cg id) }.
Definition frame_parts (f : VF) (c0 : list bool) (cl : nat -> list bool) (ch : list bool) (cg : nat -> list bool) : list (nat * list bool) :=
  let n := tile_count (vf_geo f) 2048 in
  (0%nat, c0) :: map (fun k => ((1 + k)%nat, cl k)) (seq 0 n) ++ ((1 + n)%nat, ch) :: map (fun id => ((2 + n + id)%nat, cg id)) (seq 0 (tile_count (vf_geo f) 256)) ++ [].

Lemma map_Ok_need {A} (l : list A) : map needGroup (map Ok l) = map Ok l.
Proof. rewrite map_map. reflexivity. Qed.
Lemma Forall2_values {A B} (P : A -> B -> Prop) (g : A -> B) l vs : Forall2 P l vs -> (forall a v, In a l -> P a v -> v = g a) -> vs = map g l.
Proof. induction 1 as [|a v l vs H _ IH]; intros G; [reflexivity|]. cbn [map]. rewrite (G a v (or_introl eq_refl) H), IH; [reflexivity|]. intros b u Hb. apply G. right. exact Hb. Qed.
Definition zero_buffers (f : VF) : list (list (list R)) :=
  map (fun c => zeroes (i32 (Z.shiftr (frame_h (vf_geo f)) (nth c (triple (vf_jy f)) 0))) (i32 (Z.shiftr (frame_w (vf_geo f)) (nth c (triple (vf_jx f)) 0)))) [0; 1; 2]%nat.

(* All sections are read as sent, whether the frame has one section or a table
   of sections: what is transformed back are the groups sent. *)
Theorem C106_read_partial : forall f raw raw_code weights sort natural call lfBuffer lg hc tree ps np w order h L S c0 cl ch cg rs,
  frame_sent f raw_code weights natural lfBuffer lg hc tree ps np w order h L S c0 cl ch cg ->
  (forall i, 0 <= i < 17 -> exact (raw i) (raw_code i)) -> sorts_positions sort -> (forall o, 0 <= o <= 12 -> natural_order o (natural o)) ->
  pending rs (frame_parts f c0 cl ch cg) ->
  fst (decodeVarFrame f raw weights sort call lfBuffer rs) = invertGroups false (map (sent_job f lg hc w call order L S) (seq 0 (tile_count (vf_geo f) 256))) (zero_buffers f).
Proof.
  intros f raw raw_code weights sort natural call lfBuffer lg hc tree ps np w order h L S c0 cl ch cg rs
    [V HS (F0 & F1 & F4) Hd Hsh (N1 & N2) HQ HG HC HT HL (Hnp & Hmax) Hw N4 (c1 & c2 & Hc1 & Hc2 & ->) Hgr] HR Hs Hn HP.
  destruct (geo_counts _ V) as (K1 & K2 & K3 & K4 & K5 & _ & _ & K6). destruct (geo_padded _ V) as [PH PW].
  set (n := tile_count (vf_geo f) 2048) in *. set (m := tile_count (vf_geo f) 256) in *.
  assert (CS : hb_shape hc /\ 0 < hb_numClusters hc <= 16 /\ Forall (fun c => 0 <= c) (hb_clusterMap hc)).
  { destruct HG as (a1 & a2 & Ha & _). exact (context_of_global _ _ _ _ Ha HC). }
  destruct CS as (SH & Hcl & HM).
  unfold frame_parts in HP. fold n m in HP. cbv zeta in HP.
  destruct (section_step _ _ 0 c0 _ rs ltac:(lia) (C106_global_partial f lg tree c0 F0 F1 F4 HG ltac:(intros h0 E0; rewrite HC in E0; injection E0 as <-; exact HT)) HP) as ([lg' gd] & rs1 & E1 & (EL & FT) & _ & HP1).
  cbn [fst snd] in FT, EL. subst lg'. unfold decodeVarFrame. change lfGlobalEntry with (Z.of_nat 0). rewrite E1, PH, PW, K1, K2, HC. cbn [obind]. cbv zeta. rewrite !Nat2Z.id.
  destruct (groups_step (varLFGroup f lg hc gd (Z.of_nat n) lfBuffer)
    (fun k => NewLFGroup (mkLGI (lf_params f lg k) hc gd (vf_depth f) (g_dim (vf_geo f)) (Z.of_nat k) (Z.of_nat n)) [] lfBuffer)
    (fun k v => v = sent_lf f lg hc k (L k)) (fun k => (1 + k)%nat) cl (seq 0 n)
    (((1 + n)%nat, c1 ++ c2) :: map (fun id => ((2 + n + id)%nat, cg id)) (seq 0 m) ++ [])) with (rs := rs1) as (vs & rs2 & E2 & FV & _ & HP2).
  { intros k r Hk. apply in_seq in Hk. destruct (geo_lf _ k V ltac:(fold n; lia)) as (G1 & G2 & _). unfold varLFGroup. rewrite G1, G2. cbn [obind]. rewrite (lf_params_ok f lg k HQ).
    replace (lfGroupEntry (Z.of_nat k)) with (Z.of_nat (1 + k)) by (unfold lfGroupEntry; rewrite i64_small by lia; lia). reflexivity. }
  { intros k Hk. apply in_seq in Hk. split; [lia|]. apply (lf_piece f lg hc gd tree lfBuffer k (L k) (cl k) V HS Hd N1 FT SH); [fold n; lia|apply HL; lia]. }
  { exact HP1. }
  apply (Forall2_values _ (fun k => sent_lf f lg hc k (L k))) in FV; [|auto]. subst vs. rewrite E2, all_ok.
  destruct (section_step _ _ (1 + n) (c1 ++ c2) _ rs2 ltac:(lia) (pass_piece raw raw_code weights sort hc (Z.of_nat m) c1 c2 ps np w natural order h ltac:(lia) HR Hc1 N4 Hw Hs Hn Hcl Hnp Hmax Hc2) HP2)
    as ([[w' np'] [os e]] & rs3 & E3 & (Ew & O1 & O2 & ST & PR) & _ & HP3).
  cbn [fst snd] in Ew, O1, O2, ST. injection Ew as -> ->.
  replace (hfGlobalEntry (Z.of_nat n)) with (Z.of_nat (1 + n)) by (unfold hfGlobalEntry; rewrite i64_small by lia; lia). rewrite E3.
  destruct (groups_step (varGroup f lg hc gd (Z.of_nat n) (Z.of_nat m) (map (fun k => sent_lf f lg hc k (L k)) (seq 0 n)) (w, np, (os, e)) call)
    (fun id => let k := lf_of (vf_geo f) id in let lf := sent_lf f lg hc k (L k) in
      r <- NewHFCoefficients (groupIn f hc np os e (tile_size (vf_geo f) 256 id) (place_in_lf (vf_geo f) id) lf) ;;
      _ <- decodeModular gd (vf_depth f) (g_dim (vf_geo f)) (passStream (Z.of_nat n) (Z.of_nat m) 0 (Z.of_nat id)) [] ;;
      rret (jobOf f lg w call id (tile_size (vf_geo f) 256 id) (place_in_lf (vf_geo f) id) (tile_place (vf_geo f) 256 id) lf (snd (fst r)) (snd r)))
    (fun id j => j = sent_job f lg hc w call order L S id) (fun id => (2 + n + id)%nat) cg (seq 0 m) []) with (rs := rs3) as (js & rs4 & E4 & FJ & _ & _).
  { intros id r Hid. apply in_seq in Hid. destruct (geo_group _ id V ltac:(fold m; lia)) as (G1 & G2 & G3 & G4 & G5 & _). unfold varGroup. rewrite G3. cbn [obind].
    rewrite (slice_get_ok _ _ (sent_lf f lg hc 0%nat (L 0%nat))) by (rewrite map_length, seq_length; fold n in G4; lia). rewrite Nat2Z.id, (map_nth (fun k => sent_lf f lg hc k (L k))), seq_nth by (fold n in G4; lia).
    cbn [obind Nat.add]. rewrite G2, G5, G1. cbn [obind fst snd].
    replace (passGroupEntry (Z.of_nat n) (Z.of_nat m) 0 (Z.of_nat id)) with (Z.of_nat (2 + n + id)) by (unfold passGroupEntry; rewrite (i64_small (0 * _)) by lia; rewrite (i64_small (2 + _)) by lia; rewrite (i64_small (2 + _ + _)) by lia; rewrite i64_small by lia; lia). reflexivity. }
  { intros id Hid. apply in_seq in Hid. split; [lia|]. destruct (geo_group _ id V ltac:(fold m; lia)) as (_ & _ & _ & G4 & _).
    exact (group_piece f lg hc gd np w os e order h call (Z.of_nat n) (Z.of_nat m) id L S (cg id) tree lfBuffer _ V HS Hsh ltac:(fold m; lia) Hnp Hmax SH HM O1 O2 ST PR (HL _ G4) (Hgr id ltac:(lia))). }
  { exact HP3. }
  apply (Forall2_values _ (sent_job f lg hc w call order L S)) in FJ; [|auto]. subst js. rewrite E4, map_Ok_need, all_ok. reflexivity.
Qed.
Print Assumptions C106_read_partial.

(* The samples: H c by W c per channel *)
Definition frame_rows (f : VF) (c : nat) : nat := Z.to_nat (Z.shiftr (frame_h (vf_geo f)) (part (vf_jy f) c)).
Definition frame_cols (f : VF) (c : nat) : nat := Z.to_nat (Z.shiftr (frame_w (vf_geo f)) (part (vf_jx f) c)).
Lemma shiftr_le a n : 0 <= a -> 0 <= n -> 0 <= Z.shiftr a n <= a.
Proof. intros Ha Hn. rewrite Z.shiftr_div_pow2 by exact Hn. pose proof (Z.pow_pos_nonneg 2 n ltac:(lia) Hn). split; [apply Z.div_pos; lia|]. apply Z.div_le_upper_bound; [lia|]. nia. Qed.
Lemma frame_small g : var_geo g -> 0 <= frame_h g < 2 ^ 31 /\ 0 <= frame_w g < 2 ^ 31.
Proof.
  intros [[A B _ C D _] _ V]. unfold frame_h, frame_w, pad_unit. rewrite V. unfold round_up.
  assert (P : forall k, 0 <= k <= 1 -> 2 ^ k = 1 \/ 2 ^ k = 2) by (intros k Hk; assert (k = 0 \/ k = 1) as [-> | ->] by lia; cbn; lia).
  destruct (P _ C) as [-> | ->], (P _ D) as [-> | ->]; lia.
Qed.
Lemma zero_buffers_shape f c : var_geo (vf_geo f) -> shifts_ok (vf_geo f) (vf_jy f) (vf_jx f) -> (c < 3)%nat -> rrect (frame_rows f c) (frame_cols f c) (nth c (zero_buffers f) []).
Proof.
  intros V HS Hc. destruct (frame_small _ V) as [B1 B2]. destruct (HS c Hc) as [[S1 _] [S2 _]].
  assert (E : nth c (zero_buffers f) [] = zeroes (i32 (Z.shiftr (frame_h (vf_geo f)) (part (vf_jy f) c))) (i32 (Z.shiftr (frame_w (vf_geo f)) (part (vf_jx f) c)))).
  { unfold zero_buffers. destruct (vf_jy f) as [[a b] d], (vf_jx f) as [[a' b'] d']. do 3 (destruct c as [|c]; [reflexivity|]). lia. }
  rewrite E. pose proof (shiftr_le _ _ (proj1 B1) S1). pose proof (shiftr_le _ _ (proj1 B2) S2). rewrite !i32_small by lia. apply rrect_repeat.
Qed.
(* From the sections to the samples: blocks of exact transforms that cover the
   frame give the samples F that the coefficients sent stand for (C105), and
   with AFV blocks samples near them. *)
Theorem C106_frame_partial : forall f raw raw_code weights sort natural call lfBuffer lg hc tree ps np w order h L S c0 cl ch cg rs F,
  let js := map (sent_job f lg hc w call order L S) (seq 0 (tile_count (vf_geo f) 256)) in
  frame_sent f raw_code weights natural lfBuffer lg hc tree ps np w order h L S c0 cl ch cg ->
  (forall i, 0 <= i < 17 -> exact (raw i) (raw_code i)) -> sorts_positions sort -> (forall o, 0 <= o <= 12 -> natural_order o (natural o)) ->
  pending rs (frame_parts f c0 cl ch cg) ->
  Forall (job_sent (frame_rows f) (frame_cols f) F) js -> ForallOrdPairs jobs_apart js ->
  (forall j b, In j js -> In b (job_blocks j) -> exact_kind (kind_of (hb_type b))) ->
  (forall c y x, (c < 3)%nat -> (y < frame_rows f c)%nat -> (x < frame_cols f c)%nat -> exists j b, In j js /\ job_has j c b /\ job_covers j c b y x = true) ->
  fst (decodeVarFrame f raw weights sort call lfBuffer rs) = Ok (map (fun c => rmat (frame_rows f c) (frame_cols f c) (F c)) [0; 1; 2]%nat).
Proof.
  intros f raw raw_code weights sort natural call lfBuffer lg hc tree ps np w order h L S c0 cl ch cg rs F js FS HR Hs Hn HP HJ HA HK HC.
  rewrite (C106_read_partial f raw raw_code weights sort natural call lfBuffer lg hc tree ps np w order h L S c0 cl ch cg rs FS HR Hs Hn HP).
  apply C105_exact_partial; try assumption; [reflexivity|]. intros c Hc. apply zero_buffers_shape; [exact (fs_geo _ _ _ _ _ _ _ _ _ _ _ _ _ _ _ _ _ _ _ FS)|exact (fs_shifts _ _ _ _ _ _ _ _ _ _ _ _ _ _ _ _ _ _ _ FS)|exact Hc].
Qed.
Print Assumptions C106_frame_partial.
Theorem C106_near_partial : forall f raw raw_code weights sort natural call lfBuffer lg hc tree ps np w order h L S c0 cl ch cg rs F M,
  let js := map (sent_job f lg hc w call order L S) (seq 0 (tile_count (vf_geo f) 256)) in
  frame_sent f raw_code weights natural lfBuffer lg hc tree ps np w order h L S c0 cl ch cg ->
  (forall i, 0 <= i < 17 -> exact (raw i) (raw_code i)) -> sorts_positions sort -> (forall o, 0 <= o <= 12 -> natural_order o (natural o)) ->
  pending rs (frame_parts f c0 cl ch cg) ->
  Forall (job_sent (frame_rows f) (frame_cols f) F) js -> ForallOrdPairs jobs_apart js -> Forall (fun j => bounded M F (gj_params j) (gj_location j) (job_blocks j)) js ->
  exists fbs, fst (decodeVarFrame f raw weights sort call lfBuffer rs) = Ok fbs /\ length fbs = 3%nat /\ forall c, (c < 3)%nat -> rrect (frame_rows f c) (frame_cols f c) (nth c fbs []) /\
    forall j b y x, In j js -> job_has j c b -> (y < b_h b)%nat -> (x < b_w b)%nat ->
      near M (kind_of (hb_type b)) (block_of F (gj_params j) (gj_location j) c b) (block_of (fun c => pixel (nth c fbs [])) (gj_params j) (gj_location j) c b) y x.
Proof.
  intros f raw raw_code weights sort natural call lfBuffer lg hc tree ps np w order h L S c0 cl ch cg rs F M js FS HR Hs Hn HP HJ HA HM.
  rewrite (C106_read_partial f raw raw_code weights sort natural call lfBuffer lg hc tree ps np w order h L S c0 cl ch cg rs FS HR Hs Hn HP). fold js.
  destruct (C105_frame_partial js (zero_buffers f) (frame_rows f) (frame_cols f) F M HJ HA HM eq_refl) as (fbs & E & L3 & P).
  { intros c Hc. apply zero_buffers_shape; [exact (fs_geo _ _ _ _ _ _ _ _ _ _ _ _ _ _ _ _ _ _ _ FS)|exact (fs_shifts _ _ _ _ _ _ _ _ _ _ _ _ _ _ _ _ _ _ _ FS)|exact Hc]. }
  exists fbs. split; [exact E|]. split; [exact L3|]. intros c Hc. destruct (P c Hc) as (R & V & _). split; [exact R|exact (V)].
Qed.
Print Assumptions C106_near_partial.

(* A frame of one 8x8 block: an HF coefficient of X is -7, the LF samples are
   3; any order of the sections' table will do. *)
Definition ex_vf : VF := mkVF (mkGeo 8 8 256 0 0 true) 128 8 (0, 0, 0) (0, 0, 0) 1 3 2 [0.9; 0.9; 0.9]%R 0.1%R.
Definition ex_lg : LFGlobal := mkLFG (map (fun k => mkF32 false 1 k) [-12; -9; -8]) 100 16 (Some ex_hc) (mkCC 84 (mkF32 false 0 0) (mkF32 false 1 0) 128 128) false.
Definition ex_w : list (list (list (list R))) := [repeat (repeat (repeat 0.5%R 8) 8) 3].
Definition ex_lf_sent (d : list (list R) * list (list R) * list (list R)) : LFSent := mkLS 0 (fun _ => [[3]]) [[84]] [[-7]] [(0, 4)] [[0]] [mkR 0 0 1 1] d.
Lemma ex_var_geo : var_geo (vf_geo ex_vf).
Proof. constructor; [constructor; cbn; try lia; exists 1; cbn; lia|reflexivity|reflexivity]. Qed.
Lemma ex_global : exists c0, global_bits ex_lg None c0.
Proof.
  eexists. eexists. exists []. split; [|split; [split; reflexivity|reflexivity]].
  exists [true]. eexists. eexists. split; [reflexivity|]. split; [exists [true], [], true; split; [reflexivity|]; split; [reflexivity|]; split; reflexivity|].
  eexists. eexists. exists (100, 16). split; [reflexivity|]. split.
  { eexists. eexists. exists 100. split; [reflexivity|]. split; [exists 0%nat, 99; cbn; split; [lia|]; split; [lia|]; split; reflexivity|].
    eexists. exists []. exists 16. split; [reflexivity|]. split; [exists 0%nat, 0; cbn; split; [lia|]; split; [lia|]; split; reflexivity|]. split; reflexivity. }
  exists [true]. eexists. exists ex_hc. split; [reflexivity|]. split; [exists [true], [], true; split; [reflexivity|]; split; [reflexivity|]; split; reflexivity|].
  exists [true]. eexists. eexists. split; [reflexivity|]. split; [exists [true], [], true; split; [reflexivity|]; split; [reflexivity|]; split; reflexivity|].
  exists [false], [], false. split; [reflexivity|]. split; [reflexivity|]. split; reflexivity.
Qed.
Lemma ex_lf_ok : exists d c, lf_ok ex_vf ex_lg None [] 0 (ex_lf_sent d) c /\ forall i, (i < 3)%nat -> rrect 1 1 (part d i).
Proof.
  assert (S : forall m, forallb (forallb (fun v => (- 2 ^ 26 <=? v) && (v <=? 2 ^ 26))) m = true -> samples_within (2 ^ 26) m).
  { intros m H. rewrite forallb_forall in H. apply Forall_forall. intros r Hr. specialize (H r Hr). rewrite forallb_forall in H. apply Forall_forall. intros v Hv. specialize (H v Hv). cbv beta in H. lia. }
  assert (W : whole (lf_params ex_vf ex_lg 0)). { apply geo_cells; [exact ex_var_geo|intros i Hi; do 3 (destruct i as [|i]; [cbn; lia|]); lia|vm_compute; lia]. }
  destruct (C78_lf_image_partial (lf_params ex_vf ex_lg 0) [] 0 (samples (fun _ => [[3]]))) as (d & E & R); try reflexivity; try (cbn; lia).
  { intros i. do 3 (destruct i as [|i]; [cbn; lia|]). cbn. lia. }
  { intros i Hi. do 3 (destruct i as [|i]; [split; [reflexivity|repeat constructor]|]). lia. }
  destruct (C103_sendable (lf_params ex_vf ex_lg 0) 8 1 0 0 (fun _ => [[3]]) [] [[84]] [[-7]] [(0, 4)] [[0]] W) as (c & Hc).
  { lia. }
  { intros i Hi. do 3 (destruct i as [|i]; [split; [split; [reflexivity|repeat constructor]|apply S; reflexivity]|]). lia. }
  { constructor. }
  { cbn. lia. }
  { split; [split; [reflexivity|repeat constructor]|apply S; reflexivity]. }
  { split; [split; [reflexivity|repeat constructor]|apply S; reflexivity]. }
  { split; [split; [reflexivity|repeat constructor]|apply S; reflexivity]. }
  { repeat constructor; cbn; lia. }
  { cbn. lia. }
  exists d, c. split; [constructor|].
  - intros i Hi. do 3 (destruct i as [|i]; [split; [reflexivity|repeat constructor]|]). lia.
  - exact E.
  - change (standard_packing 1 1 [] [mkR 0 0 1 1]). constructor; [unfold SpecHF.inside; cbn; lia|constructor| |constructor].
    split; [intros p []|]. intros y x Hy Hx B. unfold SpecHF.before in B. cbn [r_y r_x] in B. lia.
  - repeat constructor; cbn; lia.
  - repeat constructor; cbn; lia.
  - cbn. lia.
  - exact Hc.
  - intros i Hi. destruct (R i Hi) as [Ri _]. do 3 (destruct i as [|i]; [exact Ri|]). lia.
Qed.
Definition ex_gs (p1 : nat * nat) : GroupSent := mkGS 0 (ex_coef p1).
Lemma ex_pass ord h hcb : (forall o, 0 <= o <= 12 -> natural_order o (ord o)) -> header_code cluster_map proper_dist (495 * hb_numClusters ex_hc * 1) true hcb h -> described h ->
  exists c, pass_bits ord (fun o _ => ord o) (495 * hb_numClusters ex_hc * 1) h c.
Proof.
  intros N H D. eexists. exists 0. eexists. exists []. exists hcb. split; [exists 2%nat, 0; cbn; split; [lia|]; split; [lia|]; split; reflexivity|]. cbn [Z.eqb].
  split; [split; [reflexivity|]|split; [exact H|split; [exact D|reflexivity]]].
  assert (A : forall l, orders_send ord 0 (fun o _ => ord o) l []) by (induction l as [|[o c] l IH]; constructor; [apply Z.testbit_0_l|reflexivity|exact IH]). apply A.
Qed.
Lemma ex_var_sent q bx bb d0 d1 d2 : rrect 1 1 d0 -> rrect 1 1 d1 -> rrect 1 1 d2 -> let bi := mkBI 84 bx bb [[84]] [[-7]] [d0; d1; d2] (repeat (repeat 0%R 32) 32) (repeat (repeat 0%R 32) 32) in
  group_sent one_params (0, 0) (ex_quantized q) (repeat (repeat (repeat 0%R 8) 8) 3) bi ex_scratch (fun _ => 8%nat) (fun _ => 8%nat)
    (fun c => idct2 8 8 (final_of one_params (ex_quantized q) bi c one_block)) [one_block].
Proof.
  intros R0 R1 R2 bi. destruct (ex_group_sent q) as [_ G2 G3 G4 G5 _ G7]. constructor; try assumption.
  - exists (fun _ => 8%nat), (fun _ => 8%nat). constructor.
    + exact one_params_ok.
    + reflexivity.
    + reflexivity.
    + reflexivity.
    + intros c Hc. split; [apply ex_layout|]. split; [|now apply one_nth]. assert (c = 0 \/ c = 1 \/ c = 2)%nat as [->|[->| ->]] by lia; apply rect_mat.
    + cbn. lia.
    + intros b [<-|[]]. discriminate.
    + intros b [<-|[]]. split; [now left|]. split; [cbn; lia|]. split; [cbn; lia|]. intros c Hc _. assert (E : sY one_params c = 0%Z /\ sX one_params c = 0%Z) by (split; exact (zero_nth 3 c)). destruct E as [-> ->].
      assert (c = 0 \/ c = 1 \/ c = 2)%nat as [->|[->| ->]] by lia; [change (SpecDCT.inside d0 0 0 1 1); destruct R0|change (SpecDCT.inside d1 0 0 1 1); destruct R1|change (SpecDCT.inside d2 0 0 1 1); destruct R2]; now apply (one_inside 0%R).
    + split; apply (one_inside 0%R); apply (rect_repeat 32 32 0%R).
    + intros _. exists 1%nat, 1%nat. split; [exact one_group|]. split; [intros; split; reflexivity|]. split; [repeat constructor|]. split; [constructor; [left; cbn; lia|constructor]|]. exact one_tiles.
  - intros c b y x Hc [<-|[]] _ Hy Hx. change (kind_of (hb_type one_block)) with (Dct 8 8). cbn [encode]. change (Z.to_nat 8) with 8%nat. symmetry.
    change (dct2 8 8 (fun y x => idct2 8 8 (final_of one_params (ex_quantized q) bi c one_block) y x) y x = final_of one_params (ex_quantized q) bi c one_block y x). apply dct2_idct2; assumption.
Qed.
Example C106_example : exists ord p1 d h c0 cl ch cg F, ex_coef p1 0 (fst p1) (snd p1) = -7 /\ (forall i, (i < 3)%nat -> rrect 1 1 (part d i)) /\ (forall o, 0 <= o <= 12 -> natural_order o (ord o)) /\
  frame_sent ex_vf (fun _ _ _ => False) (fun _ => Ok ex_w) ord [] ex_lg ex_hc None (repeat PLibrary 17) 1 ex_w (fun o _ => ord o) h (fun _ => ex_lf_sent d) (fun _ => ex_gs p1) c0 cl ch cg /\
  forall rs call, pending rs (frame_parts ex_vf c0 cl ch cg) ->
    fst (decodeVarFrame ex_vf (fun _ => rerr) (fun _ => Ok ex_w) isort call [] rs) = Ok (map (fun c => rmat 8 8 (F c)) [0; 1; 2]%nat).
Proof.
  set (ord := nat_of). assert (N1 : forall o, 0 <= o <= 12 -> natural_order o (ord o)) by (intros o Ho; exact (proj1 (nat_of_ok o Ho))).
  assert (N2 : forall o, 0 <= o <= 12 -> scan_order (fst (order_cells o)) (snd (order_cells o)) (ord o)).
  { intros o Ho. destruct (C42_natural_order o isort Ho isort_ok) as (l & E & _ & S & _). unfold ord, nat_of. rewrite E. exact S. }
  clearbody ord. destruct ex_lf_ok as (d & cl & LO & RD). destruct ex_global as (c0 & G0).
  set (order := fun (o : Z) (_ : nat) => ord o). set (b1 := HB 0 0 0 5 0). set (g := sent_group ex_vf ex_hc order 0 (mkGS 0 (fun _ _ _ => 0))).
  set (p1 := nth 3 (hf_positions g 0 b1) (0, 0)%nat). set (orders := map (fun o => [ord o; ord o; ord o]) [0; 1; 2; 3; 4; 5; 6; 7; 8; 9; 10; 11; 12]).
  destruct flat_sent as (hc0 & Hh0 & _). destruct (C83_nested_partial 1 false ltac:(lia) _ _ Hh0) as (e0 & (_ & _) & _).
  assert (SH : shifts_ok (vf_geo ex_vf) (vf_jy ex_vf) (vf_jx ex_vf)) by (intros i Hi; do 3 (destruct i as [|i]; [cbn; lia|]); lia).
  destruct (ex_inputs ord e0 p1 N2) as [_ X2 X3 X4 X5 _ _ _ _ X10 _ _].
  set (i := groupIn ex_vf ex_hc 1 orders e0 (tile_size (vf_geo ex_vf) 256 0) (place_in_lf (vf_geo ex_vf) 0) (sent_lf ex_vf ex_lg ex_hc 0 (ex_lf_sent d))).
  assert (GI : group_inputs i g (ex_coef p1)) by exact (sent_inputs ex_vf ex_lg ex_hc 1 orders e0 order 0 0 (ex_lf_sent d) (ex_gs p1) SH ltac:(cbn; lia) ltac:(lia) X2 X3 X4 X5 ltac:(cbn; lia) X10).
  assert (I1 : In p1 (hf_positions g 0 b1)).
  { apply nth_In. destruct (hf_length _ _ _ 0%nat b1 GI ltac:(lia) ltac:(cbn; lia)) as (Lh & _). change (63 * blocks8 (b_type b1)) with 63 in Lh. lia. }
  assert (EB : sent_blocks ex_vf ex_lg ex_hc 0 (ex_lf_sent d) = [b1]) by reflexivity.
  assert (IG : SpecHFGroup.in_group g b1) by (split; cbn; lia).
  destruct (C101_sendable i g (ex_coef p1) [b1] 1 0 GI ltac:(lia) eq_refl ltac:(cbn; lia)) as (l & hcb & h & sc & x & S1 & S2 & S3 & S4 & S5 & S6 & S7).
  { intros c y z. destruct c as [|c]; cbn [ex_coef]; [destruct (_ && _); lia|lia]. }
  { intros b [<-|[]] _. cbn. lia. }
  destruct (ex_pass ord h hcb N1 S2 S3) as (pc & HP).
  set (sh := map (fun c => mat 8 8 (fun y x => ex_coef p1 c y x * 2 ^ 1)) [0; 1; 2]%nat).
  set (q := fun (c y x : nat) => ex_coef p1 c y x * 2 ^ 1).
  set (cc := lg_lfChanCorr ex_lg). destruct d as [[d0 d1] d2] eqn:Ed.
  set (bi := mkBI 84 (float_value (cc_baseCorrelationX cc)) (float_value (cc_baseCorrelationB cc)) [[84]] [[-7]] [d0; d1; d2] (repeat (repeat 0%R 32) 32) (repeat (repeat 0%R 32) 32)).
  assert (FS : frame_sent ex_vf (fun _ _ _ => False) (fun _ => Ok ex_w) ord [] ex_lg ex_hc None (repeat PLibrary 17) 1 ex_w order h (fun _ => ex_lf_sent (d0, d1, d2)) (fun _ => ex_gs p1) c0 (fun _ => cl) ([true] ++ pc) (fun _ => sc)).
  { constructor.
    - exact ex_var_geo.
    - exact SH.
    - repeat split; reflexivity.
    - cbn. lia.
    - cbn. lia.
    - vm_compute. split; congruence.
    - cbn. lia.
    - exact G0.
    - reflexivity.
    - repeat constructor.
    - intros k Hk. change (tile_count (vf_geo ex_vf) 2048) with 1%nat in Hk. replace k with 0%nat by lia. exact LO.
    - lia.
    - reflexivity.
    - intros a b c Hin. apply repeat_spec in Hin. discriminate.
    - exists [true], pc. split; [|split; [exact HP|reflexivity]]. exists [true], [], true. split; [reflexivity|]. split; [reflexivity|]. exists [], [], (repeat PLibrary 17). split; [reflexivity|]. split; [split; reflexivity|]. split; [exists ex_w; reflexivity|].
      exists [], [], 0. split; [reflexivity|]. split; [split; [reflexivity|vm_compute; split; congruence]|]. split; reflexivity.
    - intros id Hid. change (tile_count (vf_geo ex_vf) 256) with 1%nat in Hid. replace id with 0%nat by lia. change (lf_of (vf_geo ex_vf) 0) with 0%nat. constructor; change (lf_of (vf_geo ex_vf) 0) with 0%nat; rewrite ?EB.
      + cbn. lia.
      + exact X10.
      + intros b [<-|[]] _ c Hc _. do 3 (destruct c as [|c]; [unfold ProofHFGroup.block_fits; cbn; lia|]). lia.
      + repeat constructor.
      + intros c y z HZ. cbn [gs_coef ex_gs]. destruct c as [|c]; cbn [ex_coef]; [|reflexivity].
        destruct (Nat.eqb_spec y (fst p1)), (Nat.eqb_spec z (snd p1)); cbn [andb]; try reflexivity. exfalso. subst y z. apply (HZ b1 (or_introl eq_refl) IG); [split; reflexivity|]. rewrite <- surjective_pairing. exact I1.
      + exists l, sc, x. split; [exact S1|]. split; [change (Z.of_nat (length [b1])) with 1 in S7; lia|]. split; [exact S5|]. split; [exact S6|reflexivity]. }
  exists ord, p1, (d0, d1, d2), h, c0, (fun _ => cl), ([true] ++ pc), (fun _ => sc), (fun c => idct2 8 8 (final_of one_params (ex_quantized q) bi c one_block)).
  split; [cbn [ex_coef]; rewrite !Nat.eqb_refl; reflexivity|]. split; [exact RD|]. split; [exact N1|]. split; [exact FS|]. intros rs call HR.
  pose proof (ex_var_sent q (float_value (cc_baseCorrelationX cc)) (float_value (cc_baseCorrelationB cc)) d0 d1 d2 (RD 0%nat ltac:(lia)) (RD 1%nat ltac:(lia)) (RD 2%nat ltac:(lia))) as GS. cbv zeta in GS. fold bi in GS.
  set (j := mkGJ one_params (call 0%nat) (0, 0) [[1]] [[5]] [Some (0, 0)] (ex_quantized q) (repeat (repeat (repeat 0%R 8) 8) 3) bi ex_scratch).
  assert (EJ : map (sent_job ex_vf ex_lg ex_hc ex_w call order (fun _ => ex_lf_sent (d0, d1, d2)) (fun _ => ex_gs p1)) (seq 0 (tile_count (vf_geo ex_vf) 256)) = [j]).
  { change (tile_count (vf_geo ex_vf) 256) with 1%nat. reflexivity. }
  assert (EBJ : job_blocks j = [one_block]) by reflexivity.
  assert (Z : forall c, sY one_params c = 0 /\ sX one_params c = 0) by (intros c; split; exact (zero_nth 3 c)).
  apply (C106_frame_partial ex_vf (fun _ => rerr) (fun _ _ _ => False) (fun _ => Ok ex_w) isort ord call [] ex_lg ex_hc None (repeat PLibrary 17) 1 ex_w order h (fun _ => ex_lf_sent (d0, d1, d2)) (fun _ => ex_gs p1)
    c0 (fun _ => cl) ([true] ++ pc) (fun _ => sc) rs (fun c => idct2 8 8 (final_of one_params (ex_quantized q) bi c one_block)) FS); rewrite ?EJ.
  - intros k Hk. split; [intros c v []|]. intros s dd p Hr. exact I.
  - exact isort_ok.
  - exact N1.
  - exact HR.
  - constructor; [|constructor]. split; [reflexivity|]. rewrite EBJ. change (gj_params j) with one_params. change (gj_location j) with (0, 0).
    assert (FR : forall c, (c < 3)%nat -> frame_rows ex_vf c = 8%nat /\ frame_cols ex_vf c = 8%nat) by (intros c Hc; do 3 (destruct c as [|c]; [split; reflexivity|]); lia).
    destruct GS as [G1 G2 G3 G4 G5 G6 G7]. constructor; try assumption. intros c Hc. destruct (FR c Hc) as [-> ->]. exact (G4 c Hc).
  - repeat constructor.
  - intros j' b [<-|[]]. rewrite EBJ. intros [<-|[]]. exact I.
  - intros c y z Hc Hy Hz. exists j, one_block. split; [left; reflexivity|]. split; [split; [rewrite EBJ; left; reflexivity|]|].
    + change (gj_params j) with one_params. destruct (Z c) as [-> ->]. split; apply Z.mod_1_r.
    + unfold job_covers, covers_px, in_block, b_top, b_left. change (gj_params j) with one_params. destruct (Z c) as [-> ->]. change (b_h one_block) with 8%nat. change (b_w one_block) with 8%nat.
      assert (FR : frame_rows ex_vf c = 8%nat /\ frame_cols ex_vf c = 8%nat) by (do 3 (destruct c as [|c]; [split; reflexivity|]); lia). destruct FR as [F1 F2]. rewrite F1 in Hy. rewrite F2 in Hz. cbn. lia.
Qed.
