(* Properties of the VarDCT block layer: C41-C43, C60. *)
From Coq Require Import ZArith List Bool Lia Arith Permutation Sorted ZifyBool ZifyNat.
From Verif Require Import GoBase GoLoop GoMatrix ModelBitReader ModelUtil ModelEntropy ModelToc ModelHF ModelHFCoeff.
From Verif Require Import SpecBitReader SpecToc SpecHF ProofHF ProofOrder ProofHFCoeff PropFrame.
Import ListNotations.
Open Scope Z_scope.

(* ---- C41: block placement ---- *)
(* The blocks placed, with their types and multipliers. *)
Definition placed (blocks pos : list (Z * Z)) : list (Rect * (Z * Z)) :=
  map (fun bp => (mkR (fst (snd bp)) (snd (snd bp)) (fst (cells (fst (fst bp)))) (snd (cells (fst (fst bp)))), fst bp)) (combine blocks pos).
Lemma placed_blocksOf blocks : forall pos, length pos = length blocks -> blocksOf blocks pos = map (fun p => (fst p, (fst (snd p), 1 + snd (snd p)))) (placed blocks pos).
Proof.
  induction blocks as [|b blocks IH]; intros [|p pos] L; try discriminate; [reflexivity|]. cbn [blocksOf]. unfold placed in *. cbn [combine map]. rewrite IH by (cbn in L; lia). reflexivity.
Qed.
(* Whenever placing succeeds the blocks lie in the grid, do not overlap and
   come in row order; a cell holds the type (plus one) and multiplier of the
   block covering it and zero if there is none. *)
Theorem C41_packing_partial : forall height width blocks pos d m, 0 <= height -> 0 <= width ->
  placeAll height width blocks = Ok (pos, (d, m)) ->
  length pos = length blocks /\ packing height width (map fst (placed blocks pos)) /\
  rect (Z.to_nat height) (Z.to_nat width) d /\ rect (Z.to_nat height) (Z.to_nat width) m /\
  forall y x, 0 <= y < height -> 0 <= x < width ->
    (forall p, In p (placed blocks pos) -> covers (fst p) y x -> px d (Z.to_nat y) (Z.to_nat x) = fst (snd p) + 1 /\ px m (Z.to_nat y) (Z.to_nat x) = 1 + snd (snd p)) /\
    ((forall p, In p (placed blocks pos) -> ~ covers (fst p) y x) -> px d (Z.to_nat y) (Z.to_nat x) = 0 /\ px m (Z.to_nat y) (Z.to_nat x) = 0).
Proof.
  intros height width blocks pos d m Hh Hw E. unfold placeAll in E.
  pose proof (pinv_init (Z.to_nat height) (Z.to_nat width)) as I. rewrite !Z2Nat.id in I by lia.
  destruct (places_ok _ _ _ _ _ _ _ _ _ I E) as (L & S & lastY & [Rd Rm _ _ Vin Vdis _ Vcov Vfree]). cbn [app fst snd] in *. rewrite !Z2Nat.id in * by lia.
  rewrite (placed_blocksOf blocks pos L) in *. rewrite map_map in Vdis. cbn [fst] in Vdis.
  split; [exact L|]. split; [|split; [exact Rd|]; split; [exact Rm|]].
  - split; [|split].
    + apply Forall_map. rewrite Forall_map in Vin. exact Vin.
    + exact Vdis.
    + inversion S as [|? ? S1 _]; subst. clear - L S1. unfold placed. revert blocks L. induction S1 as [|p pos S1 IH F]; intros [|b blocks] L; try discriminate; cbn [combine map]; [constructor|].
      constructor; [apply IH; cbn in L; lia|]. rewrite Forall_forall in *. intros r Hr. apply in_map_iff in Hr as (q & <- & Hq). apply in_map_iff in Hq as ([b' p'] & <- & Hq). apply in_combine_r in Hq. exact (F p' Hq).
  - intros y x Hy Hx. split.
    + intros p Hp Cp. destruct (Vcov (Z.to_nat y) (Z.to_nat x) (fst p, (fst (snd p), 1 + snd (snd p))) ltac:(lia) ltac:(lia)) as [A B]; [|unfold pcovers; cbn [fst]; rewrite !Z2Nat.id by lia; exact Cp|cbn [fst snd] in *; split; assumption].
      apply in_map_iff. exists p. split; [reflexivity|exact Hp].
    + intros Hf. apply (Vfree (Z.to_nat y) (Z.to_nat x) ltac:(lia) ltac:(lia)). intros q Hq. apply in_map_iff in Hq as (p & <- & Hp). unfold pcovers. cbn [fst]. rewrite !Z2Nat.id by lia. apply Hf. exact Hp.
Qed.
Print Assumptions C41_packing_partial.

(* Every arrangement by the standard's rule is found: each block at the
   first cell not yet covered. *)
Theorem C41_standard_rule : forall height width rs blocks, 0 <= height -> 0 <= width ->
  standard_packing height width [] rs -> Forall2 (fun b r => 0 <= fst b <= 26 /\ (r_h r, r_w r) = cells (fst b)) blocks rs ->
  exists s, placeAll height width blocks = Ok (map (fun r => (r_y r, r_x r)) rs, s).
Proof.
  intros height width rs blocks Hh Hw SP F. pose proof (pinv_init (Z.to_nat height) (Z.to_nat width)) as I. rewrite !Z2Nat.id in I by lia. unfold placeAll.
  apply (std_places (Z.to_nat height) (Z.to_nat width) rs blocks [] 0); [exact I|intros y x Hy; lia|lia| |exact F]. rewrite !Z2Nat.id by lia. exact SP.
Qed.
Print Assumptions C41_standard_rule.

(* Finding: only the width is checked.  A block that finds a place with too
   few rows below it panics instead of being rejected. *)
Theorem C41_block_below_grid_refuted : forall width mul, 1 <= width -> placeAll 1 width [(6, mul)] = Panic.
Proof.
  intros width mul Hw. unfold placeAll. cbn [placeBlocks]. change ((26 <? 6) || (6 <? 0)) with false. destruct (tt_props 6 ltac:(lia)) as (tt & Et & _ & Ty & C & _). rewrite Et. cbn [obind].
  pose proof (pinv_init 1 (Z.to_nat width)) as I. rewrite Z2Nat.id in I by lia. change (Z.of_nat 1) with 1 in I.
  injection Et as <-. unfold placeBlock. cbn [fst]. pose proof (v_d _ _ _ _ _ _ I) as [L _]. rewrite L.
  change (Z.to_nat (Z.of_nat 1 - 0)) with 1%nat. cbn [scanRows].
  destruct (Z.to_nat width) as [|n] eqn:En; [lia|]. set (tt := mkTT 6 6 4 0 16 8). set (z := zeros2 1 width) in *.
  pose proof (v_d _ _ _ _ _ _ I) as R. pose proof (rect_row _ _ _ 0%nat R ltac:(lia)) as Lr.
  assert (Z0 : nth 0 (nth 0 z []) 0 = 0) by (apply (v_free _ _ _ _ _ _ I 0%nat 0%nat); [lia|lia|intros p []]).
  rewrite (slice_get_ok z 0 []) by lia. change (Z.to_nat 0) with 0%nat. cbn [obind]. set (row := nth 0 z []) in *. cbn [scanRow].
  replace (Z.of_nat (length row) <=? 0) with false by lia. replace (Z.of_nat (length row) <? tt_dctSelectWidth tt + 0) with false by (change (tt_dctSelectWidth tt) with 1; lia).
  change (Z.to_nat (tt_dctSelectWidth tt)) with 1%nat. cbn [firstOccupied]. rewrite (slice_get_ok row 0 0) by lia. change (Z.to_nat 0) with 0%nat. cbn [obind]. rewrite Z0. cbn [Z.eqb obind fst snd].
  pose proof (fill_ok 1 (S n) tt 0 0 (1 + mul) z z R R ltac:(lia) ltac:(lia) ltac:(change (tt_dctSelectWidth tt) with 1; lia) ltac:(change (tt_dctSelectHeight tt) with 2; lia) ltac:(change (tt_dctSelectWidth tt) with 1; lia) ltac:(lia)) as F.
  change (0 + tt_dctSelectHeight tt <=? Z.of_nat 1) with false in F. cbv iota in F. rewrite F. reflexivity.
Qed.
Print Assumptions C41_block_below_grid_refuted.

(* Finding: a gap the next block is too wide for stays empty; the standard's
   rule has no arrangement for this list.  The grid is never checked to be
   full. *)
Theorem C41_gap_accepted_refuted :
  (exists s, placeAll 4 3 [(0, 0); (0, 0); (4, 0)] = Ok ([(0, 0); (0, 1); (1, 0)], s)) /\
  forall rs, Forall2 (fun b r => 0 <= fst b <= 26 /\ (r_h r, r_w r) = cells (fst b)) [(0, 0); (0, 0); (4, 0)] rs -> ~ standard_packing 4 3 [] rs.
Proof.
  split; [eexists; vm_compute; reflexivity|]. intros rs F SP.
  inversion F as [|? r0 ? rs0 [_ S0] F0]; subst. inversion F0 as [|? r1 ? rs1 [_ S1] F1]; subst. inversion F1 as [|? r2 ? rs2 [_ S2] F2]; subst. inversion F2; subst. clear F F0 F1 F2.
  destruct r0 as [y0 x0 h0 w0], r1 as [y1 x1 h1 w1], r2 as [y2 x2 h2 w2]. cbn [r_h r_w fst cells] in *. injection S0 as -> ->. injection S1 as -> ->. injection S2 as -> ->.
  inversion SP as [|? ? ? I0 _ [N0 FF0] SP0]; subst. inversion SP0 as [|? ? ? I1 _ [N1 FF1] SP1]; subst. inversion SP1 as [|? ? ? I2 _ [N2 FF2] _]; subst. cbn [app] in *.
  unfold inside, before, covers in *. cbn [r_y r_x r_h r_w] in *.
  assert (y0 = 0 /\ x0 = 0) as [-> ->].
  { destruct (Z.eq_dec y0 0) as [->|]; [destruct (Z.eq_dec x0 0) as [->|]; [auto|]|]; exfalso; destruct (FF0 0 0 ltac:(lia) ltac:(lia) ltac:(lia)) as (p & [] & _). }
  assert (y1 = 0 /\ x1 = 1) as [-> ->].
  { destruct (Z.eq_dec y1 0) as [->|]; [destruct (Z.eq_dec x1 1) as [->|]; [auto|]|]; exfalso.
    - destruct (Z.eq_dec x1 0) as [->|]; [apply (N1 (mkR 0 0 1 1) (or_introl eq_refl)); cbn; lia|]. destruct (FF1 0 1 ltac:(lia) ltac:(lia) ltac:(lia)) as (p & [<-|[]] & Cp). cbn in Cp. lia.
    - destruct (FF1 0 1 ltac:(lia) ltac:(lia) ltac:(lia)) as (p & [<-|[]] & Cp). cbn in Cp. lia. }
  assert (L : y2 > 0 \/ y2 = 0 /\ x2 <= 1) by lia. destruct L as [L|[-> L]].
  - destruct (FF2 0 2 ltac:(lia) ltac:(lia) ltac:(lia)) as (p & [<-|[<-|[]]] & Cp); cbn in Cp; lia.
  - destruct (Z.eq_dec x2 0) as [->|]; [apply (N2 (mkR 0 0 1 1) (or_introl eq_refl)); cbn; lia|].
    apply (N2 (mkR 0 1 1 1) (or_intror (or_introl eq_refl))); cbn; lia.
Qed.
Print Assumptions C41_gap_accepted_refuted.

Example C41_example :
  (* a 16x16 block, two 8x8 blocks beside it, an 8x16 block below them *)
  exists s, placeAll 2 4 [(4, 0); (0, 1); (0, 2); (7, 3)] = Ok ([(0, 0); (0, 2); (0, 3); (1, 2)], s) /\
  s = ([[5; 5; 1; 1]; [5; 5; 8; 8]], [[1; 1; 2; 3]; [1; 1; 4; 4]]).
Proof. eexists. split; vm_compute; reflexivity. Qed.
Example C41_example_standard : standard_packing 2 2 [] [mkR 0 0 2 1; mkR 0 1 2 1].
Proof.
  constructor; [unfold inside; cbn; lia|constructor| |].
  - split; [intros p []|]. intros y x Hy Hx B. unfold before in B. cbn in B. lia.
  - constructor; [unfold inside; cbn; lia| | |constructor].
    + constructor; [|constructor]. intros y x C D. unfold covers in *. cbn in *. lia.
    + split; [intros p [<-|[]] C; unfold covers in C; cbn in C; lia|]. intros y x Hy Hx B. unfold before in B. cbn in B. exists (mkR 0 0 2 1). split; [left; reflexivity|]. unfold covers. cbn. lia.
Qed.

(* ---- C42: scan orders ---- *)
Theorem C42_no_ties : forall i t, 0 <= i <= 12 -> getByOrderID i = Ok t ->
  strict_total (orderCmp t) (fun p => 0 <= fst p /\ 0 <= snd p).
Proof.
  intros i t Hi E. destruct (order_types i Hi) as (t' & E' & _ & _ & _ & H1 & _). assert (t' = t) by congruence. subst t'. apply cmp_total; lia.
Qed.
Print Assumptions C42_no_ties.

(* a sort that is correct on the positions of the 13 orders *)
Definition sorts_positions (sort : (Z * Z -> Z * Z -> Z) -> list (Z * Z) -> list (Z * Z)) : Prop :=
  forall i t, 0 <= i <= 12 -> getByOrderID i = Ok t -> is_sort sort (orderCmp t) (positions t).
(* With any correct sort the order is the standard's: the corner row by row,
   then zigzag; every position once; the same list for every sort. *)
Theorem C42_natural_order : forall i sort, 0 <= i <= 12 ->
  sorts_positions sort ->
  let h := fst (order_cells i) in let w := snd (order_cells i) in
  exists l, getNaturalOrder sort i = Ok l /\ StronglySorted (natural_before h w) l /\ scan_order h w l /\
    (forall p, In p l <-> 0 <= fst p < 8 * h /\ 0 <= snd p < 8 * w) /\
    firstn (Z.to_nat (h * w)) l = raster (Z.to_nat h) (Z.to_nat w) /\
    (forall sort', sorts_positions sort' -> getNaturalOrder sort' i = Ok l).
Proof.
  intros i sort Hi Hs h w. destruct (order_types i Hi) as (t & Et & Ec & Ph & Pw & [H1 H2] & H3).
  assert (Eh : tt_dctSelectHeight t = h) by (unfold h; rewrite <- Ec; reflexivity). assert (Ew : tt_dctSelectWidth t = w) by (unfold w; rewrite <- Ec; reflexivity).
  unfold getNaturalOrder. rewrite Et. cbn [obind]. eexists. split; [reflexivity|]. destruct (Hs i t Hi Et) as [P S].
  destruct (order_ok t _ ltac:(lia) ltac:(lia) Ph Pw P S) as (SS & ND & IN & FN & UN). rewrite Eh, Ew in *. clearbody h w. set (l := sort (orderCmp t) (positions t)) in *.
  rewrite Z2Nat.inj_mul by lia.
  assert (LEN : Z.of_nat (length l) = 64 * (h * w)).
  { rewrite (Permutation_length P). change (positions t) with (raster (Z.to_nat (tt_pixelHeight t)) (Z.to_nat (tt_pixelWidth t))). rewrite raster_length, Ph, Pw. clear - H1 H2. nia. }
  split; [exact SS|]. split; [|split; [exact IN|split; [exact FN|]]].
  - split; [exact ND|]. split; [exact LEN|]. split; [apply Forall_forall; intros o Ho; apply IN; exact Ho|]. rewrite Z2Nat.inj_mul by lia. split.
    + rewrite FN. apply Forall_forall. intros o Ho. apply in_raster in Ho. lia.
    + apply Forall_forall. intros o Ho [C1 C2].
      assert (O : In o (firstn (Z.to_nat h * Z.to_nat w) l)).
      { rewrite FN. apply in_raster. assert (Il : In o l) by (rewrite <- (firstn_skipn (Z.to_nat h * Z.to_nat w) l); apply in_or_app; right; exact Ho). apply IN in Il. lia. }
      rewrite <- (firstn_skipn (Z.to_nat h * Z.to_nat w) l) in ND. clear - ND O Ho. induction (firstn _ l) as [|a f IH]; [destruct O|]. cbn [app] in ND. inversion ND as [|? ? N1 N2]; subst.
      destruct O as [<-|O]; [apply N1, in_or_app; right; exact Ho|exact (IH N2 O)].
  - intros sort' Hs'. f_equal. destruct (Hs' i t Hi Et) as [P' S']. exact (UN _ P' S').
Qed.
Print Assumptions C42_natural_order.

(* An order sent in the stream rearranges a scan order and keeps its corner:
   it is a scan order again. *)
Theorem C42_signalled_order : forall h w order st perm st', 1 <= h <= 32 -> 1 <= w <= 32 -> scan_order h w order ->
  readPermutation (Z.of_nat (length order)) (Z.of_nat (length order) / 64) st = (Ok perm, st') ->
  exists r, applyPerm order perm = Ok r /\ Permutation r order /\ scan_order h w r /\
    firstn (Z.to_nat (h * w)) r = firstn (Z.to_nat (h * w)) order.
Proof.
  intros h w order st perm st' Hh Hw (ND & LEN & IN & C1 & C2) E.
  assert (D : Z.of_nat (length order) / 64 = h * w) by (rewrite LEN, Z.mul_comm; apply Z.div_mul; lia). rewrite D in E.
  assert (B : 1 <= h * w <= 1024) by (clear - Hh Hw; nia).
  destruct (C16_read_is_permutation (Z.of_nat (length order)) (h * w) st perm st' ltac:(lia) ltac:(lia) E) as (P & F & _).
  destruct (applyPerm_perm order perm (Z.to_nat (h * w)) P ltac:(lia)) as (r & Er & Pr & Fr); [rewrite Z2Nat.id by lia; exact F|].
  assert (NDr : NoDup r) by exact (Permutation_NoDup (Permutation_sym Pr) ND).
  exists r. split; [exact Er|]. split; [exact Pr|]. split; [|exact Fr]. split; [exact NDr|]. split; [rewrite (Permutation_length Pr); exact LEN|].
  split; [rewrite Forall_forall in *; intros o Ho; apply IN; exact (Permutation_in o Pr Ho)|]. split; [rewrite Fr; exact C1|].
  apply Forall_forall. intros o Ho. rewrite Forall_forall in C2. apply C2.
  assert (Io : In o order) by (apply (Permutation_in o Pr); rewrite <- (firstn_skipn (Z.to_nat (h * w)) r); apply in_or_app; right; exact Ho).
  rewrite <- (firstn_skipn (Z.to_nat (h * w)) order) in Io. apply in_app_or in Io as [Io|Io]; [exfalso|exact Io]. rewrite <- Fr in Io.
  rewrite <- (firstn_skipn (Z.to_nat (h * w)) r) in NDr. clear - NDr Io Ho. induction (firstn _ r) as [|a f IH]; [destruct Io|]. cbn [app] in NDr. inversion NDr as [|? ? N1 N2]; subst.
  destruct Io as [<-|O]; [apply N1, in_or_app; right; exact Ho|exact (IH N2 O)].
Qed.
Print Assumptions C42_signalled_order.

(* Insertion sort is such a sort; the 8x8 order is JPEG's zigzag. *)
Fixpoint insert (cmp : Z * Z -> Z * Z -> Z) (a : Z * Z) (l : list (Z * Z)) : list (Z * Z) :=
  match l with [] => [a] | b :: t => if cmp a b <=? 0 then a :: l else b :: insert cmp a t end.
Definition isort (cmp : Z * Z -> Z * Z -> Z) (l : list (Z * Z)) : list (Z * Z) := fold_right (insert cmp) [] l.
Lemma insert_perm cmp a l : Permutation (insert cmp a l) (a :: l).
Proof. induction l as [|b l IH]; [apply Permutation_refl|]. cbn. destruct (cmp a b <=? 0); [apply Permutation_refl|]. eapply perm_trans; [apply perm_skip, IH|apply perm_swap]. Qed.
Lemma isort_perm cmp l : Permutation (isort cmp l) l.
Proof. induction l as [|a l IH]; [constructor|]. cbn. eapply perm_trans; [apply insert_perm|]. apply perm_skip, IH. Qed.
Lemma isort_sorted cmp P l : strict_total cmp P -> Forall P l -> sorted_by cmp (isort cmp l).
Proof.
  intros (T1 & T2 & T3) H. induction H as [|a l Ha Hl IH]; [constructor|]. cbn. change (fold_right (insert cmp) [] l) with (isort cmp l).
  assert (F : Forall P (isort cmp l)) by (rewrite Forall_forall in *; intros o Ho; apply Hl; exact (Permutation_in o (isort_perm cmp l) Ho)).
  revert IH F. generalize (isort cmp l). clear l Hl. intros l. unfold sorted_by.
  assert (LE : forall a b c, P a -> P b -> P c -> cmp a b <= 0 -> cmp b c <= 0 -> cmp a c <= 0).
  { intros a0 b c A B C H1 H2. destruct (Z.eq_dec (cmp a0 b) 0) as [E|E]; [apply (T1 a0 b A B) in E; subst; exact H2|]. destruct (Z.eq_dec (cmp b c) 0) as [E'|E']; [apply (T1 b c B C) in E'; subst; exact H1|].
    pose proof (T3 a0 b c A B C ltac:(lia) ltac:(lia)). lia. }
  induction l as [|b l IH]; intros S F; [repeat constructor|]. inversion S as [|? ? S1 S2]; subst. inversion F as [|? ? F1 F2]; subst. cbn. destruct (Z.leb_spec (cmp a b) 0).
  - constructor; [exact S|]. constructor; [assumption|]. rewrite Forall_forall in *. intros c Hc. apply (LE a b c); auto.
  - constructor; [exact (IH S1 F2)|]. assert (K : cmp b a <= 0) by (pose proof (T2 b a F1 Ha); lia). rewrite Forall_forall in *. intros c Hc. apply (Permutation_in c (insert_perm cmp a l)) in Hc. destruct Hc as [<-|Hc]; [exact K|]. apply S2. exact Hc.
Qed.
Lemma isort_ok : sorts_positions isort.
Proof.
  intros i t Hi E. split; [apply isort_perm|]. apply (isort_sorted _ (fun p => 0 <= fst p /\ 0 <= snd p)); [exact (C42_no_ties i t Hi E)|].
  apply Forall_forall. intros p Hp. change (positions t) with (raster (Z.to_nat (tt_pixelHeight t)) (Z.to_nat (tt_pixelWidth t))) in Hp. apply in_raster in Hp. lia.
Qed.
Example C42_example_zigzag :
  match getNaturalOrder isort 0 with
  | Ok l => map (fun p => 8 * fst p + snd p) l =
    [0; 1; 8; 16; 9; 2; 3; 10; 17; 24; 32; 25; 18; 11; 4; 5; 12; 19; 26; 33; 40; 48; 41; 34; 27; 20; 13; 6; 7; 14; 21; 28;
     35; 42; 49; 56; 57; 50; 43; 36; 29; 22; 15; 23; 30; 37; 44; 51; 58; 59; 52; 45; 38; 31; 39; 46; 53; 60; 61; 54; 47; 55; 62; 63]
  | _ => False
  end.
Proof. vm_compute. reflexivity. Qed.
Example C42_example_corner :
  match getNaturalOrder isort 4 with Ok l => firstn 6 l = [(0, 0); (0, 1); (1, 0); (0, 2); (0, 3); (1, 1)] | _ => False end.
Proof. vm_compute. reflexivity. Qed.

(* ---- C43: contexts ---- *)
(* Block contexts read from any stream have the shape the context functions
   rely on. *)
Theorem C43_block_context_shape : forall d p s s' hc, reader_at s d p -> NewHFBlockContextWithReader s = (Ok hc, s') -> hb_shape hc.
Proof. exact hfb_read_ok. Qed.
Print Assumptions C43_block_context_shape.
Theorem C43_lf_index : forall hc q, hb_shape hc -> exists i, getLFIndex hc q = Ok i /\ 0 <= i < hb_numLFContexts hc.
Proof. exact lfIndex_ok. Qed.
Print Assumptions C43_lf_index.
Theorem C43_block_context : forall hc c orderID hfMult lfIndex, hb_shape hc -> 0 <= c <= 2 -> 0 <= orderID <= 12 -> 0 <= lfIndex < hb_numLFContexts hc ->
  exists b, getBlockContext hc c orderID hfMult lfIndex = Ok b /\ In b (hb_clusterMap hc) /\ b < hb_numClusters hc.
Proof. exact blockContext_ok. Qed.
Print Assumptions C43_block_context.

(* The contexts of a block that decodes: one for the count, in the first 37n
   of the preset, and one per coefficient, in the 458 of its block context.
   All lie in the preset's own 495n contexts. *)
Theorem C43_contexts_partial : forall HC WC H W hc t order preset numPresets c hfMult lfIndex y x shift cnt syms nz q ctxs nz' q' rest,
  let n := hb_numClusters hc in
  0 <= preset < numPresets -> 495 * 16 * numPresets < 2 ^ 29 ->
  block_inputs HC WC H W hc t order (presetOffset hc preset) c lfIndex y x nz q ->
  Forall (fun v => - 2 ^ 31 <= v < 2 ^ 31) (cnt :: syms) -> 0 <= cnt ->
  decodeBlock hc t order (presetOffset hc preset) c hfMult lfIndex y x shift (cnt :: syms) nz q = Ok (ctxs, nz', q', rest) ->
  presetOffset hc preset = 495 * n * preset /\ numContexts hc numPresets = 495 * n * numPresets /\
  exists b c0 cs, ctxs = c0 :: cs /\ 0 <= b < n /\
    495 * n * preset <= c0 < 495 * n * preset + 37 * n /\ (c0 - 495 * n * preset) mod n = b /\
    Forall (fun k => 495 * n * preset + 37 * n + 458 * b <= k < 495 * n * preset + 37 * n + 458 * (b + 1)) cs /\
    Forall (fun k => 495 * n * preset <= k < 495 * n * (preset + 1) /\ k < numContexts hc numPresets) ctxs.
Proof.
  intros HC WC H W hc t order preset numPresets c hfMult lfIndex y x shift cnt syms nz q ctxs nz' q' rest n Hp Hnp BI HS Hc E.
  assert (HN : 0 <= n <= 16) by (destruct (bi_hc _ _ _ _ _ _ _ _ _ _ _ _ _ _ BI) as (? & ? & ? & _ & _ & _ & _ & _ & N); exact N).
  assert (A1 : 0 <= 495 * n <= 7920) by lia. assert (A2 : 0 <= 495 * n * preset <= 7920 * numPresets) by (clear - A1 Hp; nia). assert (A3 : 495 * n * (preset + 1) <= 495 * n * numPresets <= 7920 * numPresets) by (clear - A1 Hp; nia).
  assert (EO : presetOffset hc preset = 495 * n * preset).
  { unfold presetOffset. fold n. rewrite (i32_id (495 * n)) by lia. apply i32_id. lia. }
  assert (EN : numContexts hc numPresets = 495 * n * numPresets).
  { unfold numContexts. fold n. rewrite (i32_id (495 * numPresets)) by lia. replace (495 * numPresets * n) with (495 * n * numPresets) by ring. apply i32_id. lia. }
  split; [exact EO|]. split; [exact EN|].
  destruct (bi_t _ _ _ _ _ _ _ _ _ _ _ _ _ _ BI) as (ty & Hty & Et). destruct (tt_order ty t Hty Et) as (_ & Eo & _ & B1 & B2).
  assert (NB : 1 <= tt_dctSelectHeight t * tt_dctSelectWidth t) by (clear - B1 B2; nia).
  assert (LO : be_orderSize (mkBE order 0 0 false 0 0 0) = 64 * (tt_dctSelectHeight t * tt_dctSelectWidth t)).
  { destruct (bi_order _ _ _ _ _ _ _ _ _ _ _ _ _ _ BI) as (_ & L & _). unfold be_orderSize. cbn [be_order]. rewrite L, Eo. destruct (tt_flip t); cbn [fst snd]; ring. }
  destruct (block_sound _ _ _ _ _ _ _ _ _ _ _ _ _ _ _ _ _ NB HS LO E) as (cnt' & used & Es & Hu & Hl). injection Es as -> ->.
  assert (Hcnt : cnt' = nonzeros used) by (destruct Hu as [[-> Hu]|[_ Hu]]; [unfold nonzeros; cbn; lia|exact Hu]). subst cnt'.
  assert (Hu' : used = [] \/ last used 0 <> 0) by tauto.
  destruct (block_run HC WC H W hc t order (presetOffset hc preset) c hfMult lfIndex y x shift nz q used rest BI Hu' Hl) as (b & c0 & cs & nz2 & q2 & E2 & Hb & R0 & M0 & _ & F & _).
  rewrite E in E2. injection E2 as -> _ _. rewrite EO in R0, M0, F. fold n in Hb, R0, M0, F. exists b, c0, cs. split; [reflexivity|]. split; [exact Hb|]. split; [exact R0|]. split; [exact M0|]. split.
  - eapply Forall_impl; [|exact F]. cbv beta. intros k Hk. lia.
  - assert (X : forall k, 495 * n * preset <= k < 495 * n * (preset + 1) -> 495 * n * preset <= k < 495 * n * (preset + 1) /\ k < numContexts hc numPresets) by (intros k Hk; rewrite EN; lia).
    constructor; [apply X; lia|]. eapply Forall_impl; [|exact F]. cbv beta. intros k Hk. apply X. lia.
Qed.
Print Assumptions C43_contexts_partial.

(* Finding: a count above 63 per 8x8 area indexes past the table and panics. *)
Theorem C43_large_count_refuted : forall k nb nonZeros prev, 1 <= nb -> 63 * nb < nonZeros < 2 ^ 31 - nb ->
  getCoefficientContext k nonZeros nb prev = Panic.
Proof.
  intros k nb nz prev Hn Hz. unfold getCoefficientContext. rewrite i32_id by lia. rewrite (Z.quot_div_nonneg (nz + nb - 1)) by lia.
  assert (64 <= (nz + nb - 1) / nb) by (apply Z.div_le_lower_bound; lia). rewrite slice_get_panic; [reflexivity|]. change (length coeffNumNonzeroCtx) with 64%nat. lia.
Qed.
Print Assumptions C43_large_count_refuted.

(* Finding: a count that leaves no room for zeros, followed by zeros, runs
   into the contexts of the next block context before the error is noticed;
   a negative count gives the next block a negative context; the preset is
   not compared with the number of presets. *)
Theorem C43_spill_refuted :
  let e := mkBE (raster 8 8) 1 0 false 0 0 0 in
  exists ctxs q', coeffLoop 63 e 0 63 0 (repeat 0 63) (zeros2 8 8) = Ok (63, ctxs, q', []) /\ In 472 ctxs.
Proof. cbv zeta. do 2 eexists. split; [vm_compute; reflexivity|]. vm_compute. tauto. Qed.
Print Assumptions C43_spill_refuted.
Theorem C43_negative_count_refuted : forall hc b, 0 <= b < hb_numClusters hc -> hb_numClusters hc <= 16 -> getNonZeroContext hc (-1) b < 0.
Proof. intros hc b Hb Hn. unfold getNonZeroContext. cbn [Z.ltb Z.compare]. rewrite i32_id by lia. lia. Qed.
Print Assumptions C43_negative_count_refuted.
Theorem C43_preset_refuted : forall hc, 1 <= hb_numClusters hc <= 16 ->
  (exists s', readHFPreset 3 (NewBitStreamReader [3]) = (Ok 3, s')) /\ presetOffset hc 3 = numContexts hc 3.
Proof.
  intros hc Hn. split; [eexists; vm_compute; reflexivity|]. unfold presetOffset, numContexts. rewrite (i32_id (495 * hb_numClusters hc)) by lia. rewrite (i32_id (495 * 3)) by lia. f_equal. lia.
Qed.
Print Assumptions C43_preset_refuted.

(* ---- C60: coefficients land on their own samples ---- *)
(* Every list of at most 63 symbols per 8x8 area not ending in zero can be
   sent behind the number of its nonzero symbols: symbol j is stored, scaled,
   at the j-th position of the scan order behind the corner, and no other
   sample changes.  All cells of the block record its count. *)
Theorem C60_coefficients_stored : forall HC WC H W hc t order offset c hfMult lfIndex y x shift nz q used rest,
  block_inputs HC WC H W hc t order offset c lfIndex y x nz q ->
  (used = [] \/ last used 0 <> 0) -> let nb := tt_dctSelectHeight t * tt_dctSelectWidth t in Z.of_nat (length used) <= 63 * nb ->
  exists ctxs nz' q', decodeBlock hc t order offset c hfMult lfIndex y x shift (nonzeros used :: used ++ rest) nz q = Ok (ctxs, nz', q', rest) /\
    rect HC WC nz' /\ rect H W q' /\
    (forall y' x', px nz' y' x' = if (y <=? Z.of_nat y') && (Z.of_nat y' <? y + tt_dctSelectHeight t) && ((x <=? Z.of_nat x') && (Z.of_nat x' <? x + tt_dctSelectWidth t))
      then (nonzeros used + nb - 1) / nb else px nz y' x') /\
    let at_ j := block_pos t (nth (Z.to_nat nb + j) order (0, 0)) in
    (forall j, (j < length used)%nat -> px q' (Z.to_nat (8 * y + fst (at_ j))) (Z.to_nat (8 * x + snd (at_ j))) = i32 (Z.shiftl (UnpackSigned (u32 (nth j used 0))) shift)) /\
    (forall y' x', (forall j, (j < length used)%nat -> (8 * y + fst (at_ j), 8 * x + snd (at_ j)) <> (Z.of_nat y', Z.of_nat x')) -> px q' y' x' = px q y' x').
Proof.
  intros HC WC H W hc t order offset c hfMult lfIndex y x shift nz q used rest BI Hu nb Hl.
  destruct (block_run HC WC H W hc t order offset c hfMult lfIndex y x shift nz q used rest BI Hu Hl) as (b & c0 & cs & nz2 & q2 & E & _ & _ & _ & _ & _ & R1 & R2 & P & Q).
  exists (c0 :: cs), nz2, q2. split; [exact E|]. split; [exact R1|]. split; [exact R2|]. split; [exact P|exact Q].
Qed.
Print Assumptions C60_coefficients_stored.

(* The positions are those of the block, each once, never in the corner that
   the LF image fills. *)
Theorem C60_positions : forall t ty order, 0 <= ty <= 26 -> slice_get allDCT ty = Ok t ->
  scan_order (fst (order_cells (tt_orderID t))) (snd (order_cells (tt_orderID t))) order ->
  let h := tt_dctSelectHeight t in let w := tt_dctSelectWidth t in let pos := map (block_pos t) (skipn (Z.to_nat (h * w)) order) in
  (h, w) = cells ty /\ NoDup pos /\ Z.of_nat (length pos) = 63 * (h * w) /\
  Forall (fun p => 0 <= fst p < 8 * h /\ 0 <= snd p < 8 * w /\ ~ (fst p < h /\ snd p < w)) pos.
Proof.
  intros t ty order Hty Et SO. cbv zeta. destruct (tt_order ty t Hty Et) as (_ & Eo & Ec & B1 & B2). set (h := tt_dctSelectHeight t) in *. set (w := tt_dctSelectWidth t) in *.
  assert (EN : fst (order_cells (tt_orderID t)) * snd (order_cells (tt_orderID t)) = h * w) by (rewrite Eo; destruct (tt_flip t); cbn [fst snd]; ring).
  destruct SO as (ND & LEN & IN & _ & C2). rewrite EN in *. split; [exact Ec|]. split; [|split].
  - apply FinFun.Injective_map_NoDup; [intros [a b] [c d]; unfold block_pos; destruct (tt_flip t); cbn [fst snd]; congruence|].
    rewrite <- (firstn_skipn (Z.to_nat (h * w)) order) in ND. clear - ND. induction (firstn _ order) as [|a f IH]; [exact ND|]. cbn [app] in ND. inversion ND; auto.
  - rewrite map_length, skipn_length. assert (0 <= h * w) by (clear - B1 B2; nia). lia.
  - apply Forall_map. apply Forall_forall. intros o Ho. rewrite Forall_forall in C2, IN. specialize (C2 o Ho).
    assert (Io : In o order) by (rewrite <- (firstn_skipn (Z.to_nat (h * w)) order); apply in_or_app; right; exact Ho). specialize (IN o Io). rewrite Eo in *. unfold block_pos. destruct (tt_flip t); cbn [fst snd] in *; lia.
Qed.
Print Assumptions C60_positions.

(* Conversely a block that decodes was sent that way. *)
Theorem C60_only_such_symbols : forall hc t ty order offset c hfMult lfIndex y x shift syms nz q ctxs nz' q' rest,
  0 <= ty <= 26 -> slice_get allDCT ty = Ok t -> Z.of_nat (length order) = 64 * (tt_dctSelectHeight t * tt_dctSelectWidth t) ->
  Forall (fun v => - 2 ^ 31 <= v < 2 ^ 31) syms ->
  decodeBlock hc t order offset c hfMult lfIndex y x shift syms nz q = Ok (ctxs, nz', q', rest) ->
  exists cnt used, syms = cnt :: used ++ rest /\ (used = [] /\ cnt <= 0 \/ last used 0 <> 0 /\ cnt = nonzeros used) /\
    Z.of_nat (length used) <= 63 * (tt_dctSelectHeight t * tt_dctSelectWidth t).
Proof.
  intros hc t ty order offset c hfMult lfIndex y x shift syms nz q ctxs nz' q' rest Hty Et LO HS E. destruct (tt_order ty t Hty Et) as (_ & _ & _ & B1 & B2).
  assert (NB : 1 <= tt_dctSelectHeight t * tt_dctSelectWidth t) by (clear - B1 B2; nia). exact (block_sound _ _ _ _ _ _ _ _ _ _ _ _ _ _ _ _ _ NB HS LO E).
Qed.
Print Assumptions C60_only_such_symbols.

(* Finding: a block placed across the edge of its 32x32-cell group is
   accepted by the placement and panics here. *)
Theorem C60_group_edge_refuted : forall hc order offset c hfMult lfIndex shift cnt syms nz q pr b,
  rect 32 32 nz -> getPredictedNonZeros nz 0 31 = Ok pr -> getBlockContext hc c 4 hfMult lfIndex = Ok b ->
  decodeBlock hc (mkTT 7 6 4 0 8 16) order offset c hfMult lfIndex 0 31 shift (cnt :: syms) nz q = Panic.
Proof.
  intros hc order offset c hfMult lfIndex shift cnt syms nz q pr b R E1 E2. unfold decodeBlock. rewrite E1. cbn [obind]. change (tt_orderID (mkTT 7 6 4 0 8 16)) with 4. rewrite E2. cbn [obind].
  unfold fillCounts, loop2. change (tt_dctSelectHeight (mkTT 7 6 4 0 8 16)) with 1. change (tt_dctSelectWidth (mkTT 7 6 4 0 8 16)) with 2. change (Z.to_nat 1) with 1%nat. change (Z.to_nat 2) with 2%nat. cbv zeta. cbn [oloop].
  change (Z.of_nat 0) with 0. change (Z.of_nat 1) with 1. change (0 + 0) with 0. change (31 + 0) with 31. change (31 + 1) with 32.
  destruct (set2_ok 32 32 nz 0 31 (Z.quot (i32 (cnt + 1 * 2 - 1)) (1 * 2)) R ltac:(lia) ltac:(lia)) as (nz1 & -> & R1 & _). cbn [obind].
  assert (X : forall v, set2 nz1 0 32 v = Panic).
  { intros v. unfold set2. destruct R1 as [L F]. rewrite (slice_get_ok nz1 0 []) by lia. cbn [obind]. unfold slice_set. rewrite Forall_forall in F. rewrite (F (nth (Z.to_nat 0) nz1 [])) by (apply nth_In; lia). reflexivity. }
  rewrite X. reflexivity.
Qed.
Print Assumptions C60_group_edge_refuted.

Example C60_example :
  (* an 8x8 DCT block with coefficients 3, 0, -2 in transposed zigzag order *)
  exists ctxs nz' q', decodeBlock (mkHFB [[]; []; []] defaultClusterMap 15 [] 1) (mkTT 0 0 0 0 8 8) (isort (orderCmp (mkTT 0 0 0 0 8 8)) (raster 8 8)) 0 1 5 0 0 0 0
    [2; 6; 0; 3] (zeros2 32 32) (zeros2 8 8) = Ok (ctxs, nz', q', []) /\ px q' 1 0 = 3 /\ px q' 0 1 = 0 /\ px q' 0 2 = -2 /\ ctxs = [300; 618; 558; 559].
Proof. do 3 eexists. split; [vm_compute; reflexivity|]. repeat split; vm_compute; reflexivity. Qed.
