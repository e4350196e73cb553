(* Theorems about the final coefficients of a group. *)
From Coq Require Import ZArith List Bool Lia Arith Reals Lra.
From Verif Require Import GoBase GoLoop GoMatrix ModelUtil ModelDCT ModelHF ModelHFWeights ModelHFDequant SpecDCT SpecColour SpecHFDequant.
From Verif Require Import ProofCodes ProofDCT GoMatrixR ProofHFDequant ProofCfL ProofCfL2 ProofLLF ProofLLFTable.
Import ListNotations.
Open Scope nat_scope.

(* ---- C81: dequantisation and chroma from luma ---- *)
Definition coefficient (p : HFParams) (quantized : list (list (list Z))) (c : nat) (b : HFBlock) (y x : nat) (old : R) : R :=
  if in_llf b y x then old
  else (hf_value (nth c (hp_quantBias p) 0) (hp_quantBiasNumerator p) (px (nth c quantized []) (b_top p (sY p c) b + y) (b_left p (sX p c) b + x)) *
        hf_block_step (hp_globalScale p) (hf_channel_qm (hp_xqmScale p) (hp_bqmScale p) c) (hb_mult b) * hf_weight (hb_type b) (table_of p c b) y x)%R.

(* Every coefficient of every block but the lowest ones becomes the biased
   value times the step of the block times the weight of its place, and
   nothing else changes.  Missing: scales below 2 (refuted below). *)
Theorem C81_dequantize_partial : forall p quantized bs ms H W, params_ok p bs -> length ms = 3 -> length quantized = 3 ->
  (forall c, c < 3 -> layout p (sY p c) (sX p c) (H c) (W c) bs /\ rect (H c) (W c) (nth c quantized []) /\ rrect (H c) (W c) (nth c ms [])) ->
  (2 <= hp_xqmScale p < 2 ^ 32)%Z -> (2 <= hp_bqmScale p < 2 ^ 32)%Z -> hp_globalScale p <> 0%Z -> (forall b, In b bs -> hb_mult b <> 0%Z) ->
  exists ms', dequantizeHFCoefficients p quantized bs ms = Ok ms' /\ length ms' = 3 /\
    forall c, c < 3 -> blocks_replaced p (sY p c) (sX p c) (H c) (W c) bs (coefficient p quantized c) (nth c ms []) (nth c ms' []).
Proof.
  intros p quantized bs ms H W HP LM LQ HC HX HB HG HM. destruct (dequantize_ok p quantized bs ms H W HP LM LQ HC) as (ms' & E & L & P). exists ms'. split; [exact E|]. split; [exact L|].
  intros c Hc. destruct (P c Hc) as (R' & In' & Out'). split; [exact R'|]. split; [|exact Out'].
  intros b y x Hb Pr Hy Hx. rewrite In' by assumption. unfold dequant_of, hf_dequant, coefficient. now rewrite (step_ok p c b) by (assumption || now apply HM).
Qed.
Print Assumptions C81_dequantize_partial.

(* Finding: for the scales 0 and 1, which headers can give, 4/5 is raised to
   more than four billion instead of -2 and -1: the step is below 10^-9
   instead of 25/16 and 5/4. *)
Theorem C81_qm_scale_refuted :
  (0 < qmFactor 0 < / 10 ^ 9 /\ hf_qm 0 = 25 / 16)%R /\ (0 < qmFactor 1 < / 10 ^ 9 /\ hf_qm 1 = 5 / 4)%R.
Proof.
  assert (G : forall n, 100 <= n -> (0 < 0.8 ^ n < / 10 ^ 9)%R).
  { intros n Hn. split; [apply pow_lt; lra|]. apply Rle_lt_trans with (0.8 ^ 100)%R.
    - replace n with (100 + (n - 100)) by lia. rewrite pow_add. rewrite <- (Rmult_1_r (0.8 ^ 100)) at 2. apply Rmult_le_compat_l; [apply pow_le; lra|].
      rewrite <- (pow1 (n - 100)). apply pow_incr. lra.
    - replace (0.8 ^ 100)%R with ((0.8 ^ 10) ^ 10)%R by (rewrite <- pow_mult; reflexivity).
      apply Rle_lt_trans with (0.108 ^ 10)%R; [apply pow_incr; split; [apply pow_le; lra|lra]|lra]. }
  assert (B : forall q, (0 <= q < 2)%Z -> 100 <= Z.to_nat (u32 (q - 2))).
  { intros q Hq. apply Nat2Z.inj_le. rewrite Z2Nat.id; unfold u32; [|apply Z.mod_pos_bound; reflexivity].
    replace ((q - 2) mod 2 ^ 32)%Z with (2 ^ 32 + (q - 2))%Z; [lia|]. apply (Z.mod_unique_pos _ _ (-1)); lia. }
  split; (split; [apply G; apply B; lia|]); unfold hf_qm.
  - change (powerRZ (4 / 5) (0 - 2)) with (/ (4 / 5) ^ 2)%R. field.
  - change (powerRZ (4 / 5) (1 - 2)) with (/ (4 / 5) ^ 1)%R. field.
Qed.
Print Assumptions C81_qm_scale_refuted.

Definition correlated (p : HFParams) (H W : nat) (bs : list HFBlock) (factor : list HFBlock -> HFBlock -> nat -> nat -> R) (my m m' : list (list R)) : Prop :=
  rrect H W m' /\
  (forall p1 b p2 y x, bs = p1 ++ b :: p2 -> y < b_h b -> x < b_w b ->
     pixel m' (b_top p 0 b + y) (b_left p 0 b + x) =
     (pixel m (b_top p 0 b + y) (b_left p 0 b + x) + factor p1 b y x * pixel my (b_top p 0 b + y) (b_left p 0 b + x))%R) /\
  (forall y x, (forall b, In b bs -> covers_px p 0 0 b y x = false) -> pixel m' y x = pixel m y x).
(* a group without subsampling of at most 256x256 samples, starting at a
   multiple of 256 samples, whose disjoint blocks are in it and in the tiles *)
Definition cfl_group (p : HFParams) (H W Hc Wc : nat) (bs : list HFBlock) (hfX hfB : list (list Z)) (ms : list (list (list R))) : Prop :=
  length (hp_shiftY p) = 3 /\ length (hp_shiftX p) = 3 /\ (forall c, sY p c = 0%Z /\ sX p c = 0%Z) /\ length ms = 3 /\ 0 < Hc /\ rect Hc Wc hfX /\ rect Hc Wc hfB /\
  (forall c, c < 3 -> rrect H W (nth c ms [])) /\ H <= 256 /\ W <= 256 /\ (hp_groupY p mod 32 = 0)%Z /\ (hp_groupX p mod 32 = 0)%Z /\
  Forall (placed p H W Hc Wc) bs /\ ForallOrdPairs (disjoint_px p) bs.
(* Coordinates in the LF group of a sample of a block, in tiles *)
Definition tile_y (b : HFBlock) (y : nat) : nat := (8 * Z.to_nat (hb_y b) + y) / 64.
Definition tile_x (b : HFBlock) (x : nat) : nat := (8 * Z.to_nat (hb_x b) + x) / 64.

(* Exactly what is added to X and B: Y times a factor, the correlation of the
   tile if the corner of the tile is in this block or an earlier one, and
   zero otherwise. *)
Theorem C81_chroma_from_luma : forall p colour baseX baseB hfX hfB bs ms H W Hc Wc, cfl_group p H W Hc Wc bs hfX hfB ms ->
  exists mx mb, chromaFromLuma p colour baseX baseB hfX hfB bs ms = Ok [mx; nth 1 ms []; mb] /\
    correlated p H W bs (fun p1 b y x => hf_cfl_used baseX colour hfX (p1 ++ [b]) (tile_y b y) (tile_x b x)) (nth 1 ms []) (nth 0 ms []) mx /\
    correlated p H W bs (fun p1 b y x => hf_cfl_used baseB colour hfB (p1 ++ [b]) (tile_y b y) (tile_x b x)) (nth 1 ms []) (nth 2 ms []) mb.
Proof.
  intros p colour baseX baseB hfX hfB bs ms H W Hc Wc (LY & LX & HS & LM & HH & RX & RB & RM & H256 & W256 & GY & GX & HP & HD).
  destruct (chromaFromLuma_ok p colour baseX baseB hfX hfB bs ms H W Hc Wc) as (mx & mb & E & (A1 & A2 & A3) & (B1 & B2 & B3)); try assumption.
  exists mx, mb. split; [exact E|]. split.
  - split; [exact A1|]. split; [|exact A3]. intros p1 b p2 y x Eb Hy Hx. rewrite (A2 p1 b p2 y x Eb Hy Hx). now rewrite used_ok.
  - split; [exact B1|]. split; [|exact B3]. intros p1 b p2 y x Eb Hy Hx. rewrite (B2 p1 b p2 y x Eb Hy Hx). now rewrite used_ok.
Qed.
Print Assumptions C81_chroma_from_luma.

(* So every sample gets the correlation of its tile if the blocks are in
   order, the corners of their tiles are in blocks, and no block crosses a
   horizontal tile border except from the corner of a tile.  Missing: other
   blocks, refuted below. *)
Theorem C81_chroma_from_luma_partial : forall p colour baseX baseB hfX hfB bs ms H W Hc Wc, cfl_group p H W Hc Wc bs hfX hfB ms ->
  in_order bs -> Forall within_tile bs ->
  (forall b y x, In b bs -> y < b_h b -> x < b_w b -> exists a, In a bs /\ in_lf_block a (64 * tile_y b y) (64 * tile_x b x) = true) ->
  exists mx mb, chromaFromLuma p colour baseX baseB hfX hfB bs ms = Ok [mx; nth 1 ms []; mb] /\
    correlated p H W bs (fun _ b y x => hf_correlation baseX colour hfX (tile_y b y) (tile_x b x)) (nth 1 ms []) (nth 0 ms []) mx /\
    correlated p H W bs (fun _ b y x => hf_correlation baseB colour hfB (tile_y b y) (tile_x b x)) (nth 1 ms []) (nth 2 ms []) mb.
Proof.
  intros p colour baseX baseB hfX hfB bs ms H W Hc Wc HG Ho HT HC.
  destruct (C81_chroma_from_luma p colour baseX baseB hfX hfB bs ms H W Hc Wc HG) as (mx & mb & E & (A1 & A2 & A3) & (B1 & B2 & B3)).
  destruct HG as (_ & _ & _ & _ & _ & _ & _ & _ & _ & _ & _ & _ & HP & _). rewrite Forall_forall in HP, HT.
  assert (D : forall base hf p1 b p2 y x, bs = p1 ++ b :: p2 -> y < b_h b -> x < b_w b ->
    hf_cfl_used base colour hf (p1 ++ [b]) (tile_y b y) (tile_x b x) = hf_correlation base colour hf (tile_y b y) (tile_x b x)).
  { intros base hf p1 b p2 y x Eb Hy Hx. assert (Ib : In b bs) by (rewrite Eb; apply in_or_app; right; now left). unfold hf_cfl_used.
    pose proof (in_order_done bs p1 b p2 y x Eb Ho) as G. change ((lfy b + y) / 64) with (tile_y b y) in G. change ((lfx b + x) / 64) with (tile_x b x) in G.
    rewrite G; [reflexivity| | | | |].
    - intros a Ha. destruct (HP a Ha) as ((_ & _ & ? & ? & _) & _). split; assumption.
    - now apply HT.
    - exact Hy.
    - exact Hx.
    - now apply HC. }
  exists mx, mb. split; [exact E|]. split.
  - split; [exact A1|]. split; [|exact A3]. intros p1 b p2 y x Eb Hy Hx. rewrite (A2 p1 b p2 y x Eb Hy Hx). now rewrite (D _ _ p1 b p2).
  - split; [exact B1|]. split; [|exact B3]. intros p1 b p2 y x Eb Hy Hx. rewrite (B2 p1 b p2 y x Eb Hy Hx). now rewrite (D _ _ p1 b p2).
Qed.
Print Assumptions C81_chroma_from_luma_partial.

(* Frames with subsampling are left alone. *)
Theorem C81_subsampled : forall p colour baseX baseB hfX hfB bs ms, (exists s, In s (hp_shiftX p ++ hp_shiftY p) /\ s <> 0%Z) ->
  chromaFromLuma p colour baseX baseB hfX hfB bs ms = Ok ms.
Proof.
  intros p colour baseX baseB hfX hfB bs ms (s & Hs & Hz). unfold chromaFromLuma. rewrite <- existsb_app.
  replace (existsb _ _) with true; [reflexivity|]. symmetry. apply existsb_exists. exists s. split; [exact Hs|]. now apply negb_true_iff, Z.eqb_neq.
Qed.
Print Assumptions C81_subsampled.

(* Finding: a group of 72 rows and 24 columns: eight rows of 8x8 blocks, but a
   16x16 block in the eighth row crosses the tile border, and the block with
   the corner of the second tile comes after it.  Its samples below the border
   get nothing of Y, whatever the correlations are: neither that of their tile
   nor that of the tile of their block. *)
Definition DCT8 := mkTT 0 0 0 0 8 8.
Definition DCT16 := mkTT 4 4 2 0 16 16.
Definition early : list HFBlock := map (fun i => mkHB DCT8 (Z.of_nat (i / 3)) (Z.of_nat (i mod 3)) 1) (seq 0 21) ++ [mkHB DCT8 7 0 1].
Definition late : list HFBlock := [mkHB DCT8 8 0 1].
Definition crossing : HFBlock := mkHB DCT16 7 1 1.
Definition ex_params : HFParams := mkHFP 1 3 4 [0; 0; 0]%Z [0; 0; 0]%Z 0 0 [1; 1; 1]%R 0%R [].
Definition ex_group : list (list (list R)) := repeat (repeat (repeat 1%R 24) 72) 3.
Lemma rect_repeat {A} h w (v : A) : length (repeat (repeat v w) h) = h /\ Forall (fun r => length r = w) (repeat (repeat v w) h).
Proof. split; [apply repeat_length|]. apply Forall_forall. intros r Hr. apply repeat_spec in Hr. subst. apply repeat_length. Qed.
Lemma zero_nth n k : nth k (repeat 0%Z n) 0%Z = 0%Z.
Proof. destruct (nth_in_or_default k (repeat 0%Z n) 0%Z) as [Hi|Hi]; [now apply repeat_spec in Hi|exact Hi]. Qed.
Lemma ex_cfl_group hfX hfB : rect 2 1 hfX -> rect 2 1 hfB -> cfl_group ex_params 72 24 2 1 (early ++ crossing :: late) hfX hfB ex_group.
Proof.
  intros RX RB. unfold cfl_group. repeat match goal with |- _ /\ _ => split end; try reflexivity; try lia; try assumption.
  - intros c. split; [exact (zero_nth 3 c)|exact (zero_nth 3 c)].
  - intros c Hc. assert (c = 0 \/ c = 1 \/ c = 2) as [->|[->| ->]] by lia; apply (rect_repeat 72 24 1%R).
  - apply Forall_forall. intros b Hb. assert (G : forallb (fun b => ((0 <=? hb_y b) && (0 <=? hb_x b) && (0 <=? tt_pixelHeight (hb_type b)) && (0 <=? tt_pixelWidth (hb_type b)))%Z &&
        (b_top ex_params 0 b + b_h b <=? 72) && (b_left ex_params 0 b + b_w b <=? 24) && (8 * Z.to_nat (hb_y b) + b_h b <=? 128) && (8 * Z.to_nat (hb_x b) + b_w b <=? 64)) (early ++ crossing :: late) = true) by reflexivity.
    rewrite forallb_forall in G. specialize (G b Hb). rewrite !andb_true_iff, !Z.leb_le, !Nat.leb_le in G. unfold placed. cbn [hp_groupY hp_groupX ex_params]. lia.
  - apply all_apart_ok. reflexivity.
Qed.
Fixpoint ordered (bs : list HFBlock) : bool :=
  match bs with [] => true | a :: bs' => forallb (fun b => (hb_y a <? hb_y b) || ((hb_y a =? hb_y b) && (hb_x a <? hb_x b)))%Z bs' && ordered bs' end.
Lemma ordered_ok bs : ordered bs = true -> in_order bs.
Proof.
  induction bs as [|a bs IH]; cbn [ordered]; intros E; [constructor|]. apply andb_true_iff in E as [E1 E2]. constructor; [|now apply IH].
  apply Forall_forall. intros b Hb. pose proof (proj1 (forallb_forall _ _) E1 b Hb) as G. cbn beta in G. apply orb_true_iff in G as [G|G]; [left; now apply Z.ltb_lt|right].
  apply andb_true_iff in G as [G1 G2]. split; [now apply Z.eqb_eq|now apply Z.ltb_lt].
Qed.
Theorem C81_chroma_from_luma_refuted : forall colour baseX baseB hfX hfB, rect 2 1 hfX -> rect 2 1 hfB ->
  in_order (early ++ crossing :: late) /\
  exists mx mb, chromaFromLuma ex_params colour baseX baseB hfX hfB (early ++ crossing :: late) ex_group = Ok [mx; nth 1 ex_group []; mb] /\
    forall y x, 64 <= y < 72 -> 8 <= x < 24 -> pixel mx y x = pixel (nth 0 ex_group []) y x /\ pixel mb y x = pixel (nth 2 ex_group []) y x /\ pixel (nth 1 ex_group []) y x = 1%R.
Proof.
  intros colour baseX baseB hfX hfB RX RB. split.
  { apply ordered_ok. reflexivity. }
  destruct (C81_chroma_from_luma ex_params colour baseX baseB hfX hfB _ ex_group 72 24 2 1 (ex_cfl_group hfX hfB RX RB)) as (mx & mb & E & (_ & A & _) & (_ & B & _)).
  exists mx, mb. split; [exact E|]. intros y x Hy Hx.
  assert (Z1 : forall base hf, hf_cfl_used base colour hf (early ++ [crossing]) (tile_y crossing (y - 56)) (tile_x crossing (x - 8)) = 0%R).
  { intros base hf. unfold hf_cfl_used, tile_y, tile_x. cbn [hb_y hb_x crossing]. change (8 * Z.to_nat 7) with 56. change (8 * Z.to_nat 1) with 8.
    replace (56 + (y - 56)) with y by lia. replace (8 + (x - 8)) with x by lia. rewrite (tile_unique y 1), (tile_unique x 0) by lia.
    replace (existsb _ _) with false by reflexivity. reflexivity. }
  specialize (A early crossing late (y - 56) (x - 8) eq_refl ltac:(change (b_h crossing) with 16; lia) ltac:(change (b_w crossing) with 16; lia)).
  specialize (B early crossing late (y - 56) (x - 8) eq_refl ltac:(change (b_h crossing) with 16; lia) ltac:(change (b_w crossing) with 16; lia)).
  rewrite Z1 in A, B. change (b_top ex_params 0 crossing) with 56 in A, B. change (b_left ex_params 0 crossing) with 8 in A, B.
  replace (56 + (y - 56)) with y in A, B by lia. replace (8 + (x - 8)) with x in A, B by lia. rewrite Rmult_0_l, Rplus_0_r in A, B. split; [exact A|]. split; [exact B|].
  unfold ex_group, pixel. cbn [repeat nth]. change (nth x (nth y (repeat (repeat 1%R 24) 72) []) 0%R = 1%R). rewrite (nth_indep _ [] (repeat 1%R 24)) by (rewrite repeat_length; lia).
  rewrite nth_repeat. rewrite (nth_indep _ 0%R 1%R) by (rewrite repeat_length; lia). apply nth_repeat.
Qed.
Print Assumptions C81_chroma_from_luma_refuted.

(* ---- C82: lowest frequencies ---- *)
Definition lowest (p : HFParams) (lf : list (list (list R))) (c : nat) (b : HFBlock) (y x : nat) (old : R) : R :=
  if in_llf b y x
  then (dct2 (b_h b / 8) (b_w b / 8) (fun v u => pixel (nth c lf []) (Z.to_nat (hb_y b / 2 ^ sY p c) + v) (Z.to_nat (hb_x b / 2 ^ sX p c) + u)) y x *
        (table_factor (b_h b / 8) y * table_factor (b_w b / 8) x))%R
  else old.
(* The lowest coefficients of every block become the transform of the LF
   samples below the block times factors, and nothing else changes. *)
Theorem C82_lowest_partial : forall p lf bs s0 s1 ms H W, length (hp_shiftY p) = 3 -> length (hp_shiftX p) = 3 -> (forall c, 0 <= sY p c /\ 0 <= sX p c)%Z -> length lf = 3 -> length ms = 3 ->
  (forall c, c < 3 -> layout p (sY p c) (sX p c) (H c) (W c) bs /\ rrect (H c) (W c) (nth c ms [])) ->
  (forall b, In b bs -> In (hb_type b) allDCT /\ (0 <= hb_y b)%Z /\ (0 <= hb_x b)%Z /\ forall c, c < 3 -> present p (sY p c) (sX p c) b ->
     inside (nth c lf []) (Z.to_nat (hb_y b / 2 ^ sY p c)) (Z.to_nat (hb_x b / 2 ^ sX p c)) (b_h b / 8) (b_w b / 8)) ->
  inside s0 0 0 32 32 -> inside s1 0 0 32 32 ->
  exists ms' s0' s1', finalizeLLF p lf bs s0 s1 ms = Ok (ms', s0', s1') /\ length ms' = 3 /\
    forall c, c < 3 -> blocks_replaced p (sY p c) (sX p c) (H c) (W c) bs (lowest p lf c) (nth c ms []) (nth c ms' []).
Proof. exact finalize_ok. Qed.
Print Assumptions C82_lowest_partial.

(* The factors are within 2*10^-13 of those that preserve the means. *)
Theorem C82_factors_partial : forall l k, l <= 5 -> k < 2 ^ l -> (Rabs (table_factor (2 ^ l) k - llf_factor (2 ^ l) k) <= 2 / 10 ^ 13)%R.
Proof.
  intros l k Hl Hk. unfold table_factor. rewrite (factor_index l k Hl). apply table_close.
  do 6 (destruct l as [|l]; [cbn [Nat.pow Nat.mul Nat.add] in Hk |- *; cbn [Nat.div Nat.divmod fst]; lia|]). lia.
Qed.
Print Assumptions C82_factors_partial.

(* Why these factors: with them the mean of every 8x8 samples of the block is
   the LF sample below, if the other coefficients are zero. *)
Theorem C82_means_partial : forall H W f i j, i < H -> j < W -> cell_mean (idct2 (8 * H) (8 * W) (llf_only llf_factor H W f)) i j = f i j.
Proof. exact llf_mean. Qed.
Print Assumptions C82_means_partial.

(* ---- both ---- *)
(* All three steps, without subsampling: the lowest coefficients come from the
   LF image, the others are the values above, with their correlation to Y. *)
Definition final (p : HFParams) (quantized : list (list (list Z))) (lf : list (list (list R))) (corr : nat -> nat -> nat -> R) (c : nat) (b : HFBlock) (y x : nat) : R :=
  if in_llf b y x then lowest p lf c b y x 0%R
  else (coefficient p quantized c b y x 0 + (if c =? 1 then 0 else corr c (tile_y b y) (tile_x b x) * coefficient p quantized 1 b y x 0))%R.
Theorem C81_final_partial : forall p quantized colour baseX baseB hfX hfB lf s0 s1 bs ms H W Hc Wc, params_ok p bs -> length quantized = 3 -> length lf = 3 ->
  cfl_group p H W Hc Wc bs hfX hfB ms -> in_order bs -> Forall within_tile bs ->
  (forall b y x, In b bs -> y < b_h b -> x < b_w b -> exists a, In a bs /\ in_lf_block a (64 * tile_y b y) (64 * tile_x b x) = true) ->
  (forall c, c < 3 -> rect H W (nth c quantized [])) ->
  (2 <= hp_xqmScale p < 2 ^ 32)%Z -> (2 <= hp_bqmScale p < 2 ^ 32)%Z -> hp_globalScale p <> 0%Z -> (forall b, In b bs -> hb_mult b <> 0%Z) ->
  (forall b, In b bs -> In (hb_type b) allDCT /\ forall c, c < 3 -> inside (nth c lf []) (Z.to_nat (hb_y b)) (Z.to_nat (hb_x b)) (b_h b / 8) (b_w b / 8)) ->
  inside s0 0 0 32 32 -> inside s1 0 0 32 32 ->
  exists ms', bakeDequantizedCoeffs p quantized colour baseX baseB hfX hfB lf s0 s1 bs ms = Ok ms' /\ length ms' = 3 /\ (forall c, c < 3 -> rrect H W (nth c ms' [])) /\
    forall c b y x, c < 3 -> In b bs -> y < b_h b -> x < b_w b ->
      pixel (nth c ms' []) (b_top p 0 b + y) (b_left p 0 b + x) =
      final p quantized lf (fun c => if c =? 0 then hf_correlation baseX colour hfX else hf_correlation baseB colour hfB) c b y x.
Proof.
  intros p quantized colour baseX baseB hfX hfB lf s0 s1 bs ms H W Hc Wc HP LQ LL HG Ho HT HC RQ HX HB HS HM HL I0 I1.
  pose proof HG as (LY & LX & Hz & LM & HH & RX & RB & RM & H256 & W256 & GY & GX & HPl & HD).
  assert (Pr : forall b, present p 0 0 b) by (intros b; split; apply Z.mod_1_r).
  assert (Lay : layout p 0 0 H W bs).
  { split.
    - intros b Hb. rewrite Forall_forall in HPl. destruct (HPl b Hb) as ((? & ? & _) & ? & ? & _). split; [split; assumption|]. intros _. split; assumption.
    - clear - HD. induction HD as [|b bs F _ IH]; constructor; [|exact IH]. rewrite Forall_forall in *. intros a Ha _ _. exact (F a Ha). }
  destruct (C81_dequantize_partial p quantized bs ms (fun _ => H) (fun _ => W)) as (ms1 & E1 & L1 & D1); try assumption.
  { intros c Hc'. destruct (Hz c) as [-> ->]. split; [exact Lay|]. split; [now apply RQ|now apply RM]. }
  assert (HG1 : cfl_group p H W Hc Wc bs hfX hfB ms1).
  { unfold cfl_group. repeat (split; [first [assumption|reflexivity]|]); try assumption. split; [|repeat (split; [assumption|]); assumption]. intros c Hc'. apply (D1 c Hc'). }
  destruct (C81_chroma_from_luma_partial p colour baseX baseB hfX hfB bs ms1 H W Hc Wc HG1 Ho HT HC) as (mx & mb & E2 & (A1 & A2 & _) & (B1 & B2 & _)).
  destruct (C82_lowest_partial p lf bs s0 s1 [mx; nth 1 ms1 []; mb] (fun _ => H) (fun _ => W)) as (ms3 & t0 & t1 & E3 & L3 & D3); try assumption; try reflexivity.
  { intros c. destruct (Hz c) as [-> ->]. lia. }
  { intros c Hc'. destruct (Hz c) as [-> ->]. split; [exact Lay|]. assert (c = 0 \/ c = 1 \/ c = 2) as [->|[->| ->]] by lia; cbn [nth]; [exact A1|apply (D1 1); lia|exact B1]. }
  { intros b Hb. destruct (HL b Hb) as [T1 T2]. rewrite Forall_forall in HPl. destruct (HPl b Hb) as ((_ & _ & Y0 & X0 & _) & _). split; [exact T1|]. split; [exact Y0|]. split; [exact X0|].
    intros c Hc' _. destruct (Hz c) as [-> ->]. change (2 ^ 0)%Z with 1%Z. rewrite !Z.div_1_r. now apply T2. }
  exists ms3. unfold bakeDequantizedCoeffs. rewrite E1. cbn [obind]. rewrite E2. cbn [obind]. rewrite E3. cbn [obind fst]. split; [reflexivity|]. split; [exact L3|].
  split; [intros c Hc'; apply (D3 c Hc')|]. intros c b y x Hc' Hb Hy Hx. destruct (D3 c Hc') as (_ & D3' & _). specialize (D3' b y x Hb).
  assert (D1' : forall c, c < 3 -> pixel (nth c ms1 []) (b_top p 0 b + y) (b_left p 0 b + x) = coefficient p quantized c b y x (pixel (nth c ms []) (b_top p 0 b + y) (b_left p 0 b + x))).
  { intros c0 Hc0. destruct (D1 c0 Hc0) as (_ & D1' & _). specialize (D1' b y x Hb). destruct (Hz c0) as [Ey Ex]. rewrite Ey, Ex in D1'. now apply D1'. }
  destruct (Hz c) as [Ey Ex]. rewrite Ey, Ex in D3'. rewrite D3' by (assumption || apply Pr). unfold final. unfold lowest at 1 2.
  destruct (in_llf b y x) eqn:EL; [reflexivity|].
  apply in_split in Hb as (p1 & p2 & Eb). pose proof (A2 p1 b p2 y x Eb Hy Hx) as A. pose proof (B2 p1 b p2 y x Eb Hy Hx) as B.
  rewrite !D1' in A, B by lia. unfold coefficient in A, B, D1' |- *. rewrite EL in *.
  assert (c = 0 \/ c = 1 \/ c = 2) as [->|[->| ->]] by lia; cbn [nth Nat.eqb].
  - exact A.
  - rewrite D1' by lia. ring.
  - exact B.
Qed.
Print Assumptions C81_final_partial.

(* ---- examples: the hypotheses are met ---- *)
Example C81_group_example : cfl_group ex_params 72 24 2 1 (early ++ crossing :: late) [[84]; [-20]]%Z [[0]; [7]]%Z ex_group.
Proof. apply ex_cfl_group; split; [reflexivity|repeat constructor|reflexivity|repeat constructor]. Qed.
(* one block of 8x8 samples: every hypothesis of the theorems above *)
Definition one_block : HFBlock := mkHB DCT8 0 0 5.
Definition one_params : HFParams := mkHFP 100 3 2 [0; 0; 0]%Z [0; 0; 0]%Z 0 0 [0.9; 0.9; 0.9]%R 0.1%R [repeat (repeat (repeat 0.5%R 8) 8) 3].
Lemma one_nth {A} h w (v : A) c d : c < 3 -> length (nth c (repeat (repeat (repeat v w) h) 3) d) = h /\ Forall (fun r => length r = w) (nth c (repeat (repeat (repeat v w) h) 3) d).
Proof. intros Hc. assert (c = 0 \/ c = 1 \/ c = 2) as [->|[->| ->]] by lia; apply (rect_repeat h w v). Qed.
Lemma one_inside {A} (v : A) (m : list (list R)) h w : length m = h -> Forall (fun r => length r = w) m -> inside m 0 0 h w.
Proof.
  intros L F. rewrite Forall_forall in F. split; [lia|]. intros y Hy. cbn [Nat.add]. rewrite (F (nth y m [])); [lia|]. apply nth_In. lia.
Qed.
Lemma one_params_ok : params_ok one_params [one_block].
Proof.
  unfold params_ok. split; [reflexivity|]. split; [reflexivity|]. split; [intros c; pose proof (zero_nth 3 c) as G; cbn [repeat] in G; cbn [hp_shiftY hp_shiftX one_params]; rewrite G; lia|]. split; [reflexivity|].
  intros b [<-|[]]. split; [cbn; lia|]. split; [reflexivity|]. intros c Hc. exact (one_nth 8 8 0.5%R c [] Hc).
Qed.
Lemma one_group : cfl_group one_params 8 8 1 1 [one_block] [[84]]%Z [[-7]]%Z (repeat (repeat (repeat 0%R 8) 8) 3).
Proof.
  unfold cfl_group. split; [reflexivity|]. split; [reflexivity|]. split; [intros c; split; exact (zero_nth 3 c)|]. split; [reflexivity|]. split; [lia|].
  split; [split; [reflexivity|repeat constructor]|]. split; [split; [reflexivity|repeat constructor]|]. split; [intros c Hc; now apply one_nth|]. split; [lia|]. split; [lia|].
  split; [reflexivity|]. split; [reflexivity|]. split; [|repeat constructor]. constructor; [|constructor]. unfold placed. cbn. lia.
Qed.
Lemma one_tiles : forall b y x, In b [one_block] -> y < b_h b -> x < b_w b -> exists a, In a [one_block] /\ in_lf_block a (64 * tile_y b y) (64 * tile_x b x) = true.
Proof.
  intros b y x [<-|[]] Hy Hx. exists one_block. split; [now left|]. change (b_h one_block) with 8 in Hy. change (b_w one_block) with 8 in Hx.
  unfold tile_y, tile_x. change (8 * Z.to_nat (hb_y one_block)) with 0. change (8 * Z.to_nat (hb_x one_block)) with 0. cbn [Nat.add]. rewrite (tile_unique y 0), (tile_unique x 0) by lia. reflexivity.
Qed.
Example C81_final_example : exists ms',
  bakeDequantizedCoeffs one_params (repeat (repeat (repeat (-1)%Z 8) 8) 3) 84 0 1 [[84]]%Z [[-7]]%Z (repeat [[3%R]] 3) (repeat (repeat 0%R 32) 32) (repeat (repeat 0%R 32) 32)
    [one_block] (repeat (repeat (repeat 0%R 8) 8) 3) = Ok ms' /\
  pixel (nth 0 ms' []) 0 1 = (- (0.9 * (65536 * (4 / 5) / 500) * 0.5) - 0.9 * (65536 / 500) * 0.5)%R.
Proof.
  destruct (C81_final_partial one_params (repeat (repeat (repeat (-1)%Z 8) 8) 3) 84 0 1 [[84]]%Z [[-7]]%Z (repeat [[3%R]] 3) (repeat (repeat 0%R 32) 32) (repeat (repeat 0%R 32) 32)
    [one_block] (repeat (repeat (repeat 0%R 8) 8) 3) 8 8 1 1) as (ms' & E & _ & _ & P); try reflexivity.
  - exact one_params_ok.
  - exact one_group.
  - repeat constructor.
  - constructor; [left; cbn; lia|constructor].
  - exact one_tiles.
  - intros c Hc. exact (one_nth 8 8 (-1)%Z c [] Hc).
  - cbn. lia.
  - cbn. lia.
  - discriminate.
  - intros b [<-|[]]. discriminate.
  - intros b [<-|[]]. split; [now left|]. intros c Hc. assert (c = 0 \/ c = 1 \/ c = 2) as [->|[->| ->]] by lia; change (inside [[3%R]] 0 0 1 1); (split; [cbn; lia|]); intros [|y] Hy; cbn; lia.
  - apply (one_inside 0%R); apply (rect_repeat 32 32 0%R).
  - apply (one_inside 0%R); apply (rect_repeat 32 32 0%R).
  - exists ms'. split; [exact E|]. specialize (P 0 one_block 0 1 ltac:(lia) ltac:(now left) ltac:(cbn; lia) ltac:(cbn; lia)).
    change (b_top one_params 0 one_block + 0) with 0 in P. change (b_left one_params 0 one_block + 1) with 1 in P. rewrite P. unfold final. change (in_llf one_block 0 1) with false. cbn [Nat.eqb].
    unfold coefficient. change (in_llf one_block 0 1) with false. cbv iota. cbn [hf_channel_qm hp_xqmScale one_params].
    change (px (nth 0 (repeat (repeat (repeat (-1)%Z 8) 8) 3) []) _ _) with (-1)%Z. change (px (nth 1 (repeat (repeat (repeat (-1)%Z 8) 8) 3) []) _ _) with (-1)%Z.
    unfold hf_block_step, hf_qm. change (3 - 2)%Z with 1%Z. change (2 - 2)%Z with 0%Z. change (powerRZ (4 / 5) 1) with ((4 / 5) ^ 1)%R. change (powerRZ (4 / 5) 0) with 1%R.
    unfold hf_correlation. change (px [[84]]%Z _ _) with 84%Z. cbn [hf_value nth hp_quantBias one_params hp_globalScale hb_mult one_block].
    change (hf_weight (hb_type one_block) (table_of one_params 0 one_block) 0 1) with 0.5%R. change (hf_weight (hb_type one_block) (table_of one_params 1 one_block) 0 1) with 0.5%R.
    cbn [pow]. field.
Qed.
Example C82_factors_example : 5 <= 5 /\ 31 < 2 ^ 5.
Proof. cbn. lia. Qed.
Example C82_means_example : cell_mean (idct2 16 8 (llf_only llf_factor 2 1 (fun i _ => INR (3 + i)))) 1 0 = 4%R.
Proof. rewrite (C82_means_partial 2 1) by lia. cbn [Nat.add]. rewrite INR_IZR_INZ. reflexivity. Qed.
