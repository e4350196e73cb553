(* Properties of the samples of VarDCT groups: C105. *)
From Coq Require Import ZArith List Bool Arith Reals Lia Lra ZifyBool ZifyNat.
From Verif Require Import GoBase GoLoop GoMatrix ModelUtil ModelDCT ModelHF ModelVarBlock ModelHFDequant ModelVarDCT SpecDCT SpecColour SpecVarBlock SpecHFDequant SpecTypes SpecVarDCT.
From Verif Require Import ProofDCTMath ProofDCT GoMatrixR ProofLFCoeff ProofVarBlock ProofVarBlock2 ProofVarBlock3 ProofHFDequant ProofCfL ProofLLF PropTypes PropHFDequant ProofVarDCT.
Import ListNotations.
Open Scope nat_scope.

(* ---- C105: samples of VarDCT groups ---- *)
(* F c y x is the sample (y, x) of channel c of the frame, and these are the
   samples of a block of a group at the given place. *)
Definition block_of (F : nat -> nat -> nat -> R) (p : HFParams) (location : Z * Z) (c : nat) (b : HFBlock) (y x : nat) : R :=
  F c (b_top (in_frame p location) (sY p c) b + y) (b_left (in_frame p location) (sX p c) b + x).
(* M bounds the samples of the AFV blocks *)
Definition bounded (M : R) (F : nat -> nat -> nat -> R) (p : HFParams) (location : Z * Z) (bs : list HFBlock) : Prop :=
  forall c b y x, c < 3 -> In b bs -> ~ exact_kind (kind_of (hb_type b)) -> y < b_h b -> x < b_w b -> (Rabs (block_of F p location c b y x) <= M)%R.
(* Transforming back the coefficients of all blocks of a group puts the samples
   to their places in the frame, and changes nothing else.  Missing: the 4x4
   DCT and AFV blocks with another corner (C69, C70, C104). *)
Theorem C105_samples_partial : forall p call location coeffs bs fbs s H W F M, let q := in_frame p location in
  length (hp_shiftY p) = 3 -> length (hp_shiftX p) = 3 -> (forall c, 0 <= sY p c <= 5 /\ 0 <= sX p c <= 5)%Z -> (0 <= fst location)%Z -> (0 <= snd location)%Z ->
  length coeffs = 3 -> length fbs = 3 -> Forall (block_fits p coeffs (block_of F p location)) bs -> bounded M F p location bs ->
  (forall c, c < 3 -> layout q (sY p c) (sX p c) (H c) (W c) bs /\ rrect (H c) (W c) (nth c fbs [])) -> scratch_ok 256 256 s ->
  exists fbs' s', invertBlocks p call location coeffs bs fbs s = Ok (fbs', s') /\ length fbs' = 3 /\ scratch_ok 256 256 s' /\
    forall c, c < 3 -> rrect (H c) (W c) (nth c fbs' []) /\
      (forall b y x, In b bs -> present q (sY p c) (sX p c) b -> y < b_h b -> x < b_w b ->
        near M (kind_of (hb_type b)) (block_of F p location c b) (block_of (fun c => pixel (nth c fbs' [])) p location c b) y x) /\
      (forall y x, (forall b, In b bs -> present q (sY p c) (sX p c) b -> covers_px q (sY p c) (sX p c) b y x = false) -> pixel (nth c fbs' []) y x = pixel (nth c fbs []) y x).
Proof.
  intros p call location coeffs bs fbs s H W F M q LY LX HS L1 L2 LC LF HB HM HC Hs.
  destruct (invertBlocks_ok p call location coeffs bs fbs s H W (block_of F p location) LY LX HS L1 L2 LC LF HB HC Hs) as (fbs' & s' & E & L' & S' & P').
  exists fbs', s'. split; [exact E|]. split; [exact L'|]. split; [exact S'|]. intros c Hc. destruct (P' c Hc) as (R' & I' & O'). split; [exact R'|]. split; [|exact O'].
  intros b y x Hb Pb Hy Hx. fold q in I'. specialize (I' b y x Hb Pb Hy Hx).
  rewrite Forall_forall in HB. destruct (HB b Hb) as (T1 & T2 & _ & T3).
  assert (Pp : present p (sY p c) (sX p c) b) by (apply (present_frame p location); [apply HS|apply HS|exact Pb]). destruct (T3 c Hc Pp) as [_ T4].
  pose proof (types_dct _ T1) as (n & Hn & En). destruct (kind_at n _ Hn En) as (_ & Es & _).
  assert (Sz : size (kind_of (hb_type b)) = (Z.of_nat (b_h b), Z.of_nat (b_w b))).
  { rewrite <- Es. unfold b_h, b_w. f_equal; rewrite Z2Nat.id; try reflexivity.
    - unfold b_h in Hy. destruct (Z.le_gt_cases 0 (tt_pixelHeight (hb_type b))); [assumption|]. exfalso. replace (Z.to_nat (tt_pixelHeight (hb_type b))) with 0 in Hy by lia. lia.
    - unfold b_w in Hx. destruct (Z.le_gt_cases 0 (tt_pixelWidth (hb_type b))); [assumption|]. exfalso. replace (Z.to_nat (tt_pixelWidth (hb_type b))) with 0 in Hx by lia. lia. }
  pose proof (decoded_near M _ _ _ _ _ Sz T2 T4 (fun K v u => HM c b v u Hc Hb K) y x Hy Hx) as N. unfold near in *.
  change (block_of (fun c0 => pixel (nth c0 fbs' [])) p location c b y x) with (pixel (nth c fbs' []) (b_top q (sY p c) b + y) (b_left q (sX p c) b + x)). rewrite I'. exact N.
Qed.
Print Assumptions C105_samples_partial.

(* The final coefficients, with chroma from luma or subsampled (C81, C82). *)
Definition subsampled (p : HFParams) : bool := existsb (fun s => negb (s =? 0)%Z) (hp_shiftX p ++ hp_shiftY p).
Definition final_of (p : HFParams) (quantized : list (list (list Z))) (i : BakeIn) (c : nat) (b : HFBlock) (y x : nat) : R :=
  if subsampled p then if in_llf b y x then lowest p (bi_lf i) c b y x 0%R else coefficient p quantized c b y x 0%R
  else final p quantized (bi_lf i) (fun c => if c =? 0 then hf_correlation (bi_baseX i) (bi_colour i) (bi_hfX i) else hf_correlation (bi_baseB i) (bi_colour i) (bi_hfB i)) c b y x.
(* A group whose blocks have matrices of H0 c by W0 c coefficients.  Without
   subsampling each tile of the correlations must be met by a block that starts
   no later than those that use it (C81). *)
Record group_ready (p : HFParams) (H0 W0 : nat -> nat) (quantized : list (list (list Z))) (dequant : list (list (list R))) (i : BakeIn) (bs : list HFBlock) : Prop := {
  gr_params : params_ok p bs; gr_quantized : length quantized = 3; gr_lf : length (bi_lf i) = 3; gr_dequant : length dequant = 3;
  gr_shapes : forall c, c < 3 -> layout p (sY p c) (sX p c) (H0 c) (W0 c) bs /\ rect (H0 c) (W0 c) (nth c quantized []) /\ rrect (H0 c) (W0 c) (nth c dequant []);
  gr_scales : (2 <= hp_xqmScale p < 2 ^ 32 /\ 2 <= hp_bqmScale p < 2 ^ 32 /\ hp_globalScale p <> 0)%Z;
  gr_mult : forall b, In b bs -> hb_mult b <> 0%Z;
  gr_types : forall b, In b bs -> In (hb_type b) allDCT /\ (0 <= hb_y b)%Z /\ (0 <= hb_x b)%Z /\ forall c, c < 3 -> present p (sY p c) (sX p c) b ->
     inside (nth c (bi_lf i) []) (Z.to_nat (hb_y b / 2 ^ sY p c)) (Z.to_nat (hb_x b / 2 ^ sX p c)) (b_h b / 8) (b_w b / 8);
  gr_scratch : inside (bi_s0 i) 0 0 32 32 /\ inside (bi_s1 i) 0 0 32 32;
  gr_tiles : subsampled p = false -> exists Hc Wc, cfl_group p (H0 0) (W0 0) Hc Wc bs (bi_hfX i) (bi_hfB i) dequant /\ (forall c, c < 3 -> H0 c = H0 0 /\ W0 c = W0 0) /\
     in_order bs /\ Forall within_tile bs /\ (forall b y x, In b bs -> y < b_h b -> x < b_w b -> exists a, In a bs /\ in_lf_block a (64 * tile_y b y) (64 * tile_x b x) = true) }.
Definition bake (p : HFParams) (quantized : list (list (list Z))) (dequant : list (list (list R))) (i : BakeIn) (bs : list HFBlock) : Outcome (list (list (list R))) :=
  bakeDequantizedCoeffs p quantized (bi_colour i) (bi_baseX i) (bi_baseB i) (bi_hfX i) (bi_hfB i) (bi_lf i) (bi_s0 i) (bi_s1 i) bs dequant.
Lemma bake_ok p H0 W0 quantized dequant i bs : group_ready p H0 W0 quantized dequant i bs ->
  exists ms', bake p quantized dequant i bs = Ok ms' /\ length ms' = 3 /\ forall c, c < 3 -> rrect (H0 c) (W0 c) (nth c ms' []) /\
    forall b y x, In b bs -> present p (sY p c) (sX p c) b -> y < b_h b -> x < b_w b ->
      pixel (nth c ms' []) (b_top p (sY p c) b + y) (b_left p (sX p c) b + x) = final_of p quantized i c b y x.
Proof.
  intros [HP LQ LL LD HC (X1 & X2 & X3) HM HT (I0 & I1) HG]. unfold final_of. destruct (subsampled p) eqn:SS.
  - clear HG. pose proof HP as (LY & LX & HS & _).
    destruct (C81_dequantize_partial p quantized bs dequant H0 W0 HP LD LQ HC X1 X2 X3 HM) as (ms1 & E1 & L1 & D1).
    destruct (C82_lowest_partial p (bi_lf i) bs (bi_s0 i) (bi_s1 i) ms1 H0 W0 LY LX HS LL L1) as (ms3 & t0 & t1 & E3 & L3 & D3); try assumption.
    { intros c Hc. split; [apply HC; exact Hc|apply (D1 c Hc)]. }
    exists ms3. unfold bake, bakeDequantizedCoeffs. rewrite E1. cbn [obind]. rewrite C81_subsampled.
    + cbn [obind]. rewrite E3. cbn [obind fst]. split; [reflexivity|]. split; [exact L3|]. intros c Hc. destruct (D3 c Hc) as (R3 & V3 & _). destruct (D1 c Hc) as (_ & V1 & _). split; [exact R3|].
      intros b y x Hb Pb Hy Hx. rewrite (V3 b y x Hb Pb Hy Hx). unfold lowest at 1 2. destruct (in_llf b y x) eqn:EL; [reflexivity|]. rewrite (V1 b y x Hb Pb Hy Hx). unfold coefficient. rewrite EL. reflexivity.
    + apply existsb_exists in SS as (s & Hs & N). exists s. split; [exact Hs|]. lia.
  - destruct (HG eq_refl) as (Hc & Wc & G & HW & Ho & HT' & HC').
    pose proof G as (_ & _ & Hz & _).
    destruct (C81_final_partial p quantized (bi_colour i) (bi_baseX i) (bi_baseB i) (bi_hfX i) (bi_hfB i) (bi_lf i) (bi_s0 i) (bi_s1 i) bs dequant (H0 0) (W0 0) Hc Wc) as (ms' & E & L' & R' & V'); try assumption.
    { intros c Hc3. destruct (HC c Hc3) as (_ & Q & _). destruct (HW c Hc3) as [-> ->] in Q. exact Q. }
    { intros b Hb. destruct (HT b Hb) as (T1 & _ & _ & T2). split; [exact T1|]. intros c Hc3. specialize (T2 c Hc3). destruct (Hz c) as [Ey Ex]. rewrite Ey, Ex in T2. change (2 ^ 0)%Z with 1%Z in T2. rewrite !Z.div_1_r in T2. apply T2.
      split; apply Z.mod_1_r. }
    exists ms'. split; [exact E|]. split; [exact L'|]. intros c Hc3. destruct (HW c Hc3) as [-> ->]. split; [exact (R' c Hc3)|]. intros b y x Hb _ Hy Hx. destruct (Hz c) as [-> ->]. exact (V' c b y x Hc3 Hb Hy Hx).
Qed.

(* One group from its quantized coefficients.  The final coefficients of each
   of its blocks are the transforms of the samples. *)
Record group_sent (p : HFParams) (location : Z * Z) (quantized : list (list (list Z))) (dequant : list (list (list R))) (i : BakeIn) (s : Scratch) (H W : nat -> nat) (F : nat -> nat -> nat -> R) (bs : list HFBlock) : Prop := {
  gs_ready : exists H0 W0, group_ready p H0 W0 quantized dequant i bs;
  gs_shifts : forall c, (0 <= sY p c <= 5 /\ 0 <= sX p c <= 5)%Z; gs_location : (0 <= fst location /\ 0 <= snd location)%Z;
  gs_layout : forall c, c < 3 -> layout (in_frame p location) (sY p c) (sX p c) (H c) (W c) bs;
  gs_kinds : forall b, In b bs -> supported (kind_of (hb_type b));
  gs_coeffs : forall c b y x, c < 3 -> In b bs -> present p (sY p c) (sX p c) b -> y < b_h b -> x < b_w b ->
    final_of p quantized i c b y x = encode (pixel AFV_BASIS) (kind_of (hb_type b)) (block_of F p location c b) y x;
  gs_scratch : scratch_ok 256 256 s }.
Theorem C105_group_partial : forall p call location select mult blocks quantized dequant i fbs s H W F M bs, let q := in_frame p location in
  groupBlocks select mult blocks = Ok bs -> group_sent p location quantized dequant i s H W F bs -> bounded M F p location bs ->
  length fbs = 3 -> (forall c, c < 3 -> rrect (H c) (W c) (nth c fbs [])) ->
  exists fbs', invertVarDCT p call location false select mult blocks quantized dequant i fbs s = Ok fbs' /\ length fbs' = 3 /\
    forall c, c < 3 -> rrect (H c) (W c) (nth c fbs' []) /\
      (forall b y x, In b bs -> present q (sY p c) (sX p c) b -> y < b_h b -> x < b_w b ->
        near M (kind_of (hb_type b)) (block_of F p location c b) (block_of (fun c => pixel (nth c fbs' [])) p location c b) y x) /\
      (forall y x, (forall b, In b bs -> present q (sY p c) (sX p c) b -> covers_px q (sY p c) (sX p c) b y x = false) -> pixel (nth c fbs' []) y x = pixel (nth c fbs []) y x).
Proof.
  intros p call location select mult blocks quantized dequant i fbs s H W F M bs q EB [(H0 & W0 & RD) HS (L1 & L2) HL HK HF Hs] HM LF HR.
  destruct (bake_ok p H0 W0 quantized dequant i bs RD) as (ms & E1 & Lm & V). pose proof (gr_params _ _ _ _ _ _ _ RD) as (LY & LX & _).
  destruct (C105_samples_partial p call location ms bs fbs s H W F M LY LX HS L1 L2 Lm LF) as (fbs' & s' & E2 & L' & _ & P'); try assumption.
  - apply Forall_forall. intros b Hb. destruct (gr_types _ _ _ _ _ _ _ RD b Hb) as (T1 & _). destruct (gr_shapes _ _ _ _ _ _ _ RD 0 ltac:(lia)) as ((Ly & _) & _). destruct (Ly b Hb) as [Pos _].
    split; [exact T1|]. split; [apply HK; exact Hb|]. split; [exact Pos|]. intros c Hc Pb. destruct (gr_shapes _ _ _ _ _ _ _ RD c Hc) as ((Lc & _) & _). destruct (Lc b Hb) as [_ Fit]. destruct (Fit Pb) as [F1 F2].
    destruct (V c Hc) as [R1 V1]. split; [exact (inside_rrect _ _ _ _ _ _ _ R1 F1 F2)|]. intros v u Hv Hu. rewrite (V1 b v u Hb Pb Hv Hu). apply HF; assumption.
  - intros c Hc. split; [apply HL; exact Hc|apply HR; exact Hc].
  - exists fbs'. unfold invertVarDCT. rewrite EB. cbn [obind]. unfold bake in E1. rewrite E1. cbn [obind]. rewrite E2. cbn [obind fst]. split; [reflexivity|]. split; [exact L'|exact P'].
Qed.
Print Assumptions C105_group_partial.

(* All groups of a frame, in any order. *)
Definition job_blocks (j : GroupJob) : list HFBlock := match groupBlocks (gj_select j) (gj_mult j) (gj_blocks j) with Ok bs => bs | _ => [] end.
Definition job_sent (H W : nat -> nat) (F : nat -> nat -> nat -> R) (j : GroupJob) : Prop :=
  groupBlocks (gj_select j) (gj_mult j) (gj_blocks j) = Ok (job_blocks j) /\
  group_sent (gj_params j) (gj_location j) (gj_quantized j) (gj_dequant j) (gj_bake j) (gj_scratch j) H W F (job_blocks j).
(* block b of group j is in channel c; it has sample (y, x) of the channel *)
Definition job_has (j : GroupJob) (c : nat) (b : HFBlock) : Prop :=
  In b (job_blocks j) /\ present (in_frame (gj_params j) (gj_location j)) (sY (gj_params j) c) (sX (gj_params j) c) b.
Definition job_covers (j : GroupJob) (c : nat) (b : HFBlock) (y x : nat) : bool :=
  covers_px (in_frame (gj_params j) (gj_location j)) (sY (gj_params j) c) (sX (gj_params j) c) b y x.
Definition jobs_apart (j j' : GroupJob) : Prop := forall c b b' y x, c < 3 -> job_has j c b -> job_has j' c b' -> job_covers j c b y x = true -> job_covers j' c b' y x = false.
Theorem C105_frame_partial : forall js fbs H W F M, Forall (job_sent H W F) js -> ForallOrdPairs jobs_apart js ->
  Forall (fun j => bounded M F (gj_params j) (gj_location j) (job_blocks j)) js ->
  length fbs = 3 -> (forall c, c < 3 -> rrect (H c) (W c) (nth c fbs [])) ->
  exists fbs', invertGroups false js fbs = Ok fbs' /\ length fbs' = 3 /\
    forall c, c < 3 -> rrect (H c) (W c) (nth c fbs' []) /\
      (forall j b y x, In j js -> job_has j c b -> y < b_h b -> x < b_w b ->
        near M (kind_of (hb_type b)) (block_of F (gj_params j) (gj_location j) c b) (block_of (fun c => pixel (nth c fbs' [])) (gj_params j) (gj_location j) c b) y x) /\
      (forall y x, (forall j b, In j js -> job_has j c b -> job_covers j c b y x = false) -> pixel (nth c fbs' []) y x = pixel (nth c fbs []) y x).
Proof.
  intros js fbs H W F M HJ HD HM. revert fbs. induction js as [|j js IH]; intros fbs LF HR.
  - exists fbs. split; [reflexivity|]. split; [exact LF|]. intros c Hc. split; [apply HR; exact Hc|]. split; [intros j b y x []|reflexivity].
  - inversion HJ as [|? ? (EB & GS) HJ']; subst. inversion HD as [|? ? Dj HD']; subst. inversion HM as [|? ? Mj HM']; subst. rewrite Forall_forall in Dj.
    destruct (C105_group_partial (gj_params j) (gj_call j) (gj_location j) (gj_select j) (gj_mult j) (gj_blocks j) (gj_quantized j) (gj_dequant j) (gj_bake j) fbs (gj_scratch j) H W F M (job_blocks j) EB GS Mj LF HR) as (f1 & E1 & L1 & P1).
    destruct (IH HJ' HD' HM' f1 L1 (fun c Hc => proj1 (P1 c Hc))) as (f2 & E2 & L2 & P2).
    exists f2. cbn [invertGroups]. unfold invertJob. rewrite E1. cbn [obind]. split; [exact E2|]. split; [exact L2|]. intros c Hc. destruct (P1 c Hc) as (R1 & V1 & O1). destruct (P2 c Hc) as (R2 & V2 & O2).
    split; [exact R2|]. split.
    + intros j' b y x [<-|Hj] Hb Hy Hx; [|now apply V2]. pose proof (V1 b y x (proj1 Hb) (proj2 Hb) Hy Hx) as N. unfold near in *.
      assert (Eq : block_of (fun c0 => pixel (nth c0 f2 [])) (gj_params j) (gj_location j) c b y x = block_of (fun c0 => pixel (nth c0 f1 [])) (gj_params j) (gj_location j) c b y x).
      { unfold block_of. apply O2. intros j' b' Hj Hb'. apply (Dj j' Hj c b b' _ _ Hc Hb Hb'). unfold job_covers. apply covers_at; assumption. }
      rewrite Eq. exact N.
    + intros y x Hn. rewrite O2 by (intros j' b Hj; apply Hn; right; exact Hj). apply O1. intros b Hb Pb. apply (Hn j b (or_introl eq_refl)). split; assumption.
Qed.
Print Assumptions C105_frame_partial.
(* With every sample in a block and no AFV blocks the channels are F. *)
Theorem C105_exact_partial : forall js fbs H W F, Forall (job_sent H W F) js -> ForallOrdPairs jobs_apart js ->
  length fbs = 3 -> (forall c, c < 3 -> rrect (H c) (W c) (nth c fbs [])) ->
  (forall j b, In j js -> In b (job_blocks j) -> exact_kind (kind_of (hb_type b))) ->
  (forall c y x, c < 3 -> y < H c -> x < W c -> exists j b, In j js /\ job_has j c b /\ job_covers j c b y x = true) ->
  invertGroups false js fbs = Ok (map (fun c => rmat (H c) (W c) (F c)) [0; 1; 2]).
Proof.
  intros js fbs H W F HJ HD LF HR HK HC.
  assert (HM : Forall (fun j => bounded 0 F (gj_params j) (gj_location j) (job_blocks j)) js) by (apply Forall_forall; intros j Hj c b y x _ Hb N; destruct (N (HK j b Hj Hb))).
  destruct (C105_frame_partial js fbs H W F 0 HJ HD HM LF HR) as (fbs' & E & L' & P). rewrite E. f_equal.
  assert (G : forall c, c < 3 -> nth c fbs' [] = rmat (H c) (W c) (F c)).
  { intros c Hc. destruct (P c Hc) as (R & V & _). apply (rrect_ext (H c) (W c)); [exact R|apply rrect_rmat|]. intros y x Hy Hx. rewrite pixel_rmat by assumption.
    destruct (HC c y x Hc Hy Hx) as (j & b & Hj & Hb & Cv). pose proof (HK j b Hj (proj1 Hb)) as K. unfold job_covers, covers_px, in_block in Cv.
    set (q := in_frame (gj_params j) (gj_location j)) in *. set (ty := b_top q (sY (gj_params j) c) b) in *. set (tx := b_left q (sX (gj_params j) c) b) in *.
    specialize (V j b (y - ty) (x - tx) Hj Hb ltac:(lia) ltac:(lia)). unfold near, block_of in V. fold q ty tx in V. replace (ty + (y - ty)) with y in V by lia. replace (tx + (x - tx)) with x in V by lia.
    destruct (kind_of (hb_type b)); try exact V; destruct K. }
  destruct fbs' as [|a [|b [|c [|]]]]; try discriminate. cbn [map]. f_equal; [apply (G 0); lia|]. f_equal; [apply (G 1); lia|]. f_equal. apply (G 2). lia.
Qed.
Print Assumptions C105_exact_partial.
(* Finding: with a second pass the decoder panics. *)
Theorem C105_passes_refuted : forall j js fbs, invertGroups true (j :: js) fbs = Panic.
Proof. reflexivity. Qed.
Print Assumptions C105_passes_refuted.

(* A frame of one block of 8x8 samples with any coefficients *)
Definition ex_quantized (q : nat -> nat -> nat -> Z) : list (list (list Z)) := map (fun c => mat 8 8 (q c)) [0; 1; 2].
Definition ex_bake : BakeIn := mkBI 84 0 1 [[84]]%Z [[-7]]%Z (repeat [[3%R]] 3) (repeat (repeat 0%R 32) 32) (repeat (repeat 0%R 32) 32).
Definition ex_scratch : Scratch := let z := repeat (repeat 0%R 256) 256 in (z, z, z, z).
Definition ex_job (q : nat -> nat -> nat -> Z) : GroupJob :=
  mkGJ one_params (fun _ => 0) (0, 0)%Z [[1]]%Z [[5]]%Z [None; Some (0, 0)%Z] (ex_quantized q) (repeat (repeat (repeat 0%R 8) 8) 3) ex_bake ex_scratch.
Definition ex_samples (q : nat -> nat -> nat -> Z) (c : nat) : nat -> nat -> R := idct2 8 8 (final_of one_params (ex_quantized q) ex_bake c one_block).
Lemma ex_layout c : layout (in_frame one_params (0, 0)%Z) (sY one_params c) (sX one_params c) 8 8 [one_block] /\ layout one_params (sY one_params c) (sX one_params c) 8 8 [one_block].
Proof.
  assert (E : sY one_params c = 0%Z /\ sX one_params c = 0%Z) by (split; exact (zero_nth 3 c)). destruct E as [-> ->].
  split; (split; [|repeat constructor]); intros b [<-|[]]; (split; [cbn; lia|]); intros _; cbn; lia.
Qed.
Lemma ex_group_sent q : group_sent one_params (0, 0)%Z (ex_quantized q) (repeat (repeat (repeat 0%R 8) 8) 3) ex_bake ex_scratch (fun _ => 8) (fun _ => 8) (ex_samples q) [one_block].
Proof.
  constructor.
  - exists (fun _ => 8), (fun _ => 8). constructor.
    + exact one_params_ok.
    + reflexivity.
    + reflexivity.
    + reflexivity.
    + intros c Hc. split; [apply ex_layout|]. split; [|now apply one_nth]. assert (c = 0 \/ c = 1 \/ c = 2) as [->|[->| ->]] by lia; apply rect_mat.
    + cbn. lia.
    + intros b [<-|[]]. discriminate.
    + intros b [<-|[]]. split; [now left|]. split; [cbn; lia|]. split; [cbn; lia|]. intros c Hc _. assert (E : sY one_params c = 0%Z /\ sX one_params c = 0%Z) by (split; exact (zero_nth 3 c)). destruct E as [-> ->].
      assert (c = 0 \/ c = 1 \/ c = 2) as [->|[->| ->]] by lia; change (inside [[3%R]] 0 0 1 1); (split; [cbn; lia|]); intros [|y] Hy; cbn; lia.
    + split; apply (one_inside 0%R); apply (rect_repeat 32 32 0%R).
    + intros _. exists 1, 1. split; [exact one_group|]. split; [intros; split; reflexivity|]. split; [repeat constructor|]. split; [constructor; [left; cbn; lia|constructor]|]. exact one_tiles.
  - intros c. assert (E : sY one_params c = 0%Z /\ sX one_params c = 0%Z) by (split; exact (zero_nth 3 c)). destruct E as [-> ->]. lia.
  - cbn. lia.
  - intros c Hc. apply ex_layout.
  - intros b [<-|[]]. exact I.
  - intros c b y x Hc [<-|[]] _ Hy Hx. change (kind_of (hb_type one_block)) with (Dct 8 8). cbn [encode]. change (Z.to_nat 8) with 8. symmetry.
    change (dct2 8 8 (fun y x => ex_samples q c y x) y x = final_of one_params (ex_quantized q) ex_bake c one_block y x). unfold ex_samples. apply dct2_idct2; assumption.
  - unfold scratch_ok, ex_scratch. repeat split; try apply rrect_repeat.
Qed.
Lemma ex_sent q : job_sent (fun _ => 8) (fun _ => 8) (ex_samples q) (ex_job q).
Proof. split; [reflexivity|exact (ex_group_sent q)]. Qed.
Example C105_example : forall q, invertGroups false [ex_job q] (repeat (repeat (repeat 7%R 8) 8) 3) = Ok (map (fun c => rmat 8 8 (ex_samples q c)) [0; 1; 2]).
Proof.
  intros q. apply (C105_exact_partial [ex_job q] _ (fun _ => 8) (fun _ => 8) (ex_samples q)).
  - constructor; [apply ex_sent|constructor].
  - repeat constructor.
  - reflexivity.
  - intros c Hc. exact (one_nth 8 8 7%R c [] Hc).
  - intros j b [<-|[]] Hb. change (job_blocks (ex_job q)) with [one_block] in Hb. destruct Hb as [<-|[]]. exact I.
  - intros c y x Hc Hy Hx. exists (ex_job q), one_block. split; [now left|]. split; [split; [left; reflexivity|]|].
    + assert (E : sY one_params c = 0%Z /\ sX one_params c = 0%Z) by (split; exact (zero_nth 3 c)). change (gj_params (ex_job q)) with one_params. destruct E as [-> ->]. split; apply Z.mod_1_r.
    + unfold job_covers, covers_px, in_block, b_top, b_left. assert (E : sY one_params c = 0%Z /\ sX one_params c = 0%Z) by (split; exact (zero_nth 3 c)). change (gj_params (ex_job q)) with one_params. destruct E as [-> ->].
      change (b_h one_block) with 8. change (b_w one_block) with 8. cbn. lia.
Qed.
