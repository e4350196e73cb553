(* Properties of the LF groups of VarDCT frames: C103. *)
From Coq Require Import ZArith List Bool Lia Arith Reals ZifyBool ZifyNat.
From Verif Require Import GoBase GoLoop GoMatrix Bits ModelBitReader ModelUtil ModelEntropy ModelMATree ModelModular ModelModStream ModelModDecode ModelLFCoeff ModelHF ModelLFGroup.
From Verif Require Import SpecCodes SpecBitReader SpecUtil SpecHF SpecModStream SpecModDecode SpecStream SpecModular SpecLFCoeff SpecLFGroup.
From Verif Require Import ProofReads ProofCodes ProofUtil ProofToc ProofHF ProofHFCoeff PropSymbols PropModDecode PropModFrame PropHF.
Import ListNotations.
Open Scope Z_scope.

Lemma ceil_log x : 1 <= x < 2 ^ 32 -> CeilLog2_u32 x = Z.log2_up x /\ 0 <= Z.log2_up x <= 32.
Proof.
  intros H. destruct (CeilLog2_u32_ok x H) as (H0 & H1 & H2). assert (E : CeilLog2_u32 x = Z.log2_up x).
  { destruct H2 as [H2|H2]; [rewrite H2 in *; change (2 ^ 0) with 1 in H1; replace x with 1 by lia; reflexivity|].
    destruct (Z.eq_dec (CeilLog2_u32 x) 0) as [K|K]; [rewrite K in *; change (2 ^ 0) with 1 in H1; replace x with 1 by lia; reflexivity|]. symmetry. apply Z.log2_up_unique; [lia|]. rewrite <- Z.sub_1_r. lia. }
  split; [exact E|]. split; [apply Z.log2_up_nonneg|]. change 32 with (Z.log2_up (2 ^ 32)). apply Z.log2_up_le_mono. lia.
Qed.
Lemma stream_read gd global depth dim stream P c chs s d p : 3 <= depth <= 24 -> 0 <= stream < 2 ^ 31 -> 0 <= dim < 2 ^ 32 -> Forall2 laid chs P -> frame_tree gd global ->
  stream_bits depth global stream P c -> reader_at s d p -> bits_at d p c -> (p + length c + 15 <= 8 * length d)%nat ->
  exists chs' s', decodeModular gd depth dim stream chs s = (Ok chs', s') /\ Forall2 shows chs' P /\ reader_at s' d (p + length c).
Proof.
  intros Hd Hs Hdim HL Hg [[-> ->]|(NP & l & meta & Q & H1 & H2 & H3 & H4 & H5)] Hr Hb Hk.
  - inversion HL. subst. exists [], s. cbn [length]. rewrite Nat.add_0_r. split; [reflexivity|]. split; [constructor|exact Hr].
  - exact (C98_image_partial gd global stream l depth P meta Q chs dim c s d p Hd Hs Hdim NP H1 H2 H3 H4 HL H5 Hg Hr Hb Hk).
Qed.
Lemma shown c p : shows c p -> (0 < p_h p)%nat -> (0 < p_w p)%nat -> c_buf c = p_px p.
Proof. intros (_ & _ & _ & _ & [E|[[E|E] _]]) H1 H2; [exact E|lia|lia]. Qed.
Lemma new_laid h w vs hs m h' w' : 0 <= h < 2 ^ 31 -> 0 <= w < 2 ^ 31 -> h' = Z.to_nat h -> w' = Z.to_nat w -> laid (newChan (i32 h) (i32 w) vs hs false) (mkPl h' w' vs hs m).
Proof.
  intros Hh Hw -> ->. unfold laid, newChan. cbn. rewrite (i32_small h), (i32_small w) by lia. rewrite (u32_small h), (u32_small w) by lia. rewrite !Z2Nat.id by lia. repeat split; reflexivity.
Qed.

(* ---- C103: LF groups of VarDCT frames from bits ---- *)
(* A size that the LF samples of all channels divide *)
Definition whole (p : LFParams) : Prop := 0 < lp_height p <= 8192 /\ 0 < lp_width p <= 8192 /\
  forall i, (i < 3)%nat -> 0 <= part (lp_shiftY p) i /\ 0 <= part (lp_shiftX p) i /\ (2 ^ part (lp_shiftY p) i | lp_height p) /\ (2 ^ part (lp_shiftX p) i | lp_width p).
Lemma whole_chan p i : whole p -> (i < 3)%nat -> (0 < chan_h p i)%nat /\ (0 < chan_w p i)%nat /\ Z.of_nat (chan_h p i) = lp_height p / 2 ^ part (lp_shiftY p) i /\ Z.of_nat (chan_w p i) = lp_width p / 2 ^ part (lp_shiftX p) i /\
  lp_height p / 2 ^ part (lp_shiftY p) i <= lp_height p /\ lp_width p / 2 ^ part (lp_shiftX p) i <= lp_width p.
Proof.
  intros (Hh & Hw & Hs) Hi. destruct (Hs i Hi) as (H1 & H2 & [a Ha] & [b Hb]). unfold chan_h, chan_w.
  pose proof (Z.pow_pos_nonneg 2 _ ltac:(lia) H1) as P1. pose proof (Z.pow_pos_nonneg 2 _ ltac:(lia) H2) as P2. assert (E1 : lp_height p / 2 ^ part (lp_shiftY p) i = a) by (rewrite Ha; apply Z.div_mul; lia). assert (E2 : lp_width p / 2 ^ part (lp_shiftX p) i = b) by (rewrite Hb; apply Z.div_mul; lia). rewrite E1, E2. set (u := 2 ^ part (lp_shiftY p) i) in *. set (v := 2 ^ part (lp_shiftX p) i) in *. clearbody u v.
  assert (0 < a /\ 0 < b) by (clear - Ha Hb Hh Hw P1 P2; nia). split; [lia|]. split; [lia|]. split; [lia|]. split; [lia|]. clear - Ha Hb H P1 P2; nia.
Qed.
Definition samples (q : nat -> list (list Z)) : list (list (list Z)) := [q 1%nat; q 0%nat; q 2%nat].
Definition block_lf (p : LFParams) (hc : HFBlockContext) (q : nat -> list (list Z)) (y x : nat) : Z :=
  let v i := px (q i) (Z.to_nat (Z.of_nat y / 2 ^ part (lp_shiftY p) i)) (Z.to_nat (Z.of_nat x / 2 ^ part (lp_shiftX p) i)) in
  lf_context (nth 0 (hb_lfThresholds hc) []) (nth 1 (hb_lfThresholds hc) []) (nth 2 (hb_lfThresholds hc) []) (v 0%nat) (v 1%nat) (v 2%nat).
Lemma part_nth {A} (t : A * A * A) i d : (i < 3)%nat -> (let '(a, b, c) := t in nth i [a; b; c] d) = part t i.
Proof. destruct t as [[a b] c]. intros H. do 3 (destruct i as [|i]; [reflexivity|]). lia. Qed.
Lemma lf_sample_read p hc q i y x : whole p -> hb_shape hc -> (i < 3)%nat -> (forall i, (i < 3)%nat -> rect (chan_h p i) (chan_w p i) (q i)) -> Z.of_nat y < lp_height p -> Z.of_nat x < lp_width p ->
  exists v, lfSample p hc (samples q) i (Z.of_nat y) (Z.of_nat x) = Ok v /\
    forall u, below (nth i (hb_lfThresholds hc) []) v = below (nth i (hb_lfThresholds hc) []) u \/ v = px (q i) (Z.to_nat (Z.of_nat y / 2 ^ part (lp_shiftY p) i)) (Z.to_nat (Z.of_nat x / 2 ^ part (lp_shiftX p) i)).
Proof.
  intros HW (t0 & t1 & t2 & E & _) Hi HQ Hy Hx. unfold lfSample. rewrite !(part_nth _ i 0 Hi). rewrite E.
  assert (G : slice_get [t0; t1; t2] (Z.of_nat i) = Ok (nth i [t0; t1; t2] [])) by (do 3 (destruct i as [|i]; [reflexivity|]); lia). rewrite G. cbn [obind].
  destruct (nth i [t0; t1; t2] []) as [|a t] eqn:Et; [exists 0; split; [reflexivity|]; intros u; left; reflexivity|].
  destruct (whole_chan p i HW Hi) as (_ & _ & C1 & C2 & _). destruct HW as (_ & _ & HS). destruct (HS i Hi) as (S1 & S2 & D1 & D2).
  assert (G2 : obind (slice_get cMap (Z.of_nat i)) (fun c => slice_get (samples q) c) = Ok (q i)) by (do 3 (destruct i as [|i]; [reflexivity|]); lia).
  destruct (slice_get cMap (Z.of_nat i)) as [c| |]; cbn [obind] in *; try discriminate. rewrite G2. cbn [obind]. rewrite !Z.shiftr_div_pow2 by assumption.
  rewrite (get2_ok (chan_h p i) (chan_w p i)).
  - eexists. split; [reflexivity|]. intros u. right. reflexivity.
  - exact (HQ i Hi).
  - rewrite C1. pose proof (Z.pow_pos_nonneg 2 _ ltac:(lia) S1). split; [apply Z.div_pos; lia|]. destruct D1 as [k Ek]. rewrite Ek, Z.div_mul by lia. apply Z.div_lt_upper_bound; [lia|]. rewrite Z.mul_comm, <- Ek. lia.
  - rewrite C2. pose proof (Z.pow_pos_nonneg 2 _ ltac:(lia) S2). split; [apply Z.div_pos; lia|]. destruct D2 as [k Ek]. rewrite Ek, Z.div_mul by lia. apply Z.div_lt_upper_bound; [lia|]. rewrite Z.mul_comm, <- Ek. lia.
Qed.
Lemma context_value hc v0 v1 v2 : hb_shape hc -> getLFIndex hc (fun i => if i =? 0 then v0 else if i =? 1 then v1 else v2) =
  Ok (lf_context (nth 0 (hb_lfThresholds hc) []) (nth 1 (hb_lfThresholds hc) []) (nth 2 (hb_lfThresholds hc) []) v0 v1 v2).
Proof.
  intros Hc. destruct (C43_lf_index hc (fun i => if i =? 0 then v0 else if i =? 1 then v1 else v2) Hc) as (i & E & B). rewrite E. f_equal. destruct Hc as (t0 & t1 & t2 & Et & N & L & M & _).
  unfold getLFIndex in E. rewrite Et in *. change (slice_get [t0; t1; t2] 0) with (Ok t0) in E. change (slice_get [t0; t1; t2] 1) with (Ok t1) in E. change (slice_get [t0; t1; t2] 2) with (Ok t2) in E. cbn [obind] in E. change (0 =? 0) with true in E. change (1 =? 0) with false in E. change (1 =? 1) with true in E. change (2 =? 0) with false in E. change (2 =? 1) with false in E. cbv iota in E.
  pose proof (countAbove_range v0 t0). pose proof (countAbove_range v1 t1). pose proof (countAbove_range v2 t2). cbn [nth]. unfold lf_context, below. fold (countAbove v0 t0) (countAbove v1 t1) (countAbove v2 t2).
  set (c0 := countAbove v0 t0) in *. set (c1 := countAbove v1 t1) in *. set (c2 := countAbove v2 t2) in *. set (n0 := Z.of_nat (length t0)) in *. set (n1 := Z.of_nat (length t1)) in *. set (n2 := Z.of_nat (length t2)) in *.
  set (nq := Z.of_nat (length (hb_qfThresholds hc))) in *. assert (Q0 : 0 <= nq) by (unfold nq; lia). clearbody c0 c1 c2 n0 n1 n2 nq.
  assert (D : (n0 + 1) * (n1 + 1) * (n2 + 1) <= 64). { rewrite <- N. assert (39 * (1 * hb_numLFContexts hc) <= 39 * ((nq + 1) * hb_numLFContexts hc)) by (assert (0 <= hb_numLFContexts hc) by lia; nia). lia. }
  assert (A : 0 <= c0 * (n2 + 1) + c2 <= (n0 + 1) * (n2 + 1) - 1) by (clear - H H1; nia).
  assert (C : 0 <= (c0 * (n2 + 1) + c2) * (n1 + 1) + c1 < (n0 + 1) * (n1 + 1) * (n2 + 1)).
  { replace ((n0 + 1) * (n1 + 1) * (n2 + 1)) with ((n0 + 1) * (n2 + 1) * (n1 + 1)) by ring. set (u := c0 * (n2 + 1) + c2) in *. set (v := (n0 + 1) * (n2 + 1)) in *. clearbody u v. clear - A H0. nia. }
  rewrite i32_small in E by lia. injection E as <-. ring.
Qed.
Lemma index_read p hc q : whole p -> hb_shape hc -> (forall i, (i < 3)%nat -> rect (chan_h p i) (chan_w p i) (q i)) ->
  populatedLFIndex p hc (samples q) = Ok (mat (Z.to_nat (lp_height p)) (Z.to_nat (lp_width p)) (block_lf p hc q)).
Proof.
  intros HW HC HQ. set (h := Z.to_nat (lp_height p)). set (w := Z.to_nat (lp_width p)). unfold populatedLFIndex. fold h w.
  pose (done := fun (y x : nat) (m : list (list Z)) => rect h w m /\ forall y' x', (y' < h)%nat -> (x' < w)%nat -> (y' < y \/ y' = y /\ x' < x)%nat -> px m y' x' = block_lf p hc q y' x').
  destruct (loop2_inv done (fun y x m =>
    obind (lfSample p hc (samples q) 0 (Z.of_nat y) (Z.of_nat x)) (fun q0 => obind (lfSample p hc (samples q) 1 (Z.of_nat y) (Z.of_nat x)) (fun q1 => obind (lfSample p hc (samples q) 2 (Z.of_nat y) (Z.of_nat x)) (fun q2 =>
    obind (getLFIndex hc (fun i => if i =? 0 then q0 else if i =? 1 then q1 else q2)) (fun v => set2 m (Z.of_nat y) (Z.of_nat x) v))))) h w (zeros2 (lp_height p) (lp_width p))) as (m & E & R & V).
  - split; [apply rect_zeros|]. intros; lia.
  - intros y x m Hy Hx [R V]. assert (Y : Z.of_nat y < lp_height p) by lia. assert (X : Z.of_nat x < lp_width p) by lia.
    destruct (lf_sample_read p hc q 0 y x HW HC ltac:(lia) HQ Y X) as (v0 & E0 & K0). destruct (lf_sample_read p hc q 1 y x HW HC ltac:(lia) HQ Y X) as (v1 & E1 & K1). destruct (lf_sample_read p hc q 2 y x HW HC ltac:(lia) HQ Y X) as (v2 & E2 & K2).
    rewrite E0, E1, E2. cbn [obind]. rewrite context_value by exact HC. cbn [obind].
    destruct (set2_ok h w m (Z.of_nat y) (Z.of_nat x) (block_lf p hc q y x) R ltac:(lia) ltac:(lia)) as (m' & Em & R' & V').
    assert (EB : lf_context (nth 0 (hb_lfThresholds hc) []) (nth 1 (hb_lfThresholds hc) []) (nth 2 (hb_lfThresholds hc) []) v0 v1 v2 = block_lf p hc q y x).
    { unfold block_lf, lf_context. f_equal; [|f_equal; f_equal; [|f_equal]].
      - destruct (K1 (px (q 1%nat) (Z.to_nat (Z.of_nat y / 2 ^ part (lp_shiftY p) 1)) (Z.to_nat (Z.of_nat x / 2 ^ part (lp_shiftX p) 1)))) as [K|K]; [exact K|rewrite K; reflexivity].
      - destruct (K2 (px (q 2%nat) (Z.to_nat (Z.of_nat y / 2 ^ part (lp_shiftY p) 2)) (Z.to_nat (Z.of_nat x / 2 ^ part (lp_shiftX p) 2)))) as [K|K]; [exact K|rewrite K; reflexivity].
      - destruct (K0 (px (q 0%nat) (Z.to_nat (Z.of_nat y / 2 ^ part (lp_shiftY p) 0)) (Z.to_nat (Z.of_nat x / 2 ^ part (lp_shiftX p) 0)))) as [K|K]; [exact K|rewrite K; reflexivity]. }
    rewrite EB. exists m'. split; [exact Em|]. split; [exact R'|]. intros y' x' Hy' Hx' HH. rewrite V'. rewrite !Nat2Z.id.
    destruct (Nat.eq_dec y' y) as [->|Ny]; [destruct (Nat.eq_dec x' x) as [->|Nx]|].
    + rewrite !Nat.eqb_refl. reflexivity.
    + rewrite (proj2 (Nat.eqb_neq x' x) Nx), andb_false_r. apply V; lia.
    + rewrite (proj2 (Nat.eqb_neq y' y) Ny). cbn [andb]. apply V; lia.
  - intros y m Hy [R V]. split; [exact R|]. intros y' x' Hy' Hx' HH. apply V; lia.
  - rewrite E. f_equal. apply (rect_ext h w); [exact R|apply rect_mat|]. intros y x Hy Hx. rewrite px_mat by assumption. apply V; lia.
Qed.
(* What is common to all parts of a group *)
Record group_frame (g : LFGroupIn) (global : option (list Node * header)) : Prop := {
  gf_depth : 3 <= lg_depth g <= 24; gf_dim : 0 <= lg_dim g < 2 ^ 32; gf_id : 0 <= lg_id g < lg_num g; gf_num : 3 * lg_num g < 2 ^ 31; gf_tree : frame_tree (lg_tree g) global;
  gf_size : whole (lg_p g); gf_ctx : hb_shape (lg_hc g) }.
Definition shiftsY (g : LFGroupIn) : nat -> Z := part (lp_shiftY (lg_p g)).
Definition shiftsX (g : LFGroupIn) : nat -> Z := part (lp_shiftX (lg_p g)).
Lemma coefficients_read g global e q dq lfBuffer c s d p : group_frame g global -> 0 <= e < 4 -> (forall i, (i < 3)%nat -> rect (chan_h (lg_p g) i) (chan_w (lg_p g) i) (q i)) ->
  lfCoefficients (lg_p g) lfBuffer e (samples q) = Ok dq ->
  stream_bits (lg_depth g) global (1 + lg_id g) (lf_planes (lp_height (lg_p g)) (lp_width (lg_p g)) (shiftsY g) (shiftsX g) q) c ->
  reader_at s d p -> bits_at d p (zbits 2 e ++ c) -> (p + length (zbits 2 e ++ c) + 15 <= 8 * length d)%nat ->
  exists s', NewLFCoefficients g lfBuffer s = (Ok (dq, mat (Z.to_nat (lp_height (lg_p g))) (Z.to_nat (lp_width (lg_p g))) (block_lf (lg_p g) (lg_hc g) q)), s') /\ reader_at s' d (p + length (zbits 2 e ++ c)).
Proof.
  intros [F1 F2 F3 F4 F5 F6 F7] He HQ HD HB Hr Hb Hk. apply bits_at_app in Hb. destruct Hb as [Hb1 Hb2]. rewrite app_length in *.
  unfold lfCoefficients in HD. destruct (lfBefore (lg_p g) lfBuffer) as [dq0| |] eqn:EB; cbn [obind] in HD; try discriminate.
  unfold NewLFCoefficients. erewrite rbind_ok by (unfold rlift; rewrite EB; reflexivity).
  destruct (reads_zbits 2 2 e eq_refl ltac:(lia) ltac:(lia) s d p Hr Hb1) as (s1 & E1 & R1). erewrite rbind_ok by exact E1.
  assert (L : Forall2 laid (lfInfo (lg_p g)) (lf_planes (lp_height (lg_p g)) (lp_width (lg_p g)) (shiftsY g) (shiftsX g) q)).
  { assert (K : forall i, (i < 3)%nat -> laid (newChan (i32 (Z.shiftr (lp_height (lg_p g)) (shiftsY g i))) (i32 (Z.shiftr (lp_width (lg_p g)) (shiftsX g i))) (shiftsY g i) (shiftsX g i) false) (lf_plane (lp_height (lg_p g)) (lp_width (lg_p g)) (shiftsY g i) (shiftsX g i) (q i))).
    { intros i Hi. destruct (whole_chan _ i F6 Hi) as (_ & _ & W1 & W2 & W3 & W4). pose proof F6 as (B1 & B2 & B3). destruct (B3 i Hi) as (B4 & B5 & _). unfold shiftsY, shiftsX, lf_plane. rewrite !Z.shiftr_div_pow2 by assumption. apply new_laid; [lia|lia|reflexivity|reflexivity]. }
    pose proof (K 0%nat ltac:(lia)) as K0. pose proof (K 1%nat ltac:(lia)) as K1. pose proof (K 2%nat ltac:(lia)) as K2. unfold lfInfo, lf_planes, shiftsY, shiftsX in *. destruct (lp_shiftY (lg_p g)) as [[y0 y1] y2], (lp_shiftX (lg_p g)) as [[x0 x1] x2]. cbn [part three] in *. cbn [map].
    constructor; [exact K1|]. constructor; [exact K0|]. constructor; [exact K2|constructor]. }
  destruct (stream_read _ _ _ (lg_dim g) (1 + lg_id g) _ _ _ s1 d _ F1 ltac:(lia) F2 L F5 HB R1 Hb2 ltac:(rewrite zbits_length in *; lia)) as (chs & s2 & E2 & SH & R2). rewrite zbits_length in *.
  assert (EQ : map c_buf chs = samples q).
  { unfold lf_planes in SH. cbn [map] in SH. inversion SH as [|c1 ? l1 ? S1 T1]; subst. inversion T1 as [|c0 ? l0 ? S0 T0]; subst. inversion T0 as [|c2 ? l2 ? S2 T2]; subst. inversion T2; subst. cbn [map]. unfold samples.
    destruct (whole_chan _ 0 F6 ltac:(lia)) as (W1 & W2 & _). destruct (whole_chan _ 1 F6 ltac:(lia)) as (W3 & W4 & _). destruct (whole_chan _ 2 F6 ltac:(lia)) as (W5 & W6 & _).
    rewrite (shown _ _ S0 W1 W2), (shown _ _ S1 W3 W4), (shown _ _ S2 W5 W6). reflexivity. }
  exists s2. rewrite Nat.add_assoc. split; [|exact R2]. erewrite rbind_ok by exact E2. cbv zeta. rewrite EQ.
  erewrite rbind_ok by (unfold rlift; rewrite HD; reflexivity). erewrite rbind_ok by (unfold rlift; rewrite (index_read _ _ _ F6 F7 HQ); reflexivity). reflexivity.
Qed.
(* The cells of the grid: type and multiplier of the block that covers them *)
Definition cells_given (h w : Z) (blocks : list (Z * Z)) (rs : list Rect) (d m : list (list Z)) : Prop :=
  rect (Z.to_nat h) (Z.to_nat w) d /\ rect (Z.to_nat h) (Z.to_nat w) m /\
  forall y x, 0 <= y < h -> 0 <= x < w ->
    (forall b r, In (b, r) (combine blocks rs) -> covers r y x -> px d (Z.to_nat y) (Z.to_nat x) = fst b + 1 /\ px m (Z.to_nat y) (Z.to_nat x) = snd b + 1) /\
    ((forall r, In r rs -> ~ covers r y x) -> px d (Z.to_nat y) (Z.to_nat x) = 0 /\ px m (Z.to_nat y) (Z.to_nat x) = 0).
Definition sized (b : Z * Z) (r : Rect) : Prop := 0 <= fst b <= 26 /\ (r_h r, r_w r) = cells (fst b).
Lemma places h w blocks rs : 0 <= h -> 0 <= w -> standard_packing h w [] rs -> Forall2 sized blocks rs ->
  exists d m, placeAll h w blocks = Ok (map (fun r => (r_y r, r_x r)) rs, (d, m)) /\ cells_given h w blocks rs d m.
Proof.
  intros Hh Hw SP F. destruct (C41_standard_rule h w rs blocks Hh Hw SP F) as ([d m] & E). exists d, m. split; [exact E|].
  destruct (C41_packing_partial h w blocks _ d m Hh Hw E) as (_ & _ & R1 & R2 & C). split; [exact R1|]. split; [exact R2|]. intros y x Hy Hx. destruct (C y x Hy Hx) as [C1 C2].
  assert (EP : placed blocks (map (fun r => (r_y r, r_x r)) rs) = map (fun br => (snd br, fst br)) (combine blocks rs)).
  { clear - F. induction F as [|[t u] [ry rx rh rw] bs rs' [_ S] F IH]; [reflexivity|]. cbn [fst r_h r_w] in S. cbn [map combine placed fst snd r_y r_x]. unfold placed in *. cbn [combine map]. f_equal; [|exact IH]. cbn [fst snd]. rewrite <- S. reflexivity. }
  rewrite EP in *. split.
  - intros b r HI HC. destruct (C1 (r, b) ltac:(apply in_map_iff; exists (b, r); split; [reflexivity|exact HI]) HC) as [K1 K2]. cbn [fst snd] in *. split; [exact K1|lia].
  - intros HN. apply C2. intros pp HI. apply in_map_iff in HI. destruct HI as ([b r] & <- & HI). apply HN. exact (in_combine_r _ _ _ _ HI).
Qed.
Lemma layout_read g global xfy bfy blocks sharp rs c s d p : group_frame g global -> let h := lp_height (lg_p g) in let w := lp_width (lg_p g) in
  standard_packing h w [] rs -> Forall2 sized blocks rs -> Forall (fun b => - 2 ^ 31 <= snd b < 2 ^ 31 - 1) blocks -> 1 <= Z.of_nat (length blocks) <= h * w ->
  layout_bits (lg_depth g) global (1 + 2 * lg_num g + lg_id g) h w xfy bfy blocks sharp c ->
  reader_at s d p -> bits_at d p c -> (p + length c + 15 <= 8 * length d)%nat ->
  exists dm mm s', NewHFMetadata g s = (Ok ([xfy; bfy; [map fst blocks; map snd blocks]; sharp], (map (fun r => (r_y r, r_x r)) rs, (dm, mm))), s') /\
    cells_given h w blocks rs dm mm /\ reader_at s' d (p + length c).
Proof.
  intros [F1 F2 F3 F4 F5 F6 F7] h w SP FS FM NB (c' & HB & ->) Hr Hb Hk. apply bits_at_app in Hb. destruct Hb as [Hb1 Hb2]. rewrite app_length in *.
  destruct F6 as (Hh & Hw & _). fold h in Hh. fold w in Hw. assert (HW : 1 <= h * w <= 8192 * 8192) by (clear - Hh Hw; nia).
  destruct (ceil_log (h * w) ltac:(lia)) as [CL CB]. set (k := Z.log2_up (h * w)) in *.
  assert (KB : h * w <= 2 ^ k).
  { unfold k. destruct (Z.eq_dec (h * w) 1) as [->|]; [reflexivity|]. apply Z.log2_up_spec. lia. }
  unfold NewHFMetadata. fold h w. rewrite (u32_small (h * w)) by lia. rewrite CL. rewrite (u32_small k) by lia.
  destruct (reads_zbits (Z.to_nat k) k (Z.of_nat (length blocks) - 1) ltac:(lia) ltac:(lia) ltac:(lia) s d p Hr Hb1) as (s1 & E1 & R1). erewrite rbind_ok by exact E1. cbv zeta.
  replace (u64 (Z.of_nat (length blocks) - 1 + 1)) with (Z.of_nat (length blocks)) by (unfold u64; rewrite Z.mod_small; lia). rewrite (u32_small (h + 7)), (u32_small (w + 7)) by lia.
  assert (D1 : 1 <= (h + 7) / 8 <= 8192) by lia. assert (D2 : 1 <= (w + 7) / 8 <= 8192) by lia.
  match goal with |- context [decodeModular _ _ _ _ ?chs] => assert (L : Forall2 laid chs (layout_planes h w xfy bfy blocks sharp)) end.
  { unfold layout_planes. constructor; [apply new_laid; lia|]. constructor; [apply new_laid; lia|]. constructor; [apply (new_laid 2); lia|]. constructor; [apply new_laid; lia|constructor]. }
  destruct (stream_read _ _ _ (lg_dim g) (1 + 2 * lg_num g + lg_id g) _ _ _ s1 d _ F1 ltac:(lia) F2 L F5 HB R1 Hb2 ltac:(lia)) as (chs & s2 & E2 & SH & R2).
  assert (EQ : map c_buf chs = [xfy; bfy; [map fst blocks; map snd blocks]; sharp]).
  { unfold layout_planes in SH. inversion SH as [|c1 ? l1 ? S1 T1]; subst. inversion T1 as [|c0 ? l0 ? S0 T0]; subst. inversion T0 as [|c2 ? l2 ? S2 T2]; subst. inversion T2 as [|c3 ? l3 ? S3 T3]; subst. inversion T3; subst. cbn [map].
    rewrite (shown _ _ S1), (shown _ _ S0), (shown _ _ S2), (shown _ _ S3); cbn [p_h p_w]; try lia. reflexivity. }
  destruct (places h w blocks rs ltac:(lia) ltac:(lia) SP FS) as (dm & mm & EP & CG). exists dm, mm, s2. rewrite Nat.add_assoc. split; [|split; [exact CG|exact R2]].
  erewrite rbind_ok by exact E2. rewrite EQ.
  assert (EC : combine (map fst blocks) (map (fun m => i32 (1 + m) - 1) (map snd blocks)) = blocks).
  { clear - FM. induction FM as [|[t m] bs Hm FM IH]; [reflexivity|]. cbn [map combine fst snd] in *. rewrite IH. rewrite i32_small by lia. do 2 f_equal. lia. }
  erewrite rbind_ok.
  2:{ unfold rlift. change (slice_get [xfy; bfy; [map fst blocks; map snd blocks]; sharp] 2) with (Ok [map fst blocks; map snd blocks]). cbn [obind]. change (slice_get [map fst blocks; map snd blocks] 0) with (Ok (map fst blocks)). change (slice_get [map fst blocks; map snd blocks] 1) with (Ok (map snd blocks)). cbn [obind]. rewrite EC, EP. reflexivity. }
  reflexivity.
Qed.
(* From the bits of a group all of it is read: the LF image, with the meaning
   of C78, the LF context of each block, the other channels, and the layout of
   the blocks as the standard arranges them. *)
Theorem C103_lf_group_partial : forall g global e q dq lfBuffer others replaced xfy bfy blocks sharp rs c s d p, group_frame g global -> let h := lp_height (lg_p g) in let w := lp_width (lg_p g) in
  (forall i, (i < 3)%nat -> rect (chan_h (lg_p g) i) (chan_w (lg_p g) i) (q i)) -> lfCoefficients (lg_p g) lfBuffer e (samples q) = Ok dq -> Forall2 laid replaced others ->
  standard_packing h w [] rs -> Forall2 sized blocks rs -> Forall (fun b => - 2 ^ 31 <= snd b < 2 ^ 31 - 1) blocks -> 1 <= Z.of_nat (length blocks) <= h * w ->
  lf_group_bits (lg_depth g) global (lg_num g) (lg_id g) h w (shiftsY g) (shiftsX g) e q others xfy bfy blocks sharp c ->
  reader_at s d p -> bits_at d p c -> (p + length c + 15 <= 8 * length d)%nat ->
  exists chs dm mm s', NewLFGroup g replaced lfBuffer s = (Ok ((dq, mat (Z.to_nat h) (Z.to_nat w) (block_lf (lg_p g) (lg_hc g) q)), chs, ([xfy; bfy; [map fst blocks; map snd blocks]; sharp], (map (fun r => (r_y r, r_x r)) rs, (dm, mm)))), s') /\
    Forall2 shows chs others /\ cells_given h w blocks rs dm mm /\ reader_at s' d (p + length c).
Proof.
  intros g global e q dq lfBuffer others replaced xfy bfy blocks sharp rs c s d p G h w HQ HD HL SP FS FM NB (c1 & c2 & c3 & He & B1 & B2 & B3 & ->) Hr Hb Hk.
  apply bits_at_app in Hb. destruct Hb as [Hb1 Hb]. apply bits_at_app in Hb. destruct Hb as [Hb2 Hb3]. rewrite (app_length (zbits 2 e ++ c1)), (app_length c2) in *.
  destruct (coefficients_read g global e q dq lfBuffer c1 s d p G He HQ HD B1 Hr Hb1 ltac:(lia)) as (s1 & E1 & R1). pose proof G as [F1 F2 F3 F4 F5 F6 F7].
  destruct (stream_read _ _ _ (lg_dim g) (1 + lg_num g + lg_id g) _ _ _ s1 d _ F1 ltac:(lia) F2 HL F5 B2 R1 Hb2 ltac:(lia)) as (chs & s2 & E2 & SH & R2).
  destruct (layout_read g global xfy bfy blocks sharp rs c3 s2 d _ G SP FS FM NB B3 R2 Hb3 ltac:(lia)) as (dm & mm & s3 & E3 & CG & R3).
  exists chs, dm, mm, s3. split; [|split; [exact SH|split; [exact CG|rewrite !Nat.add_assoc; exact R3]]].
  unfold NewLFGroup. erewrite rbind_ok by exact E1. replace (1 + (lg_num g + lg_id g)) with (1 + lg_num g + lg_id g) by lia. erewrite rbind_ok by exact E2. erewrite rbind_ok by exact E3. reflexivity.
Qed.
Print Assumptions C103_lf_group_partial.

(* Every group can be sent. *)
Lemma rect_size h w m : rect h w m -> length (concat m) = (h * w)%nat.
Proof.
  intros [L F]. subst h. induction m as [|r m IH]; [reflexivity|]. inversion F as [|? ? F1 F2]; subst. cbn [concat length]. rewrite app_length, IH by assumption. lia.
Qed.
Definition small_plane (q : Plane) : Prop := good_plane q /\ samples_within (2 ^ 26) (p_px q) /\ Z.of_nat (p_h q) <= 8192 /\ Z.of_nat (p_w q) <= 8192 * 8192 /\ Z.of_nat (p_h q * p_w q) <= 2 ^ 27.
Lemma stream_sendable depth stream P : Forall small_plane P -> Z.of_nat (length P) < 16 -> exists c, stream_bits depth None stream P c.
Proof.
  intros F HN. destruct P as [|q P]; [exists []; left; split; reflexivity|]. destruct plain_header as (hc & Hh & _).
  destruct (C98_sendable stream (widest (q :: P)) [] _ hc (q :: P) Hh) as (c & Hc).
  - eapply Forall_impl; [|exact F]. intros a [A _]. exact A.
  - eapply Forall_impl; [|exact F]. intros a (_ & A & _). exact A.
  - assert (K : Z.of_nat (length (concat (concat (map p_px (q :: P))))) <= 2 ^ 27 * Z.of_nat (length (q :: P))); [|lia]. clear - F. set (Q := q :: P) in *. clearbody Q. induction F as [|a l (A1 & _ & _ & _ & A2) F IH]; [cbn; lia|].
    cbn [map concat length]. rewrite concat_app, app_length. rewrite (rect_size _ _ _ (proj1 A1)). lia.
  - exists c. right. split; [discriminate|]. exists [], 0%nat, (q :: P). split; [constructor|]. split; [constructor|]. split; [eapply Forall_impl; [|exact F]; intros a [A _]; exact A|]. split; [lia|exact Hc].
Qed.
Definition small_matrix (h w : nat) (m : list (list Z)) : Prop := rect h w m /\ samples_within (2 ^ 26) m.
Lemma small_mat h w vs hs m : small_matrix h w m -> Z.of_nat h <= 8192 -> Z.of_nat w <= 8192 -> small_plane (mkPl h w vs hs m).
Proof.
  intros [R S] Hh Hw. split; [split; [exact R|cbn; lia]|]. split; [exact S|]. cbn [p_h p_w]. split; [lia|]. split; [lia|]. rewrite Nat2Z.inj_mul. change (2 ^ 27) with (2 * (8192 * 8192)). clear - Hh Hw. nia.
Qed.
Theorem C103_sendable : forall p depth groups id e q others xfy bfy blocks sharp, whole p -> let h := lp_height p in let w := lp_width p in 0 <= e < 4 ->
  (forall i, (i < 3)%nat -> small_matrix (chan_h p i) (chan_w p i) (q i)) -> Forall small_plane others -> Z.of_nat (length others) < 16 ->
  small_matrix (Z.to_nat ((h + 7) / 8)) (Z.to_nat ((w + 7) / 8)) xfy -> small_matrix (Z.to_nat ((h + 7) / 8)) (Z.to_nat ((w + 7) / 8)) bfy -> small_matrix (Z.to_nat h) (Z.to_nat w) sharp ->
  Forall (fun b => 0 <= fst b <= 26 /\ 0 <= snd b < 256) blocks -> Z.of_nat (length blocks) <= h * w ->
  exists c, lf_group_bits depth None groups id h w (part (lp_shiftY p)) (part (lp_shiftX p)) e q others xfy bfy blocks sharp c.
Proof.
  intros p depth groups id e q others xfy bfy blocks sharp HW h w He HQ HO HN HX HB HS HM HL. pose proof HW as (H1 & H2 & _). fold h in H1. fold w in H2.
  destruct (stream_sendable depth (1 + id) (lf_planes h w (part (lp_shiftY p)) (part (lp_shiftX p)) q)) as (c1 & C1).
  { unfold lf_planes. apply Forall_map. assert (K : forall i, (i < 3)%nat -> small_plane (lf_plane h w (part (lp_shiftY p) i) (part (lp_shiftX p) i) (q i))).
    { intros i Hi. destruct (whole_chan p i HW Hi) as (_ & _ & W1 & W2 & W3 & W4). unfold h in H1. unfold w in H2. apply small_mat; [exact (HQ i Hi)|change (Z.of_nat (chan_h p i) <= 8192); lia|change (Z.of_nat (chan_w p i) <= 8192); lia]. }
    repeat constructor; apply K; lia. }
  { cbn. lia. }
  destruct (stream_sendable depth (1 + groups + id) others HO HN) as (c2 & C2).
  destruct (stream_sendable depth (1 + 2 * groups + id) (layout_planes h w xfy bfy blocks sharp)) as (c3 & C3).
  { assert (A1 : Z.of_nat (Z.to_nat ((h + 7) / 8)) <= 8192) by lia. assert (A2 : Z.of_nat (Z.to_nat ((w + 7) / 8)) <= 8192) by lia.
    unfold layout_planes. constructor; [apply small_mat; assumption|]. constructor; [apply small_mat; assumption|]. constructor; [|constructor; [apply small_mat; [assumption|lia|lia]|constructor]].
    assert (HL2 : Z.of_nat (length blocks) <= 8192 * 8192) by (clear - HL H1 H2; nia). split; [split; [split; [reflexivity|]|cbn [p_h p_w]; lia]|].
    - constructor; [apply map_length|]. constructor; [apply map_length|constructor].
    - split; [|cbn [p_h p_w]; lia]. cbn [p_px]. unfold samples_within. constructor; [|constructor; [|constructor]]; apply Forall_map; (eapply Forall_impl; [|exact HM]; cbv beta; lia). }
  { cbn. lia. }
  eexists. exists c1, c2. eexists. split; [exact He|]. split; [exact C1|]. split; [exact C2|]. split; [exists c3; split; [exact C3|reflexivity]|reflexivity].
Qed.
Print Assumptions C103_sendable.

(* A group of 2x3 cells with two thresholds, one 16x8 and four 8x8 blocks *)
Definition ex_lfp : LFParams := mkLFP false true (0, 0, 0) (0, 0, 0) 2 3 0 0 (1%R, 1%R, 1%R) 84 0%R 0%R 128 128.
Definition ex_lhc : HFBlockContext := mkHFB [[]; [5; 7]; []] (repeat 0 117) 1 [] 3.
Definition ex_lgi : LFGroupIn := mkLGI ex_lfp ex_lhc None 8 256 0 1.
Definition ex_q (i : nat) : list (list Z) := nth i [[[1; 2; 3]; [4; 5; 6]]; [[5; 6; 7]; [8; 9; 3]]; [[0; 0; 0]; [0; 0; -1]]] [].
Definition ex_blocks : list (Z * Z) := [(0, 3); (6, 1); (0, 0); (0, 2); (1, 4)].
Definition ex_rects : list Rect := [mkR 0 0 1 1; mkR 0 1 2 1; mkR 0 2 1 1; mkR 1 0 1 1; mkR 1 2 1 1].
Lemma ex_frame : group_frame ex_lgi None.
Proof.
  assert (HD : forall n, (2 ^ 0 | n)) by (intros n; exists n; change (2 ^ 0) with 1; lia).
  constructor; cbn; try lia; try exact I.
  - split; [cbn; lia|]. split; [cbn; lia|]. intros i Hi. do 3 (destruct i as [|i]; [cbn [part three lp_shiftY lp_shiftX ex_lfp]; split; [lia|]; split; [lia|]; split; apply HD|]). lia.
  - exists [], [5; 7], []. cbn. split; [reflexivity|]. split; [reflexivity|]. split; [reflexivity|]. split; [lia|]. split; [apply Forall_forall; intros z Hz; apply (repeat_spec 117) in Hz; lia|lia].
Qed.
Example C103_example : standard_packing 2 3 [] ex_rects /\ Forall2 sized ex_blocks ex_rects /\ block_lf ex_lfp ex_lhc ex_q 0 1 = 1 /\ block_lf ex_lfp ex_lhc ex_q 1 1 = 2 /\
  exists c, lf_group_bits 8 None 1 0 2 3 (part (lp_shiftY ex_lfp)) (part (lp_shiftX ex_lfp)) 1 ex_q [] [[4]] [[-3]] ex_blocks [[0; 1; 2]; [3; 4; 5]] c.
Proof.
  split; [|split; [|split; [reflexivity|split; [reflexivity|]]]].
  - unfold ex_rects. assert (D : forall placed r rs, inside 2 3 r -> Forall (fun p => disjoint p r) placed -> SpecHF.first_free 3 placed r -> standard_packing 2 3 (placed ++ [r]) rs -> standard_packing 2 3 placed (r :: rs)) by (intros; constructor; assumption).
    assert (C2 : forall placed y0 x0, 0 <= y0 < 2 -> (forall y x, (y = 0 \/ y = 1) -> (x = 0 \/ x = 1 \/ x = 2) -> SpecHF.before y x y0 x0 -> exists p, In p placed /\ covers p y x) ->
      forall y x, 0 <= y -> 0 <= x < 3 -> SpecHF.before y x y0 x0 -> exists p, In p placed /\ covers p y x) by (intros placed y0 x0 H0 H y x Hy Hx B; apply H; [unfold SpecHF.before in B; lia|lia|exact B]).
    apply D; [unfold inside; cbn; lia|repeat (apply Forall_cons; [unfold disjoint, covers; cbn; lia|]); apply Forall_nil|split; [intros p Hp; cbn [In] in Hp; repeat (destruct Hp as [<-|Hp]); try contradiction; unfold covers; cbn; lia|apply C2; [cbn; lia|intros y x [-> | ->] [-> |[-> | ->]] B; unfold SpecHF.before in B; cbn [r_y r_x] in B; try lia; let pick r := (exists r; split; [simpl; auto 7|unfold covers; cbn; lia]) in first [pick (mkR 0 0 1 1)|pick (mkR 0 1 2 1)|pick (mkR 0 2 1 1)|pick (mkR 1 0 1 1)|pick (mkR 1 2 1 1)]]]|cbn [app]].
    apply D; [unfold inside; cbn; lia|repeat (apply Forall_cons; [unfold disjoint, covers; cbn; lia|]); apply Forall_nil|split; [intros p Hp; cbn [In] in Hp; repeat (destruct Hp as [<-|Hp]); try contradiction; unfold covers; cbn; lia|apply C2; [cbn; lia|intros y x [-> | ->] [-> |[-> | ->]] B; unfold SpecHF.before in B; cbn [r_y r_x] in B; try lia; let pick r := (exists r; split; [simpl; auto 7|unfold covers; cbn; lia]) in first [pick (mkR 0 0 1 1)|pick (mkR 0 1 2 1)|pick (mkR 0 2 1 1)|pick (mkR 1 0 1 1)|pick (mkR 1 2 1 1)]]]|cbn [app]].
    apply D; [unfold inside; cbn; lia|repeat (apply Forall_cons; [unfold disjoint, covers; cbn; lia|]); apply Forall_nil|split; [intros p Hp; cbn [In] in Hp; repeat (destruct Hp as [<-|Hp]); try contradiction; unfold covers; cbn; lia|apply C2; [cbn; lia|intros y x [-> | ->] [-> |[-> | ->]] B; unfold SpecHF.before in B; cbn [r_y r_x] in B; try lia; let pick r := (exists r; split; [simpl; auto 7|unfold covers; cbn; lia]) in first [pick (mkR 0 0 1 1)|pick (mkR 0 1 2 1)|pick (mkR 0 2 1 1)|pick (mkR 1 0 1 1)|pick (mkR 1 2 1 1)]]]|cbn [app]].
    apply D; [unfold inside; cbn; lia|repeat (apply Forall_cons; [unfold disjoint, covers; cbn; lia|]); apply Forall_nil|split; [intros p Hp; cbn [In] in Hp; repeat (destruct Hp as [<-|Hp]); try contradiction; unfold covers; cbn; lia|apply C2; [cbn; lia|intros y x [-> | ->] [-> |[-> | ->]] B; unfold SpecHF.before in B; cbn [r_y r_x] in B; try lia; let pick r := (exists r; split; [simpl; auto 7|unfold covers; cbn; lia]) in first [pick (mkR 0 0 1 1)|pick (mkR 0 1 2 1)|pick (mkR 0 2 1 1)|pick (mkR 1 0 1 1)|pick (mkR 1 2 1 1)]]]|cbn [app]].
    apply D; [unfold inside; cbn; lia|repeat (apply Forall_cons; [unfold disjoint, covers; cbn; lia|]); apply Forall_nil|split; [intros p Hp; cbn [In] in Hp; repeat (destruct Hp as [<-|Hp]); try contradiction; unfold covers; cbn; lia|apply C2; [cbn; lia|intros y x [-> | ->] [-> |[-> | ->]] B; unfold SpecHF.before in B; cbn [r_y r_x] in B; try lia; let pick r := (exists r; split; [simpl; auto 7|unfold covers; cbn; lia]) in first [pick (mkR 0 0 1 1)|pick (mkR 0 1 2 1)|pick (mkR 0 2 1 1)|pick (mkR 1 0 1 1)|pick (mkR 1 2 1 1)]]]|cbn [app]].
    constructor.
  - unfold ex_blocks, ex_rects. repeat (constructor; [split; cbn; [lia|reflexivity]|]). constructor.
  - assert (S : forall m, forallb (forallb (fun v => (- 2 ^ 26 <=? v) && (v <=? 2 ^ 26))) m = true -> samples_within (2 ^ 26) m).
    { intros m H. rewrite forallb_forall in H. apply Forall_forall. intros r Hr. specialize (H r Hr). rewrite forallb_forall in H. apply Forall_forall. intros v Hv. specialize (H v Hv). cbv beta in H. lia. }
    apply (C103_sendable ex_lfp 8 1 0 1 ex_q [] [[4]] [[-3]] ex_blocks [[0; 1; 2]; [3; 4; 5]]).
    + exact (gf_size _ _ ex_frame).
    + lia.
    + intros i Hi. do 3 (destruct i as [|i]; [split; [split; [reflexivity|repeat constructor]|apply S; reflexivity]|]). lia.
    + constructor.
    + cbn. lia.
    + split; [split; [reflexivity|repeat constructor]|apply S; reflexivity].
    + split; [split; [reflexivity|repeat constructor]|apply S; reflexivity].
    + split; [split; [reflexivity|repeat constructor]|apply S; reflexivity].
    + unfold ex_blocks. repeat (constructor; [cbn; lia|]). constructor.
    + cbn. lia.
Qed.
