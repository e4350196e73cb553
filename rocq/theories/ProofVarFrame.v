(* C106: lemmas about the geometry and the sections of VarDCT frames. *)
From Coq Require Import ZArith List Bool Arith Lia Reals Lra ZifyBool ZifyNat.
From Verif Require Import GoBase GoLoop GoMatrix Bits ModelBitReader ModelUtil ModelHeader ModelEntropy ModelMATree ModelModular ModelModStream ModelModDecode.
From Verif Require Import ModelGroups ModelSections ModelHF ModelHFCoeff ModelLF ModelLFCoeff ModelLFGroup ModelHFGlobal ModelHFPass ModelHFGroup ModelHFDequant ModelVarDCT ModelModFrame ModelVarFrame.
From Verif Require Import SpecBitReader SpecCodes SpecGrammar SpecGroups SpecHF SpecHFGroup SpecStream SpecDist SpecSymbols SpecLF SpecModDecode SpecModFrame SpecLFCoeff SpecLFGroup SpecHFPass SpecHFGlobal SpecVarFrame.
From Verif Require Import ProofReads ProofCodes ProofGroups ProofModFrame ProofVarSections ProofHFCoeff PropLF PropLFGroup.
Import ListNotations.
Open Scope Z_scope.

(* ---- geometry ---- *)
Record var_geo (g : Geo) : Prop := { vg_ok : geo_ok g; vg_dim : g_dim g = 256; vg_vardct : g_vardct g = true }.
Lemma geo_padded g : var_geo g -> paddedHeight g = Ok (frame_h g) /\ paddedWidth g = Ok (frame_w g).
Proof. intros [G _ _]. destruct (padded g G) as [A B]. split; assumption. Qed.
Lemma geo_counts g : var_geo g -> numLFGroups g = Ok (Z.of_nat (tile_count g 2048)) /\ numGroups g = Ok (Z.of_nat (tile_count g 256)) /\
  Z.of_nat (tile_count g 2048) < 2 ^ 31 /\ Z.of_nat (tile_count g 256) < 2 ^ 31 /\ (1 <= tile_count g 256)%nat /\ 1 <= across g 256 /\ 1 <= across g 2048 /\ (1 <= tile_count g 2048 <= tile_count g 256)%nat.
Proof.
  intros [G D _]. destruct (counts g G) as (A & B & C1 & C2 & P1 & P2 & P3 & P4). unfold nW, nH, lW, lH, strideOf in *. rewrite D in *. change (8 * 256) with 2048 in *.
  fold (across g 256) (down g 256) (across g 2048) (down g 2048) in *. unfold tile_count.
  assert (0 < across g 256 * down g 256) by (apply Z.mul_pos_pos; lia). assert (0 < across g 2048 * down g 2048) by (apply Z.mul_pos_pos; lia).
  assert (across g 2048 * down g 2048 <= across g 256 * down g 256) by (apply Z.mul_le_mono_nonneg; lia).
  rewrite !Z2Nat.id by lia. split; [exact C2|]. split; [exact C1|]. lia.
Qed.
Lemma geo_lf g k : var_geo g -> (k < tile_count g 2048)%nat -> getLFGroupLocation g (Z.of_nat k) = Ok (tile_place g 2048 k) /\ getLFGroupSize g (Z.of_nat k) = Ok (tile_size g 2048 k) /\
  1 <= fst (tile_size g 2048 k) <= 2048 /\ 1 <= snd (tile_size g 2048 k) <= 2048.
Proof.
  intros V Hk. destruct (geo_counts g V) as (_ & _ & _ & _ & _ & _ & A2 & _). destruct V as [G D VD]. destruct (grid_lf g G) as [_ L S]. unfold lW, lH in *. rewrite D in *. change (8 * 256) with 2048 in *.
  assert (Hid : 0 <= Z.of_nat k < strideOf (g_width g) 2048 * strideOf (g_height g) 2048) by (unfold tile_count, across, down in Hk; unfold strideOf; lia).
  specialize (L _ Hid). specialize (S _ Hid). cbv zeta in S. destruct S as (S & B1 & B2).
  split; [exact L|]. split; [exact S|]. unfold tile_size, tile_place. cbn [fst snd]. unfold across, frame_h, frame_w. unfold strideOf, ph, pw in *. lia.
Qed.
Lemma geo_group g id : var_geo g -> (id < tile_count g 256)%nat ->
  getGroupLocation g (Z.of_nat id) = Ok (tile_place g 256 id) /\ getGroupSize g (Z.of_nat id) = Ok (tile_size g 256 id) /\
  lfGroupIndex g (Z.of_nat id) = Ok (Z.of_nat (lf_of g id)) /\ (lf_of g id < tile_count g 2048)%nat /\ groupPosInLFGroup g (Z.of_nat (lf_of g id)) (Z.of_nat id) = Ok (place_in_lf g id) /\
  0 <= fst (tile_size g 256 id) <= 256 /\ 0 <= snd (tile_size g 256 id) <= 256 /\ 0 <= fst (tile_place g 256 id) /\ 0 <= snd (tile_place g 256 id).
Proof.
  intros V Hk. pose proof (geo_counts g V) as (_ & _ & _ & _ & _ & A1 & A2 & _). pose proof V as [G D VD].
  assert (Hid : 0 <= Z.of_nat id < nW g * nH g) by (unfold tile_count, across, down in Hk; unfold nW, nH, strideOf; rewrite D; lia).
  destruct (in_lf g G _ Hid) as (k & y & x & E1 & Hk' & E2 & Hy & Hx & pos & size & lpos & lsize & F1 & F2 & F3 & F4 & P1 & P2 & _).
  destruct (grid_g g G) as [_ L S]. rewrite (L _ Hid) in F1. injection F1 as <-. specialize (S _ Hid). cbv zeta in S. destruct S as (S & B1 & B2).
  destruct (grid_lf g G) as [_ LL _]. rewrite (LL _ Hk') in F3. injection F3 as <-. cbn [fst snd] in P1, P2. unfold lW, lH in Hk'.
  rewrite D in *. change (8 * 256) with 2048 in *. unfold strideOf in *. fold (across g 256) (across g 2048) (down g 256) (down g 2048) in *.
  assert (EP : (Z.of_nat id / across g 256, Z.of_nat id mod across g 256) = tile_place g 256 id) by reflexivity.
  assert (K1 : Z.of_nat id / across g 256 / 8 = k / across g 2048) by (rewrite P1; symmetry; apply (Z.div_unique _ _ _ y); lia).
  assert (K2 : Z.of_nat id mod across g 256 / 8 = k mod across g 2048) by (rewrite P2; symmetry; apply (Z.div_unique _ _ _ x); lia).
  assert (K3 : (Z.of_nat id / across g 256) mod 8 = y) by (rewrite P1; symmetry; apply (Z.mod_unique _ _ (k / across g 2048)); lia).
  assert (K4 : (Z.of_nat id mod across g 256) mod 8 = x) by (rewrite P2; symmetry; apply (Z.mod_unique _ _ (k mod across g 2048)); lia).
  assert (EK : Z.of_nat (lf_of g id) = k).
  { unfold lf_of, tile_place. cbn [fst snd]. rewrite K1, K2. rewrite (Z.mul_comm (k / across g 2048)), <- Z.div_mod by lia. apply Z2Nat.id. lia. }
  split; [exact (L _ Hid)|]. split; [exact S|]. rewrite EK. split; [exact E1|]. split.
  { apply Nat2Z.inj_lt. rewrite EK. unfold tile_count. rewrite Z2Nat.id by lia. apply Hk'. }
  split; [unfold place_in_lf, tile_place; cbn [fst snd]; rewrite K3, K4; exact E2|].
  unfold tile_size, tile_place. cbn [fst snd]. fold (frame_h g) (frame_w g). unfold ph, pw, frame_h, frame_w in *.
  pose proof (Z.mod_pos_bound (Z.of_nat id) (across g 256) ltac:(lia)). assert (0 <= Z.of_nat id / across g 256) by (apply Z.div_pos; lia). lia.
Qed.
Lemma multiple_min a b m : (m | a) -> (m | b) -> (m | Z.min a b).
Proof. intros Ha Hb. destruct (Z.min_spec a b) as [[_ ->]|[_ ->]]; assumption. Qed.
Definition shifts_ok (g : Geo) (jy jx : Z * Z * Z) : Prop := forall i, (i < 3)%nat -> 0 <= part jy i <= g_fy g /\ 0 <= part jx i <= g_fx g.
Lemma axis_whole size f s y j : 0 <= f <= 1 -> s = round_up size (8 * 2 ^ f) -> 1 <= Z.min 2048 (s - y * 2048) -> 0 <= j <= f ->
  (2 ^ j | Z.shiftr (Z.min 2048 (s - y * 2048)) 3) /\ 1 <= Z.shiftr (Z.min 2048 (s - y * 2048)) 3 <= 256.
Proof.
  intros Hf -> H1 Hj. assert (M : (8 * 2 ^ f | Z.min 2048 (round_up size (8 * 2 ^ f) - y * 2048))).
  { assert (D : (8 * 2 ^ f | 2048)) by (assert (f = 0 \/ f = 1) as [->| ->] by lia; [exists 256|exists 128]; reflexivity). apply multiple_min; [exact D|].
    apply Z.divide_sub_r; [exists ((size - 1) / (8 * 2 ^ f) + 1); reflexivity|]. apply Z.divide_mul_r. exact D. }
  set (v := Z.min 2048 (round_up size (8 * 2 ^ f) - y * 2048)) in *. assert (V : v <= 2048) by (unfold v; lia). clearbody v. destruct M as [q Eq]. rewrite Z.shiftr_div_pow2 by lia. change (2 ^ 3) with 8.
  assert (E : v / 8 = q * 2 ^ f) by (rewrite Eq; replace (q * (8 * 2 ^ f)) with (q * 2 ^ f * 8) by ring; apply Z.div_mul; lia). rewrite E. split.
  - apply Z.divide_mul_r. exists (2 ^ (f - j)). rewrite <- Z.pow_add_r by lia. f_equal. lia.
  - assert (v = 8 * (q * 2 ^ f)) by (rewrite Eq; ring). lia.
Qed.
Lemma geo_whole f lg k : var_geo (vf_geo f) -> shifts_ok (vf_geo f) (vf_jy f) (vf_jx f) -> (k < tile_count (vf_geo f) 2048)%nat ->
  whole (lfParams f lg (tile_size (vf_geo f) 2048 k) (tile_place (vf_geo f) 2048 k)) /\
  lp_height (lfParams f lg (tile_size (vf_geo f) 2048 k) (tile_place (vf_geo f) 2048 k)) <= 256 /\ lp_width (lfParams f lg (tile_size (vf_geo f) 2048 k) (tile_place (vf_geo f) 2048 k)) <= 256.
Proof.
  intros V HS Hk. destruct (geo_lf _ k V Hk) as (_ & _ & B1 & B2). pose proof V as [[_ _ _ Fx Fy _] D VD]. unfold whole, lfParams. cbn [lp_height lp_width lp_shiftY lp_shiftX].
  unfold tile_size in *. cbn [fst snd] in *.
  assert (Uy : frame_h (vf_geo f) = round_up (g_height (vf_geo f)) (8 * 2 ^ g_fy (vf_geo f))) by (unfold frame_h, pad_unit; rewrite VD; reflexivity).
  assert (Ux : frame_w (vf_geo f) = round_up (g_width (vf_geo f)) (8 * 2 ^ g_fx (vf_geo f))) by (unfold frame_w, pad_unit; rewrite VD; reflexivity).
  destruct (axis_whole _ _ _ _ 0 Fy Uy (proj1 B1) ltac:(lia)) as [_ Y]. destruct (axis_whole _ _ _ _ 0 Fx Ux (proj1 B2) ltac:(lia)) as [_ X].
  split; [|lia]. split; [lia|]. split; [lia|]. intros i Hi. destruct (HS i Hi) as [H1 H2]. split; [lia|]. split; [lia|].
  split; [exact (proj1 (axis_whole _ _ _ _ _ Fy Uy (proj1 B1) H1))|exact (proj1 (axis_whole _ _ _ _ _ Fx Ux (proj1 B2) H2))].
Qed.

(* ---- parameters of LF groups ---- *)
Lemma float_value_ok f : f32R f = float_value f.
Proof.
  unfold f32R, float_value. destruct f as [n m e]. cbn [f_neg f_mant f_exp]. 
  assert (E : ((if n then -1 else 1) * IZR m = IZR (if n then - m else m))%R) by (destruct n; rewrite ?opp_IZR; lra). rewrite E. destruct (Z.ltb_spec e 0).
  - unfold Rdiv. f_equal. unfold powerRZ. destruct e as [|e|e]; try lia. reflexivity.
  - f_equal. unfold powerRZ. destruct e as [|e|e]; try lia; reflexivity.
Qed.
Lemma land_bit x n : 0 <= n -> negb (Z.land x (2 ^ n) =? 0) = Z.testbit x n.
Proof.
  intros Hn. destruct (Z.testbit x n) eqn:E.
  - destruct (Z.eqb_spec (Z.land x (2 ^ n)) 0) as [H|H]; [|reflexivity]. exfalso. apply (f_equal (fun v => Z.testbit v n)) in H. rewrite Z.land_spec, Z.pow2_bits_true, E, Z.bits_0 in H by exact Hn. discriminate.
  - replace (Z.land x (2 ^ n)) with 0; [reflexivity|]. symmetry. apply Z.bits_inj_iff. intros i. rewrite Z.land_spec, Z.bits_0, (Z.pow2_bits_eqb n i Hn). destruct (Z.eqb_spec n i) as [<-|]; [rewrite E; reflexivity|apply andb_false_r].
Qed.
Lemma lf_params_ok f lg k : 0 <= lg_globalScale lg * lg_quantLF lg < 2 ^ 31 -> lfParams f lg (tile_size (vf_geo f) 2048 k) (tile_place (vf_geo f) 2048 k) = lf_params f lg k.
Proof.
  intros H. unfold lfParams, lf_params. cbv zeta. destruct (tile_size (vf_geo f) 2048 k) as [h w], (tile_place (vf_geo f) 2048 k) as [y x]. cbn [fst snd].
  rewrite !C77_scale_partial by exact H. rewrite !float_value_ok. change 32 with (2 ^ 5). change 128 with (2 ^ 7). rewrite !land_bit by lia. rewrite !Z.shiftr_div_pow2, !Z.shiftl_mul_pow2 by lia. change (2 ^ 3) with 8. change (2 ^ 8) with 256.
  f_equal; lia.
Qed.
Lemma geo_cells f lg k : var_geo (vf_geo f) -> shifts_ok (vf_geo f) (vf_jy f) (vf_jx f) -> (k < tile_count (vf_geo f) 2048)%nat ->
  whole (lf_params f lg k) /\ lp_height (lf_params f lg k) <= 256 /\ lp_width (lf_params f lg k) <= 256.
Proof.
  intros V HS Hk. destruct (geo_whole f lg k V HS Hk) as (W & B). unfold whole in *. unfold lfParams, lf_params in *. destruct (tile_size (vf_geo f) 2048 k) as [h w], (tile_place (vf_geo f) 2048 k) as [y x].
  cbn [fst snd lp_height lp_width lp_shiftY lp_shiftX] in *. rewrite !Z.shiftr_div_pow2 in * by lia. exact (conj W B).
Qed.
