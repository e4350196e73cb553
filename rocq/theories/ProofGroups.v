(* C31: groups tile the frame. *)
From Coq Require Import ZArith List Bool Lia ZifyBool.
From Verif Require Import GoBase Bits ModelUtil ModelGroups SpecGroups ProofCodes.
Import ListNotations.
Open Scope Z_scope.

Lemma ceil_div_ok a b : 1 <= a <= 2 ^ 31 -> 0 < b -> CeilDiv a b = Ok ((a - 1) / b + 1) /\ 1 <= (a - 1) / b + 1 <= a /\ a <= ((a - 1) / b + 1) * b /\ ((a - 1) / b) * b < a.
Proof.
  intros Ha Hb. unfold CeilDiv. destruct (Z.eqb_spec b 0); [lia|]. rewrite (u32_small (a - 1)) by lia.
  pose proof (Z.div_mod (a - 1) b ltac:(lia)) as E. pose proof (Z.mod_pos_bound (a - 1) b Hb) as M.
  assert (0 <= (a - 1) / b) by (apply Z.div_pos; lia).
  assert ((a - 1) / b <= a - 1) by (apply Z.div_le_upper_bound; nia).
  rewrite u32_small by lia. split; [reflexivity|]. split; [lia|]. nia.
Qed.

Lemma dim_vals g : geo_ok g -> g_dim g = 128 \/ g_dim g = 256 \/ g_dim g = 512 \/ g_dim g = 1024.
Proof.
  intros H. destruct (go_dim g H) as (s & Hs & ->).
  assert (s = 0 \/ s = 1 \/ s = 2 \/ s = 3) as [->|[->|[->| ->]]] by lia; cbn; lia.
Qed.

(* padded sizes are sizes rounded up to a multiple of m, which divides 16 *)
Lemma padded_ok vd size shift : 1 <= size <= 2 ^ 31 - 2 ^ 12 -> 0 <= shift <= 1 ->
  exists p m, paddedAxis vd size shift = Ok p /\ (m = 1 \/ m = 2 \/ m = 8 \/ m = 16) /\
    m = (if vd then 8 else 1) * 2 ^ shift /\ p = round_up size m /\ size <= p < size + m.
Proof.
  intros Hs Hf. unfold paddedAxis, round_up. rewrite Z.shiftl_mul_pow2, Z.mul_1_l by lia.
  assert (Hp : 1 <= 2 ^ shift <= 2) by (assert (shift = 0 \/ shift = 1) as [->| ->] by lia; cbn; lia).
  set (f := 2 ^ shift) in *. rewrite (u32_small f) by lia. destruct vd; cbv zeta.
  - rewrite (u32_small (size + 7)) by lia. rewrite Z.shiftr_div_pow2 by lia. change (2 ^ 3) with 8.
    assert (H8 : 1 <= (size + 7) / 8 <= 2 ^ 30) by (split; [apply Z.div_le_lower_bound|apply Z.div_le_upper_bound]; lia).
    destruct (ceil_div_ok ((size + 7) / 8) f ltac:(lia) ltac:(lia)) as (E & B1 & B2 & B3). rewrite E. cbn [obind].
    set (c := ((size + 7) / 8 - 1) / f + 1) in *.
    pose proof (Z.div_mod (size + 7) 8 ltac:(lia)) as D. pose proof (Z.mod_pos_bound (size + 7) 8 ltac:(lia)) as M.
    assert (Hc : size <= c * f * 8 < size + 8 * f).
    { assert (c * f < (size + 7) / 8 + f) by (unfold c in *; lia). lia. }
    rewrite (u32_small (c * f)) by lia. rewrite Z.shiftl_mul_pow2 by lia. change (2 ^ 3) with 8. rewrite u32_small by lia.
    exists (c * f * 8), (8 * f). split; [reflexivity|]. split; [assert (f = 1 \/ f = 2) as [-> | ->] by lia; lia|]. split; [reflexivity|].
    split; [|lia].
    assert (c = (size - 1) / (8 * f) + 1); [|subst c; rewrite H; ring].
    assert ((size - 1) / (8 * f) = c - 1); [|lia]. symmetry. apply Z.div_unique_pos with (size - 1 - 8 * f * (c - 1)); nia.
  - destruct (ceil_div_ok size f ltac:(lia) ltac:(lia)) as (E & B1 & B2 & B3). rewrite E. cbn [obind].
    rewrite u32_small by nia. exists (((size - 1) / f + 1) * f), f. split; [reflexivity|]. split; [lia|]. split; [lia|]. split; [reflexivity|]. lia.
Qed.

(* one axis: number of groups, padded size *)
Lemma axis_ok vd size shift d : 1 <= size <= 2 ^ 31 - 2 ^ 12 -> 0 <= shift <= 1 -> (d = 128 \/ d = 256 \/ d = 512 \/ d = 1024 \/ d = 2048 \/ d = 4096 \/ d = 8192) ->
  exists p n, paddedAxis vd size shift = Ok p /\ CeilDiv size d = Ok n /\ n = (size - 1) / d + 1 /\ 1 <= n /\
    (n - 1) * d < size <= p /\ p <= n * d /\ p <= 2 ^ 31 - 2 ^ 11.
Proof.
  intros Hs Hf Hd. destruct (padded_ok vd size shift Hs Hf) as (p & m & E & Hm & _ & Ep & Hp). unfold round_up in Ep.
  destruct (ceil_div_ok size d ltac:(lia) ltac:(lia)) as (E2 & B1 & B2 & B3).
  exists p, ((size - 1) / d + 1). split; [exact E|]. split; [exact E2|]. split; [reflexivity|]. split; [lia|].
  split; [lia|]. split; [|destruct Hm as [->|[->|[->| ->]]]; lia].
  set (n := (size - 1) / d + 1) in *. assert (exists k, d = k * m) as (k & Hk).
  { destruct Hm as [->|[->|[->| ->]]]; destruct Hd as [->|[->|[->|[->|[->|[->| ->]]]]]];
    [exists 128|exists 256|exists 512|exists 1024|exists 2048|exists 4096|exists 8192
    |exists 64|exists 128|exists 256|exists 512|exists 1024|exists 2048|exists 4096
    |exists 16|exists 32|exists 64|exists 128|exists 256|exists 512|exists 1024
    |exists 8|exists 16|exists 32|exists 64|exists 128|exists 256|exists 512]; reflexivity. }
  assert (Hm0 : 0 < m) by (clear - Hm; lia). rewrite Ep. rewrite Hk, Z.mul_assoc. apply Z.mul_le_mono_nonneg_r; [lia|].
  assert ((size - 1) / m < n * k); [|lia]. apply Z.div_lt_upper_bound; [lia|]. rewrite Hk in B2. nia.
Qed.

Lemma location_ok s id : 1 <= s < 2 ^ 31 -> 0 <= id < 2 ^ 31 -> location s id = Ok (id / s, id mod s).
Proof.
  intros Hs Hi. unfold location, div_i32, mod_i32. rewrite i32_small by lia. destruct (Z.eqb_spec s 0); [lia|]. cbn [obind].
  rewrite Z.quot_div_nonneg, Z.rem_mod_nonneg by lia.
  assert (0 <= id / s <= id) by (split; [apply Z.div_pos; lia|apply Z.div_le_upper_bound; nia]).
  rewrite i32_small by lia. reflexivity.
Qed.

(* group size along one axis *)
Lemma size_axis p d x n : 0 < d <= 2 ^ 13 -> 0 <= p <= 2 ^ 31 - 2 ^ 11 -> 0 <= x -> x < n -> (n - 1) * d < p -> p <= n * d ->
  Z.min d (u32 (p - u32 (u32 x * d))) = Z.min d (p - x * d) /\ 1 <= Z.min d (p - x * d) <= d.
Proof.
  intros Hd Hp Hx Hn H1 H2.
  assert (Hxd : 0 <= x * d < p) by nia. assert (x < 2 ^ 31) by nia.
  rewrite (u32_small x) by lia. rewrite (u32_small (x * d)) by lia. rewrite u32_small by lia. lia.
Qed.

Definition strideOf (size d : Z) : Z := (size - 1) / d + 1.

(* The complete description of a grid with tile size d *)
Record grid (g : Geo) (d n : Z) (loc size : Z -> Outcome (Z * Z)) (pw ph : Z) : Prop := {
  gr_n : n = strideOf (g_width g) d * strideOf (g_height g) d;
  gr_loc : forall id, 0 <= id < n -> loc id = Ok (id / strideOf (g_width g) d, id mod strideOf (g_width g) d);
  gr_size : forall id, 0 <= id < n ->
     let y := id / strideOf (g_width g) d in let x := id mod strideOf (g_width g) d in
     size id = Ok (Z.min d (ph - y * d), Z.min d (pw - x * d)) /\ 1 <= Z.min d (ph - y * d) /\ 1 <= Z.min d (pw - x * d)
}.

Lemma grid_lemma g d loc size pw ph : 1 <= g_width g <= 2 ^ 31 - 2 ^ 12 -> 1 <= g_height g <= 2 ^ 31 - 2 ^ 12 -> 0 <= g_fx g <= 1 -> 0 <= g_fy g <= 1 ->
  (d = 128 \/ d = 256 \/ d = 512 \/ d = 1024 \/ d = 2048 \/ d = 4096 \/ d = 8192) ->
  strideOf (g_width g) d * strideOf (g_height g) d < 2 ^ 31 ->
  paddedWidth g = Ok pw -> paddedHeight g = Ok ph ->
  (forall id, loc id = obind (CeilDiv (g_width g) d) (fun s => location s id)) ->
  (forall id, size id = obind (loc id) (sizeAt g d)) ->
  grid g d (strideOf (g_width g) d * strideOf (g_height g) d) loc size pw ph.
Proof.
  intros Hw Hh Hfx Hfy Hd Hn Epw Eph Hloc Hsize.
  destruct (axis_ok (g_vardct g) (g_width g) (g_fx g) d Hw Hfx Hd) as (pw' & nw & A1 & A2 & A3 & A4 & A5 & A6 & A7).
  destruct (axis_ok (g_vardct g) (g_height g) (g_fy g) d Hh Hfy Hd) as (ph' & nh & C1 & C2 & C3 & C4 & C5 & C6 & C7).
  unfold paddedWidth in Epw. unfold paddedHeight in Eph.
  assert (pw' = pw) by congruence. assert (ph' = ph) by congruence. subst pw' ph'.
  fold (strideOf (g_width g) d) in A3. fold (strideOf (g_height g) d) in C3. rewrite A3 in *. rewrite C3 in *. clear A3 C3 nw nh.
  set (nw := strideOf (g_width g) d) in *. set (nh := strideOf (g_height g) d) in *.
  assert (Hnw : nw < 2 ^ 31) by nia.
  assert (L : forall id, 0 <= id < nw * nh -> loc id = Ok (id / nw, id mod nw)).
  { intros id Hid. rewrite Hloc, A2. cbn [obind]. apply location_ok; lia. }
  constructor; [reflexivity|exact L|].
  intros id Hid. cbv zeta. fold nw. rewrite Hsize, L by assumption. cbn [obind]. unfold sizeAt, paddedHeight, paddedWidth.
  rewrite C1, A1. cbn [obind fst snd].
  pose proof (Z.mod_pos_bound id nw ltac:(lia)). assert (0 <= id / nw) by (apply Z.div_pos; lia).
  assert (id / nw < nh) by (apply Z.div_lt_upper_bound; lia).
  destruct (size_axis ph d (id / nw) nh) as [S1 S2]; try lia.
  destruct (size_axis pw d (id mod nw) nw) as [T1 T2]; try lia.
  rewrite S1, T1. split; [reflexivity|]. lia.
Qed.


Lemma grid_tiles g d n loc size pw ph : grid g d n loc size pw ph -> 1 <= g_width g -> 1 <= g_height g -> 0 < d ->
  pw <= strideOf (g_width g) d * d -> ph <= strideOf (g_height g) d * d ->
  forall y x, 0 <= y < ph -> 0 <= x < pw ->
  exists id, 0 <= id < n /\ (exists p s, loc id = Ok p /\ size id = Ok s /\ covers d p s y x) /\
    forall id' p s, 0 <= id' < n -> loc id' = Ok p -> size id' = Ok s -> covers d p s y x -> id' = id.
Proof.
  intros G Hw Hh Hd Hpw Hph y x Hy Hx. destruct G as [En L S].
  set (nw := strideOf (g_width g) d) in *. set (nh := strideOf (g_height g) d) in *.
  assert (Hnw : 1 <= nw) by (unfold nw, strideOf; assert (0 <= (g_width g - 1) / d) by (apply Z.div_pos; lia); lia).
  pose proof (Z.div_mod y d ltac:(lia)) as Dy. pose proof (Z.mod_pos_bound y d Hd) as My.
  pose proof (Z.div_mod x d ltac:(lia)) as Dx. pose proof (Z.mod_pos_bound x d Hd) as Mx.
  assert (HX : 0 <= x / d < nw) by (split; [apply Z.div_pos; lia|apply Z.div_lt_upper_bound; nia]).
  assert (HY : 0 <= y / d < nh) by (split; [apply Z.div_pos; lia|apply Z.div_lt_upper_bound; nia]).
  set (id := y / d * nw + x / d).
  assert (Eq : id / nw = y / d) by (unfold id; rewrite Z.div_add_l by lia; rewrite (Z.div_small (x / d) nw) by lia; lia).
  assert (Er : id mod nw = x / d) by (unfold id; rewrite Z.add_comm, Z.mod_add by lia; apply Z.mod_small; lia).
  assert (Hid : 0 <= id < n) by (unfold id; rewrite En; clear - HX HY Hnw; set (X := x / d) in *; set (Y := y / d) in *; clearbody X Y nw nh; nia).
  exists id. split; [assumption|]. split.
  - destruct (S id Hid) as (E & _). exists (id / nw, id mod nw). eexists. split; [apply L; assumption|]. split; [exact E|].
    unfold covers. cbn [fst snd]. fold nw. rewrite Eq, Er. clear - Dy My Dx Mx Hy Hx. rewrite !(Z.mul_comm _ d). lia.
  - intros id' p s Hid' Lp Sp C. rewrite L in Lp by assumption. destruct (S id' Hid') as (E & _). fold nw in E. cbv zeta in E. rewrite E in Sp.
    assert (p = (id' / nw, id' mod nw)) by congruence. assert (s = (Z.min d (ph - id' / nw * d), Z.min d (pw - id' mod nw * d))) by congruence.
    subst p s. unfold covers in C. cbn [fst snd] in C.
    assert (EY : id' / nw = y / d) by (apply Z.div_unique_pos with (y - d * (id' / nw)); lia).
    assert (EX : id' mod nw = x / d) by (apply Z.div_unique_pos with (x - d * (id' mod nw)); lia).
    rewrite (Z.div_mod id' nw) by lia. rewrite EY, EX. unfold id. lia.
Qed.

(* sizes add up *)
Lemma sum_sizes d p n : 0 < d -> (Z.of_nat n - 1) * d < p <= Z.of_nat n * d -> (1 <= n)%nat -> sum_to n (fun x => Z.min d (p - x * d)) = p.
Proof.
  intros Hd Hp Hn.
  assert (H : forall k, (k < n)%nat -> sum_to k (fun x => Z.min d (p - x * d)) = Z.of_nat k * d).
  { induction k as [|k IH]; intros Hk; [reflexivity|]. cbn [sum_to]. rewrite IH by lia. rewrite Z.min_l; nia. }
  destruct n as [|n]; [lia|]. cbn [sum_to]. rewrite H by lia. rewrite Z.min_r; nia.
Qed.

Lemma sum_scale n f c : sum_to n (fun x => c * f x) = c * sum_to n f.
Proof. induction n as [|n IH]; cbn [sum_to]; [lia|]. rewrite IH. lia. Qed.
Lemma sum_ext n f h : (forall x, 0 <= x < Z.of_nat n -> f x = h x) -> sum_to n f = sum_to n h.
Proof. induction n as [|n IH]; intros H; cbn [sum_to]; [reflexivity|]. rewrite IH by (intros; apply H; lia). rewrite H by lia. reflexivity. Qed.
Lemma sum_add n m f : sum_to (n + m) f = sum_to n f + sum_to m (fun x => f (Z.of_nat n + x)).
Proof. induction m as [|m IH]; cbn [sum_to]; [rewrite Nat.add_0_r; lia|]. rewrite Nat.add_succ_r. cbn [sum_to]. rewrite IH, Nat2Z.inj_add. lia. Qed.
Lemma sum_prod nw nh f h : (0 < nw)%nat -> sum_to (nh * nw) (fun id => f (id / Z.of_nat nw) * h (id mod Z.of_nat nw)) = sum_to nh f * sum_to nw h.
Proof.
  intros Hw. induction nh as [|nh IH]; [reflexivity|]. cbn [Nat.mul]. rewrite Nat.add_comm, sum_add, IH. cbn [sum_to].
  rewrite Z.mul_add_distr_r. f_equal. rewrite <- sum_scale. apply sum_ext. intros x Hx.
  rewrite Nat2Z.inj_mul. rewrite Z.div_add_l by lia. rewrite (Z.div_small x) by lia. rewrite Z.add_0_r.
  f_equal. f_equal. rewrite Z.add_comm, Z.mod_add by lia. apply Z.mod_small. lia.
Qed.

Lemma in_eighth X n l d size : 0 < d -> 0 <= X < n -> (n - 1) * d < size -> size <= l * (8 * d) -> 0 <= X / 8 < l.
Proof.
  intros Hd HX H1 H2. split; [apply Z.div_pos; lia|]. apply Z.div_lt_upper_bound; [lia|].
  apply (Z.mul_lt_mono_pos_r d); [lia|]. replace (8 * l * d) with (l * (8 * d)) by ring.
  assert (X * d <= (n - 1) * d) by (apply Z.mul_le_mono_nonneg_r; lia). lia.
Qed.

(* ---- the frame ---- *)

Section Frame.
Variable g : Geo.
Hypothesis Hg : geo_ok g.
Let d := g_dim g.

Lemma d_vals : d = 128 \/ d = 256 \/ d = 512 \/ d = 1024. Proof. exact (dim_vals g Hg). Qed.
Lemma lf_dim : lfGroupDim g = 8 * d /\ u32 (Z.shiftl (g_dim g) 3) = 8 * d.
Proof.
  pose proof d_vals. unfold lfGroupDim. fold d. rewrite Z.shiftl_mul_pow2 by lia. change (2 ^ 3) with 8. rewrite u32_small by lia. lia.
Qed.

Definition pw := round_up (g_width g) (pad_unit g (g_fx g)).
Definition ph := round_up (g_height g) (pad_unit g (g_fy g)).
Lemma padded : paddedWidth g = Ok pw /\ paddedHeight g = Ok ph.
Proof.
  destruct Hg. unfold paddedWidth, paddedHeight, pw, ph, pad_unit.
  destruct (padded_ok (g_vardct g) (g_width g) (g_fx g)) as (p & m & E & _ & Em & Ep & _); try assumption.
  destruct (padded_ok (g_vardct g) (g_height g) (g_fy g)) as (p' & m' & E' & _ & Em' & Ep' & _); try assumption.
  rewrite E, E'. subst m m' p p'. split; reflexivity.
Qed.

Definition nW := strideOf (g_width g) d.
Definition nH := strideOf (g_height g) d.
Definition lW := strideOf (g_width g) (8 * d).
Definition lH := strideOf (g_height g) (8 * d).

Lemma axis_facts e : (e = d \/ e = 8 * d) ->
  1 <= strideOf (g_width g) e /\ 1 <= strideOf (g_height g) e /\
  CeilDiv (g_width g) e = Ok (strideOf (g_width g) e) /\ CeilDiv (g_height g) e = Ok (strideOf (g_height g) e) /\
  (strideOf (g_width g) e - 1) * e < g_width g <= pw /\ pw <= strideOf (g_width g) e * e /\
  (strideOf (g_height g) e - 1) * e < g_height g <= ph /\ ph <= strideOf (g_height g) e * e.
Proof.
  intros He. destruct Hg as [Hw Hh _ Hfx Hfy _]. pose proof d_vals.
  assert (Hd : e = 128 \/ e = 256 \/ e = 512 \/ e = 1024 \/ e = 2048 \/ e = 4096 \/ e = 8192) by lia.
  destruct (axis_ok (g_vardct g) (g_width g) (g_fx g) e Hw Hfx Hd) as (pw' & nw & A1 & A2 & A3 & A4 & A5 & A6 & A7).
  destruct (axis_ok (g_vardct g) (g_height g) (g_fy g) e Hh Hfy Hd) as (ph' & nh & C1 & C2 & C3 & C4 & C5 & C6 & C7).
  destruct padded as [P1 P2]. unfold paddedWidth in P1. unfold paddedHeight in P2.
  assert (pw' = pw) by congruence. assert (ph' = ph) by congruence. subst pw' ph'.
  fold (strideOf (g_width g) e) in A3. fold (strideOf (g_height g) e) in C3. rewrite A3 in *. rewrite C3 in *.
  split; [exact A4|]. split; [exact C4|]. split; [exact A2|]. split; [exact C2|]. lia.
Qed.

Lemma stride_le size : 1 <= size -> strideOf size (8 * d) <= strideOf size d.
Proof.
  intros Hs. unfold strideOf. pose proof d_vals. assert ((size - 1) / (8 * d) <= (size - 1) / d); [|lia].
  apply Z.div_le_compat_l; lia.
Qed.
Lemma counts : nW * nH < 2 ^ 31 /\ lW * lH < 2 ^ 31 /\ numGroups g = Ok (nW * nH) /\ numLFGroups g = Ok (lW * lH) /\ 1 <= nW /\ 1 <= nH /\ 1 <= lW <= nW /\ 1 <= lH <= nH.
Proof.
  destruct (axis_facts d (or_introl eq_refl)) as (A1 & A2 & A3 & A4 & _).
  destruct (axis_facts (8 * d) (or_intror eq_refl)) as (B1 & B2 & B3 & B4 & _).
  assert (Hn : nW * nH < 2 ^ 31) by (destruct Hg; assumption).
  pose proof (stride_le (g_width g) ltac:(destruct Hg; lia)) as L1. pose proof (stride_le (g_height g) ltac:(destruct Hg; lia)) as L2.
  fold nW in A1, A3, L1. fold nH in A2, A4, L2. fold lW in B1, B3, L1. fold lH in B2, B4, L2.
  assert (Hl : lW * lH < 2 ^ 31). { clear - Hn A1 A2 B1 B2 L1 L2. generalize nW nH lW lH Hn A1 A2 B1 B2 L1 L2. intros a b c e. intros. nia. }
  assert (0 <= nW * nH /\ 0 <= lW * lH) by (split; apply Z.mul_nonneg_nonneg; lia).
  unfold numGroups, numLFGroups, groupRowStride, lfGroupRowStride. destruct lf_dim as [_ ->]. fold d.
  rewrite A3, A4, B3, B4. cbn [obind]. rewrite !u32_small by lia. repeat split; lia.
Qed.

Lemma grid_g : grid g d (nW * nH) (getGroupLocation g) (getGroupSize g) pw ph.
Proof.
  pose proof d_vals. destruct padded. destruct counts as (Hn & _). destruct Hg.
  apply grid_lemma; try assumption; try lia; intros; unfold getGroupLocation, getGroupSize; reflexivity.
Qed.
Lemma grid_lf : grid g (8 * d) (lW * lH) (getLFGroupLocation g) (getLFGroupSize g) pw ph.
Proof.
  pose proof d_vals. destruct padded. destruct counts as (_ & Hn & _). destruct Hg.
  apply grid_lemma; try assumption; try lia; intros; destruct lf_dim as [E1 E2].
  - unfold getLFGroupLocation, lfGroupRowStride. rewrite E2. reflexivity.
  - unfold getLFGroupSize. rewrite E1. reflexivity.
Qed.

Lemma tiles : forall y x, 0 <= y < ph -> 0 <= x < pw ->
  (exists id, 0 <= id < nW * nH /\ (exists p s, getGroupLocation g id = Ok p /\ getGroupSize g id = Ok s /\ covers d p s y x) /\
    forall id' p s, 0 <= id' < nW * nH -> getGroupLocation g id' = Ok p -> getGroupSize g id' = Ok s -> covers d p s y x -> id' = id) /\
  (exists id, 0 <= id < lW * lH /\ (exists p s, getLFGroupLocation g id = Ok p /\ getLFGroupSize g id = Ok s /\ covers (8 * d) p s y x) /\
    forall id' p s, 0 <= id' < lW * lH -> getLFGroupLocation g id' = Ok p -> getLFGroupSize g id' = Ok s -> covers (8 * d) p s y x -> id' = id).
Proof.
  intros y x Hy Hx. pose proof d_vals.
  destruct (axis_facts d (or_introl eq_refl)) as (A1 & A2 & A3 & A4 & A5 & A6 & A7 & A8).
  destruct (axis_facts (8 * d) (or_intror eq_refl)) as (B1 & B2 & B3 & B4 & B5 & B6 & B7 & B8).
  assert (1 <= g_width g /\ 1 <= g_height g) as [] by (destruct Hg; lia).
  split; [exact (grid_tiles g d _ _ _ pw ph grid_g ltac:(assumption) ltac:(assumption) ltac:(lia) A6 A8 y x Hy Hx)|
    exact (grid_tiles g (8 * d) _ _ _ pw ph grid_lf ltac:(assumption) ltac:(assumption) ltac:(lia) B6 B8 y x Hy Hx)].
Qed.

Lemma area e n loc size : (e = d \/ e = 8 * d) -> grid g e n loc size pw ph -> sum_to (Z.to_nat n) (fun id => gsize (size id)) = ph * pw.
Proof.
  intros He G. destruct (axis_facts e He) as (A1 & A2 & _ & _ & A5 & A6 & A7 & A8). destruct G as [En _ S].
  set (nw := strideOf (g_width g) e) in *. set (nh := strideOf (g_height g) e) in *. pose proof d_vals.
  assert (E : Z.to_nat n = (Z.to_nat nh * Z.to_nat nw)%nat) by (rewrite En, Z2Nat.inj_mul by lia; lia).
  rewrite E.
  rewrite (sum_ext _ _ (fun id => Z.min e (ph - (id / Z.of_nat (Z.to_nat nw)) * e) * Z.min e (pw - (id mod Z.of_nat (Z.to_nat nw)) * e))).
  - rewrite (sum_prod (Z.to_nat nw) (Z.to_nat nh) (fun y => Z.min e (ph - y * e)) (fun x => Z.min e (pw - x * e))) by lia.
    rewrite !sum_sizes; try lia; replace (Z.of_nat (Z.to_nat nw)) with nw by lia; replace (Z.of_nat (Z.to_nat nh)) with nh by lia; lia.
  - intros id Hid. destruct (S id) as (-> & _).
    { rewrite En. split; [lia|]. rewrite <- E in Hid. rewrite <- En. lia. }
    replace (Z.of_nat (Z.to_nat nw)) with nw by lia. reflexivity.
Qed.

Lemma in_lf id : 0 <= id < nW * nH ->
  exists k y x, lfGroupIndex g id = Ok k /\ 0 <= k < lW * lH /\ groupPosInLFGroup g k id = Ok (y, x) /\ 0 <= y < 8 /\ 0 <= x < 8 /\
    exists pos size lpos lsize, getGroupLocation g id = Ok pos /\ getGroupSize g id = Ok size /\ getLFGroupLocation g k = Ok lpos /\ getLFGroupSize g k = Ok lsize /\
      fst pos = 8 * fst lpos + y /\ snd pos = 8 * snd lpos + x /\
      forall a b, covers d pos size a b -> covers (8 * d) lpos lsize a b.
Proof.
  intros Hid. destruct counts as (N1 & N2 & _ & _ & P1 & P2 & P3 & P4). assert (Hd : 0 < d <= 1024) by (pose proof d_vals; lia).
  destruct (axis_facts d (or_introl eq_refl)) as (_ & _ & A3 & _ & A5 & A6 & A7 & A8).
  destruct (axis_facts (8 * d) (or_intror eq_refl)) as (_ & _ & B3 & _ & B5 & B6 & B7 & B8).
  fold nW in A3, A5, A6. fold nH in A7, A8. fold lW in B3, B5, B6. fold lH in B7, B8.
  destruct grid_g as [_ L S]. destruct grid_lf as [_ LL SL]. specialize (L id Hid). specialize (S id Hid). cbv zeta in S. fold nW in L, S.
  set (Y := id / nW) in *. set (X := id mod nW) in *.
  assert (HX : 0 <= X < nW) by (apply Z.mod_pos_bound; lia).
  assert (HY : 0 <= Y < nH) by (split; [apply Z.div_pos; lia|apply Z.div_lt_upper_bound; lia]).
  clearbody X Y.
  pose proof (Z.div_mod X 8 ltac:(lia)) as DX. pose proof (Z.mod_pos_bound X 8 ltac:(lia)) as MX.
  pose proof (Z.div_mod Y 8 ltac:(lia)) as DY. pose proof (Z.mod_pos_bound Y 8 ltac:(lia)) as MY.
  assert (HX8 : 0 <= X / 8 < lW) by (apply (in_eighth X nW lW d (g_width g)); lia).
  assert (HY8 : 0 <= Y / 8 < lH) by (apply (in_eighth Y nH lH d (g_height g)); lia).
  set (k := Y / 8 * lW + X / 8).
  assert (Ek : k = Y / 8 * lW + X / 8) by reflexivity.
  assert (Hk : 0 <= k < lW * lH).
  { unfold k. clear - HX8 HY8 P3. set (a := Y / 8) in *. set (b := X / 8) in *. clearbody a b. generalize lW lH P3 HX8 HY8. intros u v. intros. nia. }
  assert (Ky : k / lW = Y / 8) by (unfold k; rewrite Z.div_add_l by lia; rewrite (Z.div_small (X / 8) lW) by lia; lia).
  assert (Kx : k mod lW = X / 8) by (unfold k; rewrite Z.add_comm, Z.mod_add by lia; apply Z.mod_small; lia).
  specialize (LL k Hk). specialize (SL k Hk). cbv zeta in SL. fold lW in LL, SL. rewrite Ky, Kx in LL, SL.
  clearbody k. exists k, (Y mod 8), (X mod 8).
  assert (N3 : nW <= nW * nH) by (clear - P1 P2; generalize nW nH P1 P2; intros u v; intros; nia).
  assert (N3' : nH <= nW * nH) by (clear - P1 P2; generalize nW nH P1 P2; intros u v; intros; nia).
  assert (N4 : lW <= lW * lH) by (clear - P3 P4; generalize lW lH P3 P4; intros u v; intros; nia).
  assert (N5 : 0 <= Y / 8 * lW <= k) by (split; [apply Z.mul_nonneg_nonneg|rewrite Ek]; lia).
  split.
  { unfold lfGroupIndex. rewrite L. cbn [obind fst snd]. unfold lfGroupRowStride. destruct lf_dim as [_ ->]. rewrite B3. cbn [obind].
    rewrite !Z.shiftr_div_pow2 by lia. change (2 ^ 3) with 8. rewrite (i32_small lW) by lia. rewrite (i32_small (Y / 8 * lW)) by lia. rewrite <- Ek. rewrite i32_small by lia. reflexivity. }
  split; [exact Hk|]. split.
  { unfold groupPosInLFGroup. rewrite L, LL. cbn [obind fst snd]. rewrite !Z.shiftl_mul_pow2 by lia. change (2 ^ 3) with 8.
    rewrite (i32_small (Y / 8 * 8)) by lia. rewrite (i32_small (X / 8 * 8)) by lia. rewrite !i32_small by lia. f_equal. f_equal; lia. }
  split; [lia|]. split; [lia|].
  destruct S as (S & _). destruct SL as (SL & _).
  eexists _, _, _, _. split; [exact L|]. split; [exact S|]. split; [exact LL|]. split; [exact SL|]. cbn [fst snd].
  split; [lia|]. split; [lia|]. intros a b [C1 C2]. cbn [fst snd] in C1, C2. unfold covers. cbn [fst snd].
  assert (E1 : Y * d = Y / 8 * (8 * d) + (Y mod 8) * d) by (rewrite DY at 1; ring).
  assert (E2 : X * d = X / 8 * (8 * d) + (X mod 8) * d) by (rewrite DX at 1; ring).
  assert (Q1 : 0 <= (Y mod 8) * d <= 7 * d) by (split; [apply Z.mul_nonneg_nonneg|apply Z.mul_le_mono_nonneg_r]; lia).
  assert (Q2 : 0 <= (X mod 8) * d <= 7 * d) by (split; [apply Z.mul_nonneg_nonneg|apply Z.mul_le_mono_nonneg_r]; lia).
  split; [clear - C1 E1 Q1 Hd|clear - C2 E2 Q2 Hd]; lia.
Qed.
End Frame.
