(* Lemmas about the scales of the lowest frequencies. *)
From Coq Require Import ZArith List Bool Lia Arith Reals Lra.
From Verif Require Import ModelHFDequant SpecDCT SpecHFDequant ProofDCTMath.
Import ListNotations.
Open Scope R_scope.

(* ---- means of samples ---- *)
Lemma basis_pair N k i : (0 < N)%nat -> basis (2 * N) k (2 * i) + basis (2 * N) k (2 * i + 1) = 2 * cos (PI * INR k / (4 * INR N)) * basis N k i.
Proof.
  intros HN. assert (INR N <> 0) by (apply not_0_INR; lia). unfold basis. rewrite plus_INR, !mult_INR. change (INR 2) with 2. change (INR 1) with 1.
  set (s := if (k =? 0)%nat then 1 else sqrt 2). set (d := PI * INR k / (4 * INR N)). set (m := PI * INR k * (2 * INR i + 1) / (2 * INR N)).
  replace (PI * INR k * (2 * (2 * INR i) + 1) / (2 * (2 * INR N))) with (m - d) by (unfold m, d; field; assumption).
  replace (PI * INR k * (2 * (2 * INR i + 1) + 1) / (2 * (2 * INR N))) with (m + d) by (unfold m, d; field; assumption).
  rewrite cos_minus, cos_plus. ring.
Qed.
Lemma sum_pairs n f : sum (2 * n) f = sum n (fun i => f (2 * i)%nat + f (2 * i + 1)%nat).
Proof.
  induction n as [|n IH]; [reflexivity|]. replace (2 * S n)%nat with (S (S (2 * n))) by lia. cbn [sum]. rewrite IH. replace (2 * n + 1)%nat with (S (2 * n)) by lia. ring.
Qed.
Definition cosines (N k : nat) : R := cos (PI * INR k / (16 * INR N)) * cos (PI * INR k / (8 * INR N)) * cos (PI * INR k / (4 * INR N)).
Lemma basis_eight N k i : (0 < N)%nat -> sum 8 (fun a => basis (8 * N) k (8 * i + a)) = 8 * cosines N k * basis N k i.
Proof.
  intros HN. change 8%nat with (2 * (2 * (2 * 1)))%nat at 1. rewrite !sum_pairs. cbn [sum].
  replace (8 * N)%nat with (2 * (2 * (2 * N)))%nat by lia.
  assert (P : forall m, basis (2 * (2 * (2 * N))) k (2 * m) + basis (2 * (2 * (2 * N))) k (2 * m + 1) = 2 * cos (PI * INR k / (16 * INR N)) * basis (2 * (2 * N)) k m).
  { intros m. rewrite basis_pair by lia. rewrite !mult_INR. change (INR 2) with 2. now replace (4 * (2 * (2 * INR N))) with (16 * INR N) by ring. }
  assert (Q : forall m, basis (2 * (2 * N)) k (2 * m) + basis (2 * (2 * N)) k (2 * m + 1) = 2 * cos (PI * INR k / (8 * INR N)) * basis (2 * N) k m).
  { intros m. rewrite basis_pair by lia. rewrite !mult_INR. change (INR 2) with 2. now replace (4 * (2 * INR N)) with (8 * INR N) by ring. }
  pose proof (P (4 * i + 0)%nat) as P0. pose proof (P (4 * i + 1)%nat) as P1. pose proof (P (4 * i + 2)%nat) as P2. pose proof (P (4 * i + 3)%nat) as P3.
  pose proof (Q (2 * i)%nat) as Q0. pose proof (Q (2 * i + 1)%nat) as Q1. pose proof (basis_pair N k i HN) as B.
  replace (8 * i + 2 * (2 * (2 * 0)))%nat with (2 * (4 * i + 0))%nat by lia. replace (8 * i + 2 * (2 * (2 * 0) + 1))%nat with (2 * (4 * i + 1))%nat by lia.
  replace (8 * i + 2 * (2 * (2 * 0 + 1)))%nat with (2 * (4 * i + 2))%nat by lia. replace (8 * i + 2 * (2 * (2 * 0 + 1) + 1))%nat with (2 * (4 * i + 3))%nat by lia.
  replace (8 * i + (2 * (2 * (2 * 0)) + 1))%nat with (2 * (4 * i + 0) + 1)%nat by lia. replace (8 * i + (2 * (2 * (2 * 0) + 1) + 1))%nat with (2 * (4 * i + 1) + 1)%nat by lia.
  replace (8 * i + (2 * (2 * (2 * 0 + 1)) + 1))%nat with (2 * (4 * i + 2) + 1)%nat by lia. replace (8 * i + (2 * (2 * (2 * 0 + 1) + 1) + 1))%nat with (2 * (4 * i + 3) + 1)%nat by lia.
  replace (4 * i + 0)%nat with (2 * (2 * i))%nat in * by lia. replace (4 * i + 1)%nat with (2 * (2 * i) + 1)%nat in * by lia.
  replace (4 * i + 2)%nat with (2 * (2 * i + 1))%nat in * by lia. replace (4 * i + 3)%nat with (2 * (2 * i + 1) + 1)%nat in * by lia.
  rewrite P0, P1, P2, P3.
  replace (0 + (2 * cos (PI * INR k / (16 * INR N)) * basis (2 * (2 * N)) k (2 * (2 * i)) + 2 * cos (PI * INR k / (16 * INR N)) * basis (2 * (2 * N)) k (2 * (2 * i) + 1) +
     (2 * cos (PI * INR k / (16 * INR N)) * basis (2 * (2 * N)) k (2 * (2 * i + 1)) + 2 * cos (PI * INR k / (16 * INR N)) * basis (2 * (2 * N)) k (2 * (2 * i + 1) + 1))))
    with (2 * cos (PI * INR k / (16 * INR N)) * ((basis (2 * (2 * N)) k (2 * (2 * i)) + basis (2 * (2 * N)) k (2 * (2 * i) + 1)) +
      (basis (2 * (2 * N)) k (2 * (2 * i + 1)) + basis (2 * (2 * N)) k (2 * (2 * i + 1) + 1)))) by ring.
  rewrite Q0, Q1. replace (2 * cos (PI * INR k / (8 * INR N)) * basis (2 * N) k (2 * i) + 2 * cos (PI * INR k / (8 * INR N)) * basis (2 * N) k (2 * i + 1))
    with (2 * cos (PI * INR k / (8 * INR N)) * (basis (2 * N) k (2 * i) + basis (2 * N) k (2 * i + 1))) by ring.
  rewrite B. unfold cosines. ring.
Qed.
Lemma cosines_pos N k : (k < N)%nat -> 0 < cosines N k.
Proof.
  intros Hk. assert (HN : 0 < INR N) by (apply lt_0_INR; lia). assert (0 <= INR k) by apply pos_INR. assert (INR k < INR N) by now apply lt_INR. pose proof PI_RGT_0 as HP.
  assert (A : 0 <= PI * INR k / INR N < PI).
  { split; [apply Rmult_le_pos; [nra|left; now apply Rinv_0_lt_compat]|]. apply Rmult_lt_reg_r with (INR N); [assumption|]. unfold Rdiv. rewrite Rmult_assoc, Rinv_l, Rmult_1_r by lra. apply Rmult_lt_compat_l; lra. }
  unfold cosines. replace (PI * INR k / (16 * INR N)) with (PI * INR k / INR N / 16) by (field; lra).
  replace (PI * INR k / (8 * INR N)) with (PI * INR k / INR N / 8) by (field; lra). replace (PI * INR k / (4 * INR N)) with (PI * INR k / INR N / 4) by (field; lra).
  set (t := PI * INR k / INR N) in *. repeat apply Rmult_lt_0_compat; apply cos_gt_0; lra.
Qed.
Lemma sum_trunc n m f : (n <= m)%nat -> (forall i, (n <= i)%nat -> (i < m)%nat -> f i = 0) -> sum m f = sum n f.
Proof.
  intros Hn Hz. induction m as [|m IH]; [now replace n with O by lia|]. destruct (Nat.eq_dec n (S m)) as [->|Hne]; [reflexivity|].
  cbn [sum]. rewrite (Hz m) by lia. rewrite IH by (lia || (intros; apply Hz; lia)). ring.
Qed.
Lemma cell_sum H W c i j : (0 < H)%nat -> (0 < W)%nat ->
  sum 8 (fun a => sum 8 (fun b => idct2 (8 * H) (8 * W) c (8 * i + a) (8 * j + b))) =
  sum (8 * H) (fun v => sum (8 * W) (fun u => c v u * (8 * cosines H v * basis H v i) * (8 * cosines W u * basis W u j))).
Proof.
  intros HH HW. unfold idct2.
  transitivity (sum 8 (fun a => sum (8 * H) (fun v => sum (8 * W) (fun u => c v u * basis (8 * H) v (8 * i + a) * (8 * cosines W u * basis W u j))))).
  - apply sum_ext. intros a _. rewrite sum_swap. apply sum_ext. intros v _. rewrite sum_swap. apply sum_ext. intros u _. rewrite sum_scal. now rewrite basis_eight.
  - rewrite sum_swap. apply sum_ext. intros v _. rewrite sum_swap. apply sum_ext. intros u _. rewrite sum_scal_r.
    f_equal. rewrite sum_scal. now rewrite basis_eight.
Qed.
Lemma llf_mean H W f i j : (i < H)%nat -> (j < W)%nat -> cell_mean (idct2 (8 * H) (8 * W) (llf_only llf_factor H W f)) i j = f i j.
Proof.
  intros Hi Hj. unfold cell_mean. rewrite cell_sum by lia.
  rewrite <- (idct2_dct2 H W f i j Hi Hj). unfold idct2.
  rewrite (sum_trunc H (8 * H)).
  - transitivity (sum H (fun v => 64 * sum W (fun u => dct2 H W f v u * basis H v i * basis W u j)) / 64).
    + f_equal. apply sum_ext. intros v Hv. rewrite (sum_trunc W (8 * W)).
      * rewrite <- sum_scal. apply sum_ext. intros u Hu. unfold llf_only. replace (v <? H)%nat with true by (symmetry; now apply Nat.ltb_lt). replace (u <? W)%nat with true by (symmetry; now apply Nat.ltb_lt).
        cbn [andb]. change (llf_factor H v) with (1 / cosines H v). change (llf_factor W u) with (1 / cosines W u). pose proof (cosines_pos H v Hv). pose proof (cosines_pos W u Hu). field. lra.
      * lia.
      * intros u Hu _. unfold llf_only. replace (u <? W)%nat with false by (symmetry; now apply Nat.ltb_ge). rewrite andb_false_r. ring.
    + rewrite sum_scal. field.
  - lia.
  - intros v Hv _. apply sum_zero. intros u _. unfold llf_only. replace (v <? H)%nat with false by (symmetry; now apply Nat.ltb_ge). cbn [andb]. ring.
Qed.

(* ---- the table ---- *)
Definition SZ : Z := (2 ^ 100)%Z.
(* bounds of a number between 0 and 1 in units of 2^-100 *)
Definition enc (c : R) (b : Z * Z) : Prop := (0 <= fst b)%Z /\ IZR (fst b) <= IZR SZ * c <= IZR (snd b).
Definition half_step (b : Z * Z) : Z * Z := (Z.sqrt (SZ * (SZ + fst b) / 2), Z.sqrt (SZ * (SZ + snd b) / 2) + 1)%Z.
Definition double_step (b : Z * Z) : Z * Z := (2 * fst b * fst b / SZ - SZ, 2 * snd b * snd b / SZ + 1 - SZ)%Z.
Definition next_step (b1 b b' : Z * Z) : Z * Z := (2 * fst b1 * fst b / SZ - snd b', 2 * snd b1 * snd b / SZ + 1 - fst b')%Z.
Lemma SZ_pos : 0 < IZR SZ.
Proof. apply IZR_lt. reflexivity. Qed.
Lemma div_low a : (0 <= a)%Z -> IZR (a / SZ) * IZR SZ <= IZR a.
Proof. intros Ha. rewrite <- mult_IZR. apply IZR_le. pose proof (Z.mul_div_le a SZ ltac:(reflexivity)). lia. Qed.
Lemma div_high a : (0 <= a)%Z -> IZR a <= IZR (a / SZ + 1) * IZR SZ.
Proof. intros Ha. rewrite <- mult_IZR. apply IZR_le. pose proof (Z.mul_succ_div_gt a SZ ltac:(reflexivity)). lia. Qed.
Lemma half_ok t b : 0 <= cos (t / 2) -> enc (cos t) b -> enc (cos (t / 2)) (half_step b).
Proof.
  intros Hc (H0 & HL & HH). pose proof SZ_pos as HS. assert (E : cos t = 2 * (cos (t / 2) * cos (t / 2)) - 1). { replace t with (2 * (t / 2)) at 1 by field. rewrite cos_2a_cos. ring. }
  assert (PS : (0 < SZ)%Z) by reflexivity.
  assert (HB : (0 <= snd b)%Z). { apply le_IZR. apply Rle_trans with (2 := HH). apply Rle_trans with (2 := HL). now apply IZR_le. }
  set (c := cos (t / 2)) in *. unfold half_step. cbn [fst snd]. split; [apply Z.sqrt_nonneg|]. cbn [fst snd]. split.
  - set (q := (SZ * (SZ + fst b) / 2)%Z). assert (Hq : (0 <= q)%Z) by (apply Z.div_pos; [apply Z.mul_nonneg_nonneg; lia|lia]).
    pose proof (Z.sqrt_spec q Hq) as [Sq _]. pose proof (Z.sqrt_nonneg q). set (r := Z.sqrt q) in *.
    assert (Q2 : (2 * q <= SZ * (SZ + fst b))%Z) by apply (Z.mul_div_le _ 2 ltac:(reflexivity)).
    assert (R1 : 2 * (IZR r * IZR r) <= IZR SZ * (IZR SZ + IZR (fst b))). { rewrite <- plus_IZR, <- !mult_IZR. apply IZR_le. lia. }
    assert (R2 : IZR r * IZR r <= (IZR SZ * c) * (IZR SZ * c)).
    { apply Rmult_le_reg_l with 2; [lra|]. apply Rle_trans with (1 := R1). rewrite E in HL.
      apply Rle_trans with (IZR SZ * (IZR SZ + IZR SZ * (2 * (c * c) - 1))); [apply Rmult_le_compat_l; lra|]. right. ring. }
    assert (0 <= IZR r) by now apply IZR_le. assert (0 <= IZR SZ * c) by (apply Rmult_le_pos; lra). apply Rsqr_incr_0; assumption.
  - set (q := (SZ * (SZ + snd b) / 2)%Z). assert (Hq : (0 <= q)%Z) by (apply Z.div_pos; [apply Z.mul_nonneg_nonneg; lia|lia]).
    pose proof (Z.sqrt_spec q Hq) as [_ Sq]. pose proof (Z.sqrt_nonneg q). set (r := Z.sqrt q) in *.
    assert (Q2 : (SZ * (SZ + snd b) < 2 * (q + 1))%Z). { pose proof (Z.mul_succ_div_gt (SZ * (SZ + snd b)) 2 ltac:(reflexivity)) as G. fold q in G. lia. }
    assert (R1 : IZR SZ * (IZR SZ + IZR (snd b)) <= 2 * (IZR (r + 1) * IZR (r + 1))). { rewrite <- plus_IZR, <- !mult_IZR. apply IZR_le. lia. }
    assert (R2 : (IZR SZ * c) * (IZR SZ * c) <= IZR (r + 1) * IZR (r + 1)).
    { apply Rmult_le_reg_l with 2; [lra|]. apply Rle_trans with (2 := R1). rewrite E in HH.
      apply Rle_trans with (IZR SZ * (IZR SZ + IZR SZ * (2 * (c * c) - 1))); [right; ring|apply Rmult_le_compat_l; lra]. }
    assert (0 <= IZR (r + 1)) by (apply IZR_le; lia). assert (0 <= IZR SZ * c) by (apply Rmult_le_pos; lra). apply Rsqr_incr_0; assumption.
Qed.
(* product of two numbers *)
Lemma prod_bounds a b ba bb : enc a ba -> enc b bb ->
  IZR (2 * fst ba * fst bb / SZ) <= IZR SZ * (2 * a * b) <= IZR (2 * snd ba * snd bb / SZ + 1).
Proof.
  intros (A0 & AL & AH) (B0 & BL & BH). pose proof SZ_pos as HS. assert (0 <= IZR (fst ba)) by now apply IZR_le. assert (0 <= IZR (fst bb)) by now apply IZR_le.
  assert (A2 : (0 <= snd ba)%Z) by (apply le_IZR; lra). assert (B2 : (0 <= snd bb)%Z) by (apply le_IZR; lra).
  split; apply Rmult_le_reg_r with (IZR SZ); try assumption.
  - apply Rle_trans with (1 := div_low (2 * fst ba * fst bb) ltac:(lia)). rewrite !mult_IZR. replace (IZR SZ * (2 * a * b) * IZR SZ) with (2 * (IZR SZ * a) * (IZR SZ * b)) by ring.
    apply Rmult_le_compat; lra.
  - apply Rle_trans with (2 := div_high (2 * snd ba * snd bb) ltac:(lia)). rewrite !mult_IZR. replace (IZR SZ * (2 * a * b) * IZR SZ) with (2 * (IZR SZ * a) * (IZR SZ * b)) by ring.
    apply Rmult_le_compat; lra.
Qed.
Lemma double_ok t b : (0 <=? fst (double_step b))%Z = true -> enc (cos t) b -> enc (cos (2 * t)) (double_step b).
Proof.
  intros H0 H. pose proof (prod_bounds _ _ _ _ H H) as [P1 P2]. rewrite cos_2a_cos. unfold double_step in *. cbn [fst snd] in *. split; [now apply Z.leb_le|]. cbn [fst snd]. rewrite !minus_IZR.
  replace (IZR SZ * (2 * cos t * cos t - 1)) with (IZR SZ * (2 * cos t * cos t) - IZR SZ) by ring. lra.
Qed.
Lemma next_ok t s b1 b b' : (0 <=? fst (next_step b1 b b'))%Z = true -> enc (cos t) b1 -> enc (cos s) b -> enc (cos (s - t)) b' -> enc (cos (s + t)) (next_step b1 b b').
Proof.
  intros H0 H1 H (_ & H'). pose proof (prod_bounds _ _ _ _ H1 H) as [P1 P2]. unfold next_step in *. cbn [fst snd] in *. split; [now apply Z.leb_le|]. cbn [fst snd]. rewrite !minus_IZR.
  replace (cos (s + t)) with (2 * cos t * cos s - cos (s - t)) by (rewrite cos_plus, cos_minus; ring).
  rewrite Rmult_minus_distr_l. lra.
Qed.

Fixpoint iter {A} (n : nat) (f : A -> A) (a : A) : A := match n with O => a | S n' => f (iter n' f a) end.
Lemma halves_ok n : enc (cos (PI / 2 / 2 ^ n)) (iter n half_step (0, 0)%Z).
Proof.
  induction n as [|n IH].
  - cbn [iter pow]. replace (PI / 2 / 1) with (PI / 2) by field. rewrite cos_PI2. split; [cbn; lia|]. cbn [fst snd]. lra.
  - cbn [iter]. replace (PI / 2 / 2 ^ S n) with (PI / 2 / 2 ^ n / 2) by (cbn [pow]; field; apply pow_nonzero; lra). apply half_ok; [|exact IH].
    assert (P : 1 <= 2 ^ n) by (apply pow_R1_Rle; lra). pose proof PI_RGT_0. assert (0 <= PI / 2 / 2 ^ n <= PI / 2).
    { split; [apply Rmult_le_pos; [lra|left; apply Rinv_0_lt_compat; lra]|]. unfold Rdiv at 1. rewrite <- (Rmult_1_r (PI / 2)) at 2. apply Rmult_le_compat_l; [lra|]. rewrite <- Rinv_1. apply Rinv_le_contravar; lra. }
    apply cos_ge_0; lra.
Qed.
(* bounds of the cosines of j pi/512 and (j+1) pi/512 *)
Definition unit_angle : R := PI / 512.
Definition b_unit : Z * Z := iter 8 half_step (0, 0)%Z.
Definition cos_step (s : (Z * Z) * (Z * Z)) : (Z * Z) * (Z * Z) := (snd s, next_step b_unit (snd s) (fst s)).
Definition cos_pair (j : nat) : (Z * Z) * (Z * Z) := iter j cos_step ((SZ, SZ), b_unit).
Definition cos_check (j : nat) : bool := (0 <=? fst (snd (cos_pair j)))%Z.
Lemma unit_ok : enc (cos unit_angle) b_unit.
Proof. pose proof (halves_ok 8) as H. unfold unit_angle. replace (PI / 512) with (PI / 2 / 2 ^ 8) by field. exact H. Qed.
Lemma cos_pair_ok j : (forall i, (i <= j)%nat -> cos_check i = true) -> enc (cos (INR j * unit_angle)) (fst (cos_pair j)) /\ enc (cos (INR (S j) * unit_angle)) (snd (cos_pair j)).
Proof.
  induction j as [|j IH]; intros HC.
  - cbn [cos_pair iter fst snd]. change (INR 0) with 0. change (INR 1) with 1. rewrite Rmult_0_l, Rmult_1_l, cos_0. split; [|exact unit_ok]. split; [cbn; lia|]. cbn [fst snd]. lra.
  - destruct IH as [I1 I2]; [intros; apply HC; lia|]. change (cos_pair (S j)) with (cos_step (cos_pair j)) in *. unfold cos_step. cbn [fst snd]. split; [exact I2|].
    rewrite (S_INR (S j)). replace ((INR (S j) + 1) * unit_angle) with (INR (S j) * unit_angle + unit_angle) by ring. apply next_ok; [|exact unit_ok|exact I2|].
    + exact (HC (S j) ltac:(lia)).
    + replace (INR (S j) * unit_angle - unit_angle) with (INR j * unit_angle) by (rewrite S_INR; ring). exact I1.
Qed.
(* the table in units of 10^-19 *)
Definition SCALE_Z : list Z := [
  10000000000000000000; 10003954307206444720; 10015830492063566798; 10035668445359847378; 10063534990068075448; 10099524393750471170;
  10143759095929498827; 10196390660646908181; 10257600967811994622; 10327603660498609462; 10406645869479269795; 10495010240726261235;
  10593017296818027804; 10701028169146909598; 10819447744633102634; 10948728278735071820; 11089373535928257701; 11241943530045446156;
  11407059950032801390; 11585412372562662921; 11777765381971696030; 11984966740821024139; 12207956782314713353; 12447779229495839992;
  12705593687655135089; 12982690107340108228; 13280505578212198723; 13600643892400108061; 13944898413648201160; 14315278911623840964;
  14714043176060183528; 15143734423313919909]%Z.
Definition tol : Z := 2000000.
Definition entry_check (j : nat) : bool :=
  let b1 := fst (cos_pair j) in let b2 := double_step b1 in let b4 := double_step b2 in let n := nth j SCALE_Z 0%Z in
  (0 <=? fst b2)%Z && (0 <=? fst b4)%Z && (tol <? n)%Z && ((n - tol) * (snd b1 * snd b2 * snd b4) <=? 10 ^ 19 * SZ ^ 3)%Z && (10 ^ 19 * SZ ^ 3 <=? (n + tol) * (fst b1 * fst b2 * fst b4))%Z && cos_check j.
Lemma entries_checked : forallb entry_check (seq 0 32) = true.
Proof. vm_compute. reflexivity. Qed.
Lemma table_values j : nth j SCALE_F 0 = IZR (nth j SCALE_Z 0%Z) / IZR (10 ^ 19).
Proof. do 32 (destruct j as [|j]; [unfold SCALE_F, SCALE_Z; cbn [nth]; try reflexivity; unfold Rdiv; try lra|]). destruct j; cbn [nth SCALE_F SCALE_Z]; lra. Qed.
Lemma bounded_inverse n P : 0 < P -> (tol < n)%Z -> (IZR n - IZR tol) * P <= IZR (10 ^ 19) -> IZR (10 ^ 19) <= (IZR n + IZR tol) * P ->
  Rabs (IZR n / IZR (10 ^ 19) - 1 / P) <= 2 / 10 ^ 13.
Proof.
  intros HP Hn H1 H2. assert (T : IZR (10 ^ 19) = 10 ^ 19) by (change (10 ^ 19)%Z with (10 ^ Z.of_nat 19)%Z; rewrite <- pow_IZR; reflexivity). rewrite T in *. replace (IZR tol) with (2 * 10 ^ 6) in * by (unfold tol; lra).
  assert (E : 1 / P * P = 1) by (field; lra). assert (0 < 1 / P) by (apply Rdiv_lt_0_compat; lra). set (q := 1 / P) in *. set (v := IZR n) in *. clearbody q v.
  assert (v - 2 * 10 ^ 6 <= 10 ^ 19 * q). { apply Rmult_le_reg_r with P; [assumption|]. rewrite Rmult_assoc, E. lra. }
  assert (10 ^ 19 * q <= v + 2 * 10 ^ 6). { apply Rmult_le_reg_r with P; [assumption|]. rewrite Rmult_assoc, E. lra. }
  apply Rabs_le. lra.
Qed.
Lemma enc_nonneg c b : enc c b -> 0 <= IZR SZ * c /\ 0 <= IZR (fst b).
Proof. intros (H0 & H1 & _). assert (0 <= IZR (fst b)) by now apply IZR_le. lra. Qed.
Lemma table_close j : (j < 32)%nat -> Rabs (nth j SCALE_F 0 - llf_factor 32 j) <= 2 / 10 ^ 13.
Proof.
  intros Hj. pose proof entries_checked as HC. rewrite forallb_forall in HC.
  assert (CC : forall i, (i <= j)%nat -> cos_check i = true).
  { intros i Hi. assert (G : entry_check i = true) by (apply HC; apply in_seq; lia). unfold entry_check in G. apply andb_true_iff in G as [_ G]. exact G. }
  destruct (cos_pair_ok j CC) as [E1 _]. assert (G : entry_check j = true) by (apply HC; apply in_seq; lia). clear HC CC. unfold entry_check in G.
  set (b1 := fst (cos_pair j)) in *. cbn zeta in G. rewrite !andb_true_iff in G. destruct G as [[[[[G1 G2] G3] G4] G5] _].
  pose proof (double_ok _ _ G1 E1) as E2. pose proof (double_ok _ _ G2 E2) as E4. set (b2 := double_step b1) in *. set (b4 := double_step b2) in *. clearbody b1 b2 b4.
  apply Z.ltb_lt in G3. apply Z.leb_le in G4, G5. rewrite table_values. change (llf_factor 32 j) with (1 / cosines 32 j).
  assert (EC : cosines 32 j = cos (INR j * unit_angle) * cos (2 * (INR j * unit_angle)) * cos (2 * (2 * (INR j * unit_angle)))).
  { unfold cosines, unit_angle. replace (INR 32) with 32 by (rewrite INR_IZR_INZ; reflexivity). f_equal; [f_equal|]; f_equal; field. }
  pose proof (cosines_pos 32 j Hj) as HP. rewrite EC in HP |- *.
  set (a := cos (INR j * unit_angle)) in *. set (b := cos (2 * (INR j * unit_angle))) in *. set (c := cos (2 * (2 * (INR j * unit_angle)))) in *. clearbody a b c.
  pose proof (enc_nonneg _ _ E1) as [N1 M1]. pose proof (enc_nonneg _ _ E2) as [N2 M2]. pose proof (enc_nonneg _ _ E4) as [N4 M4].
  destruct E1 as (_ & L1 & H1). destruct E2 as (_ & L2 & H2). destruct E4 as (_ & L4 & H4). pose proof SZ_pos as HS. set (n := nth j SCALE_Z 0%Z) in *. clearbody n. clear EC Hj G1 G2.
  apply IZR_le in G4, G5. rewrite !mult_IZR, minus_IZR in G4. rewrite !mult_IZR, plus_IZR in G5.
  replace (IZR (SZ ^ 3)) with (IZR SZ * IZR SZ * IZR SZ) in * by (rewrite <- !mult_IZR; f_equal).
  assert (T3 : IZR tol < IZR n) by now apply IZR_lt.
  assert (K : (IZR SZ * a) * (IZR SZ * b) * (IZR SZ * c) = (IZR SZ * IZR SZ * IZR SZ) * (a * b * c)) by ring.
  assert (S3 : 0 < IZR SZ * IZR SZ * IZR SZ) by (exact (Rmult_lt_0_compat _ _ (Rmult_lt_0_compat _ _ HS HS) HS)).
  assert (TP : 0 <= IZR tol) by (apply IZR_le; unfold tol; lia).
  apply bounded_inverse; [exact HP|exact G3| |].
  - apply Rmult_le_reg_l with (IZR SZ * IZR SZ * IZR SZ); [exact S3|].
    apply Rle_trans with ((IZR n - IZR tol) * (IZR (snd b1) * IZR (snd b2) * IZR (snd b4))).
    + rewrite <- Rmult_assoc, (Rmult_comm (IZR SZ * IZR SZ * IZR SZ)), Rmult_assoc, <- K. apply Rmult_le_compat_l; [lra|].
      apply Rmult_le_compat; [apply Rmult_le_pos; assumption|assumption| |assumption]. apply Rmult_le_compat; assumption.
    + rewrite (Rmult_comm (IZR SZ * IZR SZ * IZR SZ)). exact G4.
  - apply Rmult_le_reg_l with (IZR SZ * IZR SZ * IZR SZ); [exact S3|].
    apply Rle_trans with ((IZR n + IZR tol) * (IZR (fst b1) * IZR (fst b2) * IZR (fst b4))).
    + rewrite (Rmult_comm (IZR SZ * IZR SZ * IZR SZ)). exact G5.
    + replace (IZR SZ * IZR SZ * IZR SZ * ((IZR n + IZR tol) * (a * b * c))) with ((IZR n + IZR tol) * (IZR SZ * a * (IZR SZ * b) * (IZR SZ * c))) by (rewrite K; ring). apply Rmult_le_compat_l; [lra|].
      apply Rmult_le_compat; [apply Rmult_le_pos; assumption|assumption| |assumption]. apply Rmult_le_compat; assumption.
Qed.
Lemma factor_index l k : (l <= 5)%nat -> llf_factor (2 ^ l) k = llf_factor 32 (k * (32 / 2 ^ l)).
Proof.
  intros Hl. assert (E : (32 = 2 ^ l * (32 / 2 ^ l))%nat /\ (0 < 32 / 2 ^ l)%nat).
  { do 6 (destruct l as [|l]; [split; [reflexivity|apply Nat.ltb_lt; reflexivity]|]). lia. }
  destruct E as [E HQ]. set (q := (32 / 2 ^ l)%nat) in *. rewrite E. clearbody q.
  assert (INR (2 ^ l) <> 0) by (apply not_0_INR; apply Nat.pow_nonzero; lia). assert (INR q <> 0) by (apply not_0_INR; lia).
  unfold llf_factor. rewrite !mult_INR. f_equal. f_equal; [f_equal|]; f_equal; field; auto.
Qed.
