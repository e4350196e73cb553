(* The transfer functions with a linear part: errors of the constants. *)
From Coq Require Import ZArith List Bool Lia Reals Lra Psatz.
From Verif Require Import ModelColour.
Open Scope R_scope.

Lemma exp_near t e : Rabs t <= e -> e <= 1 / 2 -> Rabs (exp t - 1) <= 2 * e.
Proof.
  intros H He. assert (-e <= t <= e) by (unfold Rabs in H; destruct (Rcase_abs t); lra).
  assert (L : 1 + t <= exp t) by apply exp_ineq1_le. assert (U : 1 - t <= exp (- t)) by (pose proof (exp_ineq1_le (- t)); lra).
  assert (P : exp t * exp (- t) = 1) by (rewrite <- exp_plus; replace (t + - t) with 0 by lra; apply exp_0).
  pose proof (exp_pos t). assert (exp t <= 1 + 2 * e) by nra. apply Rabs_le. lra.
Qed.
Lemma ln_le_sub x : 0 < x -> ln x <= x - 1.
Proof. intros H. pose proof (exp_ineq1_le (ln x)) as E. rewrite exp_ln in E by assumption. lra. Qed.
Lemma ln_ge_inv x : 0 < x -> 1 - / x <= ln x.
Proof. intros H. pose proof (ln_le_sub (/ x) (Rinv_0_lt_compat x H)) as E. rewrite ln_Rinv in E by assumption. lra. Qed.
Lemma ln_small c x : 0 < c -> c <= x <= 1 -> Rabs (ln x) <= / c.
Proof.
  intros Hc Hx. pose proof (ln_le_sub x ltac:(lra)). pose proof (ln_ge_inv x ltac:(lra)). assert (/ x <= / c) by (apply Rinv_le_contravar; lra). apply Rabs_le. lra.
Qed.
Lemma power_near c d x : 0 < c -> c <= x <= 1 -> Rabs d * / c <= 1 / 2 -> Rabs (Rpower x d - 1) <= 2 * (Rabs d * / c).
Proof.
  intros Hc Hx H. unfold Rpower. apply exp_near; [|exact H]. rewrite Rabs_mult. apply Rmult_le_compat_l; [apply Rabs_pos|]. now apply ln_small.
Qed.
Lemma near_upper c K k e g x : 0 < c -> c <= x <= 1 -> 0 < g -> Rabs (K - 1) <= k -> k <= 1 / 2 ->
  2 * g * k + Rabs (e * g - 1) * / c <= 1 / 2 ->
  Rabs (Rpower (K * Rpower x e) g - x) <= 2 * (2 * g * k + Rabs (e * g - 1) * / c).
Proof.
  intros Hc Hx Hg HK Hk He. assert (HK2 : 1 - k <= K <= 1 + k) by (unfold Rabs in HK; destruct (Rcase_abs (K - 1)); lra).
  assert (LK : Rabs (ln K) <= 2 * k).
  { pose proof (ln_le_sub K ltac:(lra)). pose proof (ln_ge_inv K ltac:(lra)). assert (/ K <= 1 + 2 * k).
    { apply Rmult_le_reg_l with K; [lra|]. rewrite Rinv_r by lra. nra. }
    apply Rabs_le. lra. }
  assert (E : Rpower (K * Rpower x e) g = x * exp (g * ln K + (e * g - 1) * ln x)).
  { unfold Rpower. rewrite ln_mult by (lra || apply exp_pos). rewrite ln_exp. rewrite <- (exp_ln x) at 2 by lra. rewrite <- exp_plus. f_equal. ring. }
  rewrite E. replace (x * exp (g * ln K + (e * g - 1) * ln x) - x) with (x * (exp (g * ln K + (e * g - 1) * ln x) - 1)) by ring.
  rewrite Rabs_mult. rewrite (Rabs_pos_eq x) by lra.
  assert (B : Rabs (exp (g * ln K + (e * g - 1) * ln x) - 1) <= 2 * (2 * g * k + Rabs (e * g - 1) * / c)).
  { apply exp_near; [|exact He]. eapply Rle_trans; [apply Rabs_triang|]. rewrite !Rabs_mult. rewrite (Rabs_pos_eq g) by lra.
    apply Rplus_le_compat; [nra|]. apply Rmult_le_compat_l; [apply Rabs_pos|]. now apply ln_small. }
  pose proof (Rabs_pos (exp (g * ln K + (e * g - 1) * ln x) - 1)). nra.
Qed.
Lemma pow_root x n m : 0 < x -> (0 < m)%nat -> Rpower x (INR n / INR m) ^ m = x ^ n.
Proof.
  intros Hx Hm. rewrite <- (Rpower_pow m) by apply exp_pos. rewrite Rpower_mult. rewrite <- (Rpower_pow n) by assumption. f_equal. field. apply not_0_INR. lia.
Qed.
Lemma pow_le_inv x y n : 0 <= x -> 0 <= y -> (0 < n)%nat -> x ^ n <= y ^ n -> x <= y.
Proof.
  intros Hx Hy Hn H. destruct (Rle_lt_dec x y) as [L|L]; [exact L|]. exfalso.
  assert (P : y ^ n < x ^ n); [|lra]. clear H. destruct n as [|n]; [lia|]. clear Hn. induction n as [|n IH]; [cbn; lra|].
  change (y * y ^ S n < x * x ^ S n). assert (0 <= y ^ S n) by (now apply pow_le). nra.
Qed.
(* x^e with e = n/m + d *)
Lemma power_lower t x e n m L : (0 < m)%nat -> (0 < n)%nat -> 0 < t -> t <= x <= 1 -> 0 <= L -> L ^ m <= t ^ n -> Rabs (e - INR n / INR m) * / t <= 1 / 2 ->
  L * (1 - 2 * (Rabs (e - INR n / INR m) * / t)) <= Rpower x e.
Proof.
  intros Hm Hn Ht Hx HL H Hd. set (d := e - INR n / INR m) in *. replace e with (INR n / INR m + d) by (unfold d; ring). rewrite Rpower_plus.
  pose proof (power_near t d x Ht Hx Hd) as B. assert (1 - 2 * (Rabs d * / t) <= Rpower x d) by (unfold Rabs in B at 1; destruct (Rcase_abs (Rpower x d - 1)); lra).
  assert (L <= Rpower x (INR n / INR m)).
  { apply (pow_le_inv _ _ m); auto; [left; apply exp_pos|]. rewrite pow_root by (auto; lra). eapply Rle_trans; [exact H|]. apply pow_incr. lra. }
  assert (0 <= Rabs d * / t) by (apply Rmult_le_pos; [apply Rabs_pos|left; now apply Rinv_0_lt_compat]).
  pose proof (exp_pos (d * ln x)). change (exp (d * ln x)) with (Rpower x d) in *. apply Rmult_le_compat; lra.
Qed.
Lemma power_upper t x e n m q U : (0 < m)%nat -> (0 < n)%nat -> 0 < t -> t <= x <= 1 -> 0 <= q -> 0 <= U -> Rabs (e - INR n / INR m) * / t <= 1 / 2 ->
  (q * (1 + 2 * (Rabs (e - INR n / INR m) * / t))) ^ m <= U ^ n -> Rpower x e <= q -> x <= U.
Proof.
  intros Hm Hn Ht Hx Hq HU Hd H1 H2. set (d := e - INR n / INR m) in *.
  assert (B : Rabs (Rpower x (- d) - 1) <= 2 * (Rabs d * / t)) by (rewrite <- (Rabs_Ropp d) in *; now apply power_near).
  assert (Rpower x (- d) <= 1 + 2 * (Rabs d * / t)) by (unfold Rabs in B at 1; destruct (Rcase_abs (Rpower x (- d) - 1)); lra).
  apply (pow_le_inv _ _ n); auto; [lra|]. rewrite <- (pow_root x n m) by (auto; lra). eapply Rle_trans; [|exact H1]. apply pow_incr. split; [left; apply exp_pos|].
  replace (INR n / INR m) with (e + - d) by (unfold d; ring). rewrite Rpower_plus. apply Rmult_le_compat; auto; left; apply exp_pos.
Qed.
Lemma power_above t x e n m u U : (0 < m)%nat -> (0 < n)%nat -> 0 < t -> t <= x <= 1 -> x <= u -> 0 <= U -> u ^ n <= U ^ m -> Rabs (e - INR n / INR m) * / t <= 1 / 2 ->
  Rpower x e <= U * (1 + 2 * (Rabs (e - INR n / INR m) * / t)).
Proof.
  intros Hm Hn Ht Hx Hu HU H Hd. set (d := e - INR n / INR m) in *. replace e with (INR n / INR m + d) by (unfold d; ring). rewrite Rpower_plus.
  pose proof (power_near t d x Ht Hx Hd) as B. assert (Rpower x d <= 1 + 2 * (Rabs d * / t)) by (unfold Rabs in B at 1; destruct (Rcase_abs (Rpower x d - 1)); lra).
  assert (Rpower x (INR n / INR m) <= U).
  { apply (pow_le_inv _ _ m); auto; [left; apply exp_pos|]. rewrite pow_root by (auto; lra). eapply Rle_trans; [|exact H]. apply pow_incr. lra. }
  apply Rmult_le_compat; auto; left; apply exp_pos.
Qed.

Lemma srgb_round_trip x : 0 <= x <= 1 -> exists y z, FromLinear SRGB x = Some y /\ ToLinear SRGB y = Some z /\ Rabs (z - x) <= 1 / 10 ^ 9.
Proof.
  intros Hx. cbn [FromLinear ToLinear]. destruct (Rlt_dec x 0.00313066844250063) as [H|H].
  - eexists. eexists. split; [reflexivity|]. destruct (Rlt_dec (x * 12.92) 0.0404482362771082); [|exfalso; lra]. split; [reflexivity|]. apply Rabs_le. lra.
  - unfold gpow at 1. destruct (Rlt_dec x 0); [exfalso; lra|]. destruct (Req_EM_T x 0); [exfalso; lra|]. cbn [option_map].
    assert (D1 : Rabs (0.4166666666666667 * 2.4 - 1) <= 1 / 10 ^ 15) by (apply Rabs_le; lra).
    assert (D2 : Rabs (0.4166666666666667 - INR 5 / INR 12) <= 1 / 10 ^ 15) by (rewrite !INR_IZR_INZ; cbn [Z.of_nat Pos.of_succ_nat Pos.succ]; apply Rabs_le; lra).
    assert (I : 0 <= / 0.00313066844250063 <= 320) by (split; [left; apply Rinv_0_lt_compat; lra|]; apply Rmult_le_reg_l with 0.00313066844250063; [lra|]; rewrite Rinv_r by lra; lra).
    exists (1.055 * Rpower x 0.4166666666666667 - 0.055). destruct (Rlt_dec (1.055 * Rpower x 0.4166666666666667 - 0.055) 0.0404482362771082) as [H2|H2].
    + eexists. split; [reflexivity|]. split; [reflexivity|]. set (P := Rpower x 0.4166666666666667) in *.
      pose proof (Rabs_pos (0.4166666666666667 - INR 5 / INR 12)) as D0.
      set (D := Rabs (0.4166666666666667 - INR 5 / INR 12)) in *. set (J := / 0.00313066844250063) in *.
      assert (E0 : 0 <= D * J <= 1 / 10 ^ 12) by (split; [nra|]; apply Rle_trans with (1 / 10 ^ 15 * 320); [apply Rmult_le_compat; lra|lra]).
      assert (A1 : 0.09047226186 * (1 - 2 * (D * J)) <= P).
      { apply (power_lower 0.00313066844250063 x _ 5 12 0.09047226186); try lia; try lra. fold D J. lra. }
      assert (A2 : x <= 0.00313066845).
      { apply (power_upper 0.00313066844250063 x 0.4166666666666667 5 12 0.090472261875 0.00313066845); [lia|lia|lra|lra|lra|lra|fold D J; lra| |fold P; lra].
        fold D J. apply Rle_trans with (0.0904722619 ^ 12); [apply pow_incr; split; nra|]. lra. }
      apply Rabs_le. nra.
    + replace ((1.055 * Rpower x 0.4166666666666667 - 0.055 + 0.055) * 0.9478672985781991) with (1.055 * 0.9478672985781991 * Rpower x 0.4166666666666667) by ring.
      unfold gpow. pose proof (exp_pos (0.4166666666666667 * ln x)) as P. change (exp (0.4166666666666667 * ln x)) with (Rpower x 0.4166666666666667) in P.
      destruct (Rlt_dec (1.055 * 0.9478672985781991 * Rpower x 0.4166666666666667) 0); [exfalso; lra|].
      destruct (Req_EM_T (1.055 * 0.9478672985781991 * Rpower x 0.4166666666666667) 0); [exfalso; lra|]. eexists. split; [reflexivity|]. split; [reflexivity|].
      set (J := / 0.00313066844250063) in *. pose proof (Rabs_pos (0.4166666666666667 * 2.4 - 1)) as D0.
      assert (E0 : Rabs (0.4166666666666667 * 2.4 - 1) * J <= 1 / 10 ^ 12) by (apply Rle_trans with (1 / 10 ^ 15 * 320); [apply Rmult_le_compat; lra|lra]).
      eapply Rle_trans; [apply (near_upper 0.00313066844250063 _ (1 / 10 ^ 15)); try lra; try (apply Rabs_le; lra); fold J; lra|]. fold J. lra.
Qed.

Lemma bt709_round_trip x : 0 <= x <= 1 -> exists y z, FromLinear BT709 x = Some y /\ ToLinear BT709 y = Some z /\ Rabs (z - x) <= 1 / 10 ^ 9.
Proof.
  intros Hx. cbn [FromLinear ToLinear]. destruct (Rlt_dec x 0.018053968510807807336) as [H|H].
  - exists (4.5 * x). destruct (Rlt_dec (4.5 * x) 0.081242858298635133011) as [H2|H2].
    { eexists. split; [reflexivity|]. split; [reflexivity|]. apply Rabs_le. lra. }
    set (B := (4.5 * x + 0.0992968268094429403) * 0.90967241568627260377).
    assert (HB : 0.1642319714 <= B <= 0.16423197149) by (unfold B; lra).
    unfold gpow. destruct (Rlt_dec B 0); [exfalso; lra|]. destruct (Req_EM_T B 0); [exfalso; lra|]. eexists. split; [reflexivity|]. split; [reflexivity|].
    assert (D2 : Rabs (2.2222222222222222222 - INR 20 / INR 9) <= 1 / 10 ^ 15) by (rewrite !INR_IZR_INZ; cbn [Z.of_nat Pos.of_succ_nat Pos.succ]; apply Rabs_le; lra).
    assert (I : 0 <= / 0.1642319714 <= 7) by (split; [left; apply Rinv_0_lt_compat; lra|]; apply Rmult_le_reg_l with 0.1642319714; [lra|]; rewrite Rinv_r by lra; lra).
    pose proof (Rabs_pos (2.2222222222222222222 - INR 20 / INR 9)) as D0.
    pose proof (power_lower 0.1642319714 B 2.2222222222222222222 20 9 0.0180539684) as A1.
    pose proof (power_above 0.1642319714 B 2.2222222222222222222 20 9 0.16423197149 0.0180539686) as A2.
    set (D := Rabs (2.2222222222222222222 - INR 20 / INR 9)) in *. set (J := / 0.1642319714) in *.
    assert (E0 : 0 <= D * J <= 1 / 10 ^ 12) by (split; [nra|]; apply Rle_trans with (1 / 10 ^ 15 * 7); [apply Rmult_le_compat; lra|lra]).
    specialize (A1 ltac:(lia) ltac:(lia) ltac:(lra) ltac:(lra) ltac:(lra) ltac:(lra) ltac:(lra)).
    specialize (A2 ltac:(lia) ltac:(lia) ltac:(lra) ltac:(lra) ltac:(lra) ltac:(lra) ltac:(lra) ltac:(lra)).
    apply Rabs_le. lra.
  - unfold gpow at 1. destruct (Rlt_dec x 0); [exfalso; lra|]. destruct (Req_EM_T x 0); [exfalso; lra|]. cbn [option_map].
    assert (D1 : Rabs (0.45 * 2.2222222222222222222 - 1) <= 1 / 10 ^ 15) by (apply Rabs_le; lra).
    assert (D2 : Rabs (0.45 - INR 9 / INR 20) <= 1 / 10 ^ 15) by (rewrite !INR_IZR_INZ; cbn [Z.of_nat Pos.of_succ_nat Pos.succ]; apply Rabs_le; lra).
    assert (I : 0 <= / 0.018053968510807807336 <= 56) by (split; [left; apply Rinv_0_lt_compat; lra|]; apply Rmult_le_reg_l with 0.018053968510807807336; [lra|]; rewrite Rinv_r by lra; lra).
    exists (1.0992968268094429403 * Rpower x 0.45 - 0.0992968268094429403). destruct (Rlt_dec (1.0992968268094429403 * Rpower x 0.45 - 0.0992968268094429403) 0.081242858298635133011) as [H2|H2].
    + eexists. split; [reflexivity|]. split; [reflexivity|]. set (P := Rpower x 0.45) in *.
      pose proof (Rabs_pos (0.45 - INR 9 / INR 20)) as D0.
      set (D := Rabs (0.45 - INR 9 / INR 20)) in *. set (J := / 0.018053968510807807336) in *.
      assert (E0 : 0 <= D * J <= 1 / 10 ^ 12) by (split; [nra|]; apply Rle_trans with (1 / 10 ^ 15 * 56); [apply Rmult_le_compat; lra|lra]).
      assert (A1 : 0.1642319714 * (1 - 2 * (D * J)) <= P).
      { apply (power_lower 0.018053968510807807336 x _ 9 20 0.1642319714); try lia; try lra. fold D J. lra. }
      assert (A2 : x <= 0.01805396852).
      { apply (power_upper 0.018053968510807807336 x 0.45 9 20 0.16423197148 0.01805396852); [lia|lia|lra|lra|lra|lra|fold D J; lra| |fold P; lra].
        fold D J. apply Rle_trans with (0.16423197149 ^ 20); [apply pow_incr; split; nra|]. lra. }
      apply Rabs_le. nra.
    + replace ((1.0992968268094429403 * Rpower x 0.45 - 0.0992968268094429403 + 0.0992968268094429403) * 0.90967241568627260377) with (1.0992968268094429403 * 0.90967241568627260377 * Rpower x 0.45) by ring.
      unfold gpow. pose proof (exp_pos (0.45 * ln x)) as P. change (exp (0.45 * ln x)) with (Rpower x 0.45) in P.
      destruct (Rlt_dec (1.0992968268094429403 * 0.90967241568627260377 * Rpower x 0.45) 0); [exfalso; lra|].
      destruct (Req_EM_T (1.0992968268094429403 * 0.90967241568627260377 * Rpower x 0.45) 0); [exfalso; lra|]. eexists. split; [reflexivity|]. split; [reflexivity|].
      set (J := / 0.018053968510807807336) in *. pose proof (Rabs_pos (0.45 * 2.2222222222222222222 - 1)) as D0.
      assert (E0 : Rabs (0.45 * 2.2222222222222222222 - 1) * J <= 1 / 10 ^ 12) by (apply Rle_trans with (1 / 10 ^ 15 * 56); [apply Rmult_le_compat; lra|lra]).
      eapply Rle_trans; [apply (near_upper 0.018053968510807807336 _ (1 / 10 ^ 15)); try lra; try (apply Rabs_le; lra); fold J; lra|]. fold J. lra.
Qed.
