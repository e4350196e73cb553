(* Orthogonality of the cosine basis. *)
From Coq Require Import List Bool Arith Reals Lia Lra.
From Verif Require Import SpecDCT.
Import ListNotations.
Open Scope R_scope.

Lemma sum_ext n f g : (forall i, (i < n)%nat -> f i = g i) -> sum n f = sum n g.
Proof. induction n; intros H; cbn; [reflexivity|]. rewrite IHn, H; auto. Qed.
Lemma sum_plus n f g : sum n (fun i => f i + g i) = sum n f + sum n g.
Proof. induction n; cbn; [lra|]. rewrite IHn. lra. Qed.
Lemma sum_scal n c f : sum n (fun i => c * f i) = c * sum n f.
Proof. induction n; cbn; [lra|]. rewrite IHn. lra. Qed.
Lemma sum_scal_r n c f : sum n (fun i => f i * c) = sum n f * c.
Proof. induction n; cbn; [lra|]. rewrite IHn. lra. Qed.
Lemma sum_div n c f : sum n (fun i => f i / c) = sum n f / c.
Proof. unfold Rdiv. apply sum_scal_r. Qed.
Lemma sum_zero n f : (forall i, (i < n)%nat -> f i = 0) -> sum n f = 0.
Proof. induction n; intros H; cbn; [reflexivity|]. rewrite IHn, H; auto. lra. Qed.
Lemma sum_const n c : sum n (fun _ => c) = INR n * c.
Proof. induction n; [cbn; lra|]. rewrite S_INR. cbn [sum]. rewrite IHn. lra. Qed.
Lemma sum_swap n m f : sum n (fun i => sum m (fun j => f i j)) = sum m (fun j => sum n (fun i => f i j)).
Proof.
  induction n; cbn.
  - symmetry. apply sum_zero. reflexivity.
  - rewrite IHn. symmetry. apply sum_plus.
Qed.
Lemma sum_delta n f k : (k < n)%nat -> sum n (fun i => if (i =? k)%nat then f i else 0) = f k.
Proof.
  induction n; intros H; [lia|]. cbn [sum]. destruct (Nat.eqb_spec n k) as [->|E].
  - rewrite sum_zero; [lra|]. intros i Hi. destruct (Nat.eqb_spec i k); [lia|reflexivity].
  - rewrite IHn by lia. lra.
Qed.
(* the first term apart *)
Lemma sum_first n f : sum (S n) f = f 0%nat + sum n (fun i => f (S i)).
Proof. induction n; [cbn; lra|]. cbn [sum] in *. rewrite IHn. lra. Qed.

(* telescoping: sum of cos((2n+1) t) *)
Lemma cos_sum_odd t : forall n, 2 * sin t * sum n (fun i => cos ((2 * INR i + 1) * t)) = sin (2 * INR n * t).
Proof.
  induction n.
  - cbn. rewrite !Rmult_0_r, Rmult_0_l, sin_0. reflexivity.
  - cbn [sum]. rewrite Rmult_plus_distr_l, IHn, S_INR.
    replace (2 * (INR n + 1) * t) with ((2 * INR n + 1) * t + t) by lra.
    replace (2 * INR n * t) with ((2 * INR n + 1) * t - t) by lra.
    rewrite sin_plus, sin_minus. lra.
Qed.
(* 2 sin(t) (cos 2t + ... + cos 2nt) = sin((2n+1)t) - sin t *)
Lemma cos_sum_even t : forall n, 2 * sin t * sum n (fun i => cos (2 * (INR i + 1) * t)) = sin ((2 * INR n + 1) * t) - sin t.
Proof.
  induction n.
  - cbn. rewrite Rmult_0_r. replace ((2 * 0 + 1) * t) with t by lra. lra.
  - cbn [sum]. rewrite Rmult_plus_distr_l, IHn, S_INR.
    replace ((2 * (INR n + 1) + 1) * t) with (2 * (INR n + 1) * t + t) by lra.
    replace ((2 * INR n + 1) * t) with (2 * (INR n + 1) * t - t) by lra.
    rewrite sin_plus, sin_minus. lra.
Qed.
Lemma sin_nPI n : sin (INR n * PI) = 0.
Proof. induction n; [cbn; rewrite Rmult_0_l; apply sin_0|]. rewrite S_INR, Rmult_plus_distr_r, Rmult_1_l, neg_sin, IHn. lra. Qed.
Lemma cos_nPI n : cos (INR n * PI) = if Nat.even n then 1 else -1.
Proof.
  induction n; [cbn; rewrite Rmult_0_l; apply cos_0|]. rewrite S_INR, Rmult_plus_distr_r, Rmult_1_l, neg_cos, IHn, Nat.even_succ, <- Nat.negb_even.
  destruct (Nat.even n); cbn; lra.
Qed.
Lemma sin_pos_frac m N : (0 < m)%nat -> (m < 2 * N)%nat -> sin (INR m * PI / (2 * INR N)) <> 0.
Proof.
  intros H1 H2. pose proof PI_RGT_0.
  assert (HN : 0 < INR N) by (apply lt_0_INR; lia). assert (Hm : 0 < INR m) by (apply lt_0_INR; lia).
  assert (Hlt : INR m < 2 * INR N) by (replace 2 with (INR 2) by reflexivity; rewrite <- mult_INR; apply lt_INR; lia).
  apply Rgt_not_eq, sin_gt_0.
  - apply Rdiv_lt_0_compat; [apply Rmult_lt_0_compat|]; lra.
  - apply (Rmult_lt_reg_r (2 * INR N)); [lra|]. unfold Rdiv. rewrite Rmult_assoc, Rinv_l by lra. rewrite Rmult_1_r, (Rmult_comm PI).
    apply Rmult_lt_compat_r; lra.
Qed.

(* sum over the samples of one cosine *)
Lemma cos_sum_samples N m : (0 < N)%nat -> (m < 2 * N)%nat ->
  sum N (fun n => cos (PI * INR m * (2 * INR n + 1) / (2 * INR N))) = if (m =? 0)%nat then INR N else 0.
Proof.
  intros HN Hm. assert (PN : 0 < INR N) by (apply lt_0_INR; lia). destruct (Nat.eqb_spec m 0) as [->|E].
  - rewrite (sum_ext _ _ (fun _ => 1)).
    + rewrite sum_const. lra.
    + intros i _. replace (PI * INR 0 * (2 * INR i + 1) / (2 * INR N)) with 0; [apply cos_0|]. cbn. field. lra.
  - pose proof (sin_pos_frac m N ltac:(lia) Hm) as Hs. set (t := INR m * PI / (2 * INR N)) in *.
    pose proof (cos_sum_odd t N) as H.
    replace (2 * INR N * t) with (INR m * PI) in H by (unfold t; field; lra). rewrite sin_nPI in H.
    rewrite (sum_ext _ _ (fun i => cos ((2 * INR i + 1) * t))).
    + apply Rmult_integral in H as [H|H]; [lra|exact H].
    + intros i _. f_equal. unfold t. field. lra.
Qed.
Lemma cos_prod a b : cos a * cos b = (cos (a - b) + cos (a + b)) / 2.
Proof. rewrite cos_minus, cos_plus. lra. Qed.

Lemma sqrt2_sq : sqrt 2 * sqrt 2 = 2.
Proof. apply sqrt_sqrt. lra. Qed.

Lemma basis_orth N j k : (j < N)%nat -> (k < N)%nat ->
  sum N (fun n => basis N j n * basis N k n) = if (j =? k)%nat then INR N else 0.
Proof.
  intros Hj Hk. assert (PN : 0 < INR N) by (apply lt_0_INR; lia).
  set (w := fun k : nat => if (k =? 0)%nat then 1 else sqrt 2).
  rewrite (sum_ext _ _ (fun n => (w j * w k / 2) *
      (cos (PI * INR (Nat.max j k - Nat.min j k) * (2 * INR n + 1) / (2 * INR N)) + cos (PI * INR (j + k) * (2 * INR n + 1) / (2 * INR N))))).
  - rewrite sum_scal, sum_plus, !cos_sum_samples by lia. unfold w.
    destruct (Nat.eqb_spec j k) as [->|E].
    + rewrite Nat.max_id, Nat.min_id, Nat.sub_diag. cbn [Nat.eqb]. destruct (Nat.eqb_spec k 0) as [->|E0].
      * cbn. lra.
      * destruct (Nat.eqb_spec (k + k) 0); [lia|]. rewrite sqrt2_sq. lra.
    + destruct (Nat.eqb_spec (Nat.max j k - Nat.min j k) 0); [lia|]. destruct (Nat.eqb_spec (j + k) 0); [lia|]. lra.
  - intros n _. unfold basis. fold (w j) (w k).
    replace (w j * cos (PI * INR j * (2 * INR n + 1) / (2 * INR N)) * (w k * cos (PI * INR k * (2 * INR n + 1) / (2 * INR N))))
      with (w j * w k * (cos (PI * INR j * (2 * INR n + 1) / (2 * INR N)) * cos (PI * INR k * (2 * INR n + 1) / (2 * INR N)))) by ring.
    rewrite cos_prod. replace (PI * INR (j + k) * (2 * INR n + 1) / (2 * INR N)) with
      (PI * INR j * (2 * INR n + 1) / (2 * INR N) + PI * INR k * (2 * INR n + 1) / (2 * INR N)) by (rewrite plus_INR; field; lra).
    enough (C : cos (PI * INR j * (2 * INR n + 1) / (2 * INR N) - PI * INR k * (2 * INR n + 1) / (2 * INR N)) =
            cos (PI * INR (Nat.max j k - Nat.min j k) * (2 * INR n + 1) / (2 * INR N))) by (rewrite C; lra).
    destruct (Nat.le_ge_cases j k) as [L|L].
    + rewrite Nat.max_r, Nat.min_l, minus_INR by lia. rewrite <- cos_neg. f_equal. field. lra.
    + rewrite Nat.max_l, Nat.min_r, minus_INR by lia. f_equal. field. lra.
Qed.

(* sum over the frequencies 1 .. N-1 of one cosine *)
Lemma cos_sum_freq N j : (0 < N)%nat -> (0 < j)%nat -> (j < 2 * N)%nat ->
  sum (N - 1) (fun i => cos (INR (S i) * (PI * INR j / INR N))) = if Nat.even j then -1 else 0.
Proof.
  intros HN H0 Hj. assert (PN : 0 < INR N) by (apply lt_0_INR; lia).
  pose proof (sin_pos_frac j N H0 Hj) as Hs. set (t := INR j * PI / (2 * INR N)) in *.
  pose proof (cos_sum_even t (N - 1)) as H.
  rewrite (sum_ext _ _ (fun i => cos (2 * (INR i + 1) * t))) by (intros i _; f_equal; rewrite S_INR; unfold t; field; lra).
  replace ((2 * INR (N - 1) + 1) * t) with (INR j * PI - t) in H by (rewrite minus_INR by lia; unfold t; cbn [INR]; field; lra).
  rewrite sin_minus, sin_nPI, cos_nPI in H. set (Q := sum (N - 1) _) in *.
  apply (Rmult_eq_reg_l (2 * sin t)); [|lra]. rewrite H. destruct (Nat.even j); lra.
Qed.

Lemma basis_complete N m n : (m < N)%nat -> (n < N)%nat ->
  sum N (fun k => basis N k m * basis N k n) = if (m =? n)%nat then INR N else 0.
Proof.
  intros Hm Hn. assert (PN : 0 < INR N) by (apply lt_0_INR; lia).
  replace N with (S (N - 1)) at 1 by lia. rewrite sum_first.
  rewrite (sum_ext _ _ (fun i => cos (INR (S i) * (PI * INR (Nat.max m n - Nat.min m n) / INR N)) + cos (INR (S i) * (PI * INR (m + n + 1) / INR N)))).
  - rewrite sum_plus. rewrite (cos_sum_freq N (m + n + 1)) by lia.
    assert (B0 : basis N 0 m * basis N 0 n = 1).
    { unfold basis. cbn [Nat.eqb INR]. rewrite !Rmult_0_r, !Rmult_0_l. unfold Rdiv. rewrite !Rmult_0_l, cos_0. lra. }
    rewrite B0. destruct (Nat.eqb_spec m n) as [->|E].
    + rewrite Nat.max_id, Nat.min_id, Nat.sub_diag.
      rewrite (sum_ext _ _ (fun _ => 1)).
      * rewrite sum_const. replace (n + n + 1)%nat with (S (2 * n)) by lia. rewrite Nat.even_succ, Nat.odd_mul. cbn [Nat.odd Nat.even negb andb].
        rewrite minus_INR by lia. cbn [INR]. lra.
      * intros i _. replace (INR (S i) * (PI * INR 0 / INR N)) with 0 by (change (INR 0) with 0; field; lra). apply cos_0.
    + rewrite cos_sum_freq by lia.
      assert (P : Nat.even (m + n + 1) = negb (Nat.even (Nat.max m n - Nat.min m n))).
      { replace (m + n + 1)%nat with (S ((Nat.max m n - Nat.min m n) + 2 * Nat.min m n)) by lia.
        rewrite Nat.even_succ, <- Nat.negb_even. rewrite Nat.even_add, Nat.even_mul. cbn [Nat.even orb]. destruct (Nat.even _); reflexivity. }
      rewrite P. destruct (Nat.even (Nat.max m n - Nat.min m n)); cbn [negb]; lra.
  - intros i _. unfold basis. cbn [Nat.eqb].
    replace (sqrt 2 * cos (PI * INR (S i) * (2 * INR m + 1) / (2 * INR N)) * (sqrt 2 * cos (PI * INR (S i) * (2 * INR n + 1) / (2 * INR N))))
      with ((sqrt 2 * sqrt 2) * (cos (PI * INR (S i) * (2 * INR m + 1) / (2 * INR N)) * cos (PI * INR (S i) * (2 * INR n + 1) / (2 * INR N)))) by ring.
    rewrite sqrt2_sq, cos_prod.
    replace (PI * INR (S i) * (2 * INR m + 1) / (2 * INR N) + PI * INR (S i) * (2 * INR n + 1) / (2 * INR N)) with (INR (S i) * (PI * INR (m + n + 1) / INR N))
      by (rewrite !plus_INR; cbn [INR]; field; lra).
    enough (C : cos (PI * INR (S i) * (2 * INR m + 1) / (2 * INR N) - PI * INR (S i) * (2 * INR n + 1) / (2 * INR N)) =
            cos (INR (S i) * (PI * INR (Nat.max m n - Nat.min m n) / INR N))) by (rewrite C; lra).
    destruct (Nat.le_ge_cases m n) as [L|L].
    + rewrite Nat.max_r, Nat.min_l, minus_INR by lia. rewrite <- cos_neg. f_equal. field. lra.
    + rewrite Nat.max_l, Nat.min_r, minus_INR by lia. f_equal. field. lra.
Qed.

Lemma idct_dct N f n : (n < N)%nat -> idct N (dct N f) n = f n.
Proof.
  intros Hn. assert (PN : 0 < INR N) by (apply lt_0_INR; lia). unfold idct, dct.
  rewrite (sum_ext _ _ (fun k => sum N (fun i => (f i / INR N) * (basis N k i * basis N k n)))).
  - rewrite sum_swap. rewrite (sum_ext _ _ (fun i => if (i =? n)%nat then f i else 0)); [apply sum_delta; exact Hn|].
    intros i Hi. rewrite sum_scal, basis_complete by assumption. destruct (i =? n)%nat; [field; lra|ring].
  - intros k _. unfold Rdiv. rewrite <- !sum_scal_r. apply sum_ext. intros i _. ring.
Qed.
Lemma dct_idct N c k : (k < N)%nat -> dct N (idct N c) k = c k.
Proof.
  intros Hk. assert (PN : 0 < INR N) by (apply lt_0_INR; lia). unfold idct, dct.
  rewrite (sum_ext _ _ (fun n => sum N (fun i => c i * (basis N i n * basis N k n)))).
  - rewrite sum_swap. rewrite (sum_ext _ _ (fun i => if (i =? k)%nat then c i * INR N else 0)).
    + rewrite (sum_delta N (fun i => c i * INR N)) by exact Hk. field. lra.
    + intros i Hi. rewrite sum_scal, basis_orth by assumption. destruct (i =? k)%nat; ring.
  - intros n _. rewrite <- sum_scal_r. apply sum_ext. intros i _. ring.
Qed.
(* separable form of the two-dimensional transforms *)
Lemma dct2_sep H W f v u : (0 < H)%nat -> (0 < W)%nat -> dct2 H W f v u = dct H (fun y => dct W (f y) u) v.
Proof.
  intros HH HW. assert (PH : 0 < INR H) by (apply lt_0_INR; lia). assert (PW : 0 < INR W) by (apply lt_0_INR; lia). unfold dct2, dct.
  rewrite (sum_ext H (fun n => sum W (fun i => f n i * basis W u i) / INR W * basis H v n) (fun n => sum W (fun x => f n x * basis H v n * basis W u x) / INR W)).
  - rewrite sum_div. field. lra.
  - intros y _. unfold Rdiv. rewrite <- !sum_scal_r. apply sum_ext. intros; ring.
Qed.
Lemma idct2_sep H W c y x : idct2 H W c y x = idct W (fun u => idct H (fun v => c v u) y) x.
Proof.
  unfold idct2, idct. rewrite sum_swap. apply sum_ext. intros u _. rewrite <- sum_scal_r. reflexivity.
Qed.
Lemma idct2_sep' H W c y x : idct2 H W c y x = idct H (fun v => idct W (fun u => c v u) x) y.
Proof.
  unfold idct2, idct. apply sum_ext. intros u _. rewrite <- sum_scal_r. apply sum_ext. intros; ring.
Qed.
Lemma idct_ext N f g n : (forall k, (k < N)%nat -> f k = g k) -> idct N f n = idct N g n.
Proof. intros H. apply sum_ext. intros i Hi. now rewrite H. Qed.
Lemma dct_ext N f g n : (forall k, (k < N)%nat -> f k = g k) -> dct N f n = dct N g n.
Proof. intros H. unfold dct. f_equal. apply sum_ext. intros i Hi. now rewrite H. Qed.
Lemma idct2_ext H W f g y x : (forall v u, (v < H)%nat -> (u < W)%nat -> f v u = g v u) -> idct2 H W f y x = idct2 H W g y x.
Proof. intros E. apply sum_ext. intros v Hv. apply sum_ext. intros u Hu. now rewrite E. Qed.
Lemma dct2_ext H W f g y x : (forall v u, (v < H)%nat -> (u < W)%nat -> f v u = g v u) -> dct2 H W f y x = dct2 H W g y x.
Proof. intros E. unfold dct2. f_equal. apply sum_ext. intros v Hv. apply sum_ext. intros u Hu. now rewrite E. Qed.

Lemma idct2_dct2 H W f y x : (y < H)%nat -> (x < W)%nat -> idct2 H W (dct2 H W f) y x = f y x.
Proof.
  intros Hy Hx. rewrite (idct2_ext _ _ _ (fun v u => dct H (fun y => dct W (f y) u) v)) by (intros; apply dct2_sep; lia).
  rewrite idct2_sep. rewrite (idct_ext _ _ (fun u => dct W (f y) u)) by (intros; apply (idct_dct H (fun y => dct W (f y) k)); exact Hy).
  apply idct_dct. exact Hx.
Qed.
Lemma dct2_idct2 H W c v u : (v < H)%nat -> (u < W)%nat -> dct2 H W (idct2 H W c) v u = c v u.
Proof.
  intros Hv Hu. rewrite (dct2_ext _ _ _ (fun y x => idct W (fun u => idct H (fun v => c v u) y) x)) by (intros; apply idct2_sep).
  rewrite dct2_sep by lia. rewrite (dct_ext _ _ (fun y => idct H (fun v => c v u) y)) by (intros; apply (dct_idct W (fun u => idct H (fun v => c v u) k)); exact Hu).
  apply (dct_idct H (fun v => c v u)). exact Hv.
Qed.
