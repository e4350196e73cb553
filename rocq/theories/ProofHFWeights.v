(* Lemmas about the weights of HF coefficients. *)
From Coq Require Import ZArith List Bool Lia Arith Reals Lra ZifyBool ZifyNat.
From Verif Require Import GoBase GoLoop ModelDCT ModelHF ModelHFWeights SpecDCT SpecColour SpecHFWeights ProofDCT GoMatrixR.
Import ListNotations.
Open Scope nat_scope.

(* ---- bands ---- *)
Lemma quantMult_ratio v : quantMult v = ratio v.
Proof.
  unfold quantMult, ratio. destruct (Rle_dec 0 v), (Rlt_dec v 0); try (exfalso; lra).
  - rewrite Rabs_right by lra. reflexivity.
  - rewrite Rabs_left by lra. replace (1 + - v)%R with (1 - v)%R by lra. unfold Rdiv. lra.
Qed.
Lemma ratio_pos v : (0 < ratio v)%R.
Proof. unfold ratio. pose proof (Rabs_pos v). destruct (Rlt_dec v 0); [apply Rinv_0_lt_compat|]; lra. Qed.
Lemma band_pos p k : (0 < nth 0 p 0)%R -> (0 < band p k)%R.
Proof. intros H. induction k as [|k IH]; cbn [band]; [exact H|]. apply Rmult_lt_0_compat; [exact IH|apply ratio_pos]. Qed.
Lemma bandsFrom_length b p : length (bandsFrom b p) = S (length p).
Proof. revert b. induction p as [|q p IH]; intros b; cbn [bandsFrom length]; [reflexivity|]. now rewrite IH. Qed.
Lemma band_shift b q p k : band (b :: q :: p) (S k) = band ((b * ratio q)%R :: p) k.
Proof.
  induction k as [|k IH].
  - reflexivity.
  - change (band (b :: q :: p) (S k) * ratio (nth (S (S k)) (b :: q :: p) 0) = band ((b * ratio q)%R :: p) k * ratio (nth (S k) ((b * ratio q)%R :: p) 0))%R.
    rewrite IH. reflexivity.
Qed.
Lemma bandsFrom_nth p : forall b k, k < S (length p) -> nth k (bandsFrom b p) 0%R = band (b :: p) k.
Proof.
  induction p as [|q p IH]; intros b k Hk.
  - destruct k as [|k]; [reflexivity|cbn [length] in Hk; lia].
  - cbn [bandsFrom]. destruct k as [|k]; [reflexivity|]. cbn [nth]. cbn [length] in Hk. rewrite IH by lia.
    now rewrite band_shift, quantMult_ratio.
Qed.

(* ---- the curve ---- *)
Lemma Int_part_bounds t : (IZR (Int_part t) <= t < IZR (Int_part t) + 1)%R.
Proof. pose proof (base_Int_part t). lra. Qed.
Lemma Int_part_nonneg t : (0 <= t)%R -> (0 <= Int_part t)%Z.
Proof. intros H. pose proof (Int_part_bounds t). assert (-1 < Int_part t)%Z; [|lia]. apply lt_IZR. lra. Qed.
Lemma interpolate_ok bands b l t :
  length bands = S l -> (forall k, k <= l -> nth k bands 0%R = b k /\ (0 < b k)%R) -> (0 <= t)%R -> (l = 0 \/ (t <= INR l)%R) ->
  exists v, interpolate t bands = Ok v /\ log_curve b l t v.
Proof.
  intros L HB H0 Ht. unfold interpolate. rewrite L. destruct (Nat.eq_dec l 0) as [->|Hl].
  - cbn [Z.of_nat Pos.of_succ_nat]. change (1 - 1 =? 0)%Z with true. cbn iota. exists (b 0).
    rewrite (slice_get_ok bands 0%Z 0%R) by lia. destruct (HB 0) as [E P]; [lia|]. change (Z.to_nat 0) with 0. rewrite E.
    split; [reflexivity|]. split; [exact P|]. left. auto.
  - destruct Ht as [Ht|Ht]; [contradiction|]. replace (Z.of_nat (S l) - 1)%Z with (Z.of_nat l) by lia. rewrite (proj2 (Z.eqb_neq _ _)) by lia. cbv zeta.
    pose proof (Int_part_bounds t) as [B1 B2]. pose proof (Int_part_nonneg t H0) as Hn.
    destruct (Z.ltb_spec (Z.of_nat l) (Int_part t + 1)) as [C|C].
    + (* the end of the curve *)
      assert (E : Int_part t = Z.of_nat l).
      { assert (IZR (Int_part t) <= INR l)%R by lra. rewrite INR_IZR_INZ in H. apply le_IZR in H. lia. }
      destruct (HB l) as [El Pl]; [lia|]. exists (b l). rewrite (slice_get_ok bands _ 0%R) by lia. rewrite Nat2Z.id, El. split; [reflexivity|].
      split; [exact Pl|]. right. exists (l - 1). replace (l - 1 + 1) with l by lia. rewrite minus_INR by lia. change (INR 1) with 1%R.
      assert (t = INR l). { rewrite E, <- INR_IZR_INZ in B1. lra. } subst t. split; [lia|]. split; [lra|].
      replace (INR l - (INR l - 1))%R with 1%R by lra. lra.
    + set (k := Z.to_nat (Int_part t)). assert (Ek : Int_part t = Z.of_nat k) by lia.
      destruct (HB k) as [E1 P1]; [lia|]. destruct (HB (k + 1)) as [E2 P2]; [lia|].
      rewrite (slice_get_ok bands (Int_part t) 0%R) by lia. fold k. rewrite E1. cbn [obind].
      rewrite (slice_get_ok bands (Int_part t + 1) 0%R) by lia. replace (Z.to_nat (Int_part t + 1)) with (k + 1) by lia. rewrite E2. cbn [obind].
      assert (Q : (0 < b (k + 1)%nat / b k)%R) by (apply Rdiv_lt_0_compat; assumption).
      assert (QP : (0 < Rpower (b (k + 1)%nat / b k) (t - IZR (Int_part t)))%R) by apply exp_pos.
      eexists. split; [reflexivity|]. split; [apply Rmult_lt_0_compat; assumption|]. right. exists k.
      rewrite Ek, <- INR_IZR_INZ in B1, B2. split; [lia|]. split; [lra|]. rewrite ln_mult by assumption. f_equal. unfold Rpower. rewrite ln_exp.
      rewrite Ek, <- INR_IZR_INZ. f_equal. unfold Rdiv. rewrite ln_mult, ln_Rinv by (try apply Rinv_0_lt_compat; assumption). lra.
Qed.
(* the curve has one value at each point *)
Lemma log_curve_unique b l t v v' : log_curve b l t v -> log_curve b l t v' -> v = v'.
Proof.
  intros [P H] [P' H']. destruct H as [[L ->]|(k & Lk & Tk & E)]; destruct H' as [[L' ->]|(k' & Lk' & Tk' & E')]; try (exfalso; lia); [reflexivity|].
  apply ln_inv; [assumption|assumption|]. rewrite E, E'.
  assert (D : k = k' \/ k = k' + 1 \/ k' = k + 1).
  { assert (INR k < INR k' + 2)%R by lra. assert (INR k' < INR k + 2)%R by lra.
    assert (k < k' + 2) by (apply INR_lt; rewrite plus_INR; cbn [INR]; lra). assert (k' < k + 2) by (apply INR_lt; rewrite plus_INR; cbn [INR]; lra). lia. }
  destruct D as [->|[->| ->]]; [reflexivity| |].
  - rewrite plus_INR in *. cbn [INR] in *. assert (Et : t = (INR k' + 1)%R) by lra. rewrite Et.
    replace (INR k' + 1 - (INR k' + 1))%R with 0%R by lra. replace (INR k' + 1 - INR k')%R with 1%R by lra. lra.
  - rewrite plus_INR in *. cbn [INR] in *. assert (Et : t = (INR k + 1)%R) by lra. rewrite Et.
    replace (INR k + 1 - (INR k + 1))%R with 0%R by lra. replace (INR k + 1 - INR k)%R with 1%R by lra. lra.
Qed.

(* ---- tables from bands ---- *)
Lemma unit_square a b : (0 <= a <= 1)%R -> (0 <= b <= 1)%R -> (sqrt (a ^ 2 + b ^ 2) <= sqrt 2)%R.
Proof. intros A B. apply sqrt_le_1_alt. nra. Qed.
Lemma frac_le y h : y < h -> 2 <= h -> (0 <= INR y / INR (h - 1) <= 1)%R.
Proof.
  intros Hy Hh. assert (0 < INR (h - 1))%R by (apply lt_0_INR; lia). assert (INR y <= INR (h - 1))%R by (apply le_INR; lia).
  pose proof (pos_INR y). split.
  - apply Rmult_le_pos; [assumption|]. left. now apply Rinv_0_lt_compat.
  - apply (Rmult_le_reg_r (INR (h - 1))); [assumption|]. unfold Rdiv. rewrite Rmult_assoc, Rinv_l by lra. lra.
Qed.
Lemma sqrt2_pos : (1 < sqrt 2)%R.
Proof. rewrite <- sqrt_1 at 1. apply sqrt_lt_1; lra. Qed.
Lemma radius_range l h w y x : y < h -> x < w -> 2 <= h -> 2 <= w -> (0 <= radius l h w y x <= INR l)%R.
Proof.
  intros Hy Hx Hh Hw. unfold radius. pose proof (unit_square _ _ (frac_le x w Hx Hw) (frac_le y h Hy Hh)) as U.
  pose proof (sqrt_pos ((INR x / INR (w - 1)) ^ 2 + (INR y / INR (h - 1)) ^ 2)) as S0. set (s := sqrt (_ + _)) in *. pose proof (pos_INR l). pose proof sqrt2_pos.
  assert (D : (0 < / (sqrt 2 + 1e-6))%R) by (apply Rinv_0_lt_compat; lra). split.
  - apply Rmult_le_pos; [|assumption]. apply Rmult_le_pos; [assumption|]. now left.
  - unfold Rdiv. rewrite Rmult_assoc. rewrite <- (Rmult_1_r (INR l)) at 2. apply Rmult_le_compat_l; [assumption|].
    apply (Rmult_le_reg_l (sqrt 2 + 1e-6)); [lra|]. rewrite <- Rmult_assoc, Rinv_r by lra. lra.
Qed.
Lemma radius_code l h w y x : y < h -> x < w -> 2 <= h -> 2 <= w ->
  let scale := (INR l / (sqrt 2 + 1e-6))%R in
  let dy := (INR y * scale / INR (h - 1))%R in let dx := (INR x * scale / INR (w - 1))%R in
  sqrt (dx * dx + dy * dy) = radius l h w y x.
Proof.
  intros Hy Hx Hh Hw scale dy dx. unfold radius. fold scale. pose proof sqrt2_pos. pose proof (pos_INR l).
  assert (S0 : (0 <= scale)%R). { unfold scale. apply Rmult_le_pos; [assumption|]. left. apply Rinv_0_lt_compat. lra. }
  rewrite <- (sqrt_square scale) at 1 by assumption. rewrite <- sqrt_mult.
  - f_equal. unfold dx, dy, Rdiv. ring.
  - now apply Rmult_le_pos.
  - pose proof (pow2_ge_0 (INR x / INR (w - 1))). pose proof (pow2_ge_0 (INR y / INR (h - 1))). lra.
Qed.
(* every weight is on the curve *)
Lemma dctWeights_ok h w p : 2 <= h -> 2 <= w -> starts_positive p ->
  exists m, getDCTQuantWeights h w p = Ok m /\ rrect h w m /\ forall y x, y < h -> x < w -> dct_weight h w p y x (pixel m y x).
Proof.
  intros Hh Hw (a & r & -> & Ha). unfold getDCTQuantWeights. cbn [bandsOf obind]. rewrite bandsFrom_length.
  replace (Z.of_nat (S (length r)) - 1)%Z with (Z.of_nat (length r)) by lia. rewrite <- INR_IZR_INZ.
  set (scale := (INR (length r) / (sqrt 2 + 1e-6))%R).
  pose (D := fun y x => sqrt (INR x * scale / INR (w - 1) * (INR x * scale / INR (w - 1)) + INR y * scale / INR (h - 1) * (INR y * scale / INR (h - 1)))%R).
  assert (V : forall y x, y < h -> x < w -> exists v, interpolate (D y x) (bandsFrom a r) = Ok v /\ dct_weight h w (a :: r) y x v).
  { intros y x Hy Hx. destruct (interpolate_ok (bandsFrom a r) (band (a :: r)) (length r) (D y x)) as (v & E & C).
    - apply bandsFrom_length.
    - intros k Hk. split; [apply bandsFrom_nth; lia|apply band_pos; exact Ha].
    - apply sqrt_pos.
    - right. unfold D, scale. rewrite radius_code by assumption. apply radius_range; assumption.
    - exists v. split; [exact E|]. unfold dct_weight. cbn [length]. replace (S (length r) - 1) with (length r) by lia.
      unfold D, scale in C. rewrite radius_code in C by assumption. exact C. }
  pose (g := fun y x => match interpolate (D y x) (bandsFrom a r) with Ok v => v | _ => 0%R end).
  exists (rmat h w g). split; [|split; [apply rrect_rmat|]].
  - rfill h w g.
    + intros y m Hy Hm. reflexivity.
    + apply rrect_repeat.
    + lia.
    + lia.
    + intros y x m Hy Hx Hm _. cbv beta. fold (D y x). destruct (V y x) as (v & E & _); [lia|lia|]. rewrite E. cbn [obind].
      unfold g. rewrite E. apply rset2_rect; try assumption; reflexivity || lia.
    + intros y x Hy Hx. now rewrite in_full.
  - intros y x Hy Hx. rewrite pixel_rmat by assumption. destruct (V y x Hy Hx) as (v & E & C). unfold g. now rewrite E.
Qed.

(* ---- inverses ---- *)
Lemma invert_ok h w m : rrect h w m -> (forall y x, y < h -> x < w -> (0 <= pixel m y x)%R) ->
  exists m', invertWeights h w m = Ok m' /\ rrect h w m' /\ forall y x, y < h -> x < w -> pixel m' y x = (/ pixel m y x)%R.
Proof.
  intros Hm HP. exists (rmat h w (fun y x => (/ pixel m y x)%R)). split; [|split; [apply rrect_rmat|intros; now apply pixel_rmat]].
  unfold invertWeights. rfill h w (fun y x => (/ pixel m y x)%R).
  - intros y m' Hy Hm'. reflexivity.
  - exact Hm.
  - lia.
  - lia.
  - intros y x m' Hy Hx Hm' E. cbv beta. rewrite (rget2_rect h w m' y x) by (assumption || lia). cbn [obind]. rewrite E.
    specialize (HP y x ltac:(lia) ltac:(lia)). destruct (Rlt_dec (pixel m y x) 0); [exfalso; lra|]. unfold Rdiv. rewrite Rmult_1_l.
    apply rset2_rect; try assumption; reflexivity || lia.
  - intros y x Hy Hx. now rewrite in_full.
Qed.
Lemma invert_rejects h w m : rrect h w m ->
  match invertWeights h w m with Ok m' => forall y x, y < h -> x < w -> (0 <= pixel m y x)%R | Err => True | Panic => False end.
Proof.
  intros Hm. unfold invertWeights.
  pose (P := fun y x m' => rrect h w m' /\ forall y' x', y' < h -> x' < w ->
    if (y' <? y) || ((y' =? y) && (x' <? x)) then (0 <= pixel m y' x')%R else pixel m' y' x' = pixel m y' x').
  match goal with |- match oloop h 0 ?f m with _ => _ end => pose proof (oloop_safe (fun y m' => P y 0 m') f h 0 m) as SS end.
  match type of SS with _ -> ?B -> _ => assert (HB : B) end.
  - intros y m' Hy HPy. match goal with |- match oloop w 0 ?f m' with _ => _ end => pose proof (oloop_safe (fun x m' => P y x m') f w 0 m' HPy) as S2 end.
    match type of S2 with ?B -> _ => assert (HB : B) end.
    + intros x r Hx [Hr HP]. rewrite (rget2_rect h w r y x) by (assumption || lia). cbn [obind].
      assert (Hy' : y < h) by (destruct Hy; assumption). assert (Hx' : x < w) by (destruct Hx; assumption).
      pose proof (HP y x Hy' Hx') as E. rewrite !Nat.ltb_irrefl, andb_false_r in E. cbn [orb] in E. rewrite E. clear Hy' Hx'.
      destruct (Rlt_dec (pixel m y x) 0) as [|N]; [exact I|].
      destruct (rset2_rect h w r y x (1 / pixel m y x)%R (Z.of_nat y) (Z.of_nat x)) as (r' & E' & Hr' & Pr'); try assumption; try reflexivity; try lia.
      rewrite E'. split; [exact Hr'|]. intros y' x' Hy' Hx'. specialize (HP y' x' Hy' Hx').
      rewrite Pr'. destruct (Nat.eqb_spec y' y) as [->|]; [destruct (Nat.eqb_spec x' x) as [->|]|]; cbn [andb].
      * replace (x <? S x) with true by lia. rewrite orb_true_r. apply Rnot_lt_le; exact N.
      * cbn [andb] in HP. replace (x' <? S x) with (x' <? x) by lia. exact HP.
      * cbn [andb] in HP. exact HP.
    + specialize (S2 HB). cbv beta in S2. match goal with |- match ?o with _ => _ end => destruct o end; auto.
      destruct S2 as [R2 P2]. split; [exact R2|]. intros y' x' Hy' Hx'. specialize (P2 y' x' Hy' Hx').
      replace ((y' <? S y) || (y' =? S y) && (x' <? 0)) with ((y' <? y) || (y' =? y) && (x' <? 0 + w)) by lia. exact P2.
  - specialize (SS ltac:(split; [exact Hm|intros y x _ _; replace ((y <? 0) || (y =? 0) && (x <? 0)) with false by lia; reflexivity]) HB). cbv beta in SS.
    match goal with |- match ?o with _ => _ end => destruct o end; auto. intros y x Hy Hx. destruct SS as [_ SS]. specialize (SS y x Hy Hx).
    replace ((y <? 0 + h) || (y =? 0 + h) && (x <? 0)) with true in SS by lia. exact SS.
Qed.
(* a table with its inverse *)
Definition table (h w : nat) (m : Outcome (list (list R))) (P : nat -> nat -> R -> Prop) : Prop :=
  exists r, m = Ok r /\ rrect h w r /\ forall y x, y < h -> x < w -> P y x (pixel r y x).
Lemma table_invert h w m P Q : table h w m P -> (forall y x v, y < h -> x < w -> P y x v -> (0 < v)%R /\ Q y x (/ v)%R) ->
  table h w (obind m (invertWeights h w)) Q.
Proof.
  intros (r & -> & Hr & HP) H. cbn [obind]. destruct (invert_ok h w r Hr) as (r' & E & Hr' & HQ).
  - intros y x Hy Hx. left. apply (H y x (pixel r y x)); auto.
  - exists r'. split; [exact E|]. split; [exact Hr'|]. intros y x Hy Hx. rewrite HQ by assumption. apply H; auto.
Qed.

(* ---- layouts, by evaluation ---- *)
Ltac cells t := let y := fresh "y" in let x := fresh "x" in intros y x ? ?;
  do 8 (destruct y as [|y]; [do 8 (destruct x as [|x]; [solve [t]|]); exfalso; lia|]); exfalso; lia.
Lemma rect8 m : length m = 8 -> Forall (fun r : list R => length r = 8) m -> rrect 8 8 m.
Proof. intros; split; assumption. Qed.
Ltac rect8 := apply rect8; [reflexivity|repeat constructor].
Lemma hornuss_ok p : length p = 3 -> table 8 8 (weightsHornuss p) (fun y x v => v = hornuss_weight p y x).
Proof.
  intros L. destruct p as [|a [|b [|c [|]]]]; try discriminate. eexists. split; [vm_compute; reflexivity|]. split; [rect8|]. cells reflexivity.
Qed.
Lemma dct2_ok p : length p = 6 -> table 8 8 (weightsDCT2 p) (fun y x v => v = dct2_weight p y x).
Proof.
  intros L. destruct p as [|a [|b [|c [|d [|e [|f [|]]]]]]]; try discriminate. eexists. split; [vm_compute; reflexivity|]. split; [rect8|]. cells reflexivity.
Qed.
Lemma positive_nth l i : positive l -> i < length l -> (0 < nth i l 0)%R.
Proof. intros H Hi. unfold positive in H. rewrite Forall_forall in H. apply H, nth_In, Hi. Qed.
Lemma rmat_of h w m : rrect h w m -> exists f, m = rmat h w f /\ forall y x, f y x = pixel m y x.
Proof. intros H. exists (pixel m). split; [now rewrite rmat_pixel|reflexivity]. Qed.
Lemma dct4_ok q p : starts_positive q -> length p = 2 ->
  table 8 8 (weightsDCT4 q p) (fun y x v => exists u, dct_weight 4 4 q (y / 2) (x / 2) u /\ v = (u / dct4_divisor p y x)%R).
Proof.
  intros Hq L. destruct p as [|a [|b [|]]]; try discriminate. destruct (dctWeights_ok 4 4 q) as (m & E & Hm & HP); [lia|lia|assumption|].
  unfold weightsDCT4. rewrite E. cbn [obind]. destruct (rmat_of 4 4 m Hm) as (f & -> & Hf). clear Hm E.
  assert (HF : forall y x, y < 4 -> x < 4 -> dct_weight 4 4 q y x (f y x)). { intros y x Hy Hx. rewrite Hf. auto. }
  clear HP Hf. eexists. split; [vm_compute; reflexivity|]. split; [rect8|]. intros y x Hy Hx. exists (f (y / 2) (x / 2)).
  split; [apply HF; apply Nat.div_lt_upper_bound; lia|]. revert y x Hy Hx.
  cells ltac:(cbn; first [reflexivity|lra]).
Qed.
Lemma dct48_ok q p : starts_positive q -> length p = 1 ->
  table 8 8 (weightsDCT4_8 q p) (fun y x v => exists u, dct_weight 4 8 q (y / 2) x u /\ v = (u / dct48_divisor p y x)%R).
Proof.
  intros Hq L. destruct p as [|a [|]]; try discriminate. destruct (dctWeights_ok 4 8 q) as (m & E & Hm & HP); [lia|lia|assumption|].
  unfold weightsDCT4_8. rewrite E. cbn [obind]. destruct (rmat_of 4 8 m Hm) as (f & -> & Hf). clear Hm E.
  assert (HF : forall y x, y < 4 -> x < 8 -> dct_weight 4 8 q y x (f y x)). { intros y x Hy Hx. rewrite Hf. auto. }
  clear HP Hf. eexists. split; [vm_compute; reflexivity|]. split; [rect8|]. intros y x Hy Hx. exists (f (y / 2) x).
  split; [apply HF; [apply Nat.div_lt_upper_bound|]; lia|]. revert y x Hy Hx.
  cells ltac:(cbn; first [reflexivity|lra]).
Qed.

(* ---- corner transforms ---- *)
Lemma afvBands_ok p : length p = 9 -> positive (firstn 6 p) ->
  exists bands, afvBands p = Ok bands /\ length bands = 4 /\ forall k, k <= 3 -> nth k bands 0%R = band (skipn 5 p) k /\ (0 < band (skipn 5 p) k)%R.
Proof.
  intros L HP. assert (H5 : (0 < nth 5 p 0)%R). { pose proof (positive_nth (firstn 6 p) 5 HP) as H. rewrite firstn_length in H.
    do 9 (destruct p as [|? p]; [discriminate|]). cbn in H |- *. apply H. lia. }
  do 9 (destruct p as [|? p]; [discriminate|]). destruct p; [|discriminate]. cbn [nth skipn] in *.
  set (bs := [_; _; _; _] : list R) in |- *. clear L HP.
  assert (BP : forall k, (0 < band bs k)%R) by (intros k; apply band_pos; exact H5).
  exists [band bs 0; band bs 1; band bs 2; band bs 3].
  split; [|split; [reflexivity|]].
  - pose proof (BP 1) as B1. pose proof (BP 2) as B2. pose proof (BP 3) as B3. unfold bs in *. cbn [band nth] in *.
    rewrite <- !quantMult_ratio in *.
    assert (G : forall x y z, x = (r4 * quantMult r5)%R -> y = (x * quantMult r6)%R -> z = (y * quantMult r7)%R -> (0 < x)%R -> (0 < y)%R -> (0 < z)%R ->
      afvBands [r; r0; r1; r2; r3; r4; r5; r6; r7] = Ok [r4; x; y; z]).
    { clear. intros x y z Ex Ey Ez Hx Hy Hz. unfold afvBands. cbn [oloop].
      change (slice_get [r; r0; r1; r2; r3; r4; r5; r6; r7] 5) with (Ok r4). cbn [obind].
      change (slice_get [r; r0; r1; r2; r3; r4; r5; r6; r7] (Z.of_nat 1 + 5)) with (Ok r5).
      change (slice_get [r; r0; r1; r2; r3; r4; r5; r6; r7] (Z.of_nat 2 + 5)) with (Ok r6).
      change (slice_get [r; r0; r1; r2; r3; r4; r5; r6; r7] (Z.of_nat 3 + 5)) with (Ok r7).
      cbn [obind]. destruct (Rlt_dec r4 0) as [N|_]; [exfalso; subst; pose proof (ratio_pos r5); rewrite <- quantMult_ratio in *; nra|].
      change (slice_get [r4; 0%R; 0%R; 0%R] (Z.of_nat 1 - 1)) with (Ok r4). cbn [obind]. rewrite <- Ex.
      destruct (Rlt_dec x 0); [exfalso; lra|]. change (slice_set [r4; 0%R; 0%R; 0%R] (Z.of_nat 1) x) with (Ok [r4; x; 0%R; 0%R]). cbn [obind].
      change (slice_get [r4; x; 0%R; 0%R] (Z.of_nat 2 - 1)) with (Ok x). cbn [obind]. rewrite <- Ey.
      destruct (Rlt_dec y 0); [exfalso; lra|]. change (slice_set [r4; x; 0%R; 0%R] (Z.of_nat 2) y) with (Ok [r4; x; y; 0%R]). cbn [obind].
      change (slice_get [r4; x; y; 0%R] (Z.of_nat 3 - 1)) with (Ok y). cbn [obind]. rewrite <- Ez.
      destruct (Rlt_dec z 0); [exfalso; lra|]. reflexivity. }
    apply G; auto.
  - intros k Hk. split; [|apply BP]. do 4 (destruct k as [|k]; [reflexivity|]). lia.
Qed.

Definition afvPos (k : nat) : R := ((nth k afvFreqs 0 - afvLow) / (afvHigh - afvLow))%R.
Lemma afvPos_range k : k < 16 -> 2 <= k -> k <> 4 -> k <> 5 -> (0 <= afvPos k <= 1)%R.
Proof.
  intros H1 H2 H4 H5. assert (F : (afvLow <= nth k afvFreqs 0 <= afvHigh)%R).
  { unfold afvLow, afvHigh. do 16 (destruct k as [|k]; [try (exfalso; lia); cbn; lra|]). exfalso; lia. }
  unfold afvPos. assert (0 < afvHigh - afvLow)%R by (unfold afvLow, afvHigh; lra). split.
  - apply Rmult_le_pos; [lra|]. left. now apply Rinv_0_lt_compat.
  - apply (Rmult_le_reg_r (afvHigh - afvLow)); [assumption|]. unfold Rdiv. rewrite Rmult_assoc, Rinv_l by lra. lra.
Qed.
(* the layout, once the values are known *)
Definition afvLayout (g : nat -> R) (weights4x8 weights4x4 : list (list R)) (p : list R) : Outcome (list (list R)) :=
  obind (rset2 (zeroWeights 8 8) 0 0 1%R) (fun w =>
  obind (setParam w 1 0 p 0) (fun w => obind (setParam w 0 1 p 1) (fun w => obind (setParam w 2 0 p 2) (fun w => obind (setParam w 0 2 p 3) (fun w =>
  obind (setParam w 2 2 p 4) (fun w =>
  oloop 4 0 (fun y w =>
    obind (oloop 4 0 (fun x w => if (x <? 2) && (y <? 2) then Ok w else rset2 w (Z.of_nat (2 * x)) (Z.of_nat (2 * y)) (g (y * 4 + x))) w) (fun w =>
    obind (oloop 8 0 (fun x w => if (x =? 0) && (y =? 0) then Ok w
      else obind (rget2 weights4x8 (Z.of_nat y) (Z.of_nat x)) (fun v => rset2 w (Z.of_nat (2 * y + 1)) (Z.of_nat x) v)) w) (fun w =>
    oloop 4 0 (fun x w => if (x =? 0) && (y =? 0) then Ok w
      else obind (rget2 weights4x4 (Z.of_nat y) (Z.of_nat x)) (fun v => rset2 w (Z.of_nat (2 * y)) (Z.of_nat (2 * x + 1)) v)) w))) w)))))).
Lemma afv_layout q r p w48 w44 bands g :
  getDCTQuantWeights 4 8 q = Ok w48 -> getDCTQuantWeights 4 4 r = Ok w44 -> afvBands p = Ok bands ->
  (forall k, k < 16 -> 2 <= k -> k <> 4 -> k <> 5 -> interpolate (afvPos k) bands = Ok (g k)) ->
  getAFVTransformWeights q r p = afvLayout g w48 w44 p.
Proof.
  intros E1 E2 E3 G. unfold getAFVTransformWeights, afvLayout. rewrite E1, E2, E3. cbn [obind].
  destruct (rset2 _ _ _ _) as [w| |]; cbn [obind]; [|reflexivity|reflexivity].
  do 5 (match goal with |- obind ?a _ = _ => destruct a end; cbn [obind]; [|reflexivity|reflexivity]).
  apply oloop_ext. intros y w' Hy. f_equal. apply oloop_ext. intros x w'' Hx.
  destruct ((x <? 2) && (y <? 2)) eqn:C; [reflexivity|]. rewrite (slice_get_ok afvFreqs _ 0%R) by (cbn [length afvFreqs]; lia). cbn [obind].
  rewrite Nat2Z.id. fold (afvPos (y * 4 + x)). rewrite G by lia. reflexivity.
Qed.
Lemma afv_ok q r p : starts_positive q -> starts_positive r -> length p = 9 -> positive (firstn 6 p) ->
  table 8 8 (getAFVTransformWeights q r p) (fun y x v => afv_weight 1 q r p y x v).
Proof.
  intros Hq Hr L HP. destruct (dctWeights_ok 4 8 q) as (m & E1 & Hm & HPm); [lia|lia|assumption|].
  destruct (dctWeights_ok 4 4 r) as (m' & E2 & Hm' & HPm'); [lia|lia|assumption|]. destruct (afvBands_ok p L HP) as (bands & E3 & Lb & HB).
  pose (g := fun k => match interpolate (afvPos k) bands with Ok v => v | _ => 0%R end).
  assert (G : forall k, k < 16 -> 2 <= k -> k <> 4 -> k <> 5 -> interpolate (afvPos k) bands = Ok (g k) /\ log_curve (band (skipn 5 p)) 3 (afvPos k) (g k)).
  { intros k K1 K2 K3 K4. pose proof (afvPos_range k K1 K2 K3 K4) as R. destruct (interpolate_ok bands (band (skipn 5 p)) 3 (afvPos k)) as (v & E & C); auto.
    - lra.
    - right. cbn [INR]. lra.
    - unfold g. rewrite E. auto. }
  rewrite (afv_layout q r p m m' bands g); auto; [|intros; now apply G]. clear E1 E2 E3.
  destruct (rmat_of 4 8 m Hm) as (f & -> & Hf). destruct (rmat_of 4 4 m' Hm') as (f' & -> & Hf').
  assert (HF : forall y x, y < 4 -> x < 8 -> dct_weight 4 8 q y x (f y x)). { intros y x Hy Hx. rewrite Hf. auto. }
  assert (HF' : forall y x, y < 4 -> x < 4 -> dct_weight 4 4 r y x (f' y x)). { intros y x Hy Hx. rewrite Hf'. auto. }
  assert (GC : forall k i j, k = j * 4 + i -> k < 16 -> 2 <= k -> k <> 4 -> k <> 5 -> log_curve (band (skipn 5 p)) 3 (afv_pos 1 i j) (g k)).
  { intros k i j -> K1 K2 K3 K4. unfold afv_pos. rewrite Rmult_1_l. now apply G. }
  clearbody g. clear G HB Hm Hm' HPm HPm' Hf Hf' HP.
  assert (S5 : exists b, skipn 5 p = b) by eauto. destruct S5 as [b S5].
  do 9 (destruct p as [|? p]; [discriminate|]). destruct p; [|discriminate]. unfold afv_weight. rewrite S5 in *. clear S5.
  eexists. split; [vm_compute; reflexivity|]. split; [rect8|].
  cells ltac:(cbn [at_ andb Nat.eqb Nat.odd Nat.even negb pixel nth];
    first [reflexivity
          |match goal with |- dct_weight 4 8 _ _ _ (f ?a ?b) => apply (HF a b); lia end
          |match goal with |- dct_weight 4 4 _ _ _ (f' ?a ?b) => apply (HF' a b); lia end
          |apply GC; [reflexivity|lia|lia|lia|lia]]).
Qed.

(* ---- all modes ---- *)
Lemma raw_ok h w p den : length p = h * w -> table h w (weightsRaw h w p den) (fun y x v => v = (nth (y * w + x) p 0 * den)%R).
Proof.
  intros L. exists (rmat h w (fun y x => (nth (y * w + x) p 0 * den)%R)). split; [|split; [apply rrect_rmat|intros; now apply pixel_rmat]].
  unfold weightsRaw. rfill h w (fun y x => (nth (y * w + x) p 0 * den)%R).
  - intros y m' Hy Hm'. reflexivity.
  - apply rrect_repeat.
  - lia.
  - lia.
  - intros y x m' Hy Hx Hm' E. cbv beta. rewrite (slice_get_ok p _ 0%R) by nia. cbn [obind]. rewrite Nat2Z.id.
    apply rset2_rect; try assumption; reflexivity || lia.
  - intros y x Hy Hx. now rewrite in_full.
Qed.
Lemma horizontal i : i < 17 -> exists t, getHorizontalTransformType (Z.of_nat i) = Ok t /\
  Z.to_nat (tt_matrixHeight t) = nth i weight_rows 0 /\ Z.to_nat (tt_matrixWidth t) = nth i weight_columns 0.
Proof. intros H. do 17 (destruct i as [|i]; [eexists; split; [reflexivity|split; reflexivity]|]). lia. Qed.
Lemma small_size i : i < 17 -> small_table i = true -> nth i weight_rows 0 = 8 /\ nth i weight_columns 0 = 8.
Proof. intros H. do 17 (destruct i as [|i]; [cbn; intros; try discriminate; split; reflexivity|]). lia. Qed.
Lemma big_size i : i < 17 -> 2 <= nth i weight_rows 0 /\ 2 <= nth i weight_columns 0.
Proof. intros H. do 17 (destruct i as [|i]; [cbn; lia|]). lia. Qed.
Lemma table_iff h w m (P Q : nat -> nat -> R -> Prop) : table h w m P -> (forall y x v, y < h -> x < w -> P y x v -> Q y x v) -> table h w m Q.
Proof. intros (r & E & Hr & HP) H. exists r. split; [exact E|]. split; [exact Hr|]. intros. apply H; auto. Qed.
Lemma curve_pos b l t v : log_curve b l t v -> (0 < v)%R.
Proof. now intros [H _]. Qed.
Lemma inv_law u : (0 < u)%R -> (/ u * u = 1)%R.
Proof. intros. apply Rinv_l. lra. Qed.

Section Modes.
Variables (d : DCTParam) (i : nat).
Let mode := dp_mode d.
Let dct c := nth c (dp_dctParam d) [].
Let p c := nth c (dp_param d) [].
Let p44 c := nth c (dp_params4x4 d) [].
Hypothesis HV : valid_params mode i dct p p44.
Hypothesis L1 : mode = 3%Z \/ mode = 4%Z \/ mode = 5%Z \/ mode = 6%Z -> length (dp_dctParam d) = 3.
Hypothesis L2 : mode <> 6%Z -> length (dp_param d) = 3.
Hypothesis L3 : mode = 5%Z -> length (dp_params4x4 d) = 3.
Let h := nth i weight_rows 0.
Let w := nth i weight_columns 0.
Lemma channel_ok t c : c < 3 -> getHorizontalTransformType (Z.of_nat i) = Ok t -> Z.to_nat (tt_matrixHeight t) = h -> Z.to_nat (tt_matrixWidth t) = w ->
  table h w (let m := channelWeights t d (Z.of_nat c) in if (mode =? 7)%Z then m else obind m (invertWeights h w))
    (hf_step 1 mode i (dct c) (p c) (p44 c) (dp_denominator d)).
Proof.
  intros Hc _ Hh Hw. destruct HV as [Hi HVc]. specialize (HVc c Hc). unfold mode in *. unfold channelWeights, hf_step. rewrite Hh, Hw.
  assert (G1 : forall (l : list (list R)), length l = 3 -> slice_get l (Z.of_nat c) = Ok (nth c l [])).
  { intros l Hl. rewrite (slice_get_ok l _ []) by lia. now rewrite Nat2Z.id. }
  pose proof (big_size i Hi) as [BH BW]. fold h w in BH, BW |- *.
  destruct (dp_mode d) as [|m|m]; [contradiction| |contradiction].
  do 3 (try destruct m as [m|m|]); try contradiction; cbv beta iota zeta in HVc |- *; cbn [Z.eqb Pos.eqb]; fold h w.
  - (* 7 *) rewrite G1 by (apply L2; lia). cbn [obind]. now apply raw_ok.
  - (* 5 *) destruct HVc as (S & P1 & P2 & P3 & P4). destruct (small_size i Hi S) as [A B]. unfold h, w. rewrite A, B.
    rewrite !G1 by (apply L1 || apply L2 || apply L3; lia). cbn [obind]. eapply table_invert; [apply afv_ok; eassumption|].
    intros y x v Hy Hx H. cbn beta in H. enough (V : (0 < v)%R) by (split; [exact V|]; exists v; split; [exact H|now apply inv_law]).
    assert (PN : forall k, k < 6 -> (0 < nth k (p c) 0)%R).
    { intros k Hk. pose proof (positive_nth (firstn 6 (p c)) k P4) as N. rewrite firstn_length, P3 in N. specialize (N Hk).
      rewrite <- (firstn_skipn 6 (p c)), app_nth1 by (rewrite firstn_length, P3; exact Hk). exact N. }
    unfold afv_weight in H. repeat match type of H with context [if ?b then _ else _] => destruct b end; try (subst v; (lra || apply PN; lia)); eapply curve_pos; exact H.
  - (* 3 *) destruct HVc as (S & P1 & P2 & P3). destruct (small_size i Hi S) as [A B]. unfold h, w. rewrite A, B.
    rewrite !G1 by (apply L1 || apply L2; lia). cbn [obind]. eapply table_invert; [apply dct4_ok; eassumption|].
    intros y x v Hy Hx (u & H & ->). pose proof (curve_pos _ _ _ _ H) as U.
    assert (D : (0 < dct4_divisor (p c) y x)%R). { unfold dct4_divisor. repeat match goal with |- context [if ?b then _ else _] => destruct b end; try lra; apply positive_nth; auto; lia. }
    split; [now apply Rdiv_lt_0_compat|]. exists u. split; [exact H|]. unfold p in *. field. lra.
  - (* 6 *) rewrite G1 by (apply L1; lia). cbn [obind]. destruct (dctWeights_ok h w (dct c)) as (m & E & Hm & HP); auto.
    eapply table_invert; [exists m; eauto|]. intros y x v Hy Hx H. cbn beta in H. pose proof (curve_pos _ _ _ _ H) as U. split; [exact U|].
    exists v. split; [exact H|now apply inv_law].
  - (* 4 *) destruct HVc as (S & P1 & P2 & P3). destruct (small_size i Hi S) as [A B]. unfold h, w. rewrite A, B.
    rewrite !G1 by (apply L1 || apply L2; lia). cbn [obind]. eapply table_invert; [apply dct48_ok; eassumption|].
    intros y x v Hy Hx (u & H & ->). pose proof (curve_pos _ _ _ _ H) as U.
    assert (D : (0 < dct48_divisor (p c) y x)%R). { unfold dct48_divisor. repeat match goal with |- context [if ?b then _ else _] => destruct b end; try lra; apply positive_nth; auto; lia. }
    split; [now apply Rdiv_lt_0_compat|]. exists u. split; [exact H|]. unfold p in *. field. lra.
  - (* 2 *) destruct HVc as (S & P2 & P3). destruct (small_size i Hi S) as [A B]. unfold h, w. rewrite A, B.
    rewrite !G1 by (apply L2; lia). cbn [obind]. eapply table_invert; [apply dct2_ok; eassumption|].
    intros y x v Hy Hx ->. split; [|reflexivity]. unfold p in *. unfold dct2_weight. cbv zeta. repeat match goal with |- context [if ?b then _ else _] => destruct b end; try lra; apply positive_nth; auto; lia.
  - (* 1 *) destruct HVc as (S & P2 & P3). destruct (small_size i Hi S) as [A B]. unfold h, w. rewrite A, B.
    rewrite !G1 by (apply L2; lia). cbn [obind]. eapply table_invert; [apply hornuss_ok; eassumption|].
    intros y x v Hy Hx ->. split; [|reflexivity]. unfold p in *. unfold hornuss_weight. repeat match goal with |- context [if ?b then _ else _] => destruct b end; try lra; apply positive_nth; auto; lia.
Qed.
Lemma weights_ok : exists w0 w1 w2, generateWeights (Z.of_nat i) d = Ok [w0; w1; w2] /\
  forall c, c < 3 -> rrect h w (nth c [w0; w1; w2] []) /\
    forall y x, y < h -> x < w -> hf_step 1 mode i (dct c) (p c) (p44 c) (dp_denominator d) y x (pixel (nth c [w0; w1; w2] []) y x).
Proof.
  destruct HV as [Hi _]. destruct (horizontal i Hi) as (t & E & Hh & Hw). fold h in Hh. fold w in Hw.
  destruct (channel_ok t 0 ltac:(lia) E Hh Hw) as (r0 & E0 & R0 & P0). destruct (channel_ok t 1 ltac:(lia) E Hh Hw) as (r1 & E1 & R1 & P1).
  destruct (channel_ok t 2 ltac:(lia) E Hh Hw) as (r2 & E2 & R2 & P2). exists r0, r1, r2. split.
  - unfold generateWeights. rewrite E. cbn [obind]. rewrite Hh, Hw. fold mode. change (Z.of_nat 0) with 0%Z in E0. change (Z.of_nat 1) with 1%Z in E1. change (Z.of_nat 2) with 2%Z in E2.
    destruct (mode =? 7)%Z; cbv zeta in E0, E1, E2.
    + rewrite E0, E1, E2. reflexivity.
    + destruct (channelWeights t d 0) as [a0| |]; try discriminate. destruct (channelWeights t d 1) as [a1| |]; try discriminate.
      destruct (channelWeights t d 2) as [a2| |]; try discriminate. cbn [obind] in *. now rewrite E0, E1, E2.
  - intros c Hc. do 3 (destruct c as [|c]; [cbn [nth]; auto|]). lia.
Qed.
End Modes.

(* ---- only the first two of four bands matter up to 1 ---- *)
Lemma curve_first b l t v : 1 <= l -> (0 <= t <= 1)%R -> log_curve b l t v -> ln v = (ln (b 0%nat) + t * (ln (b 1%nat) - ln (b 0%nat)))%R.
Proof.
  intros Hl Ht [P [[L _]|(k & Lk & Tk & E)]]; [exfalso; lia|]. destruct k as [|k].
  - cbn [INR] in E. rewrite E. change (0 + 1) with 1. lra.
  - destruct k as [|k].
    + cbn [INR] in *. assert (t = 1%R) by lra. subst t. rewrite E. lra.
    + rewrite !S_INR in Tk. pose proof (pos_INR k). exfalso; lra.
Qed.
Lemma curve_last b l v : 1 <= l -> log_curve b l (INR l) v -> ln v = ln (b l).
Proof.
  intros Hl [P [[L _]|(k & Lk & Tk & E)]]; [exfalso; lia|]. assert (INR l <= INR (k + 1))%R by (rewrite plus_INR; cbn [INR]; lra). apply INR_le in H.
  assert (k + 1 = l) by lia. subst l. rewrite plus_INR in E. cbn [INR] in E. rewrite E. lra.
Qed.
