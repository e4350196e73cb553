(* Lemmas about the restoration filters. *)
From Coq Require Import ZArith List Bool Lia Lra Arith Reals ZifyBool ZifyNat Permutation.
From Verif Require Import GoBase GoLoop ModelUtil ModelDCT ModelConcurrency ModelFilters SpecUtil SpecDCT SpecColour SpecFilters.
From Verif Require Import ProofCodes ProofUtil ProofDCT ProofDCTMath GoMatrixR.
Import ListNotations.
Open Scope Z_scope.

(* ---- tables ---- *)
Lemma orow_ok {A} (f : nat -> Outcome A) (g : nat -> A) n : forall i, (forall j, (i <= j < i + n)%nat -> f j = Ok (g j)) -> orow n f i = Ok (map g (seq i n)).
Proof.
  induction n as [|n IH]; intros i H; [reflexivity|]. cbn [orow seq map]. rewrite H by lia. cbn [obind]. rewrite IH by (intros; apply H; lia). reflexivity.
Qed.
Lemma otab_ok {A} (f : Z -> Z -> Outcome A) (g : nat -> nat -> A) h w : (forall y x, (y < h)%nat -> (x < w)%nat -> f (Z.of_nat y) (Z.of_nat x) = Ok (g y x)) ->
  otab h w f = Ok (map (fun y => map (g y) (seq 0 w)) (seq 0 h)).
Proof. intros H. apply (orow_ok _ (fun y => map (g y) (seq 0 w))). intros y Hy. apply (orow_ok _ (g y)). intros x Hx. apply H; lia. Qed.
Lemma otab_mat f g h w : (forall y x, (y < h)%nat -> (x < w)%nat -> f (Z.of_nat y) (Z.of_nat x) = Ok (g y x)) -> otab h w f = Ok (rmat h w g).
Proof. exact (otab_ok f g h w). Qed.

(* ---- mirroring ---- *)
Lemma mir_is n c : (1 <= n)%nat -> is_mirror (Z.of_nat n) c (Z.of_nat (mir n c)).
Proof.
  intros Hn. unfold mir. pose proof (Z.mod_pos_bound c (2 * Z.of_nat n) ltac:(lia)) as B. pose proof (Z.div_mod c (2 * Z.of_nat n) ltac:(lia)) as D.
  set (r := c mod (2 * Z.of_nat n)) in *. set (q := c / (2 * Z.of_nat n)) in *. clearbody r q. destruct (Z.ltb_spec r (Z.of_nat n)).
  - split; [lia|]. exists q. left. lia.
  - split; [lia|]. exists (q + 1). right. lia.
Qed.
Lemma mir_bound n c : (1 <= n)%nat -> (mir n c < n)%nat.
Proof. intros Hn. destruct (mir_is n c Hn) as [B _]. lia. Qed.
Lemma mir_in n c : (1 <= n)%nat -> 0 <= c < Z.of_nat n -> mir n c = Z.to_nat c.
Proof. intros Hn Hc. unfold mir. rewrite Z.mod_small by lia. replace (c <? Z.of_nat n) with true by lia. reflexivity. Qed.
Lemma mir_nat n i : (i < n)%nat -> mir n (Z.of_nat i) = i.
Proof. intros H. rewrite mir_in by lia. lia. Qed.
Lemma mirror_mir n c : (1 <= n)%nat -> Z.of_nat n < 2 ^ 30 -> - 2 ^ 31 <= c < 2 ^ 31 -> MirrorCoordinate c (Z.of_nat n) = Ok (Z.of_nat (mir n c)).
Proof.
  intros Hn Hb Hc. destruct (MirrorCoordinate_ok (Z.of_nat n) c ltac:(lia) ltac:(unfold int32; lia)) as (r & -> & M). f_equal. exact (is_mirror_unique _ _ _ _ M (mir_is n c Hn)).
Qed.
Lemma mirrorCoord_mir n c : (1 <= n)%nat -> Z.of_nat n < 2 ^ 30 -> - 2 ^ 31 <= c < 2 ^ 31 -> mirrorCoord c (Z.of_nat n) = Ok (Z.of_nat (mir n c)).
Proof.
  intros Hn Hb Hc. unfold mirrorCoord. destruct ((0 <=? c) && (c <? Z.of_nat n)) eqn:E; [|now apply mirror_mir]. rewrite mir_in by lia. f_equal. lia.
Qed.
Lemma mir_before n : (1 <= n)%nat -> mir n (-1) = 0%nat.
Proof. intros Hn. pose proof (is_mirror_unique _ _ _ 0 (mir_is n (-1) Hn)) as H. assert (Z.of_nat (mir n (-1)) = 0); [|lia]. apply H. split; [lia|]. exists 0. right. lia. Qed.
Lemma mir_behind n : (1 <= n)%nat -> mir n (Z.of_nat n) = (n - 1)%nat.
Proof. intros Hn. pose proof (is_mirror_unique _ _ _ (Z.of_nat n - 1) (mir_is n (Z.of_nat n) Hn)) as H. assert (Z.of_nat (mir n (Z.of_nat n)) = Z.of_nat n - 1); [|lia]. apply H. split; [lia|]. exists 1. right. lia. Qed.
Lemma mir_prev n i : (i < n)%nat -> mir n (Z.of_nat i - 1) = (if (i =? 0)%nat then 0 else i - 1)%nat.
Proof.
  intros H. destruct (Nat.eqb_spec i 0) as [->|]; [apply mir_before; lia|]. rewrite mir_in by lia. lia.
Qed.
Lemma mir_next n i : (i < n)%nat -> mir n (Z.of_nat i + 1) = (if (i + 1 =? n)%nat then n - 1 else i + 1)%nat.
Proof.
  intros H. destruct (Nat.eqb_spec (i + 1) n) as [E|]; [replace (Z.of_nat i + 1) with (Z.of_nat n) by lia; apply mir_behind; lia|]. rewrite mir_in by lia. lia.
Qed.
Lemma ext_get h w m y x : rrect h w m -> (1 <= h)%nat -> (1 <= w)%nat -> rget2 m (Z.of_nat (mir h y)) (Z.of_nat (mir w x)) = Ok (ext h w m y x).
Proof. intros R Hh Hw. apply (rget2_rect h w); auto using mir_bound. Qed.
Lemma ext_in h w m y x : (y < h)%nat -> (x < w)%nat -> ext h w m (Z.of_nat y) (Z.of_nat x) = pixel m y x.
Proof. intros Hy Hx. unfold ext. now rewrite !mir_nat. Qed.

(* ---- sums over lists ---- *)
Open Scope R_scope.
Lemma rsum_perm {A} (f : A -> R) l l' : Permutation l l' -> rsum f l = rsum f l'.
Proof. unfold rsum. induction 1; cbn; lra. Qed.
Lemma rsum_ext {A} (f g : A -> R) l : (forall a, In a l -> f a = g a) -> rsum f l = rsum g l.
Proof. unfold rsum. induction l as [|a l IH]; intros H; [reflexivity|]. cbn. rewrite (H a) by now left. rewrite IH by (intros; apply H; now right). reflexivity. Qed.
Lemma rsum_scal {A} (f : A -> R) c l : rsum (fun a => f a * c) l = rsum f l * c.
Proof. unfold rsum. induction l as [|a l IH]; cbn; [ring|]. rewrite IH. ring. Qed.
Lemma rsum_le {A} (f g : A -> R) l : (forall a, In a l -> f a <= g a) -> rsum f l <= rsum g l.
Proof. unfold rsum. induction l as [|a l IH]; intros H; cbn; [lra|]. pose proof (H a (or_introl eq_refl)). assert (fold_right (fun a s => f a + s) 0 l <= fold_right (fun a s => g a + s) 0 l) by (apply IH; intros; apply H; now right). lra. Qed.
Lemma rsum_pos {A} (f : A -> R) l : (forall a, In a l -> 0 <= f a) -> 0 <= rsum f l.
Proof. unfold rsum. induction l as [|a l IH]; intros H; cbn; [lra|]. pose proof (H a (or_introl eq_refl)). assert (0 <= fold_right (fun a s => f a + s) 0 l) by (apply IH; intros; apply H; now right). lra. Qed.

(* ---- Gaborish ---- *)
Lemma gab_cell w1 w2 h w m y x : rrect h w m -> (1 + 4 * (w1 + w2) <> 0) -> (y < h)%nat -> (x < w)%nat -> (Z.of_nat h < 2 ^ 30)%Z -> (Z.of_nat w < 2 ^ 30)%Z ->
  let '(base, adj, diag) := gabNorm w1 w2 in
  gabPixel Rplus Rmult base adj diag m (Z.of_nat h) (Z.of_nat w) (Z.of_nat y) (Z.of_nat x) = Ok (gab_value w1 w2 h w m y x).
Proof.
  intros R N Hy Hx Bh Bw. unfold gabNorm, gabPixel. rewrite !i32_small by lia.
  replace (if (Z.of_nat y =? 0)%Z then 0%Z else (Z.of_nat y - 1)%Z) with (Z.of_nat (mir h (Z.of_nat y - 1))) by (rewrite mir_prev by lia; destruct (Nat.eqb_spec y 0), (Z.eqb_spec (Z.of_nat y) 0); lia).
  replace (if (Z.of_nat y + 1 =? Z.of_nat h)%Z then (Z.of_nat h - 1)%Z else (Z.of_nat y + 1)%Z) with (Z.of_nat (mir h (Z.of_nat y + 1))) by (rewrite mir_next by lia; destruct (Nat.eqb_spec (y + 1) h), (Z.eqb_spec (Z.of_nat y + 1) (Z.of_nat h)); lia).
  replace (if (Z.of_nat x =? 0)%Z then 0%Z else (Z.of_nat x - 1)%Z) with (Z.of_nat (mir w (Z.of_nat x - 1))) by (rewrite mir_prev by lia; destruct (Nat.eqb_spec x 0), (Z.eqb_spec (Z.of_nat x) 0); lia).
  replace (if (Z.of_nat x + 1 =? Z.of_nat w)%Z then (Z.of_nat w - 1)%Z else (Z.of_nat x + 1)%Z) with (Z.of_nat (mir w (Z.of_nat x + 1))) by (rewrite mir_next by lia; destruct (Nat.eqb_spec (x + 1) w), (Z.eqb_spec (Z.of_nat x + 1) (Z.of_nat w)); lia).
  pose proof (mir_bound h (Z.of_nat y - 1) ltac:(lia)) as B1. pose proof (mir_bound h (Z.of_nat y + 1) ltac:(lia)) as B2.
  pose proof (mir_bound w (Z.of_nat x - 1) ltac:(lia)) as B3. pose proof (mir_bound w (Z.of_nat x + 1) ltac:(lia)) as B4.
  rewrite (get_row h w m y _ R Hy eq_refl), (get_row h w m _ _ R B1 eq_refl), (get_row h w m _ _ R B2 eq_refl). cbn [obind].
  repeat (rewrite (get_pixel h w m y _ _ R Hy B3 eq_refl) || rewrite (get_pixel h w m y _ _ R Hy B4 eq_refl) || rewrite (get_pixel h w m _ x _ R B1 Hx eq_refl) ||
    rewrite (get_pixel h w m _ x _ R B2 Hx eq_refl) || rewrite (get_pixel h w m _ _ _ R B1 B3 eq_refl) || rewrite (get_pixel h w m _ _ _ R B1 B4 eq_refl) ||
    rewrite (get_pixel h w m _ _ _ R B2 B3 eq_refl) || rewrite (get_pixel h w m _ _ _ R B2 B4 eq_refl) || rewrite (get_pixel h w m y x _ R Hy Hx eq_refl)).
  cbn [obind]. f_equal.
  unfold gab_value, rsum, grid, line, gab_weight, ext. cbn [flat_map map fold_right fst snd Datatypes.app Z.abs Z.add Z.leb Z.eqb Z.compare Pos.compare Pos.compare_cont andb Pos.add Pos.eqb].
  rewrite !Z.add_0_r. change (Z.of_nat y + -1)%Z with (Z.of_nat y - 1)%Z. change (Z.of_nat x + -1)%Z with (Z.of_nat x - 1)%Z. rewrite !mir_nat by assumption. field. lra.
Qed.
Lemma gab_ok w1 w2 h w m : rrect h w m -> (1 + 4 * (w1 + w2) <> 0) -> (Z.of_nat h < 2 ^ 30)%Z -> (Z.of_nat w < 2 ^ 30)%Z ->
  gabChannel w1 w2 h w m = Ok (rmat h w (gab_value w1 w2 h w m)).
Proof.
  intros R N Bh Bw. unfold gabChannel. pose proof (fun y x => gab_cell w1 w2 h w m y x R N) as H. destruct (gabNorm w1 w2) as [[base adj] diag].
  apply otab_mat. intros y x Hy Hx. apply H; assumption.
Qed.
Lemma gab_norm w1 w2 : rsum (gab_weight w1 w2) grid = 1 + 4 * (w1 + w2).
Proof. unfold rsum, grid, line, gab_weight. cbn [flat_map map fold_right fst snd Datatypes.app Z.abs Z.add Z.leb Z.eqb Z.compare Pos.compare Pos.compare_cont andb Pos.add Pos.eqb]. ring. Qed.
Lemma gab_const w1 w2 h w m c : (1 + 4 * (w1 + w2) <> 0) -> (1 <= h)%nat -> (1 <= w)%nat -> (forall y x, (y < h)%nat -> (x < w)%nat -> pixel m y x = c) ->
  forall y x, gab_value w1 w2 h w m y x = c.
Proof.
  intros N Hh Hw H y x. unfold gab_value. rewrite (rsum_ext _ (fun p => gab_weight w1 w2 p * c)); [|intros; unfold ext; rewrite H; auto using mir_bound].
  rewrite rsum_scal, gab_norm. field. exact N.
Qed.
(* sum over a line of the two neighbours *)
Lemma sum_neighbours n f : (1 <= n)%nat -> sum n (fun i => f (mir n (Z.of_nat i - 1)) + f (mir n (Z.of_nat i + 1))) = 2 * sum n f.
Proof.
  intros Hn. rewrite sum_plus. destruct n as [|n]; [lia|].
  assert (E1 : sum (S n) (fun i => f (mir (S n) (Z.of_nat i - 1))) = f 0%nat + sum n f).
  { rewrite sum_first. f_equal; [f_equal; apply mir_before; lia|]. apply sum_ext. intros i Hi. rewrite mir_prev by lia. replace (S i =? 0)%nat with false by reflexivity. f_equal. lia. }
  assert (E2 : sum (S n) (fun i => f (mir (S n) (Z.of_nat i + 1))) = sum n (fun i => f (S i)) + f n).
  { cbn [sum]. f_equal; [|f_equal; replace (Z.of_nat n + 1)%Z with (Z.of_nat (S n)) by lia; rewrite mir_behind by lia; lia].
    apply sum_ext. intros i Hi. rewrite mir_next by lia. destruct (Nat.eqb_spec (i + 1) (S n)); [lia|]. f_equal. lia. }
  rewrite E1, E2. pose proof (sum_first n f) as F. cbn [sum] in *. lra.
Qed.
Lemma gab_split w1 w2 h w m y x : gab_value w1 w2 h w m y x =
  (ext h w m (Z.of_nat y) (Z.of_nat x) +
   w1 * ((ext h w m (Z.of_nat y) (Z.of_nat x - 1) + ext h w m (Z.of_nat y) (Z.of_nat x + 1)) + (ext h w m (Z.of_nat y - 1) (Z.of_nat x) + ext h w m (Z.of_nat y + 1) (Z.of_nat x))) +
   w2 * ((ext h w m (Z.of_nat y - 1) (Z.of_nat x - 1) + ext h w m (Z.of_nat y - 1) (Z.of_nat x + 1)) + (ext h w m (Z.of_nat y + 1) (Z.of_nat x - 1) + ext h w m (Z.of_nat y + 1) (Z.of_nat x + 1))))
  / (1 + 4 * (w1 + w2)).
Proof.
  unfold gab_value. rewrite gab_norm. f_equal. unfold rsum, grid, line, gab_weight.
  cbn [flat_map map fold_right fst snd Datatypes.app Z.abs Z.add Z.leb Z.eqb Z.compare Pos.compare Pos.compare_cont andb Pos.add Pos.eqb].
  rewrite !Z.add_0_r. change (Z.of_nat y + -1)%Z with (Z.of_nat y - 1)%Z. change (Z.of_nat x + -1)%Z with (Z.of_nat x - 1)%Z. ring.
Qed.
Lemma gab_total w1 w2 h w m : (1 + 4 * (w1 + w2) <> 0) -> (1 <= h)%nat -> (1 <= w)%nat -> total h w (rmat h w (gab_value w1 w2 h w m)) = total h w m.
Proof.
  intros N Hh Hw. unfold total.
  rewrite (sum_ext h _ (fun y => sum w (fun x => gab_value w1 w2 h w m y x))) by (intros y Hy; apply sum_ext; intros x Hx; now apply pixel_rmat).
  set (row := fun y => sum w (fun x => pixel m y x)).
  assert (Ex : forall Y, sum w (fun x => ext h w m Y (Z.of_nat x)) = row (mir h Y)).
  { intros Y. apply sum_ext. intros x Hx. unfold ext. now rewrite mir_nat. }
  assert (En : forall Y, sum w (fun x => ext h w m Y (Z.of_nat x - 1) + ext h w m Y (Z.of_nat x + 1)) = 2 * row (mir h Y)).
  { intros Y. unfold ext. exact (sum_neighbours w (fun i => pixel m (mir h Y) i) Hw). }
  rewrite (sum_ext h _ (fun y => (row y + w1 * (2 * row y + (row (mir h (Z.of_nat y - 1)) + row (mir h (Z.of_nat y + 1)))) +
      w2 * (2 * (row (mir h (Z.of_nat y - 1)) + row (mir h (Z.of_nat y + 1))))) / (1 + 4 * (w1 + w2)))).
  - rewrite sum_div, !sum_plus, !sum_scal, !sum_plus, !sum_scal. rewrite <- (sum_plus h (fun y => row (mir h (Z.of_nat y - 1)))), (sum_neighbours h row Hh). field. exact N.
  - intros y Hy. cbv beta. etransitivity; [apply sum_ext; intros x _; apply (gab_split w1 w2 h w m y x)|]. rewrite sum_div, !sum_plus, !sum_scal, !sum_plus.
    rewrite <- (sum_plus w (fun x => ext h w m (Z.of_nat y) (Z.of_nat x - 1))), <- (sum_plus w (fun x => ext h w m (Z.of_nat y - 1) (Z.of_nat x - 1))), <- (sum_plus w (fun x => ext h w m (Z.of_nat y + 1) (Z.of_nat x - 1))).
    rewrite !En, !Ex, !mir_nat by assumption. f_equal. ring.
Qed.

(* ---- edge-preserving filter ---- *)
Lemma around0 : around 0 = [(0, 0)]%Z. Proof. reflexivity. Qed.
Lemma around1 : around 1 = [(-1, 0); (0, -1); (0, 0); (0, 1); (1, 0)]%Z. Proof. reflexivity. Qed.
Ltac pairs_nodup := repeat constructor; cbn [In]; intuition congruence.
Lemma cross_perm : Permutation epfCross (around 1).
Proof.
  apply NoDup_Permutation_bis; [unfold epfCross; pairs_nodup|cbn; lia|]. intros p H. rewrite around1. cbn [epfCross In] in *. intuition.
Qed.
Lemma double_perm : Permutation epfDoubleCross (around 2).
Proof.
  apply NoDup_Permutation_bis; [unfold epfDoubleCross; pairs_nodup|cbn; lia|]. intros p H. unfold around. apply filter_In. cbn [epfDoubleCross In] in H.
  split; [unfold grid, line; cbn [flat_map map In Datatypes.app]; intuition|]. intuition (subst; reflexivity).
Qed.
Lemma mc_ok n c : (1 <= n)%nat -> (Z.of_nat n < 2 ^ 30)%Z -> (- 2 ^ 31 <= c < 2 ^ 31)%Z -> mirrorCoord (i32 c) (Z.of_nat n) = Ok (Z.of_nat (mir n c)).
Proof. intros. rewrite i32_small by lia. now apply mirrorCoord_mir. Qed.
Lemma epfTerm_ok h w m scale a b c d py px dy dx : rrect h w m -> (1 <= h)%nat -> (1 <= w)%nat ->
  py = Z.of_nat (mir h a) -> px = Z.of_nat (mir w b) -> dy = Z.of_nat (mir h c) -> dx = Z.of_nat (mir w d) ->
  epfTerm m scale py px dy dx = Ok (Rabs (ext h w m a b - ext h w m c d) * scale).
Proof. intros R Hh Hw -> -> -> ->. unfold epfTerm. rewrite !(ext_get h w) by assumption. reflexivity. Qed.
Section epf.
  Variables (h w y x : nat) (Bh : (Z.of_nat h < 2 ^ 30)%Z) (Bw : (Z.of_nat w < 2 ^ 30)%Z) (Hy : (y < h)%nat) (Hx : (x < w)%nat).
  Let near (p : Z * Z) := (Z.abs (fst p) <= 2)%Z /\ (Z.abs (snd p) <= 2)%Z.
  Lemma distance1_ok p : near p -> forall inputs scales dist, Forall (rrect h w) inputs -> (length inputs <= length scales)%nat ->
    epfDistance1 (Z.of_nat h) (Z.of_nat w) inputs scales (Z.of_nat y) (Z.of_nat x) (fst p) (snd p) dist =
    Ok (dist + sad 1 h w (combine inputs scales) (Z.of_nat y) (Z.of_nat x) p).
  Proof.
    intros [N1 N2]. destruct p as [cy cx]. cbn [fst snd] in *. induction inputs as [|m inputs IH]; intros scales dist F L; [cbn; f_equal; lra|].
    destruct scales as [|s scales]; [cbn in L; lia|]. inversion F as [|? ? Rm F']; subst. cbn [epfDistance1].
    assert (Ey : Z.of_nat y = Z.of_nat (mir h (Z.of_nat y))) by now rewrite mir_nat. assert (Ex : Z.of_nat x = Z.of_nat (mir w (Z.of_nat x))) by now rewrite mir_nat.
    rewrite !mc_ok by lia. cbn [obind].
    rewrite (epfTerm_ok h w m s (Z.of_nat y) (Z.of_nat x) (Z.of_nat y + cy) (Z.of_nat x + cx)) by (assumption || lia). cbn [obind].
    rewrite (epfTerm_ok h w m s (Z.of_nat y) (Z.of_nat x - 1) (Z.of_nat y + cy) (Z.of_nat x + cx - 1)) by (assumption || lia). cbn [obind].
    rewrite (epfTerm_ok h w m s (Z.of_nat y) (Z.of_nat x + 1) (Z.of_nat y + cy) (Z.of_nat x + cx + 1)) by (assumption || lia). cbn [obind].
    rewrite (epfTerm_ok h w m s (Z.of_nat y - 1) (Z.of_nat x) (Z.of_nat y + cy - 1) (Z.of_nat x + cx)) by (assumption || lia). cbn [obind].
    rewrite (epfTerm_ok h w m s (Z.of_nat y + 1) (Z.of_nat x) (Z.of_nat y + cy + 1) (Z.of_nat x + cx)) by (assumption || lia). cbn [obind].
    rewrite IH by (assumption || (cbn in L; lia)). f_equal. unfold sad. cbn [combine rsum fold_right fst snd]. fold (sad 1 h w (combine inputs scales) (Z.of_nat y) (Z.of_nat x) (cy, cx)).
    rewrite around1. unfold rsum. cbn [fold_right fst snd]. assert (S1 : forall a, (a + -1 = a - 1)%Z) by (intros; lia). rewrite !S1, !Z.add_0_r. ring.
  Qed.
  Lemma distance2_ok p : near p -> forall inputs scales dist, Forall (rrect h w) inputs -> (length inputs <= length scales)%nat ->
    epfDistance2 inputs scales (Z.of_nat y) (Z.of_nat x) (Z.of_nat (mir h (Z.of_nat y + fst p))) (Z.of_nat (mir w (Z.of_nat x + snd p))) dist =
    Ok (dist + sad 0 h w (combine inputs scales) (Z.of_nat y) (Z.of_nat x) p).
  Proof.
    intros [N1 N2]. destruct p as [cy cx]. cbn [fst snd] in *. induction inputs as [|m inputs IH]; intros scales dist F L; [cbn; f_equal; lra|].
    destruct scales as [|s scales]; [cbn in L; lia|]. inversion F as [|? ? Rm F']; subst. cbn [epfDistance2].
    assert (Ey : Z.of_nat y = Z.of_nat (mir h (Z.of_nat y))) by now rewrite mir_nat. assert (Ex : Z.of_nat x = Z.of_nat (mir w (Z.of_nat x))) by now rewrite mir_nat.
    rewrite (epfTerm_ok h w m s (Z.of_nat y) (Z.of_nat x) (Z.of_nat y + cy) (Z.of_nat x + cx)) by (assumption || lia). cbn [obind].
    rewrite IH by (assumption || (cbn in L; lia)). f_equal. unfold sad. cbn [combine rsum fold_right fst snd]. fold (sad 0 h w (combine inputs scales) (Z.of_nat y) (Z.of_nat x) (cy, cx)).
    rewrite around0. unfold rsum. cbn [fold_right fst snd]. rewrite !Z.add_0_r. ring.
  Qed.
  Lemma epfAdd_ok (g : list (list R) -> R) a b wt : forall inputs, Forall (rrect h w) inputs ->
    epfAdd inputs (map g inputs) (Z.of_nat (mir h a)) (Z.of_nat (mir w b)) wt = Ok (map (fun m => g m + wt * ext h w m a b) inputs).
  Proof.
    induction inputs as [|m inputs IH]; intros F; [reflexivity|]. inversion F as [|? ? Rm F']; subst. cbn [epfAdd map].
    rewrite (ext_get h w) by (assumption || lia). cbn [obind]. rewrite IH by assumption. cbn [obind]. do 2 f_equal. ring.
  Qed.
  Lemma epfWeight_ok border mul k d : epfWeight border mul k d = Rmax 0 (1 - (if border then mul else 1) * d * k).
  Proof.
    unfold epfWeight. set (v := 1 - _ * k). replace (1 - (if border then mul else 1) * d * k) with v by (subst v; destruct border; ring).
    destruct (Rlt_dec v 0); [rewrite Rmax_left by lra|rewrite Rmax_right by lra]; reflexivity.
  Qed.
  Lemma border_ok v : isBorderAt (Z.of_nat v) = block_edge v.
  Proof.
    unfold isBorderAt, block_edge. change 7%Z with (Z.ones 3). rewrite Z.land_ones by lia. change (2 ^ 3)%Z with 8%Z.
    assert (E : (Z.of_nat v mod 8)%Z = Z.of_nat (v mod 8)) by (rewrite Nat2Z.inj_mod; reflexivity). rewrite E.
    change (Z.ones 3) with 7%Z. set (r := (v mod 8)%nat). clearbody r. lia.
  Qed.
  Lemma epfPoints_ok step inputs scales mul k : Forall (rrect h w) inputs -> (length inputs <= length scales)%nat ->
    let weight := epf_weight step h w (combine inputs scales) mul k y x in
    forall points sw g, Forall near points ->
    epfPoints (Z.of_nat h) (Z.of_nat w) (step =? 2)%Z points inputs scales (isBorderAt (Z.of_nat y) || isBorderAt (Z.of_nat x)) mul k (Z.of_nat y) (Z.of_nat x) sw (map g inputs) =
    Ok (sw + rsum weight points, map (fun m => g m + rsum (fun p => weight p * ext h w m (Z.of_nat y + fst p) (Z.of_nat x + snd p)) points) inputs).
  Proof.
    intros F L weight. rewrite !border_ok. induction points as [|[cy cx] points IH]; intros sw g N.
    - cbn. do 2 f_equal; [lra|]. apply map_ext. intros. lra.
    - inversion N as [|? ? N1 N']; subst. cbn [epfPoints]. assert (Nr := N1). destruct N1 as [NA NB]. cbn [fst snd] in NA, NB.
      rewrite !mc_ok by lia. cbn [obind].
      assert (D : (if (step =? 2)%Z then epfDistance2 inputs scales (Z.of_nat y) (Z.of_nat x) (Z.of_nat (mir h (Z.of_nat y + cy))) (Z.of_nat (mir w (Z.of_nat x + cx))) 0
                   else epfDistance1 (Z.of_nat h) (Z.of_nat w) inputs scales (Z.of_nat y) (Z.of_nat x) cy cx 0) =
                  Ok (sad (if (step =? 2)%Z then 0 else 1) h w (combine inputs scales) (Z.of_nat y) (Z.of_nat x) (cy, cx))).
      { destruct (step =? 2)%Z; [pose proof (distance2_ok _ Nr inputs scales 0 F L) as E|pose proof (distance1_ok _ Nr inputs scales 0 F L) as E]; cbn [fst snd] in E; rewrite E; f_equal; lra. }
      rewrite D. cbn [obind]. rewrite epfWeight_ok. fold (epf_weight step h w (combine inputs scales) mul k y x (cy, cx)). fold (weight (cy, cx)).
      rewrite epfAdd_ok by assumption. cbn [obind].
      rewrite (IH (sw + weight (cy, cx)) (fun m => g m + weight (cy, cx) * ext h w m (Z.of_nat y + cy) (Z.of_nat x + cx))) by assumption.
      unfold rsum. cbn [fold_right fst snd]. do 2 f_equal; [ring|]. apply map_ext. intros m. ring.
  Qed.
  Lemma near_cross : Forall near epfCross. Proof. unfold epfCross, near. repeat constructor; cbn; lia. Qed.
  Lemma near_double : Forall near epfDoubleCross. Proof. unfold epfDoubleCross, near. repeat constructor; cbn; lia. Qed.
  Lemma copy_ok inputs : Forall (rrect h w) inputs ->
    orow (length inputs) (fun c => obind (slice_get inputs (Z.of_nat c)) (fun buffC => rget2 buffC (Z.of_nat y) (Z.of_nat x))) 0%nat = Ok (map (fun m => pixel m y x) inputs).
  Proof.
    intros F. rewrite (orow_ok _ (fun c => pixel (nth c inputs []) y x)).
    - f_equal. rewrite <- (map_map (fun c => nth c inputs []) (fun m => pixel m y x)). f_equal. apply nth_ext with (d := []) (d' := []); [now rewrite map_length, seq_length|].
      intros n Hn. rewrite map_length, seq_length in Hn. rewrite nth_indep with (d' := nth 0 inputs []) by now rewrite map_length, seq_length.
      rewrite (map_nth (fun c => nth c inputs []) (seq 0 (length inputs)) 0%nat). now rewrite seq_nth by lia.
    - intros j Hj. rewrite (slice_get_ok inputs _ []) by lia. cbn [obind]. rewrite Nat2Z.id. apply (rget2_rect h w); try assumption; try reflexivity.
      rewrite Forall_forall in F. apply F, nth_In. lia.
  Qed.
  Lemma epfPixel_ok step inputs scales mul k inv s : Forall (rrect h w) inputs -> (length inputs <= length scales)%nat ->
    obind (slice_get inv (Z.shiftr (Z.of_nat y) 3)) (fun row => slice_get row (Z.shiftr (Z.of_nat x) 3)) = Ok s ->
    epfPixel (Z.of_nat h) (Z.of_nat w) step inputs scales mul k inv (Z.of_nat y) (Z.of_nat x) =
    Ok (map (fun m => match s with
                      | Some s => if Rlt_dec (1 / (3 / 10)) s then pixel m y x else epf_value step h w (combine inputs scales) mul (k * s) m y x
                      | None => pixel m y x end) inputs).
  Proof.
    intros F L E. unfold epfPixel. destruct (slice_get inv (Z.shiftr (Z.of_nat y) 3)) as [row| |]; cbn [obind] in E |- *; try discriminate. rewrite E. cbn [obind].
    rewrite copy_ok by assumption. destruct s as [s|]; [|reflexivity]. destruct (Rlt_dec (1 / (3 / 10)) s); [reflexivity|].
    assert (Er : forall l : list (list (list R)), repeat 0 (length l) = map (fun _ => 0) l) by (induction l; cbn; congruence). rewrite Er.
    rewrite (epfPoints_ok step inputs scales mul (k * s) F L) by (destruct (step =? 0)%Z; [apply near_double|apply near_cross]). cbn [obind]. rewrite map_map. f_equal. apply map_ext. intros m.
    assert (P : Permutation (if (step =? 0)%Z then epfDoubleCross else epfCross) (epf_places step)) by (unfold epf_places; destruct (step =? 0)%Z; [apply double_perm|apply cross_perm]).
    unfold epf_value. rewrite (rsum_perm _ _ _ P), (rsum_perm _ _ _ P). unfold Rdiv. rewrite Rmult_1_l, !Rplus_0_l. reflexivity.
  Qed.
End epf.
Lemma orow_forall2 {A B} (f : nat -> Outcome B) (P : A -> B -> Prop) : forall (l : list A) i,
  (forall j a, nth_error l j = Some a -> exists b, f (i + j)%nat = Ok b /\ P a b) -> exists r, orow (length l) f i = Ok r /\ Forall2 P l r.
Proof.
  induction l as [|a l IH]; intros i H; [exists []; now split|]. cbn [length orow]. destruct (H 0%nat a eq_refl) as (b & E & Hb). rewrite Nat.add_0_r in E. rewrite E. cbn [obind].
  destruct (IH (S i)) as (r & Er & Fr); [|rewrite Er; cbn [obind]; exists (b :: r); split; [reflexivity|now constructor]].
  intros j a' Hj. destruct (H (S j) a' Hj) as (b' & E' & Hb'). exists b'. split; [|exact Hb']. now rewrite Nat.add_succ_comm.
Qed.
Definition inv_of (bh bw : nat) (sigma : nat -> nat -> R) (inv : list (list (option R))) : Prop :=
  forall y x, (y < bh)%nat -> (x < bw)%nat -> obind (slice_get inv (Z.of_nat y)) (fun row => slice_get row (Z.of_nat x)) = Ok (recip (sigma y x)).
Lemma shift3 v : Z.shiftr (Z.of_nat v) 3 = Z.of_nat (v / 8).
Proof. rewrite Z.shiftr_div_pow2 by lia. rewrite Nat2Z.inj_div. reflexivity. Qed.
Lemma inv_step k s (a : R) (b : R -> R) : 0 <= s -> match recip s with Some s => if Rlt_dec (1 / (3 / 10)) s then a else b (k * s) | None => a end = if Rlt_dec s (3 / 10) then a else b (k / s).
Proof.
  intros Hs. unfold recip. destruct (Req_EM_T s 0) as [->|N]; [destruct (Rlt_dec 0 (3 / 10)); [reflexivity|lra]|].
  assert (Hp : 0 < s) by lra. assert (E : 1 / (3 / 10) < 1 / s <-> s < 3 / 10).
  { unfold Rdiv. rewrite !Rmult_1_l. split; intros H; [apply Rinv_lt_contravar in H; [now rewrite !Rinv_inv in H|]|apply Rinv_lt_contravar; [|exact H]].
    - apply Rmult_lt_0_compat; apply Rinv_0_lt_compat; lra.
    - apply Rmult_lt_0_compat; lra. }
  destruct (Rlt_dec (1 / (3 / 10)) (1 / s)), (Rlt_dec s (3 / 10)); try tauto. f_equal. field. lra.
Qed.
Lemma epfPass_ok h w bh bw step scales mul k p0 p2 inv sigma inputs : (Z.of_nat h < 2 ^ 30)%Z -> (Z.of_nat w < 2 ^ 30)%Z -> (h <= 8 * bh)%nat -> (w <= 8 * bw)%nat ->
  inv_of bh bw sigma inv -> (forall y x, (y < bh)%nat -> (x < bw)%nat -> 0 <= sigma y x) -> k = epf_scale p0 p2 step ->
  Forall (rrect h w) inputs -> (length inputs <= length scales)%nat ->
  exists r, epfPass (Z.of_nat h) (Z.of_nat w) step scales mul k inv inputs = Ok r /\ Forall2 (fun m m' => image_of h w (epf_step step p0 p2 mul h w scales sigma inputs m) m') inputs r.
Proof.
  intros Bh Bw Hh Hw Hi Hs -> F L. unfold epfPass. apply orow_forall2. intros j m Hj. rewrite !Nat2Z.id, Nat.add_0_l.
  exists (rmat h w (epf_step step p0 p2 mul h w scales sigma inputs m)). split.
  - apply otab_mat. intros y x Hy Hx.
    assert (By : (y / 8 < bh)%nat) by (apply Nat.div_lt_upper_bound; lia). assert (Bx : (x / 8 < bw)%nat) by (apply Nat.div_lt_upper_bound; lia).
    rewrite (epfPixel_ok h w y x Bh Bw Hy Hx step inputs scales mul _ inv (recip (sigma (y / 8) (x / 8))%nat) F L) by (rewrite !shift3; now apply Hi).
    cbn [obind]. rewrite (slice_get_ok _ _ 0) by (rewrite map_length; apply nth_error_Some_lt in Hj || (assert (j < length inputs)%nat by (apply nth_error_Some; congruence); lia)).
    rewrite Nat2Z.id. f_equal. unfold epf_step. rewrite <- (inv_step (epf_scale p0 p2 step) _ (pixel m y x) (fun k => epf_value step h w (combine inputs scales) mul k m y x)) by now apply Hs.
    apply nth_error_nth. rewrite nth_error_map, Hj. reflexivity.
  - split; [apply rrect_rmat|]. intros y x Hy Hx. now apply pixel_rmat.
Qed.
Lemma forall2_images h w (f : list (list R) -> nat -> nat -> R) inputs r : Forall2 (fun m m' => image_of h w (f m) m') inputs r -> Forall (rrect h w) r /\ length r = length inputs.
Proof. induction 1 as [|m m' l l' [H _] _ [IH1 IH2]]; [split; [constructor|reflexivity]|]. split; [now constructor|cbn; lia]. Qed.
Lemma epfPasses_ok h w bh bw iterations scales mul p0 p2 inv sigma inputs : (Z.of_nat h < 2 ^ 30)%Z -> (Z.of_nat w < 2 ^ 30)%Z -> (h <= 8 * bh)%nat -> (w <= 8 * bw)%nat ->
  inv_of bh bw sigma inv -> (forall y x, (y < bh)%nat -> (x < bw)%nat -> 0 <= sigma y x) ->
  Forall (rrect h w) inputs -> (length inputs <= length scales)%nat ->
  exists r, epfPasses (Z.of_nat h) (Z.of_nat w) iterations scales mul p0 p2 inv inputs = Ok r /\ epf_run (epf_steps iterations) p0 p2 mul h w scales sigma inputs r.
Proof.
  intros Bh Bw Hh Hw Hi Hs F L. unfold epfPasses, epf_steps.
  assert (K : stepMultiplier = 165 / 100 * 4 * (1 - sqrt (1 / 2))) by (unfold stepMultiplier; replace (5 / 10) with (1 / 2) by field; reflexivity).
  assert (T : forall (i : Z) ms, Forall (rrect h w) ms -> length ms = length inputs -> exists b1 r, epfPass (Z.of_nat h) (Z.of_nat w) 1 scales mul stepMultiplier inv ms = Ok b1 /\
    (if (iterations <? 2)%Z then Ok b1 else epfPass (Z.of_nat h) (Z.of_nat w) 2 scales mul (stepMultiplier * p2) inv b1) = Ok r /\
    epf_run ([1%Z] ++ (if (2 <=? iterations)%Z then [2%Z] else [])) p0 p2 mul h w scales sigma ms r).
  { intros _ ms Fm Lm. destruct (epfPass_ok h w bh bw 1 scales mul stepMultiplier p0 p2 inv sigma ms) as (b1 & E1 & F1); try assumption; [unfold epf_scale; cbn [Z.eqb Pos.eqb]; rewrite K; ring|lia|].
    destruct (forall2_images _ _ _ _ _ F1) as [Fb Lb]. destruct (epfPass_ok h w bh bw 2 scales mul (stepMultiplier * p2) p0 p2 inv sigma b1) as (b2 & E2 & F2); try assumption; [unfold epf_scale; cbn [Z.eqb Pos.eqb]; rewrite K; ring|lia|].
    destruct (Z.ltb_spec iterations 2) as [S|S].
    - exists b1, b1. replace (2 <=? iterations)%Z with false by lia. repeat split; [assumption|]. exists b1. now split.
    - exists b1, b2. replace (2 <=? iterations)%Z with true by lia. repeat split; [assumption..|]. exists b1. split; [assumption|]. exists b2. now split. }
  destruct (Z.ltb_spec iterations 3) as [S|S].
  - replace (3 <=? iterations)%Z with false by lia. cbn [obind]. destruct (T iterations inputs F eq_refl) as (b1 & r & E1 & E2 & Rn). rewrite E1. cbn [obind]. exists r. now split.
  - replace (3 <=? iterations)%Z with true by lia. destruct (epfPass_ok h w bh bw 0 scales mul (stepMultiplier * p0) p0 p2 inv sigma inputs) as (b0 & E0 & F0); try assumption; [unfold epf_scale; cbn [Z.eqb Pos.eqb]; rewrite K; ring|].
    destruct (forall2_images _ _ _ _ _ F0) as [Fb Lb]. rewrite E0. cbn [obind]. destruct (T iterations b0 Fb Lb) as (b1 & r & E1 & E2 & Rn). rewrite E1. cbn [obind]. exists r. split; [assumption|]. exists b0. now split.
Qed.
(* values stay between the surrounding ones *)
Lemma epf_weight_pos step h w chans mul k y x p : 0 <= epf_weight step h w chans mul k y x p.
Proof. apply Rmax_l. Qed.
Lemma epf_weight_centre step h w chans mul k y x : epf_weight step h w chans mul k y x (0, 0)%Z = 1.
Proof.
  unfold epf_weight. replace (sad _ h w chans (Z.of_nat y) (Z.of_nat x) (0, 0)%Z) with 0; [rewrite Rmax_right; lra|]. unfold sad. symmetry.
  transitivity (rsum (fun _ : list (list R) * R => 0) chans); [|unfold rsum; induction chans; cbn; lra]. apply rsum_ext. intros c _. cbn [fst snd].
  rewrite (rsum_ext _ (fun _ => 0)); [|intros q _; rewrite !Z.add_0_r; unfold Rminus; rewrite Rplus_opp_r; apply Rabs_R0]. set (l := around _). clearbody l. unfold rsum. induction l; cbn; lra.
Qed.
Lemma rsum_in {A} (f : A -> R) l a : (forall b, 0 <= f b) -> In a l -> f a <= rsum f l.
Proof. intros H. unfold rsum. induction l as [|b l IH]; intros I; [easy|]. cbn. assert (0 <= fold_right (fun a s => f a + s) 0 l) by (apply (rsum_pos f); auto). destruct I as [->|I]; [lra|]. pose proof (H b). specialize (IH I). lra. Qed.
Lemma centre_in step : In (0, 0)%Z (epf_places step).
Proof. unfold epf_places. destruct (step =? 0)%Z; unfold around; apply filter_In; (split; [cbn; tauto|reflexivity]). Qed.
Lemma epf_norm_pos step h w chans mul k y x : 1 <= rsum (epf_weight step h w chans mul k y x) (epf_places step).
Proof. rewrite <- (epf_weight_centre step h w chans mul k y x) at 1. apply rsum_in; [intros; apply epf_weight_pos|apply centre_in]. Qed.
Lemma epf_between step h w chans mul k m y x a b : (forall p, In p (epf_places step) -> a <= ext h w m (Z.of_nat y + fst p) (Z.of_nat x + snd p) <= b) ->
  a <= epf_value step h w chans mul k m y x <= b.
Proof.
  intros H. unfold epf_value. pose proof (epf_norm_pos step h w chans mul k y x) as N. set (W := epf_weight step h w chans mul k y x) in *.
  assert (P : forall p, 0 <= W p) by (intros; apply epf_weight_pos).
  assert (L : rsum W (epf_places step) * a <= rsum (fun p => W p * ext h w m (Z.of_nat y + fst p) (Z.of_nat x + snd p)) (epf_places step)).
  { rewrite <- rsum_scal. apply rsum_le. intros p Hp. apply Rmult_le_compat_l; [apply P|apply H, Hp]. }
  assert (U : rsum (fun p => W p * ext h w m (Z.of_nat y + fst p) (Z.of_nat x + snd p)) (epf_places step) <= rsum W (epf_places step) * b).
  { rewrite <- rsum_scal. apply rsum_le. intros p Hp. apply Rmult_le_compat_l; [apply P|apply H, Hp]. }
  set (S := rsum W (epf_places step)) in *. set (V := rsum _ (epf_places step)) in *. clearbody S V. split; (apply Rmult_le_reg_r with S; [lra|]); unfold Rdiv; rewrite Rmult_assoc, Rinv_l, Rmult_1_r by lra; lra.
Qed.
(* the strengths of the blocks *)
Definition has (m : list (list Z)) (y x : nat) : Prop := (y < length m)%nat /\ (x < length (nth y m []))%nat.
Lemma has_get m y x : has m y x -> exists row, slice_get m (Z.of_nat y) = Ok row /\ slice_get row (Z.of_nat x) = Ok (entry m y x).
Proof.
  intros [Hy Hx]. exists (nth y m []). split; [rewrite (slice_get_ok m _ []) by lia; now rewrite Nat2Z.id|]. rewrite (slice_get_ok _ _ 0%Z) by lia. now rewrite Nat2Z.id.
Qed.
Section sigma.
  Variables (bh bw stride : nat) (groups : list (list (list Z) * list (list Z))) (gs : Z) (lut : list R) (smod : R).
  Hypotheses (Bh : (Z.of_nat bh < 2 ^ 30)%Z) (Bw : (Z.of_nat bw < 2 ^ 30)%Z) (Bs : (Z.of_nat stride < 2 ^ 31)%Z) (Bg : (Z.of_nat (length groups) < 2 ^ 31)%Z).
  Let group y x := nth (y / 256 * stride + x / 256) groups ([], []).
  Hypothesis (Hg : forall y x, (y < bh)%nat -> (x < bw)%nat -> (y / 256 * stride + x / 256 < length groups)%nat /\
    has (fst (group y x)) (y mod 256) (x mod 256) /\ has (snd (group y x)) (y mod 256) (x mod 256)).
  Hypothesis (Hl : length lut = 8%nat).
  Let sharp y x := entry (snd (group y x)) (y mod 256) (x mod 256).
  Let cell y x : Outcome (option R) := if ((sharp y x <? 0) || (7 <? sharp y x))%Z%bool then Err else Ok (recip (epf_strength 256 stride groups gs lut y x)).
  Lemma shift8 v : (Z.of_nat v < 2 ^ 30)%Z -> Z.shiftr (Z.of_nat v) 8 = Z.of_nat (v / 256) /\ i32 (Z.of_nat v - i32 (Z.shiftl (Z.shiftr (Z.of_nat v) 8) 8)) = Z.of_nat (v mod 256).
  Proof.
    intros B. assert (E : Z.shiftr (Z.of_nat v) 8 = Z.of_nat (v / 256)) by (rewrite Z.shiftr_div_pow2 by lia; rewrite Nat2Z.inj_div; reflexivity). split; [exact E|].
    rewrite E, Z.shiftl_mul_pow2 by lia. change (2 ^ 8)%Z with 256%Z. pose proof (Nat.div_mod v 256 ltac:(lia)) as D. pose proof (Nat.mod_upper_bound v 256 ltac:(lia)).
    set (q := (v / 256)%nat) in *. set (r := (v mod 256)%nat) in *. clearbody q r. rewrite (i32_small (Z.of_nat q * 256)) by lia. rewrite i32_small by lia. lia.
  Qed.
  Lemma sigma_cell y x : (y < bh)%nat -> (x < bw)%nat ->
    (let lfY := Z.shiftr (Z.of_nat y) 8 in
      let bY := i32 (Z.of_nat y - i32 (Z.shiftl lfY 8)) in
      let lfR := i32 (lfY * i32 (Z.of_nat stride)) in
      let lfX := Z.shiftr (Z.of_nat x) 8 in
      let bX := i32 (Z.of_nat x - i32 (Z.shiftl lfX 8)) in
      obind (slice_get groups (i32 (lfR + lfX))) (fun lfg =>
      obind (slice_get (fst lfg) bY) (fun hfRow => obind (slice_get hfRow bX) (fun hf =>
      obind (slice_get (snd lfg) bY) (fun shRow => obind (slice_get shRow bX) (fun sharpness =>
      if ((sharpness <? 0) || (7 <? sharpness))%Z%bool then Err
      else obind (slice_get lut sharpness) (fun l => Ok (recip (65536 / IZR gs * l / IZR hf))))))))) = cell y x.
  Proof.
    intros Hy Hx. destruct (Hg y x Hy Hx) as (Hi & H1 & H2). destruct (shift8 y ltac:(lia)) as [E1 E2]. destruct (shift8 x ltac:(lia)) as [E3 E4]. cbv zeta. rewrite E2, E4, E1, E3.
    rewrite (i32_small (Z.of_nat stride)) by lia. assert (K : (y / 256 * stride <= y / 256 * stride + x / 256)%nat) by lia.
    rewrite <- Nat2Z.inj_mul. rewrite (i32_small (Z.of_nat (y / 256 * stride))) by lia. rewrite <- Nat2Z.inj_add, i32_small by lia.
    rewrite (slice_get_ok groups _ ([], [])) by lia. rewrite Nat2Z.id. fold (group y x). cbn [obind].
    destruct (has_get _ _ _ H1) as (r1 & G1 & G2). destruct (has_get _ _ _ H2) as (r2 & G3 & G4). rewrite G1. cbn [obind]. rewrite G2. cbn [obind]. rewrite G3. cbn [obind]. rewrite G4. cbn [obind].
    unfold cell. fold (sharp y x). destruct ((sharp y x <? 0) || (7 <? sharp y x))%Z%bool eqn:E; [reflexivity|].
    rewrite (slice_get_ok lut _ 0) by lia. cbn [obind]. reflexivity.
  Qed.
  Lemma sigma_ok : (forall y x, (y < bh)%nat -> (x < bw)%nat -> (0 <= sharp y x <= 7)%Z) ->
    exists inv, epfSigma bh bw false smod gs lut (Z.of_nat stride) groups = Ok inv /\ inv_of bh bw (epf_strength 256 stride groups gs lut) inv.
  Proof.
    intros Hs. exists (map (fun y => map (fun x => recip (epf_strength 256 stride groups gs lut y x)) (seq 0 bw)) (seq 0 bh)). split.
    - unfold epfSigma. apply (otab_ok _ (fun y x => recip (epf_strength 256 stride groups gs lut y x))). intros y x Hy Hx.
      etransitivity; [apply sigma_cell; assumption|]. unfold cell. specialize (Hs y x Hy Hx). replace ((sharp y x <? 0) || (7 <? sharp y x))%Z%bool with false by lia. reflexivity.
    - intros y x Hy Hx. rewrite (slice_get_ok _ _ []) by (rewrite map_length, seq_length; lia). cbn [obind].
      rewrite Nat2Z.id. rewrite (nth_indep _ [] (map (fun x => recip (epf_strength 256 stride groups gs lut 0 x)) (seq 0 bw))) by (rewrite map_length, seq_length; lia).
      rewrite (map_nth (fun y => map (fun x => recip (epf_strength 256 stride groups gs lut y x)) (seq 0 bw)) _ 0%nat), seq_nth by lia.
      rewrite (slice_get_ok _ _ None) by (rewrite map_length, seq_length; lia). rewrite Nat2Z.id.
      rewrite (nth_indep _ None (recip (epf_strength 256 stride groups gs lut (0 + y) 0))) by (rewrite map_length, seq_length; lia).
      rewrite (map_nth (fun x => recip (epf_strength 256 stride groups gs lut (0 + y) x)) _ 0%nat), seq_nth by lia. reflexivity.
  Qed.
  Lemma orow_err {A} (f : nat -> Outcome A) n : forall i, (forall j, (i <= j < i + n)%nat -> f j <> Panic) -> (exists j, (i <= j < i + n)%nat /\ f j = Err) -> orow n f i = Err.
  Proof.
    induction n as [|n IH]; intros i H (j & Hj & E); [lia|]. cbn [orow]. destruct (f i) eqn:Ei; cbn [obind]; [|reflexivity|destruct (H i); [lia|assumption]].
    rewrite IH; [reflexivity|intros; apply H; lia|]. exists j. split; [|assumption]. assert (j <> i) by congruence. lia.
  Qed.
  Lemma orow_nopanic {A} (f : nat -> Outcome A) n : forall i, (forall j, (i <= j < i + n)%nat -> f j <> Panic) -> orow n f i <> Panic.
  Proof.
    induction n as [|n IH]; intros i H; [easy|]. cbn [orow]. destruct (f i) eqn:Ei; cbn [obind]; [|easy|destruct (H i); [lia|assumption]].
    specialize (IH (S i) ltac:(intros; apply H; lia)). destruct (orow n f (S i)); cbn [obind]; congruence.
  Qed.
  Lemma sigma_err y x : (y < bh)%nat -> (x < bw)%nat -> ~ (0 <= sharp y x <= 7)%Z -> epfSigma bh bw false smod gs lut (Z.of_nat stride) groups = Err.
  Proof.
    intros Hy Hx Hs. unfold epfSigma, otab.
    assert (C : forall y' x', (y' < bh)%nat -> (x' < bw)%nat -> cell y' x' <> Panic) by (intros; unfold cell; destruct (_ || _); discriminate).
    apply orow_err.
    - intros j Hj. apply orow_nopanic. intros i Hi E. apply (C j i); [lia|lia|]. etransitivity; [symmetry; apply sigma_cell; lia|exact E].
    - exists y. split; [lia|]. apply orow_err.
      + intros i Hi E. apply (C y i); [lia|lia|]. etransitivity; [symmetry; apply sigma_cell; lia|exact E].
      + exists x. split; [lia|]. etransitivity; [apply sigma_cell; lia|]. unfold cell. replace ((sharp y x <? 0) || (7 <? sharp y x))%Z%bool with true by lia. reflexivity.
  Qed.
End sigma.
Lemma sigma_modular bh bw s gs lut stride groups : exists inv, epfSigma bh bw true s gs lut stride groups = Ok inv /\ inv_of bh bw (fun _ _ => s) inv.
Proof.
  exists (map (fun y => map (fun x => recip s) (seq 0 bw)) (seq 0 bh)). split; [unfold epfSigma; now apply (otab_ok _ (fun _ _ => recip s))|].
  intros y x Hy Hx. rewrite (slice_get_ok _ _ []) by (rewrite map_length, seq_length; lia). cbn [obind].
  rewrite Nat2Z.id. rewrite (nth_indep _ [] (map (fun x => recip s) (seq 0 bw))) by (rewrite map_length, seq_length; lia).
  rewrite (map_nth (fun y => map (fun x => recip s) (seq 0 bw)) _ 0%nat).
  rewrite (slice_get_ok _ _ None) by (rewrite map_length, seq_length; lia). rewrite Nat2Z.id.
  rewrite (nth_indep _ None (recip s)) by (rewrite map_length, seq_length; lia). now rewrite (map_nth (fun x => recip s) _ 0%nat).
Qed.

(* ---- upsampling ---- *)
Definition up_len (k : nat) : nat := (5 * (k / 2) * (5 * (k / 2) + 1) / 2)%nat.
Definition index_check (k : nat) : bool :=
  forallb (fun ky => forallb (fun kx => forallb (fun iy => forallb (fun ix =>
    let a := up_row k ky iy in let b := up_row k kx ix in
    let e := (row_start (5 * (k / 2)) (Nat.min a b) + (Nat.max a b - Nat.min a b))%nat in
    ((upIndex (Z.of_nat k) (Z.of_nat ky) (Z.of_nat kx) (Z.of_nat iy) (Z.of_nat ix) =? Z.of_nat e)%Z && (e <? up_len k)%nat)%bool)
    (seq 0 5)) (seq 0 5)) (seq 0 k)) (seq 0 k).
Lemma index_checked : index_check 2 = true /\ index_check 4 = true /\ index_check 8 = true.
Proof. repeat split; vm_compute; reflexivity. Qed.
Definition factor (k : nat) : Prop := k = 2%nat \/ k = 4%nat \/ k = 8%nat.
Lemma forallb_seq f n : forallb f (seq 0 n) = true -> forall i, (i < n)%nat -> f i = true.
Proof. intros H i Hi. rewrite forallb_forall in H. apply H, in_seq. lia. Qed.
Lemma index_ok k ky kx iy ix : factor k -> (ky < k)%nat -> (kx < k)%nat -> (iy < 5)%nat -> (ix < 5)%nat ->
  let a := up_row k ky iy in let b := up_row k kx ix in
  let e := (row_start (5 * (k / 2)) (Nat.min a b) + (Nat.max a b - Nat.min a b))%nat in
  upIndex (Z.of_nat k) (Z.of_nat ky) (Z.of_nat kx) (Z.of_nat iy) (Z.of_nat ix) = Z.of_nat e /\ (e < up_len k)%nat.
Proof.
  intros F H1 H2 H3 H4. assert (C : index_check k = true) by (destruct index_checked as (A & B & C); destruct F as [->|[->| ->]]; assumption).
  unfold index_check in C. pose proof (forallb_seq _ _ C ky H1) as C1. cbv beta in C1. pose proof (forallb_seq _ _ C1 kx H2) as C2. cbv beta in C2.
  pose proof (forallb_seq _ _ C2 iy H3) as C3. cbv beta in C3. pose proof (forallb_seq _ _ C3 ix H4) as C4. cbv beta zeta in C4 |- *. lia.
Qed.
Lemma kernel_ok k l ky kx : factor k -> length l = up_len k -> (ky < k)%nat -> (kx < k)%nat ->
  upKernel (Z.of_nat k) l (Z.of_nat ky) (Z.of_nat kx) = Ok (rmat 5 5 (up_weight k l ky kx)).
Proof.
  intros F L H1 H2. apply otab_mat. intros iy ix H3 H4. destruct (index_ok k ky kx iy ix F H1 H2 H3 H4) as [E B]. cbv zeta in E, B. rewrite E.
  rewrite (slice_get_ok l _ 0) by lia. now rewrite Nat2Z.id.
Qed.
Lemma fold_ends (l : list (R * R)) : forall t mn mx, fold_left (fun (a : R * R * R) (s : R * R) =>
    let '(total, mn, mx) := a in
    (total + snd s * fst s, (if Rlt_dec (fst s) mn then fst s else mn), (if Rlt_dec mx (fst s) then fst s else mx))) l (t, mn, mx) =
  (t + rsum (fun s => snd s * fst s) l, fold_right Rmin mn (map fst l), fold_right Rmax mx (map fst l)).
Proof.
  assert (A : forall (f : R -> R -> R), (forall a b c, f a (f b c) = f b (f a c)) -> forall l a b, fold_right f (f a b) l = f a (fold_right f b l)).
  { intros f Hf. induction l0 as [|c l0 IH]; intros; [reflexivity|]. cbn. rewrite IH. apply Hf. }
  induction l as [|[s w] l IH]; intros t mn mx; [cbn; do 2 f_equal; lra|]. cbn [fold_left map fold_right fst snd]. rewrite IH. unfold rsum. cbn [fold_right fst snd].
  replace (if Rlt_dec s mn then s else mn) with (Rmin s mn) by (unfold Rmin; destruct (Rlt_dec s mn), (Rle_dec s mn); lra).
  replace (if Rlt_dec mx s then s else mx) with (Rmax s mx) by (unfold Rmax; destruct (Rlt_dec mx s), (Rle_dec s mx); lra).
  rewrite !A; [f_equal; f_equal; lra| |]; intros a b c; unfold Rmin, Rmax; repeat destruct Rle_dec; lra.
Qed.
Lemma fold_min_lowest a l m : fold_right Rmin m (a :: l) = Rmin m (lowest (a :: l)).
Proof.
  cbn [lowest]. revert a. induction l as [|b l IH]; intros a; cbn; [apply Rmin_comm|]. cbn in IH.
  specialize (IH a). set (X := fold_right _ m l) in *. set (Y := fold_right _ a l) in *. clearbody X Y.
  transitivity (Rmin b (Rmin a X)); [unfold Rmin; repeat destruct Rle_dec; lra|]. rewrite IH. unfold Rmin. repeat destruct Rle_dec; lra.
Qed.
Lemma fold_max_highest a l m : fold_right Rmax m (a :: l) = Rmax m (highest (a :: l)).
Proof.
  cbn [highest]. revert a. induction l as [|b l IH]; intros a; cbn; [apply Rmax_comm|]. cbn in IH.
  specialize (IH a). set (X := fold_right _ m l) in *. set (Y := fold_right _ a l) in *. clearbody X Y.
  transitivity (Rmax b (Rmax a X)); [unfold Rmax; repeat destruct Rle_dec; lra|]. rewrite IH. unfold Rmax. repeat destruct Rle_dec; lra.
Qed.
Lemma lowest_in a l : In (lowest (a :: l)) (a :: l) /\ forall b, In b (a :: l) -> lowest (a :: l) <= b.
Proof.
  cbn [lowest]. induction l as [|c l [IH1 IH2]]; [split; [now left|]; intros b [<-|[]]; cbn; lra|]. cbn [fold_right]. split.
  - unfold Rmin. destruct Rle_dec; [right; now left|]. destruct IH1 as [E|I]; [now left|right; now right].
  - intros b Hb. pose proof (Rmin_l c (fold_right Rmin a l)). pose proof (Rmin_r c (fold_right Rmin a l)). destruct Hb as [->|[->|I]]; [|lra|].
    + specialize (IH2 b (or_introl eq_refl)). lra.
    + specialize (IH2 b (or_intror I)). lra.
Qed.
Lemma highest_in a l : In (highest (a :: l)) (a :: l) /\ forall b, In b (a :: l) -> b <= highest (a :: l).
Proof.
  cbn [highest]. induction l as [|c l [IH1 IH2]]; [split; [now left|]; intros b [<-|[]]; cbn; lra|]. cbn [fold_right]. split.
  - unfold Rmax. destruct Rle_dec; [|right; now left]. destruct IH1 as [E|I]; [now left|right; now right].
  - intros b Hb. pose proof (Rmax_l c (fold_right Rmax a l)). pose proof (Rmax_r c (fold_right Rmax a l)). destruct Hb as [->|[->|I]]; [|lra|].
    + specialize (IH2 b (or_introl eq_refl)). lra.
    + specialize (IH2 b (or_intror I)). lra.
Qed.
Lemma window_concat {A} (f : nat -> nat -> A) : concat (map (fun y => map (f y) (seq 0 5)) (seq 0 5)) = map (fun p => f (fst p) (snd p)) window.
Proof. reflexivity. Qed.
Lemma samples_cons h w m y x : exists a l, up_samples h w m y x = a :: l.
Proof. unfold up_samples, window. cbn [flat_map map seq Datatypes.app]. eauto. Qed.
Lemma limits h w m y x : lowest (up_samples h w m y x) <= highest (up_samples h w m y x).
Proof. destruct (samples_cons h w m y x) as (a & l & ->). destruct (lowest_in a l) as [I _]. destruct (highest_in a l) as [_ H]. now apply H. Qed.
(* what the code computes *)
Definition up_limited (h w : nat) (m : list (list R)) (weight : nat -> nat -> R) (y x : nat) : R :=
  Rmax (lowest (up_samples h w m y x)) (Rmin (Rmax SmallestNonzeroFloat32 (highest (up_samples h w m y x))) (up_sum h w m weight y x)).
Lemma upPixel_ok h w m weight y x : rrect h w m -> (Z.of_nat h < 2 ^ 30)%Z -> (Z.of_nat w < 2 ^ 30)%Z -> (y < h)%nat -> (x < w)%nat ->
  (forall v, In v (up_samples h w m y x) -> v <= MaxFloat32) ->
  upPixel m (rmat 5 5 weight) (Z.of_nat y) (Z.of_nat x) = Ok (up_limited h w m weight y x).
Proof.
  intros Rm Bh Bw Hy Hx Hmax. unfold upPixel. assert (Lh : length m = h) by apply Rm.
  rewrite (otab_ok _ (fun iy ix => (ext h w m (Z.of_nat y + Z.of_nat iy - 2) (Z.of_nat x + Z.of_nat ix - 2), weight iy ix))).
  - cbn [obind]. rewrite window_concat, fold_ends. rewrite map_map. cbn [fst]. fold (up_samples h w m y x).
    destruct (samples_cons h w m y x) as (a & l & E). rewrite E in *. rewrite fold_min_lowest, fold_max_highest. f_equal.
    destruct (lowest_in a l) as [I J]. destruct (highest_in a l) as [_ K]. pose proof (K _ I) as LH.
    rewrite (Rmin_right MaxFloat32) by (apply Hmax, I). unfold up_limited. rewrite E.
    replace (rsum (fun s => snd s * fst s) _) with (up_sum h w m weight y x) by (unfold up_sum, rsum, window; cbn [flat_map map fold_right seq Datatypes.app fst snd]; reflexivity).
    rewrite Rplus_0_l. set (T := up_sum h w m weight y x). set (lo := lowest (a :: l)) in *. set (hi := highest (a :: l)) in *. clearbody T lo hi.
    assert (lo <= Rmax SmallestNonzeroFloat32 hi) by (pose proof (Rmax_r SmallestNonzeroFloat32 hi); lra). set (M := Rmax SmallestNonzeroFloat32 hi) in *. clearbody M.
    unfold Rmin, Rmax. destruct (Rlt_dec T lo), (Rlt_dec M T); repeat destruct Rle_dec; lra.
  - intros iy ix Hiy Hix. rewrite Lh. rewrite !(i32_small (Z.of_nat y)), !(i32_small (Z.of_nat x)) by lia. rewrite (i32_small (Z.of_nat y + Z.of_nat iy)), (i32_small (Z.of_nat x + Z.of_nat ix)), (i32_small (Z.of_nat h)) by lia.
    rewrite !(i32_small (_ - 2)) by lia.
    rewrite mirror_mir by lia. cbn [obind]. pose proof (mir_bound h (Z.of_nat y + Z.of_nat iy - 2) ltac:(lia)) as B1. pose proof (mir_bound w (Z.of_nat x + Z.of_nat ix - 2) ltac:(lia)) as B2.
    rewrite (get_row h w m _ _ Rm B1 eq_refl). cbn [obind]. rewrite (rrect_row h w m _ Rm B1). rewrite (i32_small (Z.of_nat w)) by lia. rewrite mirror_mir by lia. cbn [obind].
    rewrite (get_pixel h w m _ _ _ Rm B1 B2 eq_refl). cbn [obind]. rewrite (rget2_rect 5 5 _ iy ix _ _ (rrect_rmat _ _ _) Hiy Hix eq_refl eq_refl). cbn [obind]. now rewrite pixel_rmat.
Qed.
Lemma concat_grid {A} (g : nat -> nat -> A) k h : (1 <= k)%nat -> concat (map (fun y => map (g y) (seq 0 k)) (seq 0 h)) = map (fun Y => g (Y / k)%nat (Y mod k)%nat) (seq 0 (k * h)).
Proof.
  intros Hk. induction h as [|h IH]; [now rewrite Nat.mul_0_r|]. rewrite seq_S, map_app, concat_app, IH. replace (k * S h)%nat with (k * h + k)%nat by lia.
  rewrite seq_app, map_app. f_equal. cbn [map concat]. rewrite app_nil_r, Nat.add_0_l. rewrite <- (Nat.add_0_r (k * h)) at 1.
  assert (Es : forall n, seq (k * h + 0) n = map (fun i => k * h + i)%nat (seq 0 n)).
  { intros n. generalize 0%nat. induction n as [|n IHn]; intros i; [reflexivity|]. cbn. f_equal. rewrite <- IHn. f_equal. lia. }
  rewrite Es, map_map. apply map_ext_in. intros i Hi. apply in_seq in Hi. f_equal; [rewrite Nat.mul_comm, Nat.div_add_l by lia; rewrite Nat.div_small; lia|rewrite Nat.add_comm, Nat.mul_comm, Nat.mod_add by lia; rewrite Nat.mod_small; lia].
Qed.
Lemma upsample_ok k l h w m : factor k -> length l = up_len k -> rrect h w m -> (Z.of_nat h < 2 ^ 30)%Z -> (Z.of_nat w < 2 ^ 30)%Z ->
  (forall y x, (y < h)%nat -> (x < w)%nat -> pixel m y x <= MaxFloat32) ->
  upsample k (upKernel (Z.of_nat k) l) m = Ok (rmat (k * h) (k * w) (fun Y X => up_limited h w m (up_weight k l (Y mod k) (X mod k)) (Y / k) (X / k))).
Proof.
  intros F L Rm Bh Bw Hm. assert (Hk : (1 <= k)%nat) by (destruct F as [->|[->| ->]]; lia). unfold upsample. assert (Lh : length m = h) by apply Rm. rewrite Lh.
  rewrite (orow_ok _ (fun y => map (fun ky => map (fun X => up_limited h w m (up_weight k l ky (X mod k)) y (X / k)) (seq 0 (k * w))) (seq 0 k))).
  - cbn [obind]. f_equal. rewrite (concat_grid (fun y ky => map (fun X => up_limited h w m (up_weight k l ky (X mod k)) y (X / k)) (seq 0 (k * w))) k h Hk). reflexivity.
  - intros y Hy. apply orow_ok. intros ky Hky. rewrite (get_row h w m y _ Rm ltac:(lia) eq_refl). cbn [obind]. rewrite (rrect_row h w m y Rm) by lia.
    rewrite (orow_ok _ (fun x => map (fun kx => up_limited h w m (up_weight k l ky kx) y x) (seq 0 k))).
    + cbn [obind]. f_equal. rewrite (concat_grid (fun x kx => up_limited h w m (up_weight k l ky kx) y x) k w Hk). reflexivity.
    + intros x Hx. apply orow_ok. intros kx Hkx. rewrite kernel_ok by (assumption || lia). cbn [obind]. apply upPixel_ok; try assumption; try lia.
      intros v Hv. unfold up_samples in Hv. apply in_map_iff in Hv. destruct Hv as (p & <- & _). apply Hm; apply mir_bound; lia.
Qed.
Lemma perform_ok k l up2 up4 up8 h w m : factor k -> l = (if (k =? 2)%nat then up2 else if (k =? 4)%nat then up4 else up8) -> length l = up_len k -> rrect h w m ->
  (Z.of_nat h < 2 ^ 30)%Z -> (Z.of_nat w < 2 ^ 30)%Z -> (forall y x, (y < h)%nat -> (x < w)%nat -> pixel m y x <= MaxFloat32) ->
  performUpsampling (Z.of_nat k) up2 up4 up8 m = Ok (rmat (k * h) (k * w) (fun Y X => up_limited h w m (up_weight k l (Y mod k) (X mod k)) (Y / k) (X / k))).
Proof.
  intros F E L Rm Bh Bw Hm. rewrite <- upsample_ok by assumption.
  destruct F as [->|[->| ->]]; cbn [Nat.eqb] in E; subst l; reflexivity.
Qed.
(* the sums of the default kernels *)
Definition zsym (n : nat) (l : list Z) (y x : nat) : Z := nth (row_start n (Nat.min y x) + (Nat.max y x - Nat.min y x)) l 0%Z.
Definition sum_check (k : nat) (l : list Z) : bool :=
  forallb (fun ky => forallb (fun kx =>
    (Z.abs (fold_right (fun p s => zsym (5 * (k / 2)) l (up_row k ky (fst p)) (up_row k kx (snd p)) + s) 0 window - 100000000) <=? 3)%Z)
    (seq 0 k)) (seq 0 k).
Lemma sums_checked : sum_check 2 DEFAULT_UP2 = true /\ sum_check 4 DEFAULT_UP4 = true /\ sum_check 8 DEFAULT_UP8 = true.
Proof. repeat split; vm_compute; reflexivity. Qed.
Lemma sym_decimals n l y x : sym_entry n (decimals l) y x = IZR (zsym n l y x) / 100000000.
Proof.
  unfold sym_entry, zsym, decimals. set (i := (_ + _)%nat). clearbody i. revert i. induction l as [|a l IH]; intros [|i]; cbn [map nth]; try reflexivity; [lra|lra|apply IH].
Qed.
Lemma sum_decimals k l ky kx : sum_check k l = true -> (ky < k)%nat -> (kx < k)%nat ->
  Rabs (rsum (fun p => up_weight k (decimals l) ky kx (fst p) (snd p)) window - 1) <= 3 / 100000000.
Proof.
  intros C H1 H2. pose proof (forallb_seq _ _ C ky H1) as C1. cbv beta in C1. pose proof (forallb_seq _ _ C1 kx H2) as C2. cbv beta in C2.
  assert (E : forall ps, rsum (fun p => up_weight k (decimals l) ky kx (fst p) (snd p)) ps = IZR (fold_right (fun p s => zsym (5 * (k / 2)) l (up_row k ky (fst p)) (up_row k kx (snd p)) + s) 0 ps)%Z / 100000000).
  { induction ps as [|p ps IH]; [cbn; lra|]. unfold rsum in *. cbn [fold_right]. rewrite IH, plus_IZR. unfold up_weight at 1. rewrite sym_decimals. lra. }
  rewrite E. set (S := fold_right _ 0%Z window) in *. clearbody S. assert (B : (99999997 <= S <= 100000003)%Z) by lia. destruct B as [B1 B2]. apply IZR_le in B1, B2.
  apply Rabs_le. split; lra.
Qed.

(* ---- chroma upsampling ---- *)
Lemma even_half X : (X / 2 * 2 = X - (if Nat.even X then 0 else 1))%nat /\ (X mod 2 = if Nat.even X then 0 else 1)%nat.
Proof.
  pose proof (Nat.div_mod X 2 ltac:(lia)) as D. pose proof (Nat.mod_upper_bound X 2 ltac:(lia)) as B. assert (E : (X mod 2 = if Nat.even X then 0 else 1)%nat); [|destruct (Nat.even X); lia].
  set (q := (X / 2)%nat) in *. set (r := (X mod 2)%nat) in *. clearbody q r. subst X. rewrite Nat.even_add, Nat.even_mul. cbn [Nat.even orb]. destruct r as [|[|]]; cbn; lia.
Qed.
Lemma two_concat {A} (f g : nat -> A) n : concat (map (fun x => [f x; g x]) (seq 0 n)) = map (fun X => if Nat.even X then f (X / 2)%nat else g (X / 2)%nat) (seq 0 (2 * n)).
Proof.
  pose proof (concat_grid (fun x i => if (i =? 0)%nat then f x else g x) 2 n ltac:(lia)) as E. cbn [seq map Nat.eqb] in E. etransitivity; [exact E|]. apply map_ext. intros X.
  destruct (even_half X) as [_ M]. rewrite M. destruct (Nat.even X); reflexivity.
Qed.
Lemma doubleWidth_ok h w m : rrect h w m -> doubleWidth m = Ok (rmat h (2 * w) (wider h w m)).
Proof.
  intros Rm. unfold doubleWidth. assert (Lh : length m = h) by apply Rm. rewrite Lh. apply (orow_ok _ (fun y => map (wider h w m y) (seq 0 (2 * w)))). intros y Hy.
  rewrite (get_row h w m y _ Rm ltac:(lia) eq_refl). cbn [obind]. unfold doubleRow. rewrite (rrect_row h w m y Rm) by lia.
  rewrite (orow_ok _ (fun x => [3 / 4 * pixel m y x + 1 / 4 * ext h w m (Z.of_nat y) (Z.of_nat x - 1); 3 / 4 * pixel m y x + 1 / 4 * ext h w m (Z.of_nat y) (Z.of_nat x + 1)])).
  - cbn [obind]. f_equal. rewrite two_concat. apply map_ext. intros X. unfold wider, next_one. destruct (Nat.even X); reflexivity.
  - intros x Hx. rewrite (get_pixel h w m y x _ Rm) by lia. cbn [obind].
    rewrite (get_pixel h w m y (mir w (Z.of_nat x - 1)) _ Rm); [|lia|apply mir_bound; lia|rewrite mir_prev by lia; destruct (Nat.eqb_spec x 0), (Z.eqb_spec (Z.of_nat x) 0); lia]. cbn [obind].
    rewrite (get_pixel h w m y (mir w (Z.of_nat x + 1)) _ Rm); [|lia|apply mir_bound; lia|rewrite mir_next by lia; destruct (Nat.eqb_spec (x + 1) w), (Z.eqb_spec (Z.of_nat x + 1) (Z.of_nat w)); lia]. cbn [obind].
    unfold ext. rewrite (mir_nat h y) by lia. do 2 f_equal; [lra|]. f_equal. lra.
Qed.
Lemma doubleHeight_ok h w m : rrect h w m -> doubleHeight m = Ok (rmat (2 * h) w (taller h w m)).
Proof.
  intros Rm. unfold doubleHeight. assert (Lh : length m = h) by apply Rm. rewrite Lh.
  rewrite (orow_ok _ (fun y => [map (fun x => 3 / 4 * pixel m y x + 1 / 4 * ext h w m (Z.of_nat y - 1) (Z.of_nat x)) (seq 0 w); map (fun x => 3 / 4 * pixel m y x + 1 / 4 * ext h w m (Z.of_nat y + 1) (Z.of_nat x)) (seq 0 w)])).
  - cbn [obind]. f_equal. rewrite two_concat. unfold rmat. apply map_ext. intros Y. unfold taller, next_one. destruct (Nat.even Y); reflexivity.
  - intros y Hy. rewrite (get_row h w m y _ Rm) by lia. cbn [obind].
    assert (B1 : (mir h (Z.of_nat y - 1) < h)%nat) by (apply mir_bound; lia). assert (B2 : (mir h (Z.of_nat y + 1) < h)%nat) by (apply mir_bound; lia).
    rewrite (get_row h w m (mir h (Z.of_nat y - 1)) _ Rm); [|assumption|rewrite mir_prev by lia; destruct (Nat.eqb_spec y 0), (Z.eqb_spec (Z.of_nat y) 0); lia]. cbn [obind].
    rewrite (get_row h w m (mir h (Z.of_nat y + 1)) _ Rm); [|assumption|rewrite mir_next by lia; destruct (Nat.eqb_spec (y + 1) h), (Z.eqb_spec (Z.of_nat y + 1) (Z.of_nat h)); lia]. cbn [obind].
    rewrite (rrect_row h w m y Rm) by lia.
    rewrite (orow_ok _ (fun x => 3 / 4 * pixel m y x + 1 / 4 * ext h w m (Z.of_nat y - 1) (Z.of_nat x))).
    2:{ intros x Hx. rewrite (get_pixel h w m y x _ Rm) by lia. cbn [obind]. rewrite (get_pixel h w m _ x _ Rm B1) by lia. cbn [obind]. unfold ext. rewrite (mir_nat w x) by lia. f_equal. lra. }
    cbn [obind]. rewrite (orow_ok _ (fun x => 3 / 4 * pixel m y x + 1 / 4 * ext h w m (Z.of_nat y + 1) (Z.of_nat x))).
    2:{ intros x Hx. rewrite (get_pixel h w m y x _ Rm) by lia. cbn [obind]. rewrite (get_pixel h w m _ x _ Rm B2) by lia. cbn [obind]. unfold ext. rewrite (mir_nat w x) by lia. f_equal. lra. }
    reflexivity.
Qed.
Lemma rmat_image h w f : image_of h w f (rmat h w f).
Proof. split; [apply rrect_rmat|intros; now apply pixel_rmat]. Qed.
Lemma wider_times n : forall h w m, rrect h w m -> exists r, times n doubleWidth m = Ok r /\ wider_run n h w m r /\ rrect h (2 ^ n * w) r.
Proof.
  induction n as [|n IH]; intros h w m Rm; [exists m; split; [reflexivity|split; [reflexivity|]]; cbn [Nat.pow]; now rewrite Nat.mul_1_l|].
  cbn [times]. rewrite (doubleWidth_ok h w m Rm). cbn [obind]. destruct (IH h (2 * w)%nat _ (rrect_rmat h (2 * w) (wider h w m))) as (r & E & W & Rr). exists r. split; [exact E|]. split.
  - exists (rmat h (2 * w) (wider h w m)). split; [apply rmat_image|exact W].
  - replace (2 ^ S n * w)%nat with (2 ^ n * (2 * w))%nat by (cbn [Nat.pow]; lia). exact Rr.
Qed.
Lemma taller_times n : forall h w m, rrect h w m -> exists r, times n doubleHeight m = Ok r /\ taller_run n h w m r /\ rrect (2 ^ n * h) w r.
Proof.
  induction n as [|n IH]; intros h w m Rm; [exists m; split; [reflexivity|split; [reflexivity|]]; cbn [Nat.pow]; now rewrite Nat.mul_1_l|].
  cbn [times]. rewrite (doubleHeight_ok h w m Rm). cbn [obind]. destruct (IH (2 * h)%nat w _ (rrect_rmat (2 * h) w (taller h w m))) as (r & E & W & Rr). exists r. split; [exact E|]. split.
  - exists (rmat (2 * h) w (taller h w m)). split; [apply rmat_image|exact W].
  - replace (2 ^ S n * h)%nat with (2 ^ n * (2 * h))%nat by (cbn [Nat.pow]; lia). exact Rr.
Qed.
Lemma sum_pairs n f : sum (2 * n) f = sum n (fun i => f (2 * i)%nat + f (2 * i + 1)%nat).
Proof. induction n as [|n IH]; [reflexivity|]. replace (2 * S n)%nat with (S (S (2 * n))) by lia. cbn [sum]. rewrite IH. replace (2 * n + 1)%nat with (S (2 * n)) by lia. ring. Qed.
Lemma next_even i : next_one (2 * i) = (Z.of_nat i - 1)%Z /\ (2 * i / 2 = i)%nat.
Proof. unfold next_one. rewrite Nat.even_mul. cbn [Nat.even orb]. rewrite Nat.mul_comm, Nat.div_mul by lia. split; reflexivity. Qed.
Lemma next_odd i : next_one (2 * i + 1) = (Z.of_nat i + 1)%Z /\ ((2 * i + 1) / 2 = i)%nat.
Proof. unfold next_one. rewrite Nat.even_add, Nat.even_mul. cbn [Nat.even orb eqb]. rewrite Nat.mul_comm, Nat.div_add_l by lia. cbn [Nat.div Nat.divmod fst Bool.eqb]. rewrite Nat.add_0_r. split; reflexivity. Qed.
Lemma wider_total h w m m' : image_of h (2 * w) (wider h w m) m' -> (1 <= w)%nat -> total h (2 * w) m' = 2 * total h w m.
Proof.
  intros [_ E] Hw. unfold total. rewrite <- sum_scal. apply sum_ext. intros y Hy. rewrite (sum_ext (2 * w) _ (wider h w m y)) by (intros x Hx; now apply E).
  rewrite sum_pairs. rewrite (sum_ext w _ (fun i => 3 / 2 * pixel m y i + 1 / 4 * (pixel m y (mir w (Z.of_nat i - 1)) + pixel m y (mir w (Z.of_nat i + 1))))).
  - rewrite sum_plus, !sum_scal, (sum_neighbours w (fun i => pixel m y i) Hw). change (sum w (fun i : nat => pixel m y i)) with (sum w (pixel m y)). lra.
  - intros i Hi. unfold wider. destruct (next_even i) as [-> ->]. destruct (next_odd i) as [-> ->]. unfold ext. rewrite mir_nat by assumption. lra.
Qed.
Lemma taller_total h w m m' : image_of (2 * h) w (taller h w m) m' -> (1 <= h)%nat -> total (2 * h) w m' = 2 * total h w m.
Proof.
  intros [_ E] Hh. unfold total. rewrite <- sum_scal.
  rewrite (sum_ext (2 * h) _ (fun y => sum w (fun x => taller h w m y x))) by (intros y Hy; apply sum_ext; intros x Hx; now apply E).
  rewrite sum_pairs. set (row := fun y => sum w (fun x => pixel m y x)).
  rewrite (sum_ext h _ (fun i => 3 / 2 * row i + 1 / 4 * (row (mir h (Z.of_nat i - 1)) + row (mir h (Z.of_nat i + 1))))).
  - rewrite sum_plus, !sum_scal, (sum_neighbours h row Hh). fold row. change (sum h (fun i => row i)) with (sum h row). lra.
  - intros i Hi. unfold row. rewrite <- (sum_plus w (fun x => pixel m (mir h (Z.of_nat i - 1)) x)), <- !sum_scal, <- !sum_plus. apply sum_ext. intros x Hx.
    unfold taller. destruct (next_even i) as [-> ->]. destruct (next_odd i) as [-> ->]. unfold ext. rewrite mir_nat by assumption. lra.
Qed.
Lemma wider_runs n : forall h w m r, wider_run n h w m r -> (1 <= w)%nat -> total h (2 ^ n * w) r = 2 ^ n * total h w m.
Proof.
  induction n as [|n IH]; intros h w m r W Hw; [cbn in W; subst; cbn [Nat.pow pow]; rewrite Nat.mul_1_l; lra|]. destruct W as (mid & I & W). replace (2 ^ S n * w)%nat with (2 ^ n * (2 * w))%nat by (cbn [Nat.pow]; lia).
  rewrite (IH _ _ _ _ W) by lia. rewrite (wider_total _ _ _ _ I Hw). cbn [pow]. lra.
Qed.
Lemma taller_runs n : forall h w m r, taller_run n h w m r -> (1 <= h)%nat -> total (2 ^ n * h) w r = 2 ^ n * total h w m.
Proof.
  induction n as [|n IH]; intros h w m r W Hw; [cbn in W; subst; cbn [Nat.pow pow]; rewrite Nat.mul_1_l; lra|]. destruct W as (mid & I & W). replace (2 ^ S n * h)%nat with (2 ^ n * (2 * h))%nat by (cbn [Nat.pow]; lia).
  rewrite (IH _ _ _ _ W) by lia. rewrite (taller_total _ _ _ _ I Hw). cbn [pow]. lra.
Qed.

(* ---- ranges ---- *)
Lemma ext_within h w a b m y x : (1 <= h)%nat -> (1 <= w)%nat -> within h w a b m -> a <= ext h w m y x <= b.
Proof. intros Hh Hw H. apply H; now apply mir_bound. Qed.
Lemma step_within step p0 p2 mul h w scales sigma ms m m' a b : image_of h w (epf_step step p0 p2 mul h w scales sigma ms m) m' -> within h w a b m -> within h w a b m'.
Proof.
  intros [_ E] H y x Hy Hx. rewrite E by assumption. unfold epf_step. destruct Rlt_dec; [now apply H|]. apply epf_between. intros p _. apply ext_within; [lia..|exact H].
Qed.
Lemma run_within steps p0 p2 mul h w scales sigma : forall ms ms', epf_run steps p0 p2 mul h w scales sigma ms ms' ->
  Forall2 (fun m m' => forall a b, within h w a b m -> within h w a b m') ms ms'.
Proof.
  induction steps as [|s steps IH]; intros ms ms' H; [cbn in H; subst; clear; induction ms; constructor; auto|]. destruct H as (mid & F & H). specialize (IH _ _ H).
  assert (F' : Forall2 (fun m m' => forall a b, within h w a b m -> within h w a b m') ms mid).
  { clear - F. set (P := fun m => image_of h w (epf_step s p0 p2 mul h w scales sigma ms m)) in *. assert (HP : forall m m' a b, P m m' -> within h w a b m -> within h w a b m') by (intros m m' a b; apply step_within).
    clearbody P. induction F; constructor; eauto. }
  clear - F' IH. revert ms' IH. induction F' as [|m m1 l l1 H1 _ IHF]; intros ms' F2; inversion F2; subst; constructor; auto.
Qed.
Lemma wider_within h w m m' a b : image_of h (2 * w) (wider h w m) m' -> within h w a b m -> within h (2 * w) a b m'.
Proof.
  intros [_ E] H y x Hy Hx. rewrite E by assumption. unfold wider. assert (Hq : (x / 2 < w)%nat) by (apply Nat.div_lt_upper_bound; lia). pose proof (H y (x / 2)%nat Hy Hq).
  pose proof (ext_within h w a b m (Z.of_nat y) (next_one x) ltac:(lia) ltac:(lia) H). lra.
Qed.
Lemma taller_within h w m m' a b : image_of (2 * h) w (taller h w m) m' -> within h w a b m -> within (2 * h) w a b m'.
Proof.
  intros [_ E] H y x Hy Hx. rewrite E by assumption. unfold taller. assert (Hq : (y / 2 < h)%nat) by (apply Nat.div_lt_upper_bound; lia). pose proof (H (y / 2)%nat x Hq Hx).
  pose proof (ext_within h w a b m (next_one y) (Z.of_nat x) ltac:(lia) ltac:(lia) H). lra.
Qed.
Lemma wider_run_within n a b : forall h w m r, wider_run n h w m r -> within h w a b m -> within h (2 ^ n * w) a b r.
Proof.
  induction n as [|n IH]; intros h w m r W H; [cbn in W; subst; cbn [Nat.pow]; now rewrite Nat.mul_1_l|]. destruct W as (mid & I & W). replace (2 ^ S n * w)%nat with (2 ^ n * (2 * w))%nat by (cbn [Nat.pow]; lia).
  apply (IH _ _ _ _ W). now apply (wider_within _ _ _ _ _ _ I).
Qed.
Lemma taller_run_within n a b : forall h w m r, taller_run n h w m r -> within h w a b m -> within (2 ^ n * h) w a b r.
Proof.
  induction n as [|n IH]; intros h w m r W H; [cbn in W; subst; cbn [Nat.pow]; now rewrite Nat.mul_1_l|]. destruct W as (mid & I & W). replace (2 ^ S n * h)%nat with (2 ^ n * (2 * h))%nat by (cbn [Nat.pow]; lia).
  apply (IH _ _ _ _ W). now apply (taller_within _ _ _ _ _ _ I).
Qed.
