(* Neighbours, predictors and the self-correcting predictor. *)
From Coq Require Import ZArith List Bool Lia Arith ZifyBool ZifyNat.
From Verif Require Import GoBase GoLoop GoMatrix ModelUtil SpecUtil ModelModular SpecModular ProofUtil ProofCodes ProofSqueeze ProofModular.
Import ListNotations.
Open Scope Z_scope.

Section nb.
  Context (h w : nat) (buf : list (list Z)) (y x : nat).
  Hypothesis R : rect h w buf. Hypothesis Hy : (y < h)%nat. Hypothesis Hx : (x < w)%nat. Hypothesis Hw : Z.of_nat w < 2 ^ 31 - 1.
  Notation I := (px buf).
  Notation yz := (Z.of_nat y). Notation xz := (Z.of_nat x). Notation wz := (Z.of_nat w).
  Ltac go := repeat match goal with
    | |- context [if ?a <? ?b then _ else _] => destruct (Z.ltb_spec a b)
    | |- context [if ?a <=? ?b then _ else _] => destruct (Z.leb_spec a b)
    | |- context [if (?a <? ?b)%nat then _ else _] => destruct (Nat.ltb_spec a b)
    end; try lia; try reflexivity; rewrite ?(get2_ok h w) by (assumption || lia); try (f_equal; f_equal; lia).
  Lemma west_ok : west buf xz yz = Ok (nW I y x).
  Proof. unfold west, nW. go. Qed.
  Lemma north_ok : north buf xz yz = Ok (nN I y x).
  Proof. unfold north, nN, nW. go. Qed.
  Lemma northWest_ok : northWest buf xz yz = Ok (nNW I y x).
  Proof. unfold northWest, nNW, nW. destruct (Nat.ltb_spec 0 x), (Nat.ltb_spec 0 y); cbn [andb]; go. Qed.
  Lemma northEast_ok : northEast wz buf xz yz = Ok (nNE w I y x).
  Proof.
    unfold northEast, nNE. rewrite north_ok, i32_small by lia.
    destruct (Nat.ltb_spec (x + 1) w), (Nat.ltb_spec 0 y), (Z.ltb_spec 0 yz), (Z.ltb_spec (xz + 1) wz); cbn [andb]; try lia; try reflexivity.
    rewrite (get2_ok h w) by (assumption || lia). f_equal; f_equal; lia.
  Qed.
  Lemma northNorth_ok : northNorth buf xz yz = Ok (nNN I y x).
  Proof. unfold northNorth, nNN. rewrite north_ok. go. Qed.
  Lemma northEastEast_ok : northEastEast wz buf xz yz = Ok (nNEE w I y x).
  Proof.
    unfold northEastEast, nNEE. rewrite northEast_ok, i32_small by lia.
    destruct (Nat.ltb_spec (x + 2) w), (Nat.ltb_spec 0 y), (Z.ltb_spec 0 yz), (Z.ltb_spec (xz + 2) wz); cbn [andb]; try lia; try reflexivity.
    rewrite (get2_ok h w) by (assumption || lia). f_equal; f_equal; lia.
  Qed.
  Lemma westWest_ok : westWest buf xz yz = Ok (nWW I y x).
  Proof. unfold westWest, nWW. rewrite west_ok. go. Qed.

  Lemma prediction_value pred k : rect h w pred -> 0 <= k <= 13 -> exists v, prediction wz buf pred yz xz k = Ok v.
  Proof.
    intros Rp Hk. assert (C : In k [0;1;2;3;4;5;6;7;8;9;10;11;12;13]) by (cbn; lia). clear Hk.
    unfold prediction. cbn in C. repeat (destruct C as [<-|C]); [..|destruct C];
    rewrite ?west_ok, ?north_ok, ?northWest_ok, ?northEast_ok, ?northNorth_ok, ?northEastEast_ok, ?westWest_ok; cbn [obind]; try (eexists; reflexivity).
    rewrite (get2_ok h w) by (assumption || lia). cbn [obind]. eexists; reflexivity.
  Qed.
  Lemma prediction_bad pred k : k < 0 \/ 13 < k -> prediction wz buf pred yz xz k = Err.
  Proof.
    intros Hk. unfold prediction. destruct k as [|p|p]; [lia| |reflexivity].
    do 4 (destruct p as [p|p|]; try reflexivity; try lia).
  Qed.
End nb.

(* the value over unbounded integers *)
Lemma quot_idiv a b : 0 < b -> Z.quot a b = idiv a b.
Proof.
  intros H. unfold idiv. destruct (Z.ltb_spec a 0).
  - rewrite <- (Z.opp_involutive a) at 1. rewrite Z.quot_opp_l, Z.quot_div_nonneg by lia. reflexivity.
  - apply Z.quot_div_nonneg; lia.
Qed.
Lemma nb_bound (P : Z -> Prop) h w I y x : P 0 -> (forall y x, (y < h)%nat -> (x < w)%nat -> P (I y x)) -> (y < h)%nat -> (x < w)%nat ->
  P (nW I y x) /\ P (nN I y x) /\ P (nNW I y x) /\ P (nNE w I y x) /\ P (nNN I y x) /\ P (nNEE w I y x) /\ P (nWW I y x).
Proof.
  intros P0 PI Hy Hx.
  assert (W : P (nW I y x)) by (unfold nW; destruct (Nat.ltb_spec 0 x), (Nat.ltb_spec 0 y); (assumption || (apply PI; lia))).
  assert (N : P (nN I y x)) by (unfold nN; destruct (Nat.ltb_spec 0 y); (assumption || (apply PI; lia))).
  assert (NE : P (nNE w I y x)) by (unfold nNE; destruct (Nat.ltb_spec (x + 1) w), (Nat.ltb_spec 0 y); cbn [andb]; (assumption || (apply PI; lia))).
  split; [exact W|]. split; [exact N|]. split; [|split; [exact NE|split; [|split]]].
  - unfold nNW. destruct (Nat.ltb_spec 0 x), (Nat.ltb_spec 0 y); cbn [andb]; (assumption || (apply PI; lia)).
  - unfold nNN. destruct (Nat.ltb_spec 1 y); (assumption || (apply PI; lia)).
  - unfold nNEE. destruct (Nat.ltb_spec (x + 2) w), (Nat.ltb_spec 0 y); cbn [andb]; (assumption || (apply PI; lia)).
  - unfold nWW. destruct (Nat.ltb_spec 1 x); (assumption || (apply PI; lia)).
Qed.
Lemma abs_small v : - 2 ^ 31 < v < 2 ^ 31 -> Abs_i32 v = Z.abs v.
Proof. intros H. unfold Abs_i32. destruct (Z.ltb_spec v 0); [rewrite i32_small; lia|lia]. Qed.
Lemma prediction_exact h w buf pred y x k : rect h w buf -> rect h w pred -> (y < h)%nat -> (x < w)%nat -> Z.of_nat w < 2 ^ 31 - 1 ->
  samples_within (2 ^ 26) buf -> samples_within (2 ^ 30) pred -> 0 <= k <= 13 ->
  prediction (Z.of_nat w) buf pred (Z.of_nat y) (Z.of_nat x) k = Ok (predictor w (px buf) y x k (px pred y x)).
Proof.
  intros R Rp Hy Hx Hw Sb Sp Hk.
  destruct (nb_bound (fun v => - 2 ^ 26 <= v <= 2 ^ 26) h w (px buf) y x ltac:(cbv beta; lia) ltac:(intros; apply (rect_within (2 ^ 26) h w); assumption) Hy Hx)
    as (BW & BN & BNW & BNE & BNN & BNEE & BWW).
  cbv beta in BW, BN, BNW, BNE, BNN, BNEE, BWW. pose proof (rect_within _ _ _ _ _ _ Rp Sp Hy Hx) as BP.
  assert (C : In k [0;1;2;3;4;5;6;7;8;9;10;11;12;13]) by (cbn; lia). clear Hk.
  unfold prediction, predictor. cbn in C. repeat (destruct C as [<-|C]); [..|destruct C]; cbn [Z.eqb Pos.eqb];
  rewrite ?(west_ok h w), ?(north_ok h w), ?(northWest_ok h w), ?(northEast_ok h w), ?(northNorth_ok h w), ?(northEastEast_ok h w), ?(westWest_ok h w) by assumption; cbn [obind]; try reflexivity;
  try (rewrite i32_small, quot_idiv by lia; reflexivity).
  - rewrite (i32_small (nN _ _ _ - _)), (i32_small (nW _ _ _ - _)) by lia. rewrite !abs_small by lia. reflexivity.
  - rewrite Clamp3_ok. rewrite i32_small by lia. f_equal. lia.
  - rewrite (get2_ok h w) by (assumption || lia). cbn [obind]. rewrite !Nat2Z.id, i32_small by lia. f_equal.
    rewrite Z.shiftr_div_pow2 by lia. reflexivity.
Qed.

(* locality *)
Definition agree_before (h w : nat) (b1 b2 : list (list Z)) (y x : nat) : Prop :=
  forall y' x', before y' x' y x -> (y' < h)%nat -> (x' < w)%nat -> px b1 y' x' = px b2 y' x'.
Lemma nb_local h w b1 b2 y x : agree_before h w b1 b2 y x -> (y < h)%nat -> (x < w)%nat ->
  nW (px b1) y x = nW (px b2) y x /\ nN (px b1) y x = nN (px b2) y x /\ nNW (px b1) y x = nNW (px b2) y x /\ nNE w (px b1) y x = nNE w (px b2) y x /\
  nNN (px b1) y x = nNN (px b2) y x /\ nNEE w (px b1) y x = nNEE w (px b2) y x /\ nWW (px b1) y x = nWW (px b2) y x.
Proof.
  intros A Hy Hx. unfold agree_before, before in A.
  assert (W : nW (px b1) y x = nW (px b2) y x) by (unfold nW; destruct (Nat.ltb_spec 0 x), (Nat.ltb_spec 0 y); try reflexivity; apply A; lia).
  assert (N : nN (px b1) y x = nN (px b2) y x) by (unfold nN; destruct (Nat.ltb_spec 0 y); [apply A; lia|assumption]).
  assert (NE : nNE w (px b1) y x = nNE w (px b2) y x) by (unfold nNE; destruct (Nat.ltb_spec (x + 1) w), (Nat.ltb_spec 0 y); cbn [andb]; try assumption; apply A; lia).
  split; [exact W|]. split; [exact N|]. split; [|split; [exact NE|split; [|split]]].
  - unfold nNW. destruct (Nat.ltb_spec 0 x), (Nat.ltb_spec 0 y); cbn [andb]; try assumption; apply A; lia.
  - unfold nNN. destruct (Nat.ltb_spec 1 y); [apply A; lia|assumption].
  - unfold nNEE. destruct (Nat.ltb_spec (x + 2) w), (Nat.ltb_spec 0 y); cbn [andb]; try assumption; apply A; lia.
  - unfold nWW. destruct (Nat.ltb_spec 1 x); [apply A; lia|assumption].
Qed.
Lemma prediction_local h w b1 b2 pred y x k : rect h w b1 -> rect h w b2 -> (y < h)%nat -> (x < w)%nat -> Z.of_nat w < 2 ^ 31 - 1 ->
  agree_before h w b1 b2 y x ->
  prediction (Z.of_nat w) b1 pred (Z.of_nat y) (Z.of_nat x) k = prediction (Z.of_nat w) b2 pred (Z.of_nat y) (Z.of_nat x) k.
Proof.
  intros R1 R2 Hy Hx Hw A. destruct (nb_local h w b1 b2 y x A Hy Hx) as (E1 & E2 & E3 & E4 & E5 & E6 & E7).
  unfold prediction.
  assert (F1 : west b1 (Z.of_nat x) (Z.of_nat y) = west b2 (Z.of_nat x) (Z.of_nat y)) by (rewrite !(west_ok h w) by assumption; congruence).
  assert (F2 : north b1 (Z.of_nat x) (Z.of_nat y) = north b2 (Z.of_nat x) (Z.of_nat y)) by (rewrite !(north_ok h w) by assumption; congruence).
  assert (F3 : northWest b1 (Z.of_nat x) (Z.of_nat y) = northWest b2 (Z.of_nat x) (Z.of_nat y)) by (rewrite !(northWest_ok h w) by assumption; congruence).
  assert (F4 : northEast (Z.of_nat w) b1 (Z.of_nat x) (Z.of_nat y) = northEast (Z.of_nat w) b2 (Z.of_nat x) (Z.of_nat y)) by (rewrite !(northEast_ok h w) by assumption; congruence).
  assert (F5 : northNorth b1 (Z.of_nat x) (Z.of_nat y) = northNorth b2 (Z.of_nat x) (Z.of_nat y)) by (rewrite !(northNorth_ok h w) by assumption; congruence).
  assert (F6 : northEastEast (Z.of_nat w) b1 (Z.of_nat x) (Z.of_nat y) = northEastEast (Z.of_nat w) b2 (Z.of_nat x) (Z.of_nat y)) by (rewrite !(northEastEast_ok h w) by assumption; congruence).
  assert (F7 : westWest b1 (Z.of_nat x) (Z.of_nat y) = westWest b2 (Z.of_nat x) (Z.of_nat y)) by (rewrite !(westWest_ok h w) by assumption; congruence).
  rewrite F1, F2, F3, F4, F5, F6, F7. reflexivity.
Qed.

(* ---- the self-correcting predictor ---- *)
Definition err_range (v : Z) := 0 <= v < 2 ^ 28.
Lemma table_get i : 0 <= i < 64 -> slice_get oneL24OverKP1 i = Ok (2 ^ 24 / (i + 1)).
Proof.
  intros H. unfold oneL24OverKP1. rewrite (slice_get_ok _ _ (2 ^ 24 / (Z.of_nat 0 + 1))) by (rewrite map_length, seq_length; lia).
  rewrite (map_nth (fun i => 2 ^ 24 / (Z.of_nat i + 1)) (seq 0 64) 0%nat), seq_nth by lia. do 3 f_equal. lia.
Qed.
Lemma wpWeight_ok wt eSum : 0 <= wt <= 15 -> 0 <= eSum < 2 ^ 31 -> exists v, wpWeight wt eSum = Ok v /\ 4 <= v <= 4 + 15 * 2 ^ 24.
Proof.
  intros Hw He. unfold wpWeight. rewrite (u64_small eSum) by lia.
  destruct (FloorLog1pUint64_ok eSum ltac:(lia)) as (L0 & L1 & L2). set (L := FloorLog1pUint64 eSum) in *. clearbody L.
  set (sh := if L - 5 <? 0 then 0 else L - 5). assert (S0 : 0 <= sh) by (unfold sh; destruct (Z.ltb_spec (L - 5) 0); lia).
  assert (I : 0 <= Z.shiftr eSum sh < 64).
  { rewrite Z.shiftr_div_pow2 by lia. pose proof (Z.pow_pos_nonneg 2 sh ltac:(lia) S0) as Pp. split; [apply Z.div_pos; lia|].
    apply Z.div_lt_upper_bound; [lia|]. unfold sh. destruct (Z.ltb_spec (L - 5) 0) as [H|H].
    - assert (2 ^ (L + 1) <= 2 ^ 5) by (apply Z.pow_le_mono_r; lia). lia.
    - replace (L + 1) with (6 + (L - 5)) in L2 by lia. rewrite Z.pow_add_r in L2 by lia. change (2 ^ 6) with 64 in L2. lia. }
  rewrite table_get by exact I. cbn [obind]. set (i := Z.shiftr eSum sh) in *. clearbody i.
  assert (T : 0 <= 2 ^ 24 / (i + 1) <= 2 ^ 24) by (split; [apply Z.div_pos; lia|apply Z.div_le_upper_bound; nia]).
  set (tb := 2 ^ 24 / (i + 1)) in *. clearbody tb.
  assert (Wt : 0 <= wt * tb <= 15 * 2 ^ 24) by nia. rewrite (i64_small (wt * tb)) by lia.
  assert (Q : 0 <= Z.shiftr (wt * tb) sh <= 15 * 2 ^ 24).
  { rewrite Z.shiftr_div_pow2 by lia. pose proof (Z.pow_pos_nonneg 2 sh ltac:(lia) S0) as Pp. split; [apply Z.div_pos; lia|].
    apply Z.div_le_upper_bound; [lia|]. nia. }
  rewrite (i64_small (4 + _)) by lia. rewrite i32_small by lia. eexists. split; [reflexivity|]. lia.
Qed.
Lemma shr_sum a b c d k : 0 <= k -> 0 <= a -> 0 <= b -> 0 <= c -> 0 <= d ->
  (a + b + c + d) / 2 ^ k - 3 <= Z.shiftr a k + Z.shiftr b k + Z.shiftr c k + Z.shiftr d k <= (a + b + c + d) / 2 ^ k.
Proof.
  intros Hk Ha Hb Hc Hd. rewrite !Z.shiftr_div_pow2 by lia. set (p := 2 ^ k). assert (Pp : 0 < p) by (apply Z.pow_pos_nonneg; lia). clearbody p.
  pose proof (Z.div_mod a p ltac:(lia)). pose proof (Z.div_mod b p ltac:(lia)). pose proof (Z.div_mod c p ltac:(lia)). pose proof (Z.div_mod d p ltac:(lia)).
  pose proof (Z.mod_pos_bound a p Pp). pose proof (Z.mod_pos_bound b p Pp). pose proof (Z.mod_pos_bound c p Pp). pose proof (Z.mod_pos_bound d p Pp).
  set (s := a / p + b / p + c / p + d / p). set (r := a mod p + b mod p + c mod p + d mod p).
  assert (E : a + b + c + d = r + s * p) by (unfold r, s; lia). rewrite E, Z.div_add by lia.
  assert (0 <= r / p) by (apply Z.div_pos; unfold r; lia). assert (r / p < 4) by (apply Z.div_lt_upper_bound; unfold r; lia). lia.
Qed.

Section wp.
  Context (h w : nat) (y x : nat).
  Hypothesis Hy : (y < h)%nat. Hypothesis Hx : (x < w)%nat. Hypothesis Hw : Z.of_nat w < 2 ^ 31 - 1.
  Notation yz := (Z.of_nat y). Notation xz := (Z.of_nat x). Notation wz := (Z.of_nat w).
  Lemma err_gets e (P : Z -> Prop) : P 0 -> rect h w e -> (forall y x, (y < h)%nat -> (x < w)%nat -> P (px e y x)) ->
    (exists v, errorNorth e xz yz = Ok v /\ P v) /\ (exists v, errorWest e xz yz = Ok v /\ P v) /\ (exists v, errorWestWest e xz yz = Ok v /\ P v) /\
    (exists v, errorNorthWest e xz yz = Ok v /\ P v) /\ (exists v, errorNorthEast wz e xz yz = Ok v /\ P v).
  Proof.
    intros P0 R HP.
    assert (N : exists v, errorNorth e xz yz = Ok v /\ P v).
    { unfold errorNorth. destruct (Z.leb_spec yz 0); [eauto|]. rewrite (get2_ok h w) by (assumption || lia). eexists. split; [reflexivity|]. apply HP; lia. }
    split; [exact N|]. split; [|split; [|split]].
    - unfold errorWest. destruct (Z.leb_spec xz 0); [eauto|]. rewrite (get2_ok h w) by (assumption || lia). eexists. split; [reflexivity|]. apply HP; lia.
    - unfold errorWestWest. destruct (Z.leb_spec xz 1); [eauto|]. rewrite (get2_ok h w) by (assumption || lia). eexists. split; [reflexivity|]. apply HP; lia.
    - unfold errorNorthWest. destruct (Z.ltb_spec 0 xz), (Z.ltb_spec 0 yz); cbn [andb]; try exact N.
      rewrite (get2_ok h w) by (assumption || lia). eexists. split; [reflexivity|]. apply HP; lia.
    - unfold errorNorthEast. rewrite i32_small by lia. destruct (Z.ltb_spec (xz + 1) wz), (Z.ltb_spec 0 yz); cbn [andb]; try exact N.
      rewrite (get2_ok h w) by (assumption || lia). eexists. split; [reflexivity|]. apply HP; lia.
  Qed.
  Lemma errorSum_ok e : rect h w e -> (forall y x, (y < h)%nat -> (x < w)%nat -> err_range (px e y x)) ->
    exists s, errorSum wz e xz yz = Ok s /\ 0 <= s < 2 ^ 31.
  Proof.
    intros R HP. unfold err_range in HP.
    destruct (err_gets e err_range ltac:(unfold err_range; lia) R HP) as ((n & En & Bn) & (a & Ea & Ba) & (b & Eb & Bb) & (c & Ec & Bc) & (d & Ed & Bd)).
    unfold errorSum. rewrite En, Ea, Eb, Ec, Ed. cbn [obind]. cbv zeta. unfold err_range in *. rewrite (i32_small (n + a + c + b + d)) by lia.
    destruct (i32 (xz + 1) =? wz); [rewrite i32_small by lia|]; eexists; (split; [reflexivity|lia]).
  Qed.

  Lemma prePredict_ok wp buf errs e0 e1 e2 e3 e4 g0 g1 g2 g3 : rect h w buf -> errs = [e0; e1; e2; e3; e4] ->
    (forall e, In e errs -> rect h w e) -> (forall e, In e [e0; e1; e2; e3] -> forall y x, (y < h)%nat -> (x < w)%nat -> err_range (px e y x)) ->
    wp_weight wp = [g0; g1; g2; g3] -> Forall (fun g => 0 <= g <= 15) (wp_weight wp) ->
    exists r, prePredictWP wp wz buf errs xz yz = Ok r.
  Proof.
    intros R -> RE HE Ew HW. rewrite Ew in HW. apply Forall_inv_tail in HW as HW1. apply Forall_inv_tail in HW1 as HW2. apply Forall_inv_tail in HW2 as HW3.
    apply Forall_inv in HW, HW1, HW2, HW3.
    unfold prePredictWP.
    rewrite (north_ok h w), (northWest_ok h w), (northEast_ok h w), (west_ok h w), (northNorth_ok h w) by assumption. cbn [obind]. cbv zeta.
    change (slice_get [e0; e1; e2; e3; e4] 4) with (Ok e4). change (slice_get [e0; e1; e2; e3; e4] 0) with (Ok e0). change (slice_get [e0; e1; e2; e3; e4] 1) with (Ok e1).
    change (slice_get [e0; e1; e2; e3; e4] 2) with (Ok e2). change (slice_get [e0; e1; e2; e3; e4] 3) with (Ok e3). cbn [obind].
    destruct (err_gets e4 (fun _ => True) I (RE e4 ltac:(cbn; tauto)) (fun _ _ _ _ => I)) as ((tN & -> & _) & (tW & -> & _) & _ & (tNW & -> & _) & (tNE & -> & _)). cbn [obind].
    rewrite Ew. change (slice_get [g0; g1; g2; g3] 0) with (Ok g0). change (slice_get [g0; g1; g2; g3] 1) with (Ok g1).
    change (slice_get [g0; g1; g2; g3] 2) with (Ok g2). change (slice_get [g0; g1; g2; g3] 3) with (Ok g3).
    destruct (errorSum_ok e0 (RE e0 ltac:(cbn; tauto)) (HE e0 ltac:(cbn; tauto))) as (s0 & -> & B0).
    destruct (errorSum_ok e1 (RE e1 ltac:(cbn; tauto)) (HE e1 ltac:(cbn; tauto))) as (s1 & -> & B1).
    destruct (errorSum_ok e2 (RE e2 ltac:(cbn; tauto)) (HE e2 ltac:(cbn; tauto))) as (s2 & -> & B2).
    destruct (errorSum_ok e3 (RE e3 ltac:(cbn; tauto)) (HE e3 ltac:(cbn; tauto))) as (s3 & -> & B3). cbn [obind].
    destruct (wpWeight_ok g0 s0 HW B0) as (v0 & -> & V0). destruct (wpWeight_ok g1 s1 HW1 B1) as (v1 & -> & V1).
    destruct (wpWeight_ok g2 s2 HW2 B2) as (v2 & -> & V2). destruct (wpWeight_ok g3 s3 HW3 B3) as (v3 & -> & V3). cbn [obind].
    assert (BS : 16 <= v0 + v1 + v2 + v3 < 2 ^ 30) by lia. rewrite (i32_small (v0 + v1 + v2 + v3)) by lia.
    destruct (FloorLog1p_i64_ok (v0 + v1 + v2 + v3 - 1) ltac:(lia)) as (L0 & L1 & L2). set (L := FloorLog1p_i64 _) in *. clearbody L.
    assert (L4 : 4 <= L). { destruct (Z.lt_ge_cases L 4) as [H|H]; [|exact H]. assert (2 ^ (L + 1) <= 2 ^ 4) by (apply Z.pow_le_mono_r; lia). lia. }
    destruct (Z.ltb_spec (L - 4) 0); [lia|].
    pose proof (shr_sum v0 v1 v2 v3 (L - 4) ltac:(lia) ltac:(lia) ltac:(lia) ltac:(lia) ltac:(lia)) as SS.
    assert (BD : 16 <= (v0 + v1 + v2 + v3) / 2 ^ (L - 4) <= 31).
    { pose proof (Z.pow_pos_nonneg 2 (L - 4) ltac:(lia) ltac:(lia)).
      replace L with (4 + (L - 4)) in L1 by lia. replace (L + 1) with (5 + (L - 4)) in L2 by lia. rewrite Z.pow_add_r in L1, L2 by lia.
      change (2 ^ 4) with 16 in L1. change (2 ^ 5) with 32 in L2. split; [apply Z.div_le_lower_bound; lia|].
      apply Z.lt_succ_r. apply Z.div_lt_upper_bound; lia. }
    assert (SB : 13 <= Z.shiftr v0 (L - 4) + Z.shiftr v1 (L - 4) + Z.shiftr v2 (L - 4) + Z.shiftr v3 (L - 4) <= 31) by lia.
    set (z0 := Z.shiftr v0 (L - 4)) in *. set (z1 := Z.shiftr v1 (L - 4)) in *. set (z2 := Z.shiftr v2 (L - 4)) in *. set (z3 := Z.shiftr v3 (L - 4)) in *.
    clearbody z0 z1 z2 z3. rewrite (i32_small (z0 + z1 + z2 + z3)) by lia.
    rewrite (i32_small (z0 + z1 + z2 + z3 - 1)) by lia. rewrite table_get by lia. cbn [obind].
    repeat match goal with |- context [let '(_, _) := ?p in _] => destruct p end. eexists. reflexivity.
  Qed.
End wp.

(* what one pixel stores in the error planes *)
Lemma stored_range s tv3 : - (2 ^ 31 - 4) <= s - tv3 <= 2 ^ 31 - 4 -> err_range (Z.shiftr (i32 (Abs_i32 (i32 (s - tv3)) + 3)) 3).
Proof.
  intros H. unfold err_range. rewrite (i32_small (s - tv3)) by lia. rewrite abs_small by lia. rewrite i32_small by lia.
  rewrite Z.shiftr_div_pow2 by lia. change (2 ^ 3) with 8. split; [apply Z.div_pos; lia|apply Z.div_lt_upper_bound; lia].
Qed.
