(* Samples of a modular channel: the self-correcting predictor, the properties
   and the loop over the pixels. *)
From Coq Require Import ZArith List Bool Lia Arith ZifyBool ZifyNat.
From Verif Require Import GoBase GoLoop GoMatrix ModelBitReader ModelUtil ModelEntropy SpecUtil SpecCodes ModelMATree ModelModular SpecMATree SpecModular SpecChannel.
From Verif Require Import ProofUtil ProofCodes ProofHeader ProofSqueeze ProofModular ProofPredict ProofMATree ProofPalette.
Import ListNotations.
Open Scope Z_scope.

(* ---- what is read of a plane lies before the pixel ---- *)
Definition same_before (h w : nat) (A B : Plane) (y x : nat) : Prop :=
  forall y' x', before y' x' y x -> (y' < h)%nat -> (x' < w)%nat -> A y' x' = B y' x'.
Lemma nbs_local h w A B y x : same_before h w A B y x -> (y < h)%nat -> (x < w)%nat ->
  nW A y x = nW B y x /\ nN A y x = nN B y x /\ nNW A y x = nNW B y x /\ nNE w A y x = nNE w B y x /\
  nNN A y x = nNN B y x /\ nNEE w A y x = nNEE w B y x /\ nWW A y x = nWW B y x.
Proof.
  intros S Hy Hx. unfold same_before, before in S.
  assert (W : nW A y x = nW B y x) by (unfold nW; destruct (Nat.ltb_spec 0 x), (Nat.ltb_spec 0 y); try reflexivity; apply S; lia).
  assert (N : nN A y x = nN B y x) by (unfold nN; destruct (Nat.ltb_spec 0 y); [apply S; lia|assumption]).
  assert (NE : nNE w A y x = nNE w B y x) by (unfold nNE; destruct (Nat.ltb_spec (x + 1) w), (Nat.ltb_spec 0 y); cbn [andb]; try assumption; apply S; lia).
  split; [exact W|]. split; [exact N|]. split; [|split; [exact NE|split; [|split]]].
  - unfold nNW. destruct (Nat.ltb_spec 0 x), (Nat.ltb_spec 0 y); cbn [andb]; try assumption; apply S; lia.
  - unfold nNN. destruct (Nat.ltb_spec 1 y); [apply S; lia|assumption].
  - unfold nNEE. destruct (Nat.ltb_spec (x + 2) w), (Nat.ltb_spec 0 y); cbn [andb]; try assumption; apply S; lia.
  - unfold nWW. destruct (Nat.ltb_spec 1 x); [apply S; lia|assumption].
Qed.
Lemma errs_local h w A B y x : same_before h w A B y x -> (y < h)%nat -> (x < w)%nat ->
  eN A y x = eN B y x /\ eW A y x = eW B y x /\ eWW A y x = eWW B y x /\ eNW A y x = eNW B y x /\ eNE w A y x = eNE w B y x.
Proof.
  intros S Hy Hx. unfold same_before, before in S.
  assert (N : eN A y x = eN B y x) by (unfold eN; destruct y; [reflexivity|apply S; lia]).
  split; [exact N|]. split; [|split; [|split]].
  - unfold eW. destruct x; [reflexivity|apply S; lia].
  - unfold eWW. destruct x as [|[|x]]; try reflexivity. apply S; lia.
  - unfold eNW. destruct y; [exact N|]. destruct x; [exact N|]. apply S; lia.
  - unfold eNE. destruct y; [reflexivity|]. destruct (Nat.ltb_spec (x + 1) w); [apply S; lia|exact N].
Qed.
Lemma errs_bound (P : Z -> Prop) h w F y x : P 0 -> (forall y x, (y < h)%nat -> (x < w)%nat -> P (F y x)) -> (y < h)%nat -> (x < w)%nat ->
  P (eN F y x) /\ P (eW F y x) /\ P (eWW F y x) /\ P (eNW F y x) /\ P (eNE w F y x).
Proof.
  intros P0 PF Hy Hx.
  assert (N : P (eN F y x)) by (unfold eN; destruct y; [exact P0|apply PF; lia]).
  split; [exact N|]. split; [|split; [|split]].
  - unfold eW. destruct x; [exact P0|apply PF; lia].
  - unfold eWW. destruct x as [|[|x]]; try exact P0. apply PF; lia.
  - unfold eNW. destruct y; [exact N|]. destruct x; [exact N|]. apply PF; lia.
  - unfold eNE. destruct y; [exact P0|]. destruct (Nat.ltb_spec (x + 1) w); [apply PF; lia|exact N].
Qed.

(* ---- values of the errors ---- *)
Section errs.
  Context (h w : nat) (e : list (list Z)) (y x : nat).
  Hypothesis R : rect h w e. Hypothesis Hy : (y < h)%nat. Hypothesis Hx : (x < w)%nat. Hypothesis Hw : Z.of_nat w < 2 ^ 31 - 1.
  Notation yz := (Z.of_nat y). Notation xz := (Z.of_nat x). Notation wz := (Z.of_nat w).
  Lemma errorNorth_val : errorNorth e xz yz = Ok (eN (px e) y x).
  Proof. unfold errorNorth, eN. destruct y as [|y']; [reflexivity|]. destruct (Z.leb_spec (Z.of_nat (S y')) 0); [lia|]. rewrite (get2_ok h w) by (assumption || lia). f_equal; f_equal; lia. Qed.
  Lemma errorWest_val : errorWest e xz yz = Ok (eW (px e) y x).
  Proof. unfold errorWest, eW. destruct x as [|x']; [reflexivity|]. destruct (Z.leb_spec (Z.of_nat (S x')) 0); [lia|]. rewrite (get2_ok h w) by (assumption || lia). f_equal; f_equal; lia. Qed.
  Lemma errorWestWest_val : errorWestWest e xz yz = Ok (eWW (px e) y x).
  Proof.
    unfold errorWestWest, eWW. destruct x as [|[|x']]; [reflexivity|reflexivity|]. destruct (Z.leb_spec (Z.of_nat (S (S x'))) 1); [lia|].
    rewrite (get2_ok h w) by (assumption || lia). f_equal; f_equal; lia.
  Qed.
  Lemma errorNorthWest_val : errorNorthWest e xz yz = Ok (eNW (px e) y x).
  Proof.
    unfold errorNorthWest. rewrite errorNorth_val. unfold eNW. destruct (Z.ltb_spec 0 xz), (Z.ltb_spec 0 yz); cbn [andb]; destruct y as [|y'], x as [|x']; try lia; try reflexivity.
    rewrite (get2_ok h w) by (assumption || lia). f_equal; f_equal; lia.
  Qed.
  Lemma errorNorthEast_val : errorNorthEast wz e xz yz = Ok (eNE w (px e) y x).
  Proof.
    unfold errorNorthEast. rewrite errorNorth_val, i32_small by lia. unfold eNE. destruct y as [|y'].
    - destruct (Z.ltb_spec 0 (Z.of_nat 0)); [lia|]. rewrite andb_false_r. reflexivity.
    - destruct (Z.ltb_spec (xz + 1) wz), (Nat.ltb_spec (x + 1) w), (Z.ltb_spec 0 (Z.of_nat (S y'))); cbn [andb]; try lia; try reflexivity.
      rewrite (get2_ok h w) by (assumption || lia). f_equal; f_equal; lia.
  Qed.
  Lemma errorSum_val F : same_before h w (px e) F y x -> (forall y x, (y < h)%nat -> (x < w)%nat -> err_range (F y x)) ->
    errorSum wz e xz yz = Ok (error_sum w F y x).
  Proof.
    intros SB HP. destruct (errs_bound err_range h w F y x ltac:(unfold err_range; lia) HP Hy Hx) as (B1 & B2 & B3 & B4 & B5). unfold err_range in *.
    unfold errorSum. rewrite errorNorth_val, errorWest_val, errorWestWest_val, errorNorthWest_val, errorNorthEast_val. cbn [obind]. cbv zeta.
    destruct (errs_local h w (px e) F y x SB Hy Hx) as (-> & -> & -> & -> & ->).
    unfold error_sum. rewrite (i32_small (xz + 1)) by lia. rewrite (i32_small (_ + eNE w F y x)) by lia.
    destruct (Z.eqb_spec (xz + 1) wz), (Nat.eqb_spec (x + 1) w); try lia; [rewrite i32_small by lia; reflexivity|f_equal; lia].
  Qed.
End errs.

Lemma floor_log x L : 0 < x -> is_floor_log2 x L -> L = Z.log2 x.
Proof. intros Hx (L0 & L1 & L2). symmetry. apply Z.log2_unique; [lia|]. replace (Z.succ L) with (L + 1) by lia. lia. Qed.
Lemma wpWeight_val wt e : 0 <= wt <= 15 -> 0 <= e < 2 ^ 31 ->
  let s := Z.max 0 (Z.log2 (e + 1) - 5) in
  wpWeight wt e = Ok (4 + (wt * (2 ^ 24 / (e / 2 ^ s + 1))) / 2 ^ s) /\ 4 <= 4 + (wt * (2 ^ 24 / (e / 2 ^ s + 1))) / 2 ^ s <= 4 + 15 * 2 ^ 24.
Proof.
  intros Hw He s. unfold wpWeight. rewrite (u64_small e) by lia.
  pose proof (FloorLog1pUint64_ok e ltac:(lia)) as HL. pose proof HL as (L0 & L1 & L2). apply floor_log in HL; [|lia].
  assert (Es : s = Z.max 0 (FloorLog1pUint64 e - 5)) by (unfold s; rewrite HL; reflexivity). clearbody s.
  replace (if FloorLog1pUint64 e - 5 <? 0 then 0 else FloorLog1pUint64 e - 5) with s by (rewrite Es; destruct (Z.ltb_spec (FloorLog1pUint64 e - 5) 0); lia).
  set (L := FloorLog1pUint64 e) in *. clearbody L. assert (S0 : 0 <= s) by lia. pose proof (Z.pow_pos_nonneg 2 s ltac:(lia) S0) as Pp.
  rewrite !Z.shiftr_div_pow2 by lia.
  assert (I : 0 <= e / 2 ^ s < 64).
  { split; [apply Z.div_pos; lia|]. apply Z.div_lt_upper_bound; [lia|]. rewrite Es. destruct (Z.max_spec 0 (L - 5)) as [[H1 ->]|[H1 ->]].
    - replace (L + 1) with (6 + (L - 5)) in L2 by lia. rewrite Z.pow_add_r in L2 by lia. change (2 ^ 6) with 64 in L2. lia.
    - assert (2 ^ (L + 1) <= 2 ^ 6) by (apply Z.pow_le_mono_r; lia). lia. }
  rewrite table_get by exact I. cbn [obind]. set (i := e / 2 ^ s) in *. clearbody i.
  assert (T : 0 <= 2 ^ 24 / (i + 1) <= 2 ^ 24) by (split; [apply Z.div_pos; lia|apply Z.div_le_upper_bound; nia]).
  set (tb := 2 ^ 24 / (i + 1)) in *. clearbody tb. assert (Wt : 0 <= wt * tb <= 15 * 2 ^ 24) by nia. rewrite (i64_small (wt * tb)) by lia.
  assert (Q : 0 <= wt * tb / 2 ^ s <= 15 * 2 ^ 24) by (split; [apply Z.div_pos; lia|apply Z.div_le_upper_bound; [lia|nia]]).
  rewrite Z.shiftr_div_pow2 by lia. rewrite (i64_small (4 + _)) by lia. rewrite i32_small by lia. split; [reflexivity|lia].
Qed.

(* ---- the predictor ---- *)
Definition header_of (wp : WPParams) : wp_header := mkWpHeader (wp_1 wp) (wp_2 wp) (wp_3a wp) (wp_3b wp) (wp_3c wp) (wp_3d wp) (wp_3e wp) (wp_weight wp).
Definition wp_ok (wp : WPParams) : Prop :=
  0 <= wp_1 wp < 32 /\ 0 <= wp_2 wp < 32 /\ 0 <= wp_3a wp < 32 /\ 0 <= wp_3b wp < 32 /\ 0 <= wp_3c wp < 32 /\ 0 <= wp_3d wp < 32 /\ 0 <= wp_3e wp < 32 /\
  length (wp_weight wp) = 4%nat /\ Forall (fun g => 0 <= g <= 15) (wp_weight wp).

Lemma mul32 t p B : 0 <= p < 32 -> - B <= t <= B -> - (31 * B) <= t * p <= 31 * B.
Proof. intros. nia. Qed.
Lemma div32 a B : - (32 * B) <= a <= 32 * B -> - B <= a / 32 <= B.
Proof. intros. split; [apply Z.div_le_lower_bound; lia|apply Z.div_le_upper_bound; lia]. Qed.
Definition SUB_MAX : Z := 65273856.
Definition tame (h w : nat) (I T : Plane) : Prop := forall y x, (y < h)%nat -> (x < w)%nat -> - 2 ^ 20 <= I y x <= 2 ^ 20 /\ - 2 ^ 23 <= T y x <= 2 ^ 23.
Section values.
  Context (wp : WPParams) (h w : nat) (I : Plane) (E : nat -> Plane) (T : Plane) (y x : nat).
  Hypothesis HWP : wp_ok wp. Hypothesis Hy : (y < h)%nat. Hypothesis Hx : (x < w)%nat. Hypothesis Hw : Z.of_nat w < 2 ^ 31 - 1.
  Hypothesis BI : forall y x, (y < h)%nat -> (x < w)%nat -> - 2 ^ 20 <= I y x <= 2 ^ 20.
  Hypothesis BT : forall y x, (y < h)%nat -> (x < w)%nat -> - 2 ^ 23 <= T y x <= 2 ^ 23.
  Notation hd := (header_of wp).
  Lemma sub_values : let W := 8 * nW I y x in let N := 8 * nN I y x in let NW := 8 * nNW I y x in let NE := 8 * nNE w I y x in let NN := 8 * nNN I y x in
    i32 (W + NE - N) = sub hd w I T y x 0 /\
    i32 (N - Z.shiftr (i32 ((eW T y x + eN T y x + eNE w T y x) * i32 (wp_1 wp))) 5) = sub hd w I T y x 1 /\
    i32 (W - Z.shiftr (i32 ((eW T y x + eN T y x + eNW T y x) * i32 (wp_2 wp))) 5) = sub hd w I T y x 2 /\
    i32 (N - Z.shiftr (i32 (eNW T y x * wp_3a wp + eN T y x * wp_3b wp + eNE w T y x * wp_3c wp + (NN - N) * wp_3d wp + (NW - W) * wp_3e wp)) 5) = sub hd w I T y x 3 /\
    forall i, - SUB_MAX <= sub hd w I T y x i <= SUB_MAX.
  Proof.
    destruct (nb_bound (fun v => - 2 ^ 20 <= v <= 2 ^ 20) h w I y x ltac:(cbv beta; lia) BI Hy Hx) as (B1 & B2 & B3 & B4 & B5 & _ & _).
    destruct (errs_bound (fun v => - 2 ^ 23 <= v <= 2 ^ 23) h w T y x ltac:(cbv beta; lia) BT Hy Hx) as (C1 & C2 & _ & C4 & C5). cbv beta in *.
    destruct HWP as (P1 & P2 & P3 & P4 & P5 & P6 & P7 & _ & _).
    rewrite !(i32_small (wp_1 wp)), !(i32_small (wp_2 wp)) by lia. rewrite !Z.shiftr_div_pow2 by lia. change (2 ^ 5) with 32. change (2 ^ 20) with 1048576 in *. change (2 ^ 23) with 8388608 in *.
    unfold sub, header_of, SUB_MAX; cbn [h_p1 h_p2 h_p3a h_p3b h_p3c h_p3d h_p3e]. cbv zeta.
    set (W := nW I y x) in *. set (N := nN I y x) in *. set (NW := nNW I y x) in *. set (NE := nNE w I y x) in *. set (NN := nNN I y x) in *.
    set (tN := eN T y x) in *. set (tW := eW T y x) in *. set (tNW := eNW T y x) in *. set (tNE := eNE w T y x) in *. clearbody W N NW NE NN tN tW tNW tNE.
    pose proof (mul32 (tW + tN + tNE) (wp_1 wp) (3 * 8388608) P1 ltac:(lia)) as M1. pose proof (mul32 (tW + tN + tNW) (wp_2 wp) (3 * 8388608) P2 ltac:(lia)) as M2.
    pose proof (mul32 tNW (wp_3a wp) 8388608 P3 ltac:(lia)) as M3. pose proof (mul32 tN (wp_3b wp) 8388608 P4 ltac:(lia)) as M4. pose proof (mul32 tNE (wp_3c wp) 8388608 P5 ltac:(lia)) as M5.
    pose proof (mul32 (8 * NN - 8 * N) (wp_3d wp) (16 * 1048576) P6 ltac:(lia)) as M6. pose proof (mul32 (8 * NW - 8 * W) (wp_3e wp) (16 * 1048576) P7 ltac:(lia)) as M7.
    set (m1 := (tW + tN + tNE) * wp_1 wp) in *. set (m2 := (tW + tN + tNW) * wp_2 wp) in *. set (m3 := tNW * wp_3a wp + tN * wp_3b wp + tNE * wp_3c wp + (8 * NN - 8 * N) * wp_3d wp + (8 * NW - 8 * W) * wp_3e wp).
    assert (M8 : - (32 * 56885248) <= m3 <= 32 * 56885248) by (unfold m3; lia). clearbody m1 m2 m3. clear M3 M4 M5 M6 M7.
    pose proof (div32 m1 24379392 ltac:(lia)). pose proof (div32 m2 24379392 ltac:(lia)). pose proof (div32 m3 56885248 M8).
    rewrite !(i32_small m1), !(i32_small m2), !(i32_small m3) by lia. rewrite !i32_small by lia.
    rewrite ?Z.shiftr_div_pow2 by lia. change (2 ^ 5) with 32. rewrite ?i32_small by lia.
    split; [reflexivity|]. split; [reflexivity|]. split; [reflexivity|]. split; [reflexivity|]. intros [|[|[|i]]]; lia.
  Qed.
  Hypothesis RE : forall i, (i < 4)%nat -> forall y x, (y < h)%nat -> (x < w)%nat -> err_range (E i y x).
  Lemma esum_range i : (i < 4)%nat -> 0 <= error_sum w (E i) y x < 2 ^ 31.
  Proof.
    intros Hi. destruct (errs_bound err_range h w (E i) y x ltac:(unfold err_range; lia) (RE i Hi) Hy Hx) as (B1 & B2 & B3 & B4 & B5). unfold err_range in *.
    unfold error_sum. destruct (x + 1 =? w)%nat; lia.
  Qed.
End values.
Lemma average_bound (v s : nat -> Z) : (forall i, 0 <= v i) -> 13 <= sum4 v <= 31 -> (forall i, - SUB_MAX <= s i <= SUB_MAX) ->
  - 2 ^ 31 < sum4 (fun i => v i * s i) + (sum4 v / 2 - 1) < 2 ^ 31 /\
  - 2 ^ 31 < ((sum4 (fun i => v i * s i) + (sum4 v / 2 - 1)) * (2 ^ 24 / sum4 v)) / 2 ^ 24 < 2 ^ 31.
Proof.
  intros Hv Hs HB.
  assert (P : forall i, - (SUB_MAX * v i) <= v i * s i <= SUB_MAX * v i) by (intros i; specialize (HB i); specialize (Hv i); nia).
  assert (S : - (SUB_MAX * sum4 v) <= sum4 (fun i => v i * s i) <= SUB_MAX * sum4 v).
  { unfold sum4. pose proof (P 0%nat). pose proof (P 1%nat). pose proof (P 2%nat). pose proof (P 3%nat). lia. }
  set (q := sum4 (fun i => v i * s i)) in *. set (n := sum4 v) in *. clearbody q n. clear P.
  assert (0 <= n / 2 <= 15) by (split; [apply Z.div_pos; lia|apply Z.lt_succ_r, Z.div_lt_upper_bound; lia]).
  assert (Q : - 2 ^ 31 < q + (n / 2 - 1) < 2 ^ 31) by (unfold SUB_MAX in *; nia). split; [exact Q|].
  assert (0 <= 2 ^ 24 / n < 2 ^ 24) by (split; [apply Z.div_pos; lia|apply Z.div_lt_upper_bound; lia]).
  set (t := 2 ^ 24 / n) in *. set (r := q + (n / 2 - 1)) in *. clearbody t r. change (2 ^ 24) with 16777216 in *. change (2 ^ 31) with 2147483648 in *.
  assert (L : - 2147483647 <= r * t / 16777216) by (apply Z.div_le_lower_bound; nia).
  assert (U : r * t / 16777216 <= 2147483647) by (apply Z.div_le_upper_bound; nia). lia.
Qed.

Lemma clamp_condition a b c : (Z.lor (Z.lxor a b) (Z.lxor a c) <=? 0) = negb (Bool.eqb (a <? 0) (b <? 0)) || negb (Bool.eqb (a <? 0) (c <? 0)) || (a =? b) && (a =? c).
Proof.
  pose proof (Z.lor_neg (Z.lxor a b) (Z.lxor a c)) as N. pose proof (Z.lor_eq_0_iff (Z.lxor a b) (Z.lxor a c)) as O.
  pose proof (Z.lxor_nonneg a b) as X1. pose proof (Z.lxor_nonneg a c) as X2. pose proof (Z.lxor_eq a b) as Y1. pose proof (Z.lxor_eq a c) as Y2.
  assert (Y1' : a = b -> Z.lxor a b = 0) by (intros ->; apply Z.lxor_nilpotent). assert (Y2' : a = c -> Z.lxor a c = 0) by (intros ->; apply Z.lxor_nilpotent).
  set (p := Z.lxor a b) in *. set (q := Z.lxor a c) in *. set (l := Z.lor p q) in *. clearbody p q l.
  destruct (Z.leb_spec l 0), (Z.ltb_spec a 0), (Z.ltb_spec b 0), (Z.ltb_spec c 0), (Z.eqb_spec a b), (Z.eqb_spec a c); cbn [Bool.eqb negb orb andb]; try reflexivity; lia.
Qed.
Lemma i32_shl v : - 2 ^ 20 <= v <= 2 ^ 20 -> i32 (Z.shiftl v 3) = 8 * v.
Proof. intros H. rewrite Z.shiftl_mul_pow2 by lia. rewrite i32_small; lia. Qed.
Lemma prePredict_val wp h w y x I E T buf e0 e1 e2 e3 e4 : wp_ok wp -> (y < h)%nat -> (x < w)%nat -> Z.of_nat w < 2 ^ 31 - 1 ->
  (forall y x, (y < h)%nat -> (x < w)%nat -> - 2 ^ 20 <= I y x <= 2 ^ 20) -> (forall y x, (y < h)%nat -> (x < w)%nat -> - 2 ^ 23 <= T y x <= 2 ^ 23) ->
  (forall i, (i < 4)%nat -> forall y x, (y < h)%nat -> (x < w)%nat -> err_range (E i y x)) ->
  rect h w buf -> rect h w e0 -> rect h w e1 -> rect h w e2 -> rect h w e3 -> rect h w e4 ->
  same_before h w (px buf) I y x -> same_before h w (px e0) (E 0%nat) y x -> same_before h w (px e1) (E 1%nat) y x -> same_before h w (px e2) (E 2%nat) y x ->
  same_before h w (px e3) (E 3%nat) y x -> same_before h w (px e4) T y x ->
  let hd := header_of wp in
  prePredictWP wp (Z.of_nat w) buf [e0; e1; e2; e3; e4] (Z.of_nat x) (Z.of_nat y)
  = Ok (largest_error w T y x, [sub hd w I T y x 0; sub hd w I T y x 1; sub hd w I T y x 2; sub hd w I T y x 3], weighted_prediction hd w I E T y x).
Proof.
  intros HWP Hy Hx Hw BI BT RE Rb R0 R1 R2 R3 R4 Sb S0 S1 S2 S3 S4 hd.
  destruct (nb_bound (fun v => - 2 ^ 20 <= v <= 2 ^ 20) h w I y x ltac:(cbv beta; lia) BI Hy Hx) as (B1 & B2 & B3 & B4 & B5 & _ & _).
  destruct (errs_bound (fun v => - 2 ^ 23 <= v <= 2 ^ 23) h w T y x ltac:(cbv beta; lia) BT Hy Hx) as (C1 & C2 & _ & C4 & C5). cbv beta in *.
  pose proof (sub_values wp h w I E T y x HWP Hy Hx BI BT) as (V0 & V1 & V2 & V3 & VB).
  pose proof (esum_range h w I E T y x Hy Hx BI BT RE) as ER.
  destruct HWP as (_ & _ & _ & _ & _ & _ & _ & L4 & HW). destruct (wp_weight wp) as [|g0 [|g1 [|g2 [|g3 [|]]]]] eqn:Ew; try discriminate L4.
  pose proof (Forall_inv_tail HW) as HW1. pose proof (Forall_inv_tail HW1) as HW2. pose proof (Forall_inv_tail HW2) as HW3. apply Forall_inv in HW, HW1, HW2, HW3.
  destruct (nbs_local h w (px buf) I y x Sb Hy Hx) as (N1 & N2 & N3 & N4 & N5 & _ & _).
  destruct (errs_local h w (px e4) T y x S4 Hy Hx) as (T1 & T2 & _ & T4 & T5).
  unfold prePredictWP.
  rewrite (north_ok h w), (northWest_ok h w), (northEast_ok h w), (west_ok h w), (northNorth_ok h w) by assumption. cbn [obind]. cbv zeta.
  change (slice_get [e0; e1; e2; e3; e4] 4) with (Ok e4). change (slice_get [e0; e1; e2; e3; e4] 0) with (Ok e0). change (slice_get [e0; e1; e2; e3; e4] 1) with (Ok e1).
  change (slice_get [e0; e1; e2; e3; e4] 2) with (Ok e2). change (slice_get [e0; e1; e2; e3; e4] 3) with (Ok e3). cbn [obind].
  rewrite (errorNorth_val h w e4), (errorWest_val h w e4), (errorNorthEast_val h w e4), (errorNorthWest_val h w e4) by assumption. cbn [obind].
  rewrite N1, N2, N3, N4, N5, T1, T2, T4, T5. rewrite !i32_shl by assumption. cbv zeta in V0, V1, V2, V3. rewrite V0, V1, V2, V3. fold hd in VB. fold hd.
  rewrite (errorSum_val h w e0 y x R0 Hy Hx Hw (E 0%nat) S0 (RE 0%nat ltac:(lia))), (errorSum_val h w e1 y x R1 Hy Hx Hw (E 1%nat) S1 (RE 1%nat ltac:(lia))),
    (errorSum_val h w e2 y x R2 Hy Hx Hw (E 2%nat) S2 (RE 2%nat ltac:(lia))), (errorSum_val h w e3 y x R3 Hy Hx Hw (E 3%nat) S3 (RE 3%nat ltac:(lia))). cbn [obind].
  rewrite Ew. change (slice_get [g0; g1; g2; g3] 0) with (Ok g0). change (slice_get [g0; g1; g2; g3] 1) with (Ok g1).
  change (slice_get [g0; g1; g2; g3] 2) with (Ok g2). change (slice_get [g0; g1; g2; g3] 3) with (Ok g3). cbn [obind].
  destruct (wpWeight_val g0 _ HW (ER 0%nat ltac:(lia))) as [W0 X0]. destruct (wpWeight_val g1 _ HW1 (ER 1%nat ltac:(lia))) as [W1 X1].
  destruct (wpWeight_val g2 _ HW2 (ER 2%nat ltac:(lia))) as [W2 X2]. destruct (wpWeight_val g3 _ HW3 (ER 3%nat ltac:(lia))) as [W3 X3].
  cbv zeta in W0, X0, W1, X1, W2, X2, W3, X3.
  assert (TR : forall i g, nth i (h_weights hd) 0 = g -> trust hd w E y x i = 4 + g * (2 ^ 24 / (error_sum w (E i) y x / 2 ^ (Z.max 0 (Z.log2 (error_sum w (E i) y x + 1) - 5)) + 1)) / 2 ^ (Z.max 0 (Z.log2 (error_sum w (E i) y x + 1) - 5)))
    by (intros i g <-; reflexivity).
  assert (HG : h_weights hd = [g0; g1; g2; g3]) by exact Ew.
  rewrite <- (TR 0%nat g0) in W0, X0 by (rewrite HG; reflexivity). rewrite <- (TR 1%nat g1) in W1, X1 by (rewrite HG; reflexivity).
  rewrite <- (TR 2%nat g2) in W2, X2 by (rewrite HG; reflexivity). rewrite <- (TR 3%nat g3) in W3, X3 by (rewrite HG; reflexivity). clear TR HG.
  rewrite W0, W1, W2, W3. cbn [obind].
  assert (ES : trust hd w E y x 0 + trust hd w E y x 1 + trust hd w E y x 2 + trust hd w E y x 3 = sum4 (trust hd w E y x)) by reflexivity.
  assert (BS : 16 <= sum4 (trust hd w E y x) < 2 ^ 30) by (rewrite <- ES; lia). rewrite ES. rewrite (i32_small (sum4 _)) by lia.
  pose proof (FloorLog1p_i64_ok (sum4 (trust hd w E y x) - 1) ltac:(lia)) as HL. replace (sum4 (trust hd w E y x) - 1 + 1) with (sum4 (trust hd w E y x)) in HL by lia. pose proof HL as (L0 & L1 & L2). apply floor_log in HL; [|lia].
  rewrite HL in *. set (L := Z.log2 (sum4 (trust hd w E y x))) in *.
  assert (LG : 4 <= L). { destruct (Z.lt_ge_cases L 4) as [H|H]; [|exact H]. assert (2 ^ (L + 1) <= 2 ^ 4) by (apply Z.pow_le_mono_r; lia). lia. }
  destruct (Z.ltb_spec (L - 4) 0); [lia|].
  pose proof (shr_sum (trust hd w E y x 0) (trust hd w E y x 1) (trust hd w E y x 2) (trust hd w E y x 3) (L - 4) ltac:(lia) ltac:(lia) ltac:(lia) ltac:(lia) ltac:(lia)) as SS.
  assert (BD : 16 <= sum4 (trust hd w E y x) / 2 ^ (L - 4) <= 31).
  { pose proof (Z.pow_pos_nonneg 2 (L - 4) ltac:(lia) ltac:(lia)). set (tot := sum4 (trust hd w E y x)) in *. clearbody tot L.
    replace L with (4 + (L - 4)) in L1 by lia. replace (L + 1) with (5 + (L - 4)) in L2 by lia. rewrite Z.pow_add_r in L1, L2 by lia.
    change (2 ^ 4) with 16 in L1. change (2 ^ 5) with 32 in L2. split; [apply Z.div_le_lower_bound; lia|].
    apply Z.lt_succ_r. apply Z.div_lt_upper_bound; lia. }
  rewrite ES in SS. rewrite !Z.shiftr_div_pow2 in SS by lia. rewrite !(Z.shiftr_div_pow2 _ (L - 4)) by lia.
  change (trust hd w E y x 0 / 2 ^ (L - 4)) with (scaled hd w E y x 0) in *. change (trust hd w E y x 1 / 2 ^ (L - 4)) with (scaled hd w E y x 1) in *.
  change (trust hd w E y x 2 / 2 ^ (L - 4)) with (scaled hd w E y x 2) in *. change (trust hd w E y x 3 / 2 ^ (L - 4)) with (scaled hd w E y x 3) in *.
  assert (EV : scaled hd w E y x 0 + scaled hd w E y x 1 + scaled hd w E y x 2 + scaled hd w E y x 3 = sum4 (scaled hd w E y x)) by reflexivity. rewrite EV in *.
  assert (SB : 13 <= sum4 (scaled hd w E y x) <= 31) by lia.
  assert (VP : forall i, 0 <= scaled hd w E y x i).
  { intros i. unfold scaled. apply Z.div_pos; [|apply Z.pow_pos_nonneg; lia]. 
    assert (T0 : forall i, (i < 4)%nat -> 0 <= trust hd w E y x i) by (intros [|[|[|[|j]]]] Hj; lia).
    destruct (Nat.ltb_spec i 4); [apply T0; assumption|]. unfold trust. rewrite (nth_overflow (h_weights hd)) by (change (h_weights hd) with (wp_weight wp); rewrite Ew; cbn; lia). cbn [Z.mul]. rewrite Z.div_0_l; [lia|]. apply Z.pow_nonzero; lia. }
  destruct (average_bound (scaled hd w E y x) (sub hd w I T y x) VP SB VB) as [A1 A2].
  rewrite (i32_small (sum4 (scaled hd w E y x))) by lia. rewrite (i32_small (sum4 (scaled hd w E y x) - 1)) by lia. rewrite table_get by lia. cbn [obind].
  replace (sum4 (scaled hd w E y x) - 1 + 1) with (sum4 (scaled hd w E y x)) by lia. rewrite shr1.
  replace (sub hd w I T y x 0 * scaled hd w E y x 0 + sub hd w I T y x 1 * scaled hd w E y x 1 + sub hd w I T y x 2 * scaled hd w E y x 2 + sub hd w I T y x 3 * scaled hd w E y x 3 +
     (sum4 (scaled hd w E y x) / 2 - 1)) with (sum4 (fun i => scaled hd w E y x i * sub hd w I T y x i) + (sum4 (scaled hd w E y x) / 2 - 1)) by (unfold sum4; ring).
  rewrite (i32_small (sum4 (fun i => scaled hd w E y x i * sub hd w I T y x i) + _)) by lia.
  assert (B64 : - 2 ^ 63 <= (sum4 (fun i => scaled hd w E y x i * sub hd w I T y x i) + (sum4 (scaled hd w E y x) / 2 - 1)) * (2 ^ 24 / sum4 (scaled hd w E y x)) < 2 ^ 63).
  { assert (H24 : 0 <= 2 ^ 24 / sum4 (scaled hd w E y x) <= 2 ^ 24) by (split; [apply Z.div_pos; lia|apply Z.div_le_upper_bound; lia]). clear -A1 H24. 
    set (a := sum4 (fun i => _) + _) in *. set (t := 2 ^ 24 / _) in *. clearbody a t. change (2 ^ 63) with 9223372036854775808. change (2 ^ 31) with 2147483648 in *. change (2 ^ 24) with 16777216 in *. nia. }
  rewrite (i64_small (_ * (2 ^ 24 / _))) by lia. rewrite (Z.shiftr_div_pow2 _ 24) by lia. rewrite i32_small by lia.
  fold (average hd w I E T y x). rewrite clamp_condition. fold (limited_range T y x).
  rewrite !abs_small by lia. clear -B1 B2 B4. unfold weighted_prediction, largest_error, larger.
  assert (K : Clamp (average hd w I E T y x) (8 * nW I y x) (8 * nN I y x) (8 * nNE w I y x) =
    Z.max (8 * Z.min (nW I y x) (Z.min (nN I y x) (nNE w I y x))) (Z.min (8 * Z.max (nW I y x) (Z.max (nN I y x) (nNE w I y x))) (average hd w I E T y x))) by (rewrite Clamp_ok; lia).
  rewrite K. set (P := if limited_range T y x then _ else _). clearbody P. clear K.
  destruct (Z.abs (eW T y x) <? Z.abs (eN T y x)); cbv beta iota.
  - destruct (Z.abs (eN T y x) <? Z.abs (eNW T y x)); cbv beta iota; reflexivity.
  - destruct (Z.abs (eW T y x) <? Z.abs (eNW T y x)); cbv beta iota; reflexivity.
Qed.

(* ---- properties ---- *)
Definition same_grid (mc c : Chan) : bool := (c_width c =? c_width mc) && (c_height c =? c_height mc) && (c_hshift c =? c_hshift mc) && (c_vshift c =? c_vshift mc).
Definition references (mc : Chan) (prev : list Chan) : list Plane := map (fun c => px (c_buf c)) (filter (same_grid mc) prev).
Definition sound_refs (h w : nat) (mc : Chan) (prev : list Chan) : Prop :=
  Forall (fun c => same_grid mc c = true -> rect h w (c_buf c) /\ samples_within (2 ^ 26) (c_buf c)) prev.
Lemma refProps_val h w mc y x k : (y < h)%nat -> (x < w)%nat -> k < 2 ^ 31 -> forall prev k2, 16 <= k2 <= k -> k2 + 4 * Z.of_nat (length prev) < 2 ^ 31 ->
  sound_refs h w mc prev ->
  refProps mc prev (Z.of_nat x) (Z.of_nat y) k k2 =
  Ok (match nth_error (references mc prev) (Z.to_nat ((k - k2) / 4)) with Some R => reference_property R y x ((k - k2) mod 4) | None => 0 end).
Proof.
  intros Hy Hx Hk. induction prev as [|c prev IH]; intros k2 Hk2 HL HS.
  - cbn [refProps references filter map]. destruct (Z.to_nat _); reflexivity.
  - unfold sound_refs in HS. pose proof (Forall_inv HS) as HC. pose proof (Forall_inv_tail HS) as HT. cbn [length] in HL. cbn [refProps].
    change (sameShape c mc) with (same_grid mc c). unfold references. cbn [filter]. destruct (same_grid mc c) eqn:EG; cbn [negb].
    + destruct (HC EG) as [RC SC]. rewrite (i32_small (k2 + 4)) by lia. destruct (Z.leb_spec (k2 + 4) k) as [H4|H4].
      * rewrite IH by (assumption || lia). cbn [map]. replace ((k - k2) / 4) with (1 + (k - (k2 + 4)) / 4) by (replace (k - k2) with (1 * 4 + (k - (k2 + 4))) by lia; rewrite Z.div_add_l; lia).
        assert (0 <= (k - (k2 + 4)) / 4) by (apply Z.div_pos; lia). replace (Z.to_nat (1 + (k - (k2 + 4)) / 4)) with (S (Z.to_nat ((k - (k2 + 4)) / 4))) by lia. cbn [nth_error].
        replace ((k - k2) mod 4) with ((k - (k2 + 4)) mod 4); [reflexivity|]. replace (k - k2) with (k - (k2 + 4) + 1 * 4) by lia. rewrite Z.mod_add; lia.
      * cbn [map]. replace ((k - k2) / 4) with 0 by (symmetry; apply Z.div_small; lia). change (Z.to_nat 0) with 0%nat. cbn [nth_error]. rewrite (Z.mod_small (k - k2)) by lia.
        rewrite (get2_ok h w) by (assumption || lia). rewrite !Nat2Z.id. cbn [obind].
        assert (BP : forall y x, (y < h)%nat -> (x < w)%nat -> - 2 ^ 26 <= px (c_buf c) y x <= 2 ^ 26) by (intros; apply (rect_within (2 ^ 26) h w); assumption).
        assert (EW : (if 0 <? Z.of_nat x then get2 (c_buf c) (Z.of_nat y) (Z.of_nat x - 1) else Ok 0) = Ok (match x with O => 0 | S x' => px (c_buf c) y x' end)).
        { destruct x as [|x']; [reflexivity|]. destruct (Z.ltb_spec 0 (Z.of_nat (S x'))); [|lia]. rewrite (get2_ok h w) by (assumption || lia). do 2 f_equal; lia. }
        assert (BW : - 2 ^ 26 <= match x with O => 0 | S x' => px (c_buf c) y x' end <= 2 ^ 26) by (destruct x; [lia|apply BP; lia]).
        unfold reference_property. set (rW := match x with O => 0 | S x' => px (c_buf c) y x' end) in *.
        assert (EN : (if 0 <? Z.of_nat y then get2 (c_buf c) (Z.of_nat y - 1) (Z.of_nat x) else Ok rW) = Ok (match y with O => rW | S y' => px (c_buf c) y' x end)).
        { destruct y as [|y']; [reflexivity|]. destruct (Z.ltb_spec 0 (Z.of_nat (S y'))); [|lia]. rewrite (get2_ok h w) by (assumption || lia). do 2 f_equal; lia. }
        assert (BN : - 2 ^ 26 <= match y with O => rW | S y' => px (c_buf c) y' x end <= 2 ^ 26) by (destruct y; [lia|apply BP; lia]).
        set (rN := match y with O => rW | S y' => px (c_buf c) y' x end) in *.
        assert (EQ : (if (0 <? Z.of_nat x) && (0 <? Z.of_nat y) then get2 (c_buf c) (Z.of_nat y - 1) (Z.of_nat x - 1) else Ok rW) = Ok (match y, x with S y', S x' => px (c_buf c) y' x' | _, _ => rW end)).
        { destruct y as [|y']; [rewrite andb_false_r; reflexivity|]. destruct x as [|x']; [reflexivity|].
          destruct (Z.ltb_spec 0 (Z.of_nat (S x'))); [|lia]. destruct (Z.ltb_spec 0 (Z.of_nat (S y'))); [|lia]. cbn [andb]. rewrite (get2_ok h w) by (assumption || lia). do 2 f_equal; lia. }
        assert (BQ : - 2 ^ 26 <= match y, x with S y', S x' => px (c_buf c) y' x' | _, _ => rW end <= 2 ^ 26) by (destruct y; [lia|destruct x; [lia|apply BP; lia]]).
        set (rNW := match y, x with S y', S x' => px (c_buf c) y' x' | _, _ => rW end) in *. pose proof (BP y x Hy Hx) as BC. set (rC := px (c_buf c) y x) in *.
        rewrite EW. cbn [obind]. rewrite EN. cbn [obind]. rewrite EQ. cbn [obind]. cbv zeta. rewrite Clamp3_ok. clearbody rW rN rNW rC. clear -BW BN BQ BC Hk2 H4.
        rewrite (i32_small (rW + rN - rNW)) by lia. rewrite (i32_small (rC - _)) by lia. rewrite !abs_small by lia.
        replace (Z.max (Z.min rN rW) (Z.min (Z.max rN rW) (rW + rN - rNW))) with (Z.max (Z.min rW rN) (Z.min (Z.max rW rN) (rW + rN - rNW))) by lia.
        destruct (Z.eqb_spec k2 k), (Z.eqb_spec (k - k2) 0); try lia; [reflexivity|].
        destruct (Z.eqb_spec (k2 + 1) k), (Z.eqb_spec (k - k2) 1); try lia; [reflexivity|].
        destruct (Z.eqb_spec (k2 + 2) k), (Z.eqb_spec (k - k2) 2); try lia; [reflexivity|].
        destruct (Z.eqb_spec (k2 + 3) k); [reflexivity|lia].
    + rewrite IH by (assumption || lia). reflexivity.
Qed.
Lemma walker_val h w mc prev ch st I y x worst k : (y < h)%nat -> (x < w)%nat -> Z.of_nat w < 2 ^ 31 - 1 -> c_width mc = Z.of_nat w -> rect h w (c_buf mc) ->
  (forall y x, (y < h)%nat -> (x < w)%nat -> - 2 ^ 26 <= I y x <= 2 ^ 26) -> same_before h w (px (c_buf mc)) I y x ->
  ch = Z.of_nat (length prev) -> ch < 2 ^ 28 -> sound_refs h w mc prev -> 0 <= k < 2 ^ 31 ->
  walkerFunc mc prev ch st (Z.of_nat x) (Z.of_nat y) worst k = Ok (property w I (references mc prev) ch st y x worst k).
Proof.
  intros Hy Hx Hw EW R BI SB Hc Hc2 HS Hk.
  destruct (nb_bound (fun v => - 2 ^ 26 <= v <= 2 ^ 26) h w I y x ltac:(cbv beta; lia) BI Hy Hx) as (BW & BN & BNW & BNE & BNN & BNEE & BWW). cbv beta in *.
  destruct (nbs_local h w _ _ y x SB Hy Hx) as (N1 & N2 & N3 & N4 & N5 & N6 & N7).
  destruct (Z.leb_spec 16 k) as [H16|H16].
  - unfold property. repeat match goal with |- context [k =? ?n] => destruct (Z.eqb_spec k n); [lia|] end.
    assert (EK : walkerFunc mc prev ch st (Z.of_nat x) (Z.of_nat y) worst k = if i32 (4 * ch) <=? i32 (k - 16) then Ok 0 else refProps mc prev (Z.of_nat x) (Z.of_nat y) k 16).
    { unfold walkerFunc. destruct k as [|p|p]; try lia. do 4 (destruct p as [p|p|]; try reflexivity; try lia). }
    rewrite EK, !i32_small by lia. destruct (Z.leb_spec (4 * ch) (k - 16)) as [H|H].
    + destruct (nth_error (references mc prev) (Z.to_nat ((k - 16) / 4))) eqn:En; [exfalso|reflexivity].
      assert (L : (length (references mc prev) <= length prev)%nat) by (unfold references; rewrite map_length; clear; induction prev as [|a l IH]; cbn; [lia|destruct (same_grid mc a); cbn; lia]).
      assert (Hn : (Z.to_nat ((k - 16) / 4) < length (references mc prev))%nat) by (apply nth_error_Some; congruence).
      assert (ch <= (k - 16) / 4) by (apply Z.div_le_lower_bound; lia). lia.
    + apply (refProps_val h w); [assumption|assumption|lia|lia|lia|assumption].
  - assert (C : In k [0;1;2;3;4;5;6;7;8;9;10;11;12;13;14;15]) by (cbn; lia). clear Hk H16.
    unfold walkerFunc, property. rewrite EW. rewrite (i32_small (Z.of_nat w)) by lia.
    cbn in C. repeat (destruct C as [<-|C]); [..|destruct C]; cbn [Z.eqb Pos.eqb]; try reflexivity;
    rewrite ?(west_ok h w), ?(north_ok h w), ?(northWest_ok h w), ?(northEast_ok h w), ?(northNorth_ok h w), ?(westWest_ok h w) by assumption; cbn [obind omap];
    rewrite ?N1, ?N2, ?N3, ?N4, ?N5, ?N7; rewrite ?abs_small by lia; try reflexivity; try (rewrite i32_small by lia; reflexivity).
    destruct x as [|x']; [cbn [Z.of_nat Z.ltb Z.compare]; f_equal; lia|].
    destruct (Z.ltb_spec 0 (Z.of_nat (S x'))); [|lia]. replace (Z.of_nat (S x') - 1) with (Z.of_nat x') by lia.
    rewrite (west_ok h w (c_buf mc) y x'), (north_ok h w (c_buf mc) y x'), (northWest_ok h w (c_buf mc) y x') by (assumption || lia). cbn [obind].
    assert (SB' : same_before h w (px (c_buf mc)) I y x') by (intros a b Hab; apply SB; unfold before in *; lia).
    destruct (nbs_local h w _ _ y x' SB' Hy ltac:(lia)) as (M1 & M2 & M3 & _).
    destruct (nb_bound (fun v => - 2 ^ 26 <= v <= 2 ^ 26) h w I y x' ltac:(cbv beta; lia) BI Hy ltac:(lia)) as (DW & DN & DNW & _). cbv beta in *.
    rewrite M1, M2, M3. f_equal. apply i32_small. lia.
Qed.
Lemma walk_ext nodes p q : (forall n, In n nodes -> 0 <= n_property n -> p (n_property n) = q (n_property n)) -> forall fuel t, walk fuel nodes t p = walk fuel nodes t q.
Proof.
  intros H. induction fuel as [|f IH]; intros t; [reflexivity|]. cbn [walk]. unfold slice_get. destruct (t <? 0); [reflexivity|]. destruct (nth_error nodes (Z.to_nat t)) as [n|] eqn:En; [|reflexivity].
  cbn [obind]. unfold isLeaf. destruct (Z.ltb_spec (n_property n) 0); [reflexivity|]. rewrite (H n (nth_error_In _ _ En)) by assumption.
  destruct (q (n_property n)); cbn [obind]; try reflexivity. rewrite !IH. reflexivity.
Qed.

(* ---- one pixel ---- *)
Definition beforeb (y' x' y x : nat) : bool := ((y' <? y) || (y' =? y) && (x' <? x))%nat.
Definition filled (h w y x : nat) (F : Plane) (m : list (list Z)) : Prop :=
  rect h w m /\ forall y' x', (y' < h)%nat -> (x' < w)%nat -> px m y' x' = if beforeb y' x' y x then F y' x' else 0.
Lemma filled_before h w y x F m : filled h w y x F m -> same_before h w (px m) F y x.
Proof.
  intros [_ H] y' x' Hb Hy Hx. rewrite H by assumption. unfold before in Hb. unfold beforeb.
  destruct (Nat.ltb_spec y' y), (Nat.eqb_spec y' y), (Nat.ltb_spec x' x); cbn [orb andb]; try reflexivity; lia.
Qed.
Lemma filled_set h w y x F m : filled h w y x F m -> (y < h)%nat -> (x < w)%nat ->
  exists m', set2 m (Z.of_nat y) (Z.of_nat x) (F y x) = Ok m' /\ filled h w y (S x) F m'.
Proof.
  intros [R H] Hy Hx. destruct (set2_ok h w m (Z.of_nat y) (Z.of_nat x) (F y x) R ltac:(lia) ltac:(lia)) as (m' & E & R' & P). exists m'. split; [exact E|]. split; [exact R'|].
  intros y' x' Hy' Hx'. rewrite P, !Nat2Z.id, H by assumption. unfold beforeb. rewrite (beforeb_step y x y' x').
  destruct (Nat.eqb_spec y' y) as [->|]; cbn [andb orb]; [|reflexivity]. destruct (Nat.eqb_spec x' x) as [->|]; cbn [orb]; reflexivity.
Qed.
Lemma filled_row h w y F m : filled h w y w F m -> filled h w (S y) 0 F m.
Proof.
  intros [R H]. split; [exact R|]. intros y' x' Hy Hx. rewrite H by assumption. unfold beforeb.
  destruct (Nat.ltb_spec y' y), (Nat.eqb_spec y' y), (Nat.ltb_spec x' w), (Nat.ltb_spec y' (S y)), (Nat.eqb_spec y' (S y)), (Nat.ltb_spec x' 0); cbn [orb andb]; try reflexivity; lia.
Qed.
Lemma filled_zero h w F : filled h w 0 0 F (zeros2 (Z.of_nat h) (Z.of_nat w)).
Proof.
  split; [pose proof (rect_zeros (Z.of_nat h) (Z.of_nat w)) as R; rewrite !Nat2Z.id in R; exact R|]. intros y x Hy Hx. unfold zeros2, px. rewrite !Nat2Z.id, nth_repeat_lt by assumption.
  rewrite nth_repeat_lt by assumption. unfold beforeb. destruct (Nat.ltb_spec y 0), (Nat.eqb_spec y 0), (Nat.ltb_spec x 0); cbn [orb andb]; try reflexivity; lia.
Qed.
Lemma filled_all h w F m : filled h w h 0 F m -> m = mat h w F.
Proof.
  intros [R H]. apply (rect_ext h w); [exact R|apply rect_mat|]. intros y x Hy Hx. rewrite H, px_mat by assumption. unfold beforeb. destruct (Nat.ltb_spec y h); [reflexivity|lia].
Qed.
Lemma within_px b h w m : rect h w m -> (forall y x, (y < h)%nat -> (x < w)%nat -> - b <= px m y x <= b) -> samples_within b m.
Proof.
  intros R H. unfold samples_within. apply Forall_forall. intros r Hr. apply Forall_forall. intros v Hv.
  apply (In_nth _ _ []) in Hr as (y & Hy & <-). apply (In_nth _ _ 0) in Hv as (x & Hx & <-). pose proof R as [L _].
  apply H; [lia|]. rewrite <- (rect_row h w m y R ltac:(lia)). exact Hx.
Qed.
Lemma filled_within b h w y x F m : 0 <= b -> filled h w y x F m -> (forall y x, (y < h)%nat -> (x < w)%nat -> - b <= F y x <= b) -> samples_within b m.
Proof.
  intros Hb [R H] B. apply (within_px b h w m R). intros y' x' Hy Hx. rewrite H by assumption. destruct (beforeb y' x' y x); [apply B; assumption|lia].
Qed.
Lemma predictor_local h w A B y x k P : same_before h w A B y x -> (y < h)%nat -> (x < w)%nat -> predictor w A y x k P = predictor w B y x k P.
Proof. intros S Hy Hx. destruct (nbs_local h w A B y x S Hy Hx) as (N1 & N2 & N3 & N4 & N5 & N6 & N7). unfold predictor. rewrite N1, N2, N3, N4, N5, N6, N7. reflexivity. Qed.
Lemma prediction_unweighted wz buf p q y x k : k <> 6 -> prediction wz buf p y x k = prediction wz buf q y x k.
Proof. intros H. unfold prediction. destruct k as [|k|k]; try reflexivity. do 4 (try (destruct k as [k|k|]; try reflexivity)); lia. Qed.
Lemma elift_ok {A} (v : A) s : elift (Ok v) s = (Ok v, s).
Proof. destruct s. reflexivity. Qed.
Lemma ebind_ok {A B} (m : EM A) (f : A -> EM B) s a s' : m s = (Ok a, s') -> ebind m f s = f a s'.
Proof. intros H. unfold ebind. rewrite H. reflexivity. Qed.

Lemma compactify_below nodes ch st : proper_tree nodes -> forall fuel i k, compactify fuel nodes (Z.of_nat i) ch st = Ok (Z.of_nat k) -> below nodes i k.
Proof.
  intros [HN HT]. induction fuel as [|f IH]; intros i k E; [discriminate|]. cbn [compactify] in E.
  unfold slice_get in E. destruct (Z.ltb_spec (Z.of_nat i) 0); [lia|]. rewrite Nat2Z.id in E. destruct (nth_error nodes i) as [n|] eqn:En; [|discriminate]. cbn [obind] in E.
  assert (Step : 0 <= n_property n -> forall v, compactify f nodes (if n_value n <? v then n_left n else n_right n) ch st = Ok (Z.of_nat k) -> below nodes i k).
  { intros Hp v Ev. destruct (HT i n En Hp) as (A & B & C & D). destruct (n_value n <? v).
    - replace (n_left n) with (Z.of_nat (Z.to_nat (n_left n))) in Ev by lia. apply IH in Ev. eapply below_trans; [|exact Ev]. eapply below_child; [constructor|exact En|exact Hp|left; lia].
    - replace (n_right n) with (Z.of_nat (Z.to_nat (n_right n))) in Ev by lia. apply IH in Ev. eapply below_trans; [|exact Ev]. eapply below_child; [constructor|exact En|exact Hp|right; lia]. }
  destruct (Z.eqb_spec (n_property n) 0); [apply (Step ltac:(lia) ch E)|]. destruct (Z.eqb_spec (n_property n) 1); [apply (Step ltac:(lia) st E)|].
  assert (i = k) by (injection E; lia). subst k. constructor.
Qed.

Section channel.
  Context (wp : WPParams) (nodes : list Node) (mc : Chan) (prev : list Chan) (ch stream dm : Z) (h w : nat) (I : Plane) (E : nat -> Plane) (T : Plane).
  Notation hd := (header_of wp).
  Notation P := (weighted_prediction hd w I E T).
  Notation refs := (references mc prev).
  Hypothesis HT : proper_tree nodes.
  Hypothesis HN : Forall (fun n => n_property n < 2 ^ 31 /\ (n_property n < 0 -> 0 <= n_predictor n <= 13)) nodes.
  Hypothesis Hw : Z.of_nat w < 2 ^ 31 - 1. Hypothesis Cw : c_width mc = Z.of_nat w.
  Hypothesis Hch : ch = Z.of_nat (length prev). Hypothesis Hch2 : ch < 2 ^ 28. Hypothesis HR : sound_refs h w mc prev.
  Hypothesis BI : forall y x, (y < h)%nat -> (x < w)%nat -> - 2 ^ 26 <= I y x <= 2 ^ 26.
  (* the sample at a pixel, and what is read for it *)
  Definition pixel_coded (y x : nat) (s s' : ES * BR) : Prop :=
    exists leaf n d, decides nodes (property w I refs ch stream y x (largest_error w T y x)) 0 leaf /\ nth_error nodes leaf = Some n /\
      ReadSymbolWithMultiplier (n_context n) dm s = (Ok d, s') /\ 0 <= d < 2 ^ 31 /\
      I y x = unzigzag d * n_multiplier n + n_offset n + predictor w I y x (n_predictor n) (P y x).

  Definition weighted_ready : Prop := wp_ok wp /\ error_history hd h w I E T /\ tame h w I T.
  Lemma errors_range : weighted_ready -> forall i, (i < 4)%nat -> forall y x, (y < h)%nat -> (x < w)%nat -> err_range (E i y x).
  Proof.
    intros (HW & HH & HB) i Hi y x Hy Hx. destruct (HH y x Hy Hx) as [_ HE]. rewrite (HE i Hi).
    assert (BI' : forall y x, (y < h)%nat -> (x < w)%nat -> - 2 ^ 20 <= I y x <= 2 ^ 20) by (intros; apply HB; assumption).
    assert (BT' : forall y x, (y < h)%nat -> (x < w)%nat -> - 2 ^ 23 <= T y x <= 2 ^ 23) by (intros; apply HB; assumption).
    pose proof (sub_values wp h w I E T y x HW Hy Hx BI' BT') as (_ & _ & _ & _ & VB). specialize (VB i). specialize (BI' y x Hy Hx). unfold SUB_MAX, err_range in *.
    split; [apply Z.div_pos; lia|apply Z.div_lt_upper_bound; lia].
  Qed.
  Lemma P_bound : weighted_ready -> forall y x, (y < h)%nat -> (x < w)%nat -> - 2 ^ 30 <= P y x <= 2 ^ 30.
  Proof. intros (_ & HH & HB) y x Hy Hx. destruct (HH y x Hy Hx) as [HT' _]. destruct (HB y x Hy Hx). lia. Qed.

  Definition state (useWP : bool) (y x : nat) (st : DS) : Prop :=
    filled h w y x I (d_buf st) /\
    (useWP = true -> exists e0 e1 e2 e3 e4, d_errs st = [e0; e1; e2; e3; e4] /\ filled h w y x (E 0%nat) e0 /\ filled h w y x (E 1%nat) e1 /\
       filled h w y x (E 2%nat) e2 /\ filled h w y x (E 3%nat) e3 /\ filled h w y x T e4 /\ filled h w y x P (d_pred st)).

  Lemma stored_val y x i : weighted_ready -> (i < 4)%nat -> (y < h)%nat -> (x < w)%nat ->
    Z.shiftr (i32 (Abs_i32 (i32 (sub hd w I T y x i - i32 (Z.shiftl (I y x) 3))) + 3)) 3 = E i y x.
  Proof.
    intros HWR Hi Hy Hx. destruct HWR as (HW & HH & HB). destruct (HH y x Hy Hx) as [_ HE]. rewrite (HE i Hi).
    assert (BI' : forall y x, (y < h)%nat -> (x < w)%nat -> - 2 ^ 20 <= I y x <= 2 ^ 20) by (intros; apply HB; assumption).
    assert (BT' : forall y x, (y < h)%nat -> (x < w)%nat -> - 2 ^ 23 <= T y x <= 2 ^ 23) by (intros; apply HB; assumption).
    pose proof (sub_values wp h w I E T y x HW Hy Hx BI' BT') as (_ & _ & _ & _ & VB). specialize (VB i). specialize (BI' y x Hy Hx). unfold SUB_MAX in *.
    rewrite i32_shl by assumption. rewrite (i32_small (_ - _)) by lia. rewrite abs_small by lia. rewrite i32_small by lia. rewrite Z.shiftr_div_pow2 by lia. reflexivity.
  Qed.
  Lemma store_ok y x st e0 e1 e2 e3 e4 : weighted_ready -> (y < h)%nat -> (x < w)%nat ->
    d_errs st = [e0; e1; e2; e3; e4] -> filled h w y x (E 0%nat) e0 -> filled h w y x (E 1%nat) e1 ->
    filled h w y x (E 2%nat) e2 -> filled h w y x (E 3%nat) e3 -> filled h w y x T e4 ->
    exists f0 f1 f2 f3 f4, storeErrors (d_errs st) (Z.of_nat y) (Z.of_nat x) (I y x) [sub hd w I T y x 0; sub hd w I T y x 1; sub hd w I T y x 2; sub hd w I T y x 3] (P y x) = Ok [f0; f1; f2; f3; f4] /\
      filled h w y (S x) (E 0%nat) f0 /\ filled h w y (S x) (E 1%nat) f1 /\ filled h w y (S x) (E 2%nat) f2 /\ filled h w y (S x) (E 3%nat) f3 /\ filled h w y (S x) T f4.
  Proof.
    intros HWR Hy Hx -> F0 F1 F2 F3 F4. unfold storeErrors. cbv zeta.
    change (slice_get [sub hd w I T y x 0; sub hd w I T y x 1; sub hd w I T y x 2; sub hd w I T y x 3] 0) with (Ok (sub hd w I T y x 0)).
    change (slice_get [sub hd w I T y x 0; sub hd w I T y x 1; sub hd w I T y x 2; sub hd w I T y x 3] 1) with (Ok (sub hd w I T y x 1)).
    change (slice_get [sub hd w I T y x 0; sub hd w I T y x 1; sub hd w I T y x 2; sub hd w I T y x 3] 2) with (Ok (sub hd w I T y x 2)).
    change (slice_get [sub hd w I T y x 0; sub hd w I T y x 1; sub hd w I T y x 2; sub hd w I T y x 3] 3) with (Ok (sub hd w I T y x 3)). cbn [obind].
    rewrite !(stored_val y x) by (assumption || lia).
    destruct (filled_set _ _ _ _ _ _ F0 Hy Hx) as (f0 & S0 & G0). destruct (filled_set _ _ _ _ _ _ F1 Hy Hx) as (f1 & S1 & G1).
    destruct (filled_set _ _ _ _ _ _ F2 Hy Hx) as (f2 & S2 & G2). destruct (filled_set _ _ _ _ _ _ F3 Hy Hx) as (f3 & S3 & G3). destruct (filled_set _ _ _ _ _ _ F4 Hy Hx) as (f4 & S4 & G4).
    change (slice_get [e0; e1; e2; e3; e4] 0) with (Ok e0). cbn [obind]. rewrite S0. cbn [obind].
    change (slice_set [e0; e1; e2; e3; e4] 0 f0) with (Ok [f0; e1; e2; e3; e4]). cbn [obind]. change (slice_get [f0; e1; e2; e3; e4] 1) with (Ok e1). cbn [obind]. rewrite S1. cbn [obind].
    change (slice_set [f0; e1; e2; e3; e4] 1 f1) with (Ok [f0; f1; e2; e3; e4]). cbn [obind]. change (slice_get [f0; f1; e2; e3; e4] 2) with (Ok e2). cbn [obind]. rewrite S2. cbn [obind].
    change (slice_set [f0; f1; e2; e3; e4] 2 f2) with (Ok [f0; f1; f2; e3; e4]). cbn [obind]. change (slice_get [f0; f1; f2; e3; e4] 3) with (Ok e3). cbn [obind]. rewrite S3. cbn [obind].
    change (slice_set [f0; f1; f2; e3; e4] 3 f3) with (Ok [f0; f1; f2; f3; e4]). cbn [obind]. change (slice_get [f0; f1; f2; f3; e4] 4) with (Ok e4). cbn [obind].
    destruct HWR as (_ & HH & HB). destruct (HH y x Hy Hx) as [HT' _]. destruct (HB y x Hy Hx) as [B1 B2]. rewrite i32_shl by exact B1.
    replace (i32 (P y x - 8 * I y x)) with (T y x) by (rewrite i32_small; lia). rewrite S4. cbn [obind]. change (slice_set [f0; f1; f2; f3; e4] 4 f4) with (Ok [f0; f1; f2; f3; f4]).
    exists f0, f1, f2, f3, f4. split; [reflexivity|]. split; [exact G0|]. split; [exact G1|]. split; [exact G2|]. split; [exact G3|exact G4].
  Qed.

  (* the leaf that is found, whether the predictor runs or not *)
  Lemma leaf_found useWP root refined y x leaf : (y < h)%nat -> (x < w)%nat -> (root < length nodes)%nat ->
    compactify (length nodes) nodes 0 ch stream = Ok (Z.of_nat root) ->
    compactifyWithY (length nodes) nodes (Z.of_nat root) ch stream (Z.of_nat y) = Ok refined ->
    (useWP = false -> forall k n, below nodes root k -> nth_error nodes k = Some n -> ~ weighted n) ->
    decides nodes (property w I refs ch stream y x (largest_error w T y x)) 0 leaf ->
    walk (length nodes) nodes refined (fun k => Ok (property w I refs ch stream y x (if useWP then largest_error w T y x else 0) k)) = Ok (Z.of_nat leaf) /\
    (useWP = false -> forall n, nth_error nodes leaf = Some n -> n_predictor n <> 6).
  Proof.
    intros Hy Hx Hroot Ec Er HU HD. assert (L0 : (0 < length nodes)%nat) by lia.
    set (full := property w I refs ch stream y x (largest_error w T y x)) in *.
    destruct (walk_ok nodes full HT (length nodes) 0%nat L0 ltac:(lia)) as (j & W0 & _ & _ & D0). assert (j = leaf) by (eapply decides_det; eassumption). subst j.
    destruct (compactify_ok nodes ch stream HT (length nodes) 0%nat L0 ltac:(lia)) as (r & Er' & Hr & _ & WC). change (Z.of_nat 0) with 0 in Er', WC. rewrite Ec in Er'. assert (r = root) by (injection Er'; lia). subst r.
    destruct (compactifyY_ok nodes ch stream (Z.of_nat y) HT (length nodes) root Hroot ltac:(lia)) as (f & Ef & Hf & _ & WY). rewrite Er in Ef. assert (refined = Z.of_nat f) by (injection Ef; lia). subst refined.
    destruct useWP.
    - split; [|discriminate]. cbv beta iota. rewrite <- (WY (fun k => Ok (property w I refs ch stream y x (largest_error w T y x) k)) eq_refl eq_refl eq_refl), <- (WC (fun k => Ok (property w I refs ch stream y x (largest_error w T y x) k)) eq_refl eq_refl). exact W0.
    - assert (WR : walk (length nodes) nodes (Z.of_nat root) (fun k => Ok (full k)) = Ok (Z.of_nat leaf)) by (rewrite <- (WC (fun k => Ok (full k)) eq_refl eq_refl); exact W0).
      destruct (walk_ok nodes full HT (length nodes) root Hroot ltac:(lia)) as (j & W1 & _ & _ & D1). rewrite WR in W1. assert (j = leaf) by (injection W1; lia). subst j.
      set (bare := property w I refs ch stream y x 0) in *.
      destruct (unweighted_walk nodes full bare HT ltac:(intros k Hk; unfold full, bare, property; destruct (Z.eqb_spec k 15); [lia|reflexivity]) root leaf D1 (HU eq_refl)) as [D2 N6].
      destruct (walk_ok nodes bare HT (length nodes) root Hroot ltac:(lia)) as (j & W2 & _ & _ & D3). assert (j = leaf) by (eapply decides_det; eassumption). subst j.
      split; [|intros _; exact N6]. change (walk (length nodes) nodes (Z.of_nat f) (fun k => Ok (bare k)) = Ok (Z.of_nat leaf)). rewrite <- (WY (fun k => Ok (bare k)) eq_refl eq_refl eq_refl). exact W2.
  Qed.
  Lemma pixel_ok useWP root refined y x s s' st : (y < h)%nat -> (x < w)%nat -> (root < length nodes)%nat ->
    compactify (length nodes) nodes 0 ch stream = Ok (Z.of_nat root) ->
    compactifyWithY (length nodes) nodes (Z.of_nat root) ch stream (Z.of_nat y) = Ok refined ->
    (useWP = false -> forall k n, below nodes root k -> nth_error nodes k = Some n -> ~ weighted n) ->
    (useWP = true -> weighted_ready) -> pixel_coded y x s s' -> state useWP y x st ->
    exists st', decodePixel wp useWP nodes refined mc prev ch stream dm (Z.of_nat y) (Z.of_nat x) st s = (Ok st', s') /\ state useWP y (S x) st'.
  Proof.
    intros Hy Hx Hroot Ec Er HU HWR (leaf & n & d & HD & En & Rd & Hd & HI) [FB FW].
    destruct (leaf_found useWP root refined y x leaf Hy Hx Hroot Ec Er HU HD) as [WK N6].
    pose proof (filled_before _ _ _ _ _ _ FB) as SB. pose proof (proj1 FB) as RB.
    assert (HNn : n_property n < 0 /\ 0 <= n_predictor n <= 13).
    { rewrite Forall_forall in HN. destruct (HN n (nth_error_In _ _ En)) as [_ H2]. assert (n_property n < 0); [|auto].
      clear -HD En. induction HD; [congruence|auto|auto]. }
    unfold decodePixel. rewrite Cw. rewrite (i32_small (Z.of_nat w)) by lia. cbv zeta.
    set (worst := if useWP then largest_error w T y x else 0).
    set (subs := if useWP then [sub hd w I T y x 0; sub hd w I T y x 1; sub hd w I T y x 2; sub hd w I T y x 3] else []).
    set (p := if useWP then P y x else 0).
    assert (E1 : (if useWP then prePredictWP wp (Z.of_nat w) (d_buf st) (d_errs st) (Z.of_nat x) (Z.of_nat y) else Ok (0, [], 0)) = Ok (worst, subs, p)).
    { unfold worst, subs, p. destruct useWP; [|reflexivity]. destruct (FW eq_refl) as (e0 & e1 & e2 & e3 & e4 & -> & F0 & F1 & F2 & F3 & F4 & _). specialize (HWR eq_refl).
      pose proof (errors_range HWR) as ER. destruct HWR as (HW & HH & HB).
      apply (prePredict_val wp h w y x I E T); try assumption; try (intros; apply HB; assumption);
      solve [exact (proj1 FB)|exact (proj1 F0)|exact (proj1 F1)|exact (proj1 F2)|exact (proj1 F3)|exact (proj1 F4)|apply filled_before; assumption]. }
    rewrite (ebind_ok _ _ _ _ _ (eq_trans (f_equal (fun o => elift o s) E1) (elift_ok _ s))). cbv beta iota.
    assert (E2 : exists pred, (if useWP then set2 (d_pred st) (Z.of_nat y) (Z.of_nat x) p else Ok (d_pred st)) = Ok pred /\
       (useWP = true -> filled h w y (S x) P pred) /\
       prediction (Z.of_nat w) (d_buf st) pred (Z.of_nat y) (Z.of_nat x) (n_predictor n) = Ok (predictor w I y x (n_predictor n) (P y x))).
    { assert (SBW : samples_within (2 ^ 26) (d_buf st)) by (apply (filled_within (2 ^ 26) _ _ _ _ _ _ ltac:(lia) FB BI)). unfold p. destruct useWP.
      - destruct (FW eq_refl) as (e0 & e1 & e2 & e3 & e4 & _ & _ & _ & _ & _ & _ & FP). destruct (filled_set _ _ _ _ _ _ FP Hy Hx) as (pred & Es & FP'). exists pred. split; [exact Es|]. split; [auto|].
        rewrite (prediction_exact h w) by (try assumption; try exact (proj1 FP'); try lia; apply (filled_within (2 ^ 30) _ _ _ _ _ _ ltac:(lia) FP' (P_bound (HWR eq_refl)))).
        f_equal. rewrite (predictor_local h w _ I) by assumption. f_equal. rewrite (proj2 FP') by assumption. unfold beforeb.
        destruct (Nat.ltb_spec y y), (Nat.eqb_spec y y), (Nat.ltb_spec x (S x)); cbn [orb andb]; try reflexivity; lia.
      - exists (d_pred st). split; [reflexivity|]. split; [discriminate|]. specialize (N6 eq_refl n En).
        rewrite (prediction_unweighted _ _ _ (zeros2 (Z.of_nat h) (Z.of_nat w))) by exact N6.
        pose proof (filled_zero h w (fun _ _ => 0)) as FZ.
        rewrite (prediction_exact h w) by (try assumption; try exact (proj1 FZ); try lia; apply (filled_within (2 ^ 30) _ _ _ _ _ _ ltac:(lia) FZ); intros; lia).
        f_equal. rewrite (predictor_local h w _ I) by assumption. unfold predictor. destruct (Z.eqb_spec (n_predictor n) 6); [contradiction|reflexivity]. }
    destruct E2 as (pred & Ep & FP & EP).
    rewrite (ebind_ok _ _ _ _ _ (eq_trans (f_equal (fun o => elift o s) Ep) (elift_ok _ s))). cbv beta.
    assert (E3 : walk (length nodes) nodes refined (walkerFunc (set_buf mc (d_buf st)) prev ch stream (Z.of_nat x) (Z.of_nat y) worst) = Ok (Z.of_nat leaf)).
    { rewrite <- WK. apply walk_ext. intros m Hm Hp. rewrite Forall_forall in HN. destruct (HN m Hm) as [Hm1 _].
      rewrite (walker_val h w (set_buf mc (d_buf st)) prev ch stream I y x worst) by (assumption || lia). reflexivity. }
    rewrite (ebind_ok _ _ _ _ _ (eq_trans (f_equal (fun o => elift o s) E3) (elift_ok _ s))). cbv beta.
    assert (E4 : slice_get nodes (Z.of_nat leaf) = Ok n) by (unfold slice_get; destruct (Z.ltb_spec (Z.of_nat leaf) 0); [lia|rewrite Nat2Z.id, En; reflexivity]).
    rewrite (ebind_ok _ _ _ _ _ (eq_trans (f_equal (fun o => elift o s) E4) (elift_ok _ s))). cbv beta.
    rewrite (ebind_ok _ _ _ _ _ Rd). cbv beta.
    rewrite (ebind_ok _ _ _ _ _ (eq_trans (f_equal (fun o => elift o s') EP) (elift_ok _ s'))). cbv beta.
    assert (EV : i32 (i32 (UnpackSigned (u32 d) * n_multiplier n + n_offset n) + predictor w I y x (n_predictor n) (P y x)) = I y x).
    { replace (u32 d) with d by (symmetry; apply Z.mod_small; lia). rewrite unpack_small by exact Hd. pose proof (BI y x Hy Hx) as B. rewrite HI. rewrite HI in B.
      rewrite ProofSqueeze.i32_idem_l. apply i32_small. lia. }
    rewrite EV. destruct (filled_set _ _ _ _ _ _ FB Hy Hx) as (buf & Eb & FB').
    rewrite (ebind_ok _ _ _ _ _ (eq_trans (f_equal (fun o => elift o s') Eb) (elift_ok _ s'))). cbv beta.
    assert (E5 : exists errs, (if useWP then storeErrors (d_errs st) (Z.of_nat y) (Z.of_nat x) (I y x) subs p else Ok (d_errs st)) = Ok errs /\
       (useWP = true -> exists f0 f1 f2 f3 f4, errs = [f0; f1; f2; f3; f4] /\ filled h w y (S x) (E 0%nat) f0 /\ filled h w y (S x) (E 1%nat) f1 /\ filled h w y (S x) (E 2%nat) f2 /\
          filled h w y (S x) (E 3%nat) f3 /\ filled h w y (S x) T f4)).
    { unfold subs, p. destruct useWP; [|exists (d_errs st); split; [reflexivity|discriminate]].
      destruct (FW eq_refl) as (e0 & e1 & e2 & e3 & e4 & Ee & F0 & F1 & F2 & F3 & F4 & _).
      destruct (store_ok y x st e0 e1 e2 e3 e4 (HWR eq_refl) Hy Hx Ee F0 F1 F2 F3 F4) as (f0 & f1 & f2 & f3 & f4 & Es & G). exists [f0; f1; f2; f3; f4]. split; [exact Es|].
      intros _. exists f0, f1, f2, f3, f4. split; [reflexivity|exact G]. }
    destruct E5 as (errs & Ee & FE).
    rewrite (ebind_ok _ _ _ _ _ (eq_trans (f_equal (fun o => elift o s') Ee) (elift_ok _ s'))). cbv beta.
    eexists. split; [reflexivity|]. split; [exact FB'|]. cbn [d_buf d_errs d_pred]. intros Hu. destruct (FE Hu) as (f0 & f1 & f2 & f3 & f4 & -> & G0 & G1 & G2 & G3 & G4).
    exists f0, f1, f2, f3, f4. split; [reflexivity|]. split; [exact G0|]. split; [exact G1|]. split; [exact G2|]. split; [exact G3|]. split; [exact G4|exact (FP Hu)].
  Qed.
  Lemma eloop_inv {S0} (Inv : nat -> S0 -> Prop) (f : nat -> S0 -> EM S0) (ss : nat -> ES * BR) : forall n i s, Inv i s ->
    (forall j s, (i <= j < i + n)%nat -> Inv j s -> exists s', f j s (ss j) = (Ok s', ss (S j)) /\ Inv (S j) s') ->
    exists s', eloop n i f s (ss i) = (Ok s', ss (i + n)%nat) /\ Inv (i + n)%nat s'.
  Proof.
    induction n as [|n IH]; intros i s Hi Hs; cbn [eloop]; [exists s; rewrite Nat.add_0_r; split; [reflexivity|exact Hi]|].
    destruct (Hs i s ltac:(lia) Hi) as (s1 & E1 & I1). rewrite (ebind_ok _ _ _ _ _ E1). destruct (IH (S i) s1 I1) as (s2 & E2 & I2); [intros; apply Hs; [lia|assumption]|].
    exists s2. replace (i + S n)%nat with (S i + n)%nat by lia. split; assumption.
  Qed.
  Lemma decode_ok ss : (1 <= h)%nat -> (1 <= w)%nat -> c_height mc = Z.of_nat h -> c_buf mc = [] -> c_decoded mc = false ->
    (c_forceWP mc = true \/ (exists k n, below nodes 0 k /\ nth_error nodes k = Some n /\ weighted n) -> weighted_ready) ->
    (forall y x, (y < h)%nat -> (x < w)%nat -> pixel_coded y x (ss (y * w + x)%nat) (ss (S (y * w + x)))) ->
    exists pred, decode wp nodes mc prev ch stream dm (ss 0%nat) =
      (Ok (mkChan (c_height mc) (c_width mc) (c_vshift mc) (c_hshift mc) (c_forceWP mc) (mat h w I) true pred), ss (h * w)%nat).
  Proof.
    intros H1 W1 Ch Cb Cd HWR HP. unfold decode. rewrite Cd.
    assert (Ea : allocate mc = set_buf mc (zeros2 (Z.of_nat h) (Z.of_nat w))).
    { unfold allocate. rewrite Cb. cbn [length Nat.eqb negb]. rewrite Ch, Cw. destruct (Z.eqb_spec (Z.of_nat h) 0), (Z.eqb_spec (Z.of_nat w) 0); try lia. reflexivity. }
    rewrite Ea. cbv zeta. cbn [set_buf c_height c_width c_vshift c_hshift c_forceWP c_buf c_pred]. rewrite Ch, Cw, !Nat2Z.id.
    assert (L0 : (0 < length nodes)%nat) by (destruct HT as [Q _]; destruct nodes; [congruence|cbn; lia]).
    destruct (compactify_ok nodes ch stream HT (length nodes) 0%nat L0 ltac:(lia)) as (root & Er & Hr & _ & _). change (Z.of_nat 0) with 0 in Er.
    rewrite (ebind_ok _ _ _ _ _ (eq_trans (f_equal (fun o => elift o (ss 0%nat)) Er) (elift_ok _ _))). cbv beta.
    destruct (weighted_ok nodes HT (length nodes) root ltac:(lia) ltac:(lia)) as (b & Eb & Hb).
    assert (BR : below nodes 0 root) by (apply (compactify_below nodes ch stream HT (length nodes) 0 root); exact Er).
    set (useWP := if c_forceWP mc then true else b).
    assert (E1 : (if c_forceWP mc then eret true else elift (useWeightedPredictor (length nodes) nodes (Z.of_nat root))) (ss 0%nat) = (Ok useWP, ss 0%nat)).
    { unfold useWP. destruct (c_forceWP mc); [reflexivity|]. rewrite Eb. apply elift_ok. }
    rewrite (ebind_ok _ _ _ _ _ E1). cbv beta.
    assert (HU : useWP = false -> forall k n, below nodes root k -> nth_error nodes k = Some n -> ~ weighted n).
    { unfold useWP. intros Hu k n Hk Hn Hwt. destruct (c_forceWP mc); [discriminate|]. subst b. discriminate (proj2 Hb (ex_intro _ k (ex_intro _ n (conj Hk (conj Hn Hwt))))). }
    assert (HWR' : useWP = true -> weighted_ready).
    { unfold useWP. intros Hu. apply HWR. destruct (c_forceWP mc); [left; reflexivity|right]. destruct (proj1 Hb Hu) as (k & n & Hk & Hn & Hwt). exists k, n. split; [|auto]. eapply below_trans; eassumption. }
    set (st0 := mkDS _ _ _).
    assert (I0 : state useWP 0 0 st0).
    { unfold state, st0. cbn [d_buf d_errs d_pred]. split; [apply filled_zero|]. intros ->. exists (zeros2 (Z.of_nat h) (Z.of_nat w)), (zeros2 (Z.of_nat h) (Z.of_nat w)), (zeros2 (Z.of_nat h) (Z.of_nat w)), (zeros2 (Z.of_nat h) (Z.of_nat w)), (zeros2 (Z.of_nat h) (Z.of_nat w)).
      split; [reflexivity|]. split; [apply filled_zero|]. split; [apply filled_zero|]. split; [apply filled_zero|]. split; [apply filled_zero|]. split; [apply filled_zero|]. apply filled_zero. }
    assert (IR : forall y st, state useWP y w st -> state useWP (S y) 0 st).
    { intros y st [FB FW]. split; [apply filled_row, FB|]. intros Hu. destruct (FW Hu) as (e0 & e1 & e2 & e3 & e4 & Ee & G0 & G1 & G2 & G3 & G4 & G5). exists e0, e1, e2, e3, e4. split; [exact Ee|].
      split; [apply filled_row, G0|]. split; [apply filled_row, G1|]. split; [apply filled_row, G2|]. split; [apply filled_row, G3|]. split; [apply filled_row, G4|apply filled_row, G5]. }
    set (rowBody := fun (y : nat) (st : DS) => _).
    destruct (eloop_inv (fun y st => state useWP y 0 st) rowBody (fun y => ss (y * w)%nat) h 0 st0 I0) as (st & Est & Ist).
    { intros y st Hy Ist. unfold rowBody.
      destruct (compactifyY_ok nodes ch stream (Z.of_nat y) HT (length nodes) root ltac:(lia) ltac:(lia)) as (f & Ef & Hf & _ & _).
      rewrite (ebind_ok _ _ _ _ _ (eq_trans (f_equal (fun o => elift o (ss (y * w)%nat)) Ef) (elift_ok _ _))). cbv beta.
      destruct (eloop_inv (fun x st => state useWP y x st) (fun x st => decodePixel wp useWP nodes (Z.of_nat f) mc prev ch stream dm (Z.of_nat y) (Z.of_nat x) st) (fun x => ss (y * w + x)%nat) w 0 st Ist) as (st' & Es & Is).
      { intros x st1 Hx I1. apply (pixel_ok useWP root (Z.of_nat f) y x (ss (y * w + x)%nat) (ss (y * w + S x)%nat) st1); try assumption; try lia.
        replace (y * w + S x)%nat with (S (y * w + x)) by lia. apply HP; lia. }
      rewrite Nat.add_0_r in Es. exists st'. split; [|apply IR; exact Is]. replace (S y * w)%nat with (y * w + (0 + w))%nat by lia. exact Es. }
    cbn [Nat.mul] in Est. rewrite (ebind_ok _ _ _ _ _ Est). cbv beta. exists (d_pred st). unfold eret. cbn [Nat.add] in Ist |- *. rewrite (filled_all h w I (d_buf st) (proj1 Ist)). reflexivity.
  Qed.
End channel.
