(* C16: the Fenwick tree implements Lehmer decoding. *)
From Coq Require Import ZArith List Bool Lia ZifyBool ZifyNat Permutation.
From Verif Require Import GoBase GoLoop Bits ModelBitReader ModelUtil ModelEntropy ModelToc SpecToc.
From Verif Require Import ProofCodes.
Import ListNotations.
Open Scope Z_scope.

(* ---- low bits ---- *)
Lemma low_odd a : Z.land (2 * a + 1) (- (2 * a + 1)) = 1.
Proof.
  apply Z.bits_inj'. intros n Hn. rewrite Z.land_spec. destruct (Z.eq_dec n 0) as [->|].
  - rewrite Z.testbit_odd_0. replace (- (2 * a + 1)) with (2 * (- a - 1) + 1) by lia. rewrite Z.testbit_odd_0. reflexivity.
  - replace n with (Z.succ (n - 1)) by lia. rewrite Z.testbit_odd_succ by lia.
    replace (- (2 * a + 1)) with (2 * (- a - 1) + 1) by lia. rewrite Z.testbit_odd_succ by lia.
    replace (- a - 1) with (Z.lnot a) by (unfold Z.lnot; lia). rewrite Z.lnot_spec by lia. rewrite andb_negb_r.
    change 1 with (2 * 0 + 1). rewrite Z.testbit_odd_succ by lia. symmetry. apply Z.testbit_0_l.
Qed.
Lemma low_val a t : 0 <= t -> lowbit ((2 * a + 1) * 2 ^ t) = 2 ^ t.
Proof.
  intros Ht. unfold lowbit. rewrite <- Z.mul_opp_l. rewrite <- !Z.shiftl_mul_pow2 by lia. rewrite <- Z.shiftl_land.
  rewrite low_odd. rewrite Z.shiftl_mul_pow2 by lia. lia.
Qed.
Lemma low_decomp i : 0 < i -> exists a t, 0 <= a /\ 0 <= t /\ i = (2 * a + 1) * 2 ^ t.
Proof.
  intros Hi. destruct i as [|p|p]; try lia. clear Hi. induction p as [p IH|p IH|].
  - exists (Z.pos p), 0. rewrite Z.pow_0_r. lia.
  - destruct IH as (a & t & Ha & Ht & E). exists a, (t + 1). rewrite Z.pow_add_r by lia. rewrite Pos2Z.inj_xO. change (2 ^ 1) with 2.
    split; [assumption|]. split; [lia|]. rewrite Z.mul_assoc, <- E. lia.
  - exists 0, 0. cbn. lia.
Qed.
Lemma low_pos i : 0 < i -> 0 < lowbit i <= i.
Proof.
  intros H. destruct (low_decomp i H) as (a & t & Ha & Ht & ->). rewrite low_val by assumption. pose proof (pow2_pos t Ht). nia.
Qed.
(* i + lowbit i covers everything i covers *)
Lemma low_next i : 0 < i -> i + lowbit i - lowbit (i + lowbit i) <= i - lowbit i.
Proof.
  intros H. destruct (low_decomp i H) as (a & t & Ha & Ht & ->). rewrite low_val by assumption.
  replace ((2 * a + 1) * 2 ^ t + 2 ^ t) with ((a + 1) * 2 ^ (t + 1)) by (rewrite Z.pow_add_r by lia; change (2 ^ 1) with 2; ring).
  destruct (low_decomp (a + 1) ltac:(lia)) as (b & u & Hb & Hu & E). rewrite E, <- Z.mul_assoc, <- Z.pow_add_r, low_val by lia.
  pose proof (pow2_pos t Ht). pose proof (pow2_pos u Hu).
  assert (X : 2 ^ (u + (t + 1)) = 2 ^ u * (2 ^ t * 2)) by (rewrite !Z.pow_add_r by lia; reflexivity).
  assert (Y : (2 * b + 1) * 2 ^ (u + (t + 1)) = (a + 1) * (2 ^ t * 2)) by (rewrite X, E; ring).
  rewrite Y, X. nia.
Qed.
(* nothing between i and i + lowbit i covers anything up to i *)
Lemma low_between i j : 0 < i -> i < j < i + lowbit i -> i <= j - lowbit j.
Proof.
  intros H Hj. destruct (low_decomp i H) as (a & t & Ha & Ht & E). rewrite E, low_val in Hj by assumption. 
  destruct (low_decomp (j - i) ltac:(lia)) as (b & s & Hb & Hs & Ej).
  assert (Hst : s < t).
  { destruct (Z_lt_dec s t) as [|N]; [assumption|exfalso]. assert (2 ^ t <= 2 ^ s) by (apply Z.pow_le_mono_r; lia). 
    pose proof (pow2_pos t Ht). pose proof (pow2_pos s Hs). nia. }
  assert (X : 2 ^ t = 2 ^ (t - s - 1) * 2 * 2 ^ s).
  { replace (2 ^ (t - s - 1) * 2) with (2 ^ (t - s)); [rewrite <- Z.pow_add_r by lia; f_equal; lia|].
    replace (t - s) with (t - s - 1 + 1) at 1 by lia. rewrite Z.pow_add_r by lia. reflexivity. }
  assert (Y : j = (2 * ((2 * a + 1) * 2 ^ (t - s - 1) + b) + 1) * 2 ^ s).
  { replace j with (i + (j - i)) by lia. rewrite Ej. rewrite E at 1. rewrite X. ring. }
  rewrite Y at 2. rewrite low_val by assumption. pose proof (pow2_pos s Hs). nia.
Qed.
Lemma low_mult q m : 0 <= m -> lowbit (q * (2 * 2 ^ m) + 2 ^ m) = 2 ^ m.
Proof. intros Hm. replace (q * (2 * 2 ^ m) + 2 ^ m) with ((2 * q + 1) * 2 ^ m) by ring. now apply low_val. Qed.

(* ---- counting available elements ---- *)
(* cnt av a b: available j with a < j <= b *)
Fixpoint cntN (av : Z -> bool) (a : Z) (n : nat) : Z :=
  match n with O => 0 | S n' => cntN av a n' + (if av (a + Z.of_nat n) then 1 else 0) end.
Definition cnt (av : Z -> bool) (a b : Z) : Z := cntN av a (Z.to_nat (b - a)).
Lemma cntN_nonneg av a n : 0 <= cntN av a n.
Proof. induction n; cbn [cntN]; [lia|]. destruct (av _); lia. Qed.
Lemma cnt_self av a : cnt av a a = 0.
Proof. unfold cnt. rewrite Z.sub_diag. reflexivity. Qed.
Lemma cnt_succ av a b : a <= b -> cnt av a (b + 1) = cnt av a b + (if av (b + 1) then 1 else 0).
Proof.
  intros H. unfold cnt. replace (Z.to_nat (b + 1 - a)) with (S (Z.to_nat (b - a))) by lia. cbn [cntN].
  replace (a + Z.of_nat (S (Z.to_nat (b - a)))) with (b + 1) by lia. reflexivity.
Qed.
Lemma cnt_split av a b c : a <= b <= c -> cnt av a c = cnt av a b + cnt av b c.
Proof.
  intros H. replace c with (b + Z.of_nat (Z.to_nat (c - b))) by lia. set (n := Z.to_nat (c - b)). clearbody n.
  induction n as [|n IH]; [rewrite Z.add_0_r, cnt_self; lia|].
  replace (b + Z.of_nat (S n)) with (b + Z.of_nat n + 1) by lia. rewrite !cnt_succ by lia. lia.
Qed.
Lemma cnt_nonneg av a b : 0 <= cnt av a b.
Proof. apply cntN_nonneg. Qed.
Definition use (p : Z) (av : Z -> bool) : Z -> bool := fun j => if j =? p then false else av j.
Lemma cnt_use av p a b : a <= b -> av p = true ->
  cnt (use p av) a b = cnt av a b - (if (a <? p) && (p <=? b) then 1 else 0).
Proof.
  intros H Hp. replace b with (a + Z.of_nat (Z.to_nat (b - a))) by lia. set (n := Z.to_nat (b - a)). clearbody n.
  induction n as [|n IH]; [rewrite Z.add_0_r, !cnt_self; destruct (Z.ltb_spec a p), (Z.leb_spec p a); cbn [andb]; lia|].
  replace (a + Z.of_nat (S n)) with (a + Z.of_nat n + 1) by lia. rewrite !cnt_succ by lia. rewrite IH.
  unfold use at 1. destruct (Z.eqb_spec (a + Z.of_nat n + 1) p) as [E|E].
  - rewrite E, Hp. destruct (Z.ltb_spec a p), (Z.leb_spec p (a + Z.of_nat n)), (Z.leb_spec p p); cbn [andb]; lia.
  - destruct (av _); destruct (Z.ltb_spec a p), (Z.leb_spec p (a + Z.of_nat n)), (Z.leb_spec p (a + Z.of_nat n + 1)); cbn [andb]; lia.
Qed.

(* ---- the tree ---- *)
Definition tree_ok (n : Z) (tree : list Z) (av : Z -> bool) : Prop :=
  Z.of_nat (length tree) = n + 1 /\ forall i, 1 <= i <= n -> nth (Z.to_nat i) tree 0 = cnt av (i - lowbit i) i.

Lemma cnt_all a n : cntN (fun _ => true) a n = Z.of_nat n.
Proof. induction n as [|n IH]; cbn [cntN]; lia. Qed.
Lemma init_ok n : 0 <= n < 2 ^ 32 - 1 -> exists tree, fenwickInit n = Ok tree /\ tree_ok n tree (fun _ => true).
Proof.
  intros Hn. unfold fenwickInit. rewrite u32_small by lia. destruct (Z.eqb_spec (n + 1) 0); [lia|]. eexists. split; [reflexivity|].
  split; [rewrite map_length, seq_length; lia|]. intros i Hi.
  set (f := fun i0 => if (i0 =? 0)%nat then 0 else lowbit (Z.of_nat i0)).
  rewrite (nth_indep _ 0 (f 0%nat)) by (rewrite map_length, seq_length; lia). rewrite map_nth, seq_nth by lia. cbn [plus]. unfold f.
  destruct (Nat.eqb_spec (Z.to_nat i) 0); [lia|]. rewrite Z2Nat.id by lia. unfold cnt. rewrite cnt_all. pose proof (low_pos i ltac:(lia)). lia.
Qed.

Lemma growMask_ok fuel m n : 0 <= n -> 0 <= m -> n < 2 ^ (m + Z.of_nat fuel - 1) -> (m = 0 \/ 2 ^ (m - 1) <= n) ->
  exists m', 0 <= m' /\ growMask fuel (2 ^ m) n = Ok (2 ^ m') /\ n < 2 ^ m' /\ (m' = 0 \/ 2 ^ (m' - 1) <= n) /\ m <= m' <= m + Z.of_nat fuel.
Proof.
  intros H0n. revert m. induction fuel as [|fuel IH]; intros m Hm Hn Hlo.
  - exfalso. replace (m + Z.of_nat 0 - 1) with (m - 1) in Hn by lia. destruct Hlo as [->|]; [|lia].
    cbn in Hn. lia.
  - cbn [growMask]. destruct (Z.leb_spec (2 ^ m) n) as [L|L].
    + rewrite Z.shiftl_mul_pow2 by lia. replace (2 ^ m * 2 ^ 1) with (2 ^ (m + 1)) by (rewrite Z.pow_add_r by lia; lia).
      destruct (IH (m + 1)) as (m' & A & B & C & D & E); try lia.
      { eapply Z.lt_le_trans; [exact Hn|]. apply Z.pow_le_mono_r; lia. }
      { right. replace (m + 1 - 1) with m by lia. assumption. }
      exists m'. split; [assumption|]. split; [assumption|]. split; [assumption|]. split; [assumption|]. lia.
    + exists m. split; [assumption|]. split; [reflexivity|]. split; [assumption|]. split; [assumption|]. lia.
Qed.

Lemma findLoop_ok n tree av : tree_ok n tree av -> forall fuel m pos k q, (Z.to_nat (m + 1) < fuel)%nat -> -1 <= m ->
  0 <= pos -> pos = q * 2 ^ (m + 1) -> pos <= n -> 0 < k -> (pos + 2 ^ (m + 1) > n \/ k <= cnt av pos (pos + 2 ^ (m + 1))) ->
  k <= cnt av pos n ->
  exists p, findLoop fuel tree n (if m =? -1 then 0 else 2 ^ m) pos k = Ok (p + 1) /\ pos <= p < n /\ cnt av pos p < k /\ k <= cnt av pos (p + 1).
Proof.
  intros [HL HT]. induction fuel as [|fuel IH]; intros m pos k q Hf Hm Hp Hq Hpn Hk Hhi Htot; [lia|].
  cbn [findLoop]. destruct (Z.eqb_spec m (-1)) as [->|Hm1].
  - cbn [Z.ltb Z.compare]. exists pos. change (2 ^ (-1 + 1)) with 1 in *. rewrite cnt_self.
    destruct (Z.eq_dec pos n) as [->|]; [rewrite cnt_self in Htot; lia|]. split; [reflexivity|]. split; [lia|]. split; [lia|].
    destruct Hhi; [lia|assumption].
  - assert (P : 0 < 2 ^ m) by (apply pow2_pos; lia). assert (PP : 2 ^ (m + 1) = 2 * 2 ^ m) by (rewrite Z.pow_add_r by lia; lia).
    destruct (Z.ltb_spec 0 (2 ^ m)); [|lia].
    assert (Sh : Z.shiftr (2 ^ m) 1 = if m - 1 =? -1 then 0 else 2 ^ (m - 1)).
    { rewrite Z.shiftr_div_pow2 by lia. destruct (Z.eqb_spec (m - 1) (-1)) as [E|E].
      - replace m with 0 by lia. reflexivity.
      - replace (2 ^ m) with (2 ^ (m - 1) * 2 ^ 1) by (rewrite <- Z.pow_add_r by lia; f_equal; lia). apply Z.div_mul. lia. }
    rewrite Sh. 
    assert (M1 : m - 1 + 1 = m) by lia.
    assert (Q1 : pos + 2 ^ m = (2 * q + 1) * 2 ^ m) by (rewrite Hq, PP; ring).
    assert (Q2 : pos = 2 * q * 2 ^ m) by (rewrite Hq at 1; rewrite PP; ring).
    clear Hq.
    destruct (Z.leb_spec (pos + 2 ^ m) n) as [L|L].
    + rewrite (slice_get_ok _ _ 0) by lia. cbn [obind].
      assert (Ec : nth (Z.to_nat (pos + 2 ^ m)) tree 0 = cnt av pos (pos + 2 ^ m)).
      { rewrite HT by lia. assert (EL : lowbit (pos + 2 ^ m) = 2 ^ m) by (rewrite Q1; apply low_val; lia). rewrite EL. f_equal. lia. }
      rewrite Ec. destruct (Z.ltb_spec (cnt av pos (pos + 2 ^ m)) k) as [Lk|Lk].
      * destruct (IH (m - 1) (pos + 2 ^ m) (k - cnt av pos (pos + 2 ^ m)) (2 * q + 1)) as (p & E & B1 & B2 & B3); rewrite ?M1; try lia.
        { destruct Hhi as [Hhi|Hhi]; [left; lia|right]. rewrite (cnt_split av pos (pos + 2 ^ m)) in Hhi by lia.
          replace (pos + 2 ^ m + 2 ^ m) with (pos + 2 ^ (m + 1)) by lia. lia. }
        { rewrite (cnt_split av pos (pos + 2 ^ m) n) in Htot by lia. lia. }
        exists p. split; [exact E|]. rewrite (cnt_split av pos (pos + 2 ^ m) p), (cnt_split av pos (pos + 2 ^ m) (p + 1)) by lia. lia.
      * destruct (IH (m - 1) pos k (2 * q)) as (p & E & B1 & B2 & B3); rewrite ?M1; try lia.
        exists p. auto.
    + destruct (IH (m - 1) pos k (2 * q)) as (p & E & B1 & B2 & B3); rewrite ?M1; try lia.
      exists p. auto.
Qed.

(* the k-th available position *)
Lemma findKth_ok n tree av k : 0 <= n < 2 ^ 32 -> tree_ok n tree av -> 1 <= k <= cnt av 0 n ->
  exists p, findKth tree n k = Ok p /\ 1 <= p <= n /\ av p = true /\ cnt av 0 (p - 1) = k - 1.
Proof.
  intros Hn HT Hk. unfold findKth.
  destruct (growMask_ok 64 0 n ltac:(lia) ltac:(lia)) as (m & Hm & E & L1 & L2 & Hm2); [cbn; lia|left; reflexivity|].
  change (2 ^ 0) with 1 in E. rewrite E. cbn [obind].
  assert (Hm33 : m <= 33).
  { destruct (Z_le_dec m 33); [assumption|exfalso]. destruct L2; [lia|]. assert (2 ^ 33 <= 2 ^ (m - 1)) by (apply Z.pow_le_mono_r; lia). lia. }
  assert (Sh : Z.shiftr (2 ^ m) 1 = if m - 1 =? -1 then 0 else 2 ^ (m - 1)).
  { rewrite Z.shiftr_div_pow2 by lia. destruct (Z.eqb_spec (m - 1) (-1)) as [E1|E1].
    - replace m with 0 by lia. reflexivity.
    - replace (2 ^ m) with (2 ^ (m - 1) * 2 ^ 1) by (rewrite <- Z.pow_add_r by lia; f_equal; lia). apply Z.div_mul. lia. }
  rewrite Sh.
  destruct (findLoop_ok n tree av HT 64 (m - 1) 0 k 0) as (p & E2 & B1 & B2 & B3); try lia.
  { left. replace (m - 1 + 1) with m by lia. lia. }
  exists (p + 1). split; [exact E2|]. rewrite cnt_succ in B3 by lia. destruct (av (p + 1)) eqn:Ea; [|lia].
  split; [lia|]. split; [reflexivity|]. replace (p + 1 - 1) with p by lia. lia.
Qed.

Lemma markUsed_ok n av p : 1 <= p <= n -> av p = true -> forall fuel tree q, Z.max 0 (n - q + 1) < Z.of_nat fuel -> p <= q -> 0 < q ->
  Z.of_nat (length tree) = n + 1 ->
  (q <= n -> q - lowbit q < p) ->
  (forall i, 1 <= i <= n -> nth (Z.to_nat i) tree 0 = if i <? q then cnt (use p av) (i - lowbit i) i else cnt av (i - lowbit i) i) ->
  (n < q -> forall i, 1 <= i <= n -> nth (Z.to_nat i) tree 0 = cnt (use p av) (i - lowbit i) i) ->
  exists tree', markUsed fuel tree n q = Ok tree' /\ tree_ok n tree' (use p av).
Proof.
  intros Hp Ha. induction fuel as [|fuel IH]; intros tree q Hf Hpq Hq HL Hcov HT Hend.
  - exists tree. cbn [markUsed]. exfalso. lia.
  - cbn [markUsed]. destruct (Z.leb_spec q n) as [L|L].
    + rewrite (slice_get_ok _ _ 0) by lia. cbn [obind]. rewrite slice_set_ok by lia. cbn [obind].
      pose proof (low_pos q Hq) as Hlow.
      assert (HT' : forall i, 1 <= i <= n -> nth (Z.to_nat i) (list_set tree (Z.to_nat q) (nth (Z.to_nat q) tree 0 - 1)) 0 =
                if i <? q + lowbit q then cnt (use p av) (i - lowbit i) i else cnt av (i - lowbit i) i).
      { intros i Hi. pose proof (low_pos i ltac:(lia)) as Hlowi. destruct (Z.eq_dec i q) as [->|Hne].
        - rewrite nth_list_set_eq by lia. destruct (Z.ltb_spec q (q + lowbit q)); [|lia]. rewrite HT by lia.
          destruct (Z.ltb_spec q q); [lia|]. rewrite cnt_use by (try assumption; lia).
          specialize (Hcov L). destruct (Z.ltb_spec (q - lowbit q) p), (Z.leb_spec p q); cbn [andb]; lia.
        - rewrite nth_list_set_neq by lia. rewrite HT by lia. destruct (Z.ltb_spec i q) as [Liq|Liq].
          + destruct (Z.ltb_spec i (q + lowbit q)); [reflexivity|lia].
          + destruct (Z.ltb_spec i (q + lowbit q)) as [L2|L2]; [|reflexivity].
            pose proof (low_between q i Hq ltac:(lia)). rewrite cnt_use by (try assumption; lia).
            destruct (Z.ltb_spec (i - lowbit i) p); cbn [andb]; lia. }
      apply IH; try lia.
      * rewrite list_set_length. lia.
      * intros _. pose proof (low_next q Hq). specialize (Hcov L). lia.
      * exact HT'.
      * intros Hn i Hi. rewrite HT' by assumption. destruct (Z.ltb_spec i (q + lowbit q)); [reflexivity|lia].
    + exists tree. split; [reflexivity|]. split; [assumption|]. apply Hend. assumption.
Qed.

Lemma mark_ok n tree av p : 1 <= p <= n -> av p = true -> tree_ok n tree av ->
  exists tree', markUsed (S (Z.to_nat n)) tree n p = Ok tree' /\ tree_ok n tree' (use p av).
Proof.
  intros Hp Ha [HL HT]. apply (markUsed_ok n av p Hp Ha); try lia.
  - intros _. pose proof (low_pos p ltac:(lia)). lia.
  - intros i Hi. rewrite HT by assumption. destruct (Z.ltb_spec i p) as [L|L]; [|reflexivity].
    pose proof (low_pos i ltac:(lia)). rewrite cnt_use by (try assumption; lia).
    destruct (Z.ltb_spec (i - lowbit i) p), (Z.leb_spec p i); cbn [andb]; lia.
Qed.

(* ---- relation to the list of remaining elements ---- *)
(* the available elements of 1..n, minus one *)
Definition avlist (av : Z -> bool) (n : nat) : list Z := filter (fun x => av (x + 1)) (map Z.of_nat (seq 0 n)).
Lemma avlist_S av n : avlist av (S n) = avlist av n ++ (if av (Z.of_nat n + 1) then [Z.of_nat n] else []).
Proof. unfold avlist. rewrite seq_S, map_app, filter_app. cbn [map filter plus]. destruct (av _); reflexivity. Qed.
Lemma avlist_length av n : Z.of_nat (length (avlist av n)) = cnt av 0 (Z.of_nat n).
Proof.
  induction n as [|n IH]; [reflexivity|]. rewrite avlist_S, app_length. replace (Z.of_nat (S n)) with (Z.of_nat n + 1) by lia.
  rewrite cnt_succ by lia. destruct (av _); cbn [length]; lia.
Qed.
Lemma avlist_nth av n p : 1 <= p <= Z.of_nat n -> av p = true ->
  exists l2, avlist av n = avlist av (Z.to_nat (p - 1)) ++ (p - 1) :: l2 /\
             avlist (use p av) n = avlist av (Z.to_nat (p - 1)) ++ l2.
Proof.
  intros Hp Ha. induction n as [|n IH]; [lia|]. rewrite !avlist_S. destruct (Z.eq_dec p (Z.of_nat n + 1)) as [->|].
  - rewrite Ha. unfold use at 2. rewrite Z.eqb_refl. replace (Z.of_nat n + 1 - 1) with (Z.of_nat n) by lia. rewrite Nat2Z.id.
    exists []. split; [reflexivity|]. f_equal. unfold avlist. apply filter_ext_in. intros x Hx. apply in_map_iff in Hx.
    destruct Hx as (y & <- & Hy). apply in_seq in Hy. unfold use. destruct (Z.eqb_spec (Z.of_nat y + 1) (Z.of_nat n + 1)); [lia|reflexivity].
  - destruct IH as (l2 & E1 & E2); [lia|]. exists (l2 ++ (if av (Z.of_nat n + 1) then [Z.of_nat n] else [])).
    rewrite E1, E2. unfold use. destruct (Z.eqb_spec (Z.of_nat n + 1) p); [lia|]. rewrite <- !app_assoc. auto.
Qed.
Lemma remove_at_app i l1 x l2 : length l1 = i -> remove_at i (l1 ++ x :: l2) = l1 ++ l2.
Proof. intros <-. induction l1 as [|y l1 IH]; [reflexivity|]. cbn. f_equal. exact IH. Qed.

Lemma permLoop_ok n code : 0 <= n < 2 ^ 32 -> forall tree av, tree_ok n tree av -> lehmer_ok (cnt av 0 n) code ->
  permLoop code tree n = Ok (lehmer_decode (avlist av (Z.to_nat n)) code).
Proof.
  intros Hn. induction code as [|c code IH]; intros tree av HT Hc; [reflexivity|]. cbn [lehmer_ok] in Hc. destruct Hc as [Hc Hc'].
  cbn [permLoop lehmer_decode].
  destruct (findKth_ok n tree av (c + 1) Hn HT ltac:(lia)) as (p & E & Hp & Ha & Hcnt). rewrite E. cbn [obind].
  destruct (mark_ok n tree av p Hp Ha HT) as (tree' & E' & HT'). rewrite E'. cbn [obind].
  destruct (avlist_nth av (Z.to_nat n) p ltac:(lia) Ha) as (l2 & A1 & A2).
  assert (Lc : length (avlist av (Z.to_nat (p - 1))) = Z.to_nat c).
  { pose proof (avlist_length av (Z.to_nat (p - 1))) as L. rewrite Z2Nat.id in L by lia. lia. }
  rewrite (IH tree' (use p av) HT').
  - cbn [omap]. f_equal. f_equal.
    + rewrite u32_small by lia. rewrite A1, app_nth2 by lia. replace (Z.to_nat c - length (avlist av (Z.to_nat (p - 1))))%nat with 0%nat by lia. reflexivity.
    + rewrite A1, A2, remove_at_app by assumption. reflexivity.
  - rewrite cnt_use by (try assumption; lia). destruct (Z.ltb_spec 0 p), (Z.leb_spec p n); cbn [andb]; try lia. exact Hc'.
Qed.

Lemma lehmer_perm_ok n code : 0 <= n < 2 ^ 32 - 1 -> lehmer_ok n code ->
  lehmerToPermutation n code = Ok (lehmer_decode (iota n) code).
Proof.
  intros Hn Hc. unfold lehmerToPermutation. destruct (init_ok n Hn) as (tree & E & HT). rewrite E. cbn [obind].
  rewrite (permLoop_ok n code ltac:(lia) tree (fun _ => true) HT).
  - f_equal. f_equal. unfold avlist, iota. generalize (map Z.of_nat (seq 0 (Z.to_nat n))) as l. induction l; cbn; congruence.
  - unfold cnt. rewrite cnt_all. replace (Z.of_nat (Z.to_nat (n - 0))) with n by lia. exact Hc.
Qed.

(* ---- Lehmer codes and permutations ---- *)
Lemma remove_at_perm i l : (i < length l)%nat -> Permutation l (nth i l 0 :: remove_at i l).
Proof.
  revert i. induction l as [|x l IH]; intros i Hi; [cbn in Hi; lia|]. destruct i as [|i]; cbn [nth remove_at]; [apply Permutation_refl|].
  eapply perm_trans; [apply perm_skip, (IH i); cbn in Hi; lia|]. apply perm_swap.
Qed.
Lemma remove_at_length i l : (i < length l)%nat -> length (remove_at i l) = (length l - 1)%nat.
Proof. intros H. apply remove_at_perm, Permutation_length in H. cbn [length] in H. lia. Qed.
Lemma lehmer_decode_perm code : forall l, lehmer_ok (Z.of_nat (length l)) code -> length code = length l -> Permutation l (lehmer_decode l code).
Proof.
  induction code as [|c code IH]; intros l Hc Hl.
  - destruct l; [constructor|discriminate].
  - cbn [lehmer_ok lehmer_decode length] in *. eapply perm_trans; [apply (remove_at_perm (Z.to_nat c)); lia|]. apply perm_skip.
    apply IH; rewrite remove_at_length by lia; [|lia]. replace (Z.of_nat (length l - 1)) with (Z.of_nat (length l) - 1) by lia. tauto.
Qed.
Lemma index_of_in x l : In x l -> (index_of x l < length l)%nat /\ nth (index_of x l) l 0 = x.
Proof.
  induction l as [|y l IH]; intros H; [contradiction|]. cbn [index_of length]. destruct (Z.eqb_spec y x) as [->|E]; [cbn; split; [lia|reflexivity]|].
  destruct H as [H|H]; [congruence|]. destruct (IH H). cbn [nth]. split; [lia|assumption].
Qed.
Lemma lehmer_encode_ok p : forall l, Permutation l p -> lehmer_ok (Z.of_nat (length l)) (lehmer_encode l p) /\
  length (lehmer_encode l p) = length l /\ lehmer_decode l (lehmer_encode l p) = p.
Proof.
  induction p as [|x p IH]; intros l H.
  - apply Permutation_sym, Permutation_nil in H. subst. cbn. auto.
  - cbn [lehmer_encode lehmer_ok lehmer_decode length]. rewrite Nat2Z.id.
    assert (Hx : In x l) by (eapply Permutation_in; [apply Permutation_sym, H|left; reflexivity]).
    destruct (index_of_in x l Hx) as [H1 H2]. pose proof (remove_at_perm (index_of x l) l H1) as HP. rewrite H2 in *.
    assert (HP2 : Permutation (remove_at (index_of x l) l) p).
    { apply (Permutation_cons_inv (a := x)). eapply perm_trans; [apply Permutation_sym, HP|exact H]. }
    destruct (IH _ HP2) as (A & B & C). rewrite remove_at_length in A, B by assumption.
    replace (Z.of_nat (length l - 1)) with (Z.of_nat (length l) - 1) in A by lia.
    split; [split; [lia|exact A]|]. split; [lia|]. rewrite C. reflexivity.
Qed.
(* distinct codes give distinct permutations *)
Lemma lehmer_decode_inj l : NoDup l -> forall c1 c2, lehmer_ok (Z.of_nat (length l)) c1 -> lehmer_ok (Z.of_nat (length l)) c2 ->
  length c1 = length c2 -> lehmer_decode l c1 = lehmer_decode l c2 -> c1 = c2.
Proof.
  intros HN c1. revert l HN. induction c1 as [|a c1 IH]; intros l HN c2 H1 H2 HL E; destruct c2 as [|b c2]; try discriminate; [reflexivity|].
  cbn [lehmer_ok lehmer_decode length] in *. 
  assert (Ea : nth (Z.to_nat a) l 0 = nth (Z.to_nat b) l 0) by congruence.
  assert (Z.to_nat a = Z.to_nat b) by (apply (proj1 (NoDup_nth l 0) HN); lia || assumption).
  assert (a = b) by lia. subst b. f_equal.
  pose proof (remove_at_perm (Z.to_nat a) l ltac:(lia)) as HP.
  apply (IH (remove_at (Z.to_nat a) l)).
  - eapply Permutation_NoDup in HN; [|exact HP]. now inversion HN.
  - rewrite remove_at_length by lia. replace (Z.of_nat (length l - 1)) with (Z.of_nat (length l) - 1) by lia. tauto.
  - rewrite remove_at_length by lia. replace (Z.of_nat (length l - 1)) with (Z.of_nat (length l) - 1) by lia. tauto.
  - lia.
  - congruence.
Qed.
