(* Lemmas on coefficient contexts and the coefficient loop. *)
From Coq Require Import ZArith List Bool Lia Arith Permutation ZifyBool ZifyNat.
From Verif Require Import GoBase GoLoop GoMatrix ModelBitReader ModelUtil ModelEntropy ModelHF ModelHFCoeff SpecHF SpecHFGroup SpecBitReader ProofReads ProofCodes ProofCluster ProofHF.
Import ListNotations.
Open Scope Z_scope.

Lemma i32_id v : - 2 ^ 31 <= v < 2 ^ 31 -> i32 v = v.
Proof. exact (i32_small v). Qed.

(* ---- thresholds ---- *)
Lemma countAbove_range v ts : 0 <= countAbove v ts <= Z.of_nat (length ts).
Proof. unfold countAbove. induction ts as [|t ts IH]; cbn [filter length]; [lia|]. destruct (t <? v); cbn [length]; lia. Qed.
Definition hb_shape (hc : HFBlockContext) : Prop :=
  exists t0 t1 t2, hb_lfThresholds hc = [t0; t1; t2] /\
    hb_numLFContexts hc = (Z.of_nat (length t0) + 1) * (Z.of_nat (length t1) + 1) * (Z.of_nat (length t2) + 1) /\
    Z.of_nat (length (hb_clusterMap hc)) = 39 * (Z.of_nat (length (hb_qfThresholds hc)) + 1) * hb_numLFContexts hc /\
    Z.of_nat (length (hb_clusterMap hc)) <= 39 * 64 /\
    Forall (fun c => c < hb_numClusters hc) (hb_clusterMap hc) /\ 0 <= hb_numClusters hc <= 16.
Lemma lfIndex_ok hc q : hb_shape hc -> exists i, getLFIndex hc q = Ok i /\ 0 <= i < hb_numLFContexts hc.
Proof.
  intros (t0 & t1 & t2 & E & N & L & B & _). unfold getLFIndex. rewrite E. cbn [slice_get obind].
  change (slice_get [t0; t1; t2] 0) with (Ok t0). change (slice_get [t0; t1; t2] 1) with (Ok t1). change (slice_get [t0; t1; t2] 2) with (Ok t2). cbn [obind].
  pose proof (countAbove_range (q 0) t0). pose proof (countAbove_range (q 1) t1). pose proof (countAbove_range (q 2) t2).
  set (c0 := countAbove _ t0) in *. set (c1 := countAbove _ t1) in *. set (c2 := countAbove _ t2) in *. set (n0 := Z.of_nat (length t0)) in *. set (n1 := Z.of_nat (length t1)) in *. set (n2 := Z.of_nat (length t2)) in *.
  set (nq := Z.of_nat (length (hb_qfThresholds hc))) in *. assert (0 <= nq) by (unfold nq; lia). clearbody c0 c1 c2 n0 n1 n2 nq.
  assert (A : 0 <= c0 * (n2 + 1) + c2 <= (n0 + 1) * (n2 + 1) - 1) by (clear - H H1; nia).
  assert (C : 0 <= (c0 * (n2 + 1) + c2) * (n1 + 1) + c1 < (n0 + 1) * (n1 + 1) * (n2 + 1)).
  { replace ((n0 + 1) * (n1 + 1) * (n2 + 1)) with ((n0 + 1) * (n2 + 1) * (n1 + 1)) by ring. set (u := c0 * (n2 + 1) + c2) in *. set (v := (n0 + 1) * (n2 + 1)) in *. clearbody u v. clear - A H0. nia. }
  assert (D : (n0 + 1) * (n1 + 1) * (n2 + 1) <= 64).
  { rewrite <- N. set (nl := hb_numLFContexts hc) in *. rewrite L in B. assert (0 <= nl) by (clear - C N; lia). clear - B H2 H3. nia. }
  eexists. split; [reflexivity|]. rewrite i32_id by (split; [apply Z.le_trans with 0; [lia|exact (proj1 C)]|apply Z.lt_le_trans with 64; [exact (Z.lt_le_trans _ _ _ (proj2 C) D)|lia]]). rewrite N. exact C.
Qed.
Lemma blockContext_ok hc c orderID hfMult lfIndex : hb_shape hc -> 0 <= c <= 2 -> 0 <= orderID <= 12 -> 0 <= lfIndex < hb_numLFContexts hc ->
  exists b, getBlockContext hc c orderID hfMult lfIndex = Ok b /\ In b (hb_clusterMap hc) /\ b < hb_numClusters hc.
Proof.
  intros (t0 & t1 & t2 & E & N & L & B & F & _) Hc Ho Hl. unfold getBlockContext. cbv zeta.
  pose proof (countAbove_range hfMult (hb_qfThresholds hc)) as Q. set (nq := Z.of_nat (length (hb_qfThresholds hc))) in *. set (a := countAbove _ _) in *. clearbody nq a.
  set (nl := hb_numLFContexts hc) in *. clearbody nl.
  assert (I : exists j, (if c <? 2 then 1 - c else c) = j /\ 0 <= j <= 2) by (destruct (Z.ltb_spec c 2); eexists; split; try reflexivity; lia). destruct I as (j & -> & Hj).
  assert (A : 0 <= (j * 13 + orderID) * (nq + 1) + a <= 39 * (nq + 1) - 1) by nia.
  set (m := (j * 13 + orderID) * (nq + 1) + a) in *. clearbody m.
  assert (C : 0 <= m * nl + lfIndex < Z.of_nat (length (hb_clusterMap hc))) by nia.
  assert (D : 0 <= m * nl <= 39 * 64) by nia.
  rewrite (i32_id (m * nl)) by lia. rewrite i32_id by lia. rewrite (slice_get_ok _ _ 0) by lia.
  eexists. split; [reflexivity|]. assert (I : In (nth (Z.to_nat (m * nl + lfIndex)) (hb_clusterMap hc) 0) (hb_clusterMap hc)) by (apply nth_In; lia).
  split; [exact I|]. rewrite Forall_forall in F. exact (F _ I).
Qed.

(* the block context as read from the stream *)
Lemma yields_inv {A} (m : RM A) P s d p v s' : yields m P -> reader_at s d p -> m s = (Ok v, s') -> P v /\ exists q, (p <= q)%nat /\ reader_at s' d q.
Proof. intros Y R E. specialize (Y s d p R). rewrite E in Y. exact Y. Qed.
Lemma yields_repeat {A} (m : RM A) P n : yields m P -> yields (rrepeat n m) (fun l => length l = n /\ Forall P l).
Proof.
  intros Y. induction n as [|n IH]; cbn [rrepeat]; [apply yields_ret; split; [reflexivity|constructor]|].
  eapply yields_bind; [exact Y|]. intros v Hv. eapply yields_bind; [exact IH|]. intros l [L F]. apply yields_ret. split; [cbn; lia|constructor; assumption].
Qed.
Lemma lfThresholds_read : yields readLFThresholds (fun l => (length l <= 15)%nat).
Proof.
  unfold readLFThresholds. eapply yields_bind; [apply (yields_bits 4); lia|]. intros n [Hn _]. change (2 ^ 4) with 16 in Hn. rewrite i32_id by lia.
  eapply yields_weaken; [apply (yields_repeat _ (fun _ => True))|intros l [L _]; lia].
  eapply yields_bind; [apply yields_u32|]. intros v _. apply yields_ret. exact I.
Qed.
Lemma clusterMap_ok n mx s cm k s' : ReadClusterMap n mx s = (Ok (cm, k), s') -> length cm = n /\ Forall (fun c => c < k) cm /\ 0 <= k <= mx.
Proof. intros H. apply readClusterMap_ok in H. tauto. Qed.
Lemma hfb_default : hb_shape (mkHFB [[]; []; []] defaultClusterMap 15 [] 1).
Proof.
  exists [], [], []. cbn [hb_lfThresholds hb_numLFContexts hb_clusterMap hb_qfThresholds hb_numClusters]. split; [reflexivity|]. split; [reflexivity|]. split; [reflexivity|].
  change (length defaultClusterMap) with 39%nat. split; [lia|]. split; [|lia]. unfold defaultClusterMap. repeat (constructor; [lia|]). constructor.
Qed.
Lemma fold_sizes (t0 t1 t2 : list Z) nq : 0 <= nq <= 15 -> (length t0 <= 15)%nat -> (length t1 <= 15)%nat -> (length t2 <= 15)%nat ->
  fold_left (fun a ts => i32 (a * (Z.of_nat (length ts) + 1))) [t0; t1; t2] 1 = (Z.of_nat (length t0) + 1) * (Z.of_nat (length t1) + 1) * (Z.of_nat (length t2) + 1) /\
  fold_left (fun a ts => i32 (a * (Z.of_nat (length ts) + 1))) [t0; t1; t2] (i32 (39 * (i32 nq + 1))) = 39 * (nq + 1) * (Z.of_nat (length t0) + 1) * (Z.of_nat (length t1) + 1) * (Z.of_nat (length t2) + 1) /\
  0 <= 39 * (nq + 1) * (Z.of_nat (length t0) + 1) * (Z.of_nat (length t1) + 1) * (Z.of_nat (length t2) + 1).
Proof.
  intros Hq H0 H1 H2. cbn [fold_left]. set (n0 := Z.of_nat (length t0)). set (n1 := Z.of_nat (length t1)). set (n2 := Z.of_nat (length t2)).
  assert (0 <= n0 <= 15 /\ 0 <= n1 <= 15 /\ 0 <= n2 <= 15) as (B0 & B1 & B2) by (unfold n0, n1, n2; lia). clearbody n0 n1 n2. clear H0 H1 H2.
  assert (U1 : 0 <= (n0 + 1) * (n1 + 1) <= 256) by (clear - B0 B1; nia). assert (U2 : 0 <= (n0 + 1) * (n1 + 1) * (n2 + 1) <= 4096) by (clear - U1 B2; nia).
  assert (V0 : 0 <= 39 * (nq + 1) <= 624) by lia. assert (V1 : 0 <= 39 * (nq + 1) * (n0 + 1) <= 9984) by (clear - V0 B0; nia).
  assert (V2 : 0 <= 39 * (nq + 1) * (n0 + 1) * (n1 + 1) <= 159744) by (clear - V1 B1; nia). assert (V3 : 0 <= 39 * (nq + 1) * (n0 + 1) * (n1 + 1) * (n2 + 1) <= 2555904) by (clear - V2 B2; nia).
  assert (I : forall v, 0 <= v <= 2555904 -> i32 v = v) by (intros v Hv; apply i32_id; lia).
  rewrite (I nq), (I (39 * (nq + 1))) by lia. rewrite (I (39 * (nq + 1) * (n0 + 1))) by lia. rewrite (I (39 * (nq + 1) * (n0 + 1) * (n1 + 1))) by lia. rewrite (I (39 * (nq + 1) * (n0 + 1) * (n1 + 1) * (n2 + 1))) by lia.
  rewrite Z.mul_1_l, (I (n0 + 1)) by lia. rewrite (I ((n0 + 1) * (n1 + 1))) by lia. rewrite (I ((n0 + 1) * (n1 + 1) * (n2 + 1))) by lia.
  split; [reflexivity|]. split; [reflexivity|]. apply V3.
Qed.
Lemma hfb_read_ok d p s s' hc : reader_at s d p -> NewHFBlockContextWithReader s = (Ok hc, s') -> hb_shape hc.
Proof.
  intros Hs H. unfold NewHFBlockContextWithReader in H. apply rbind_ok in H as (b & s1 & Hb & H).
  apply (yields_inv _ _ _ _ _ _ _ yields_bool Hs) in Hb as [_ (p1 & _ & Hs1)].
  destruct b.
  - injection H as <- _. exact hfb_default.
  - apply rbind_ok in H as (lf & s2 & Hlf & H). apply (yields_inv _ _ _ _ _ _ _ (yields_repeat _ _ 3 lfThresholds_read) Hs1) in Hlf as [[L3 F3] (p2 & _ & Hs2)].
    cbv zeta in H. apply rbind_ok in H as (nq & s3 & Hnq & H). apply (yields_inv _ _ _ _ _ _ _ (yields_bits 4 ltac:(lia)) Hs2) in Hnq as [[Hnq _] (p3 & _ & Hs3)]. change (2 ^ 4) with 16 in Hnq.
    apply rbind_ok in H as (qf & s4 & Hqf & H). apply (rrepeat_length _ _) in Hqf.
    destruct lf as [|t0 [|t1 [|t2 [|]]]]; try discriminate. clear L3. inversion F3 as [|? ? T0 F3']; subst. inversion F3' as [|? ? T1 F3'']; subst. inversion F3'' as [|? ? T2 _]; subst. clear F3 F3' F3''.
    destruct (fold_sizes t0 t1 t2 nq ltac:(lia) T0 T1 T2) as (E1 & E2 & Pos). rewrite E1, E2 in H. clear E1 E2.
    set (n0 := Z.of_nat (length t0)) in *. set (n1 := Z.of_nat (length t1)) in *. set (n2 := Z.of_nat (length t2)) in *.
    destruct (Z.ltb_spec (39 * 64) (39 * (nq + 1) * (n0 + 1) * (n1 + 1) * (n2 + 1))) as [L|L]; [discriminate|].
    apply rbind_ok in H as ([cm k] & s5 & Hcm & H). apply clusterMap_ok in Hcm as (Lc & Fc & Hk). injection H as <- _. cbn [fst snd].
    exists t0, t1, t2. cbn [hb_lfThresholds hb_numLFContexts hb_clusterMap hb_qfThresholds hb_numClusters]. rewrite (i32_id k) by lia.
    assert (Q : Z.of_nat (length qf) = nq) by lia. fold n0 n1 n2. rewrite Q, Lc, Z2Nat.id by lia.
    split; [reflexivity|]. split; [reflexivity|]. split; [ring|]. split; [lia|]. split; [exact Fc|lia].
Qed.

(* ---- counts ---- *)
Lemma nonZeroContext_ok hc predicted b : 0 <= b < hb_numClusters hc -> hb_numClusters hc <= 16 -> 0 <= predicted ->
  0 <= getNonZeroContext hc predicted b < 37 * hb_numClusters hc /\ getNonZeroContext hc predicted b mod hb_numClusters hc = b.
Proof.
  intros Hb Hn Hp. unfold getNonZeroContext. set (n := hb_numClusters hc) in *. clearbody n.
  assert (E : exists i, 0 <= i <= 36 /\ (let predicted := if 64 <? predicted then 64 else predicted in if predicted <? 8 then i32 (b + n * predicted) else i32 (b + n * (4 + Z.quot predicted 2))) = b + n * i).
  { cbv zeta. set (p := if 64 <? predicted then 64 else predicted). assert (0 <= p <= 64) by (unfold p; destruct (Z.ltb_spec 64 predicted); lia). clearbody p.
    destruct (Z.ltb_spec p 8).
    - exists p. split; [lia|]. apply i32_id. nia.
    - rewrite Z.quot_div_nonneg by lia. pose proof (Z.div_mod p 2 ltac:(lia)). pose proof (Z.mod_pos_bound p 2 ltac:(lia)). exists (4 + p / 2). split; [lia|]. apply i32_id. nia. }
  destruct E as (i & Hi & E). cbv zeta in E. rewrite E. split; [nia|]. rewrite Z.mul_comm, Z.mod_add by lia. apply Z.mod_small. lia.
Qed.

(* ---- coefficient contexts ---- *)
Definition ctx_table_ok : bool :=
  forallb (fun z => forallb (fun k => (Nat.ltb 64 (z + k)) ||
    (let v := 2 * (nth z coeffNumNonzeroCtx 0 + nth k coeffFreqCtx 0) in (0 <=? v) && (v + 1 <? 458))) (seq 1 63)) (seq 1 63).
Lemma ctx_table : ctx_table_ok = true.
Proof. vm_compute. reflexivity. Qed.
Lemma classes : forallb (fun i => (nth i coeffNumNonzeroCtx 0 =? count_class (Z.of_nat i)) && (nth i coeffFreqCtx 0 =? freq_class (Z.of_nat i))) (seq 1 63) = true.
Proof. vm_compute. reflexivity. Qed.
Lemma coeffContext_ok k nonZeros nb prev : 1 <= nb <= 1024 -> nb <= k < 64 * nb -> 1 <= nonZeros <= 64 * nb - k -> 0 <= prev <= 1 ->
  exists c, getCoefficientContext k nonZeros nb prev = Ok c /\ 0 <= c < 458 /\ c = zero_density nb k nonZeros prev.
Proof.
  intros Hn Hk Hz Hp. unfold getCoefficientContext. rewrite i32_id by lia. rewrite !Z.quot_div_nonneg by lia.
  assert (A : 1 <= k / nb <= 63).
  { split; [apply Z.div_le_lower_bound; lia|]. assert (k / nb < 64) by (apply Z.div_lt_upper_bound; lia). lia. }
  assert (B : 1 <= (nonZeros + nb - 1) / nb) by (apply Z.div_le_lower_bound; lia).
  assert (C : (nonZeros + nb - 1) / nb + k / nb <= 64).
  { pose proof (Z.div_mod k nb ltac:(lia)). pose proof (Z.mod_pos_bound k nb ltac:(lia)).
    pose proof (Z.div_mod (nonZeros + nb - 1) nb ltac:(lia)). pose proof (Z.mod_pos_bound (nonZeros + nb - 1) nb ltac:(lia)). nia. }
  unfold zero_density. set (z := (nonZeros + nb - 1) / nb) in *. set (j := k / nb) in *. clearbody z j.
  rewrite (slice_get_ok coeffNumNonzeroCtx z 0) by (change (length coeffNumNonzeroCtx) with 64%nat; lia).
  rewrite (slice_get_ok coeffFreqCtx j 0) by (change (length coeffFreqCtx) with 64%nat; lia). cbn [obind].
  pose proof ctx_table as T. unfold ctx_table_ok in T. rewrite forallb_forall in T. specialize (T (Z.to_nat z) ltac:(apply in_seq; lia)). rewrite forallb_forall in T.
  specialize (T (Z.to_nat j) ltac:(apply in_seq; lia)). eexists. split; [reflexivity|].
  pose proof classes as K. rewrite forallb_forall in K. pose proof (K (Z.to_nat z) ltac:(apply in_seq; lia)) as K1. pose proof (K (Z.to_nat j) ltac:(apply in_seq; lia)) as K2. rewrite Z2Nat.id in K1, K2 by lia.
  set (u := nth (Z.to_nat z) coeffNumNonzeroCtx 0) in *. set (v := nth (Z.to_nat j) coeffFreqCtx 0) in *. set (cu := count_class z) in *. set (cv := freq_class j) in *. clearbody u v cu cv. cbv zeta in T. lia.
Qed.

(* ---- the coefficient loop ---- *)
Definition be_ok (H W : nat) (e : BlockEnv) : Prop :=
  1 <= be_numBlocks e <= 1024 /\ be_orderSize e = 64 * be_numBlocks e /\ 0 <= be_histCtx e < 2 ^ 30 /\ NoDup (be_order e) /\
  Forall (fun o => 0 <= fst (coeffPos e o) < Z.of_nat H /\ 0 <= snd (coeffPos e o) < Z.of_nat W) (be_order e).
Definition posAt (e : BlockEnv) (j : nat) : Z * Z := coeffPos e (nth j (be_order e) (0, 0)).
Definition coeffVal (e : BlockEnv) (uc : Z) : Z := i32 (Z.shiftl (UnpackSigned (u32 uc)) (be_shift e)).
Lemma posAt_inj H W e i j : be_ok H W e -> (i < length (be_order e))%nat -> (j < length (be_order e))%nat -> posAt e i = posAt e j -> i = j.
Proof.
  intros (_ & _ & _ & N & _) Hi Hj E. apply (proj1 (NoDup_nth (be_order e) (0, 0)) N); [exact Hi|exact Hj|].
  unfold posAt, coeffPos in E. destruct (nth i _ _) as [a b], (nth j _ _) as [c d]. cbn [fst snd] in E. destruct (be_flip e); injection E as E1 E2; f_equal; lia.
Qed.
Lemma coeff_run H W e : be_ok H W e -> forall used k nonZero prevU rest q n,
  0 <= k -> (length used <= n)%nat -> used <> [] -> last used 0 <> 0 -> nonzeros used = nonZero ->
  k + be_numBlocks e + Z.of_nat (length used) <= be_orderSize e -> rect H W q ->
  exists ctxs q', coeffLoop n e k nonZero prevU (used ++ rest) q = Ok (0, ctxs, q', rest) /\ length ctxs = length used /\
    Forall (fun c => be_histCtx e <= c < be_histCtx e + 458) ctxs /\ rect H W q' /\
    (forall j, (j < length used)%nat -> px q' (Z.to_nat (fst (posAt e (Z.to_nat (k + be_numBlocks e) + j)))) (Z.to_nat (snd (posAt e (Z.to_nat (k + be_numBlocks e) + j)))) = coeffVal e (nth j used 0)) /\
    (forall y x, (forall j, (j < length used)%nat -> posAt e (Z.to_nat (k + be_numBlocks e) + j) <> (Z.of_nat y, Z.of_nat x)) -> px q' y x = px q y x) /\
    ctxs = map (fun j => be_histCtx e + zero_density (be_numBlocks e) (k + be_numBlocks e + Z.of_nat j) (nonzeros (skipn j used))
      (match j with O => coeffPrev e k nonZero prevU | S i => if nth i used 0 =? 0 then 0 else 1 end)) (seq 0 (length used)).
Proof.
  intros OK. pose proof OK as (Hnb & Hsz & Hh & ND & FP). induction used as [|uc used IH]; intros k nonZero prevU rest q n Hk Hn NE La Nz Hs R; [congruence|].
  destruct n as [|n]; [cbn in Hn; lia|]. cbn [coeffLoop app].
  assert (Pz : 1 <= nonZero <= Z.of_nat (length (uc :: used))).
  { subst nonZero. unfold nonzeros. split.
    - assert (I : In (last (uc :: used) 0) (filter (fun v => negb (v =? 0)) (uc :: used))).
      { apply filter_In. split; [|lia]. rewrite (app_removelast_last 0 NE) at 2. apply in_or_app. right. left. reflexivity. }
      destruct (filter _ _); [destruct I|cbn; lia].
    - clear. induction (uc :: used) as [|a l IHl]; cbn [filter length]; [lia|]. destruct (negb (a =? 0)); cbn [length]; lia. }
  assert (Lo : Z.of_nat (length (be_order e)) = 64 * be_numBlocks e) by exact Hsz.
  destruct (coeffContext_ok (k + be_numBlocks e) nonZero (be_numBlocks e) (coeffPrev e k nonZero prevU)) as (c & -> & Hc & Ec); [lia|cbn [length] in *; lia|cbn [length] in *; lia| |].
  { unfold coeffPrev. destruct (k =? 0); [destruct (_ <? _); lia|]. destruct (negb _); lia. }
  cbn [obind]. rewrite (i32_id (be_histCtx e + c)) by lia.
  rewrite (slice_get_ok (be_order e) (k + be_numBlocks e) (0, 0)) by (cbn [length] in *; lia). cbn [obind].
  set (b := Z.to_nat (k + be_numBlocks e)) in *.
  assert (B : (b < length (be_order e))%nat) by (unfold b; cbn [length] in *; lia).
  assert (PB : 0 <= fst (posAt e b) < Z.of_nat H /\ 0 <= snd (posAt e b) < Z.of_nat W) by (rewrite Forall_forall in FP; apply FP, nth_In; exact B).
  fold (posAt e b). destruct (set2_ok H W q (fst (posAt e b)) (snd (posAt e b)) (coeffVal e uc) R (proj1 PB) (proj2 PB)) as (q1 & E1 & R1 & P1).
  fold (coeffVal e uc). rewrite E1. cbn [obind].
  assert (HERE : px q1 (Z.to_nat (fst (posAt e b))) (Z.to_nat (snd (posAt e b))) = coeffVal e uc) by (rewrite P1, !Nat.eqb_refl; reflexivity).
  assert (AWAY : forall y x, posAt e b <> (Z.of_nat y, Z.of_nat x) -> px q1 y x = px q y x).
  { intros y x Ne. rewrite P1. destruct (Nat.eqb_spec y (Z.to_nat (fst (posAt e b)))) as [->|]; [|reflexivity]. destruct (Nat.eqb_spec x (Z.to_nat (snd (posAt e b)))) as [->|]; [|reflexivity].
    exfalso. apply Ne. rewrite !Z2Nat.id by lia. destruct (posAt e b); reflexivity. }
  destruct (negb (uc =? 0) && (i32 (nonZero - 1) =? 0)) eqn:T.
  - (* last nonzero symbol: nothing may follow *)
    rewrite i32_id in T by (cbn [length] in *; lia). assert (used = []).
    { destruct used as [|u us]; [reflexivity|]. exfalso. assert (Z0 : nonzeros (u :: us) = 0) by (unfold nonzeros in *; cbn [filter] in Nz; replace (negb (uc =? 0)) with true in Nz by lia; cbn [length] in Nz; cbn [filter]; lia).
      assert (I : In (last (u :: us) 0) (filter (fun v => negb (v =? 0)) (u :: us))).
      { apply filter_In. split; [|cbn [last] in La |- *; lia]. rewrite (app_removelast_last 0 (l := u :: us)) at 2 by discriminate. apply in_or_app. right. left. reflexivity. }
      unfold nonzeros in Z0. destruct (filter _ _); [destruct I|cbn in Z0; lia]. }
    subst used. exists [be_histCtx e + c], q1. split; [reflexivity|]. split; [reflexivity|]. split; [constructor; [lia|constructor]|]. split; [exact R1|]. split.
    + intros j Hj. cbn in Hj. assert (j = 0%nat) by lia. subst j. rewrite Nat.add_0_r. exact HERE.
    + split; [intros y x Ne; apply AWAY; specialize (Ne 0%nat ltac:(cbn; lia)); rewrite Nat.add_0_r in Ne; exact Ne|]. cbn [length seq map skipn]. rewrite Nz, Z.add_0_r, <- Ec. reflexivity.
  - assert (NE' : used <> []).
    { intros ->. cbn in La. unfold nonzeros in Nz. cbn [filter] in Nz. replace (negb (uc =? 0)) with true in * by lia. cbn in Nz. subst nonZero. cbn in T. discriminate. }
    assert (La' : last used 0 <> 0) by (destruct used; [congruence|exact La]).
    assert (Nz' : nonzeros used = if uc =? 0 then nonZero else i32 (nonZero - 1)).
    { rewrite i32_id by (cbn [length] in *; lia). unfold nonzeros in *. cbn [filter] in Nz. destruct (uc =? 0); cbn [negb length] in Nz; lia. }
    destruct (IH (k + 1) _ uc rest q1 n ltac:(lia) ltac:(cbn in Hn; lia) NE' La' Nz' ltac:(cbn [length] in *; lia) R1) as (ctxs & q' & -> & Lc & Fc & R' & P' & Q' & X').
    cbn [obind]. assert (EB : Z.to_nat (k + 1 + be_numBlocks e) = S b) by (unfold b; lia). rewrite EB in P', Q'.
    exists (be_histCtx e + c :: ctxs), q'. split; [reflexivity|]. split; [cbn; lia|]. split; [constructor; [lia|exact Fc]|]. split; [exact R'|]. split.
    + intros [|j] Hj; cbn [nth].
      * rewrite Nat.add_0_r, <- HERE. apply Q'. intros j Hj' E. rewrite !Z2Nat.id in E by lia.
        assert (E2 : posAt e (S b + j) = posAt e b) by (rewrite E; destruct (posAt e b); reflexivity).
        apply (posAt_inj H W) in E2; [lia|exact OK| |exact B]. cbn [length] in *. unfold b in *. lia.
      * replace (b + S j)%nat with (S b + j)%nat by lia. apply P'. cbn in Hj. lia.
    + split.
      2:{ cbn [length seq map skipn]. rewrite Nz, Z.add_0_r, <- Ec. f_equal. rewrite X', <- seq_shift, map_map. apply map_ext. intros [|j]; cbn [nth skipn].
          - unfold coeffPrev. replace (k + 1 =? 0) with false by lia. replace (k + 1 + be_numBlocks e + Z.of_nat 0) with (k + be_numBlocks e + Z.of_nat 1) by lia. destruct (uc =? 0); reflexivity.
          - replace (k + 1 + be_numBlocks e + Z.of_nat (S j)) with (k + be_numBlocks e + Z.of_nat (S (S j))) by lia. reflexivity. }
      intros y x Ne. rewrite Q'.
      * apply AWAY. specialize (Ne 0%nat ltac:(cbn; lia)). rewrite Nat.add_0_r in Ne. exact Ne.
      * intros j Hj. replace (S b + j)%nat with (b + S j)%nat by lia. apply Ne. cbn. lia.
Qed.
(* a run that ends with nothing left to find read such a sequence *)
Lemma coeff_sound e : forall n k nonZero prevU syms q ctxs q' rest, 1 <= nonZero < 2 ^ 31 -> coeffLoop n e k nonZero prevU syms q = Ok (0, ctxs, q', rest) ->
  exists used, syms = used ++ rest /\ used <> [] /\ last used 0 <> 0 /\ nonzeros used = nonZero /\ (length used <= n)%nat.
Proof.
  induction n as [|n IH]; intros k nonZero prevU syms q ctxs q' rest Hz H; cbn [coeffLoop] in H; [injection H as -> _ _ _; lia|].
  destruct (getCoefficientContext _ _ _ _) as [c| |]; cbn [obind] in H; [|discriminate|discriminate].
  destruct syms as [|uc syms]; [discriminate|].
  destruct (slice_get _ _) as [o| |]; cbn [obind] in H; [|discriminate|discriminate].
  destruct (set2 _ _ _ _) as [q1| |]; cbn [obind] in H; [|discriminate|discriminate].
  rewrite i32_id in H by lia.
  destruct (negb (uc =? 0) && (nonZero - 1 =? 0)) eqn:T.
  - injection H as _ _ <-. exists [uc]. split; [reflexivity|]. split; [discriminate|]. split; [cbn; lia|]. split; [|cbn; lia]. unfold nonzeros. cbn [filter]. replace (negb (uc =? 0)) with true by lia. cbn. lia.
  - destruct (coeffLoop n _ _ _ _ _ _) as [[[[nz cs] q2] sy]| |] eqn:E; cbn [obind] in H; [|discriminate|discriminate]. injection H as -> _ _ ->.
    apply IH in E; [|destruct (Z.eqb_spec uc 0); cbn [negb andb] in T; lia]. destruct E as (used & -> & NE & La & Nz & Le). exists (uc :: used). split; [reflexivity|]. split; [discriminate|].
    split; [destruct used; [congruence|exact La]|]. split; [|cbn; lia]. unfold nonzeros in *. cbn [filter]. destruct (Z.eqb_spec uc 0); cbn [negb length]; lia.
Qed.

(* ---- one block ---- *)
Lemma tt_order t tt : 0 <= t <= 26 -> slice_get allDCT t = Ok tt ->
  0 <= tt_orderID tt <= 12 /\ order_cells (tt_orderID tt) = (if tt_flip tt then (tt_dctSelectWidth tt, tt_dctSelectHeight tt) else (tt_dctSelectHeight tt, tt_dctSelectWidth tt)) /\
  (tt_dctSelectHeight tt, tt_dctSelectWidth tt) = cells t /\ 1 <= tt_dctSelectHeight tt <= 32 /\ 1 <= tt_dctSelectWidth tt <= 32.
Proof.
  intros Ht E. assert (X : exists n, t = Z.of_nat n /\ (n <= 26)%nat) by (exists (Z.to_nat t); lia). destruct X as (n & -> & Hn). clear Ht.
  do 27 (destruct n as [|n]; [injection E as <-; split; [cbn; lia|]; split; [reflexivity|]; split; [reflexivity|]; cbn; lia|]). lia.
Qed.
Lemma fillCounts_ok H W t y x v nz : rect H W nz -> 0 <= y -> 0 <= x -> y + tt_dctSelectHeight t <= Z.of_nat H -> x + tt_dctSelectWidth t <= Z.of_nat W ->
  1 <= tt_dctSelectHeight t -> 1 <= tt_dctSelectWidth t ->
  exists nz', fillCounts t y x v nz = Ok nz' /\ rect H W nz' /\
    forall y' x', px nz' y' x' = if (y <=? Z.of_nat y') && (Z.of_nat y' <? y + tt_dctSelectHeight t) && ((x <=? Z.of_nat x') && (Z.of_nat x' <? x + tt_dctSelectWidth t))
      then Z.quot (i32 (v + tt_dctSelectHeight t * tt_dctSelectWidth t - 1)) (tt_dctSelectHeight t * tt_dctSelectWidth t) else px nz y' x'.
Proof.
  intros R Hy Hx Hyh Hxw Hh1 Hw1. unfold fillCounts. set (h := tt_dctSelectHeight t) in *. set (w := tt_dctSelectWidth t) in *. cbv zeta. set (val := Z.quot _ _). clearbody val.
  pose (dn := fun (iy ix y' x' : nat) => (y <=? Z.of_nat y') && ((x <=? Z.of_nat x') && (Z.of_nat x' <? x + w)) && ((Z.of_nat y' <? y + Z.of_nat iy) || ((Z.of_nat y' =? y + Z.of_nat iy) && (Z.of_nat x' <? x + Z.of_nat ix)))).
  destruct (loop2_inv (fun iy ix s => rect H W s /\ forall y' x', px s y' x' = if dn iy ix y' x' then val else px nz y' x')
     (fun iy ix nz => set2 nz (y + Z.of_nat iy) (x + Z.of_nat ix) val) (Z.to_nat h) (Z.to_nat w) nz) as (s' & E & R1 & R3).
  - split; [exact R|]. intros y' x'. replace (dn 0%nat 0%nat y' x') with false; [reflexivity|]. unfold dn. clear. lia.
  - intros iy ix d1 Hiy Hix (R1 & R3).
    destruct (set2_ok H W d1 (y + Z.of_nat iy) (x + Z.of_nat ix) val R1 ltac:(lia) ltac:(lia)) as (d2 & E1 & R1' & P1). exists d2. split; [exact E1|]. split; [exact R1'|].
    intros y' x'. rewrite P1, R3. replace (dn iy (S ix) y' x') with (((y' =? Z.to_nat (y + Z.of_nat iy))%nat && (x' =? Z.to_nat (x + Z.of_nat ix))%nat) || dn iy ix y' x').
    + destruct (_ && _)%bool; reflexivity.
    + unfold dn. clear - Hx Hy Hix. lia.
  - intros iy d1 Hiy (R1 & R3). split; [exact R1|]. intros y' x'. rewrite R3. replace (dn (S iy) 0%nat y' x') with (dn iy (Z.to_nat w) y' x'); [reflexivity|]. unfold dn. clear - Hw1. lia.
  - exists s'. split; [exact E|]. split; [exact R1|]. intros y' x'. rewrite R3. replace (dn (Z.to_nat h) 0%nat y' x') with ((y <=? Z.of_nat y') && (Z.of_nat y' <? y + h) && ((x <=? Z.of_nat x') && (Z.of_nat x' <? x + w))); [reflexivity|].
    unfold dn. clear - Hh1. lia.
Qed.
Lemma predicted_ok H W nz y x : rect H W nz -> 0 <= y < Z.of_nat H -> 0 <= x < Z.of_nat W -> (forall y x, 0 <= px nz y x < 2 ^ 30) ->
  exists p, getPredictedNonZeros nz y x = Ok p /\ 0 <= p.
Proof.
  intros R Hy Hx V. unfold getPredictedNonZeros.
  destruct (Z.eqb_spec x 0) as [Ex|Ex], (Z.eqb_spec y 0) as [Ey|Ey]; cbn [andb].
  - exists 32. split; [reflexivity|lia].
  - rewrite (get2_ok H W) by (assumption || lia). eexists. split; [reflexivity|apply V].
  - rewrite (get2_ok H W) by (assumption || lia). eexists. split; [reflexivity|apply V].
  - rewrite !(get2_ok H W) by (assumption || lia). cbn [obind]. eexists. split; [reflexivity|].
    pose proof (V (Z.to_nat (y - 1)) (Z.to_nat x)). pose proof (V (Z.to_nat y) (Z.to_nat (x - 1))). rewrite i32_id by lia. apply Z.shiftr_nonneg. lia.
Qed.
Definition block_pos (t : TransformType) (o : Z * Z) : Z * Z := if tt_flip t then (snd o, fst o) else o.
Record block_inputs (HC WC H W : nat) (hc : HFBlockContext) (t : TransformType) (order : list (Z * Z)) (offset c lfIndex y x : Z) (nz q : list (list Z)) : Prop := {
  bi_hc : hb_shape hc; bi_map : Forall (fun c => 0 <= c) (hb_clusterMap hc); bi_t : exists ty, 0 <= ty <= 26 /\ slice_get allDCT ty = Ok t;
  bi_order : let s := order_cells (tt_orderID t) in scan_order (fst s) (snd s) order;
  bi_offset : 0 <= offset < 2 ^ 29; bi_c : 0 <= c <= 2; bi_lf : 0 <= lfIndex < hb_numLFContexts hc;
  bi_nz : rect HC WC nz; bi_q : rect H W q; bi_pos : 0 <= y /\ 0 <= x; bi_v : forall y x, 0 <= px nz y x < 2 ^ 30;
  bi_fitc : y + tt_dctSelectHeight t <= Z.of_nat HC /\ x + tt_dctSelectWidth t <= Z.of_nat WC;
  bi_fit : 8 * (y + tt_dctSelectHeight t) <= Z.of_nat H /\ 8 * (x + tt_dctSelectWidth t) <= Z.of_nat W }.
Lemma block_exact HC WC H W hc t order offset c hfMult lfIndex y x shift nz q used rest : block_inputs HC WC H W hc t order offset c lfIndex y x nz q ->
  (used = [] \/ last used 0 <> 0) -> let nb := tt_dctSelectHeight t * tt_dctSelectWidth t in Z.of_nat (length used) <= 63 * nb ->
  exists b ctx0 ctxs nz' q', decodeBlock hc t order offset c hfMult lfIndex y x shift (nonzeros used :: used ++ rest) nz q = Ok (ctx0 :: ctxs, nz', q', rest) /\
    0 <= b < hb_numClusters hc /\ offset <= ctx0 < offset + 37 * hb_numClusters hc /\ (ctx0 - offset) mod hb_numClusters hc = b /\
    length ctxs = length used /\ Forall (fun k => offset + 37 * hb_numClusters hc + 458 * b <= k < offset + 37 * hb_numClusters hc + 458 * b + 458) ctxs /\
    rect HC WC nz' /\ rect H W q' /\
    (forall y' x', px nz' y' x' = if (y <=? Z.of_nat y') && (Z.of_nat y' <? y + tt_dctSelectHeight t) && ((x <=? Z.of_nat x') && (Z.of_nat x' <? x + tt_dctSelectWidth t))
      then (nonzeros used + nb - 1) / nb else px nz y' x') /\
    let at_ j := block_pos t (nth (Z.to_nat nb + j) order (0, 0)) in
    (forall j, (j < length used)%nat -> px q' (Z.to_nat (8 * y + fst (at_ j))) (Z.to_nat (8 * x + snd (at_ j))) = i32 (Z.shiftl (UnpackSigned (u32 (nth j used 0))) shift)) /\
    (forall y' x', (forall j, (j < length used)%nat -> (8 * y + fst (at_ j), 8 * x + snd (at_ j)) <> (Z.of_nat y', Z.of_nat x')) -> px q' y' x' = px q y' x') /\
    exists pr, getPredictedNonZeros nz y x = Ok pr /\ 0 <= pr /\ getBlockContext hc c (tt_orderID t) hfMult lfIndex = Ok b /\
      ctx0 = offset + getNonZeroContext hc pr b /\ ctxs = map (coef_context nb (offset + 37 * hb_numClusters hc + 458 * b) used) (seq 0 (length used)).
Proof.
  intros [Bhc Bmap (ty & Hty & Ht) Bord Boff Bc Blf Bnz Bq [By Bx] Bv [Fc1 Fc2] [Ff1 Ff2]] La nb Ln. cbv zeta in Bord.
  destruct (tt_order ty t Hty Ht) as (Ho & Eo & _ & Hh & Hw). set (h := tt_dctSelectHeight t) in *. set (w := tt_dctSelectWidth t) in *.
  assert (Nb : 1 <= nb <= 1024) by (unfold nb; clear - Hh Hw; nia).
  assert (Nu : 0 <= nonzeros used <= Z.of_nat (length used)).
  { unfold nonzeros. clear. induction used as [|a l IHl]; cbn [filter length]; [lia|]. destruct (negb (a =? 0)); cbn [length]; lia. }
  destruct (predicted_ok HC WC nz y x Bnz ltac:(lia) ltac:(lia) Bv) as (pr & Epr & Hpr).
  destruct (blockContext_ok hc c (tt_orderID t) hfMult lfIndex Bhc Bc Ho Blf) as (b & Eb & Ib & Lb).
  assert (Hb : 0 <= b < hb_numClusters hc) by (rewrite Forall_forall in Bmap; specialize (Bmap b Ib); lia).
  assert (HN : hb_numClusters hc <= 16) by (destruct Bhc as (? & ? & ? & _ & _ & _ & _ & _ & N); lia). set (n := hb_numClusters hc) in *.
  destruct (nonZeroContext_ok hc pr b Hb HN Hpr) as [Cx Cm]. fold n in Cx, Cm.
  destruct (fillCounts_ok HC WC t y x (nonzeros used) nz Bnz By Bx Fc1 Fc2 (proj1 Hh) (proj1 Hw)) as (nz' & Ef & Rn & Pn).
  fold h w nb in Pn. rewrite (i32_id (nonzeros used + nb - 1)) in Pn by (clear - Nu Ln Nb; lia). rewrite (Z.quot_div_nonneg (nonzeros used + nb - 1) nb) in Pn by (clear - Nu Nb; lia).
  assert (Lo : Z.of_nat (length order) = 64 * nb).
  { destruct Bord as (_ & L & _). rewrite L, Eo. unfold nb. fold h w. destruct (tt_flip t); cbn [fst snd]; ring. }
  unfold decodeBlock. rewrite Epr. cbn [obind]. rewrite Eb. cbn [obind]. rewrite Ef. cbn [obind]. fold h w nb n.
  rewrite (i32_id (offset + getNonZeroContext hc pr b)) by lia.
  destruct used as [|u us].
  - cbn [nonzeros app]. change (nonzeros []) with 0. cbn [Z.leb Z.compare]. exists b, (offset + getNonZeroContext hc pr b), [], nz', q. split; [reflexivity|]. split; [exact Hb|]. split; [lia|].
    split; [replace (offset + getNonZeroContext hc pr b - offset) with (getNonZeroContext hc pr b) by lia; exact Cm|]. split; [reflexivity|]. split; [constructor|]. split; [exact Rn|]. split; [exact Bq|]. split; [exact Pn|].
    cbv zeta. split; [intros j Hj; cbn in Hj; lia|]. split; [intros; reflexivity|]. exists pr. split; [exact Epr || reflexivity|]. split; [exact Hpr|]. split; [exact Eb || reflexivity|]. split; reflexivity.
  - destruct La as [La|La]; [discriminate|].
    assert (N1 : 1 <= nonzeros (u :: us)).
    { assert (I : In (last (u :: us) 0) (filter (fun v => negb (v =? 0)) (u :: us))).
      { apply filter_In. split; [|lia]. rewrite (app_removelast_last 0 (l := u :: us)) at 2 by discriminate. apply in_or_app. right. left. reflexivity. }
      unfold nonzeros. destruct (filter _ _); [destruct I|cbn; lia]. }
    replace (nonzeros (u :: us) <=? 0) with false by lia. cbv zeta.
    rewrite (i32_id (458 * b)), (i32_id (37 * n)) by lia. rewrite (i32_id (offset + 458 * b + 37 * n)) by lia.
    set (e := mkBE order nb _ _ _ _ shift).
    assert (PE : forall o, coeffPos e o = (8 * y + fst (block_pos t o), 8 * x + snd (block_pos t o))).
    { intros o. unfold coeffPos, block_pos, e. cbn [be_flip be_py be_px]. rewrite !Z.shiftl_mul_pow2 by lia. change (2 ^ 3) with 8. rewrite (Z.mul_comm y 8), (Z.mul_comm x 8). destruct (tt_flip t); reflexivity. }
    assert (BE : be_ok H W e).
    { unfold be_ok. split; [exact Nb|]. split; [exact Lo|]. split; [unfold e; cbn [be_histCtx]; lia|]. destruct Bord as (ND & _ & FO & _). split; [exact ND|].
      cbn [be_order e]. rewrite Eo in FO. eapply Forall_impl; [|exact FO]. intros o Hob. cbv beta in Hob. rewrite PE. cbn [fst snd]. unfold block_pos. destruct (tt_flip t); cbn [fst snd] in *; lia. }
    destruct (coeff_run H W e BE (u :: us) 0 _ 0 rest q (Z.to_nat (be_orderSize e - nb)) ltac:(lia) ltac:(unfold be_orderSize, e; cbn [be_order]; lia) ltac:(discriminate) La eq_refl) as (ctxs & q' & -> & Lc & Fc & Rq & P1 & P2 & X).
    { unfold be_orderSize, e. cbn [be_order be_numBlocks]. lia. }
    { exact Bq. }
    cbn [obind Z.eqb]. exists b, (offset + getNonZeroContext hc pr b), ctxs, nz', q'. split; [reflexivity|]. split; [exact Hb|]. split; [lia|].
    split; [replace (offset + getNonZeroContext hc pr b - offset) with (getNonZeroContext hc pr b) by lia; exact Cm|]. split; [exact Lc|]. split.
    { eapply Forall_impl; [|exact Fc]. intros k Hk. cbv beta in Hk. unfold e in Hk. cbn [be_histCtx] in Hk. lia. }
    split; [exact Rn|]. split; [exact Rq|]. split; [exact Pn|]. cbv zeta.
    assert (PA : forall j, posAt e (Z.to_nat (0 + be_numBlocks e) + j) = (8 * y + fst (block_pos t (nth (Z.to_nat nb + j) order (0, 0))), 8 * x + snd (block_pos t (nth (Z.to_nat nb + j) order (0, 0))))).
    { intros j. unfold posAt. rewrite PE. reflexivity. }
    split.
    + intros j Hj. specialize (P1 j Hj). rewrite PA in P1. exact P1.
    + split; [intros y' x' Hne; apply P2; intros j Hj; rewrite PA; apply Hne; exact Hj|]. exists pr. split; [exact Epr || reflexivity|]. split; [exact Hpr|]. split; [exact Eb || reflexivity|]. split; [reflexivity|].
      rewrite X. apply map_ext. intros j. unfold coef_context, coeffPrev, be_orderSize. cbn [e be_histCtx be_numBlocks be_order]. rewrite Lo. rewrite Z.quot_div_nonneg by lia.
      replace (64 * nb / 16) with (4 * nb) by (replace (64 * nb) with (4 * nb * 16) by ring; rewrite Z.div_mul; lia). change (0 =? 0) with true. cbv iota. replace (offset + 458 * b + 37 * n) with (offset + 37 * n + 458 * b) by ring.
      rewrite Z.add_0_l. reflexivity.
Qed.
Lemma block_run HC WC H W hc t order offset c hfMult lfIndex y x shift nz q used rest : block_inputs HC WC H W hc t order offset c lfIndex y x nz q ->
  (used = [] \/ last used 0 <> 0) -> let nb := tt_dctSelectHeight t * tt_dctSelectWidth t in Z.of_nat (length used) <= 63 * nb ->
  exists b ctx0 ctxs nz' q', decodeBlock hc t order offset c hfMult lfIndex y x shift (nonzeros used :: used ++ rest) nz q = Ok (ctx0 :: ctxs, nz', q', rest) /\
    0 <= b < hb_numClusters hc /\ offset <= ctx0 < offset + 37 * hb_numClusters hc /\ (ctx0 - offset) mod hb_numClusters hc = b /\
    length ctxs = length used /\ Forall (fun k => offset + 37 * hb_numClusters hc + 458 * b <= k < offset + 37 * hb_numClusters hc + 458 * b + 458) ctxs /\
    rect HC WC nz' /\ rect H W q' /\
    (forall y' x', px nz' y' x' = if (y <=? Z.of_nat y') && (Z.of_nat y' <? y + tt_dctSelectHeight t) && ((x <=? Z.of_nat x') && (Z.of_nat x' <? x + tt_dctSelectWidth t))
      then (nonzeros used + nb - 1) / nb else px nz y' x') /\
    let at_ j := block_pos t (nth (Z.to_nat nb + j) order (0, 0)) in
    (forall j, (j < length used)%nat -> px q' (Z.to_nat (8 * y + fst (at_ j))) (Z.to_nat (8 * x + snd (at_ j))) = i32 (Z.shiftl (UnpackSigned (u32 (nth j used 0))) shift)) /\
    (forall y' x', (forall j, (j < length used)%nat -> (8 * y + fst (at_ j), 8 * x + snd (at_ j)) <> (Z.of_nat y', Z.of_nat x')) -> px q' y' x' = px q y' x').
Proof.
  intros BI La nb Ln. destruct (block_exact HC WC H W hc t order offset c hfMult lfIndex y x shift nz q used rest BI La Ln) as (b & ctx0 & ctxs & nz' & q' & E1 & E2 & E3 & E4 & E5 & E6 & E7 & E8 & E9 & E10 & E11 & _).
  exists b, ctx0, ctxs, nz', q'. repeat (split; [assumption|]). assumption.
Qed.
(* a block that decodes read a count and that many nonzero symbols *)
Lemma block_sound hc t order offset c hfMult lfIndex y x shift syms nz q ctxs nz' q' rest : 1 <= tt_dctSelectHeight t * tt_dctSelectWidth t -> Forall (fun v => - 2 ^ 31 <= v < 2 ^ 31) syms ->
  be_orderSize (mkBE order 0 0 false 0 0 0) = 64 * (tt_dctSelectHeight t * tt_dctSelectWidth t) ->
  decodeBlock hc t order offset c hfMult lfIndex y x shift syms nz q = Ok (ctxs, nz', q', rest) ->
  exists cnt used, syms = cnt :: used ++ rest /\ (used = [] /\ cnt <= 0 \/ last used 0 <> 0 /\ cnt = nonzeros used) /\ Z.of_nat (length used) <= 63 * (tt_dctSelectHeight t * tt_dctSelectWidth t).
Proof.
  intros Hnb HS Lo E. unfold decodeBlock in E. set (nb := tt_dctSelectHeight t * tt_dctSelectWidth t) in *.
  destruct (getPredictedNonZeros _ _ _) as [pr| |]; cbn [obind] in E; [|discriminate|discriminate].
  destruct (getBlockContext _ _ _ _ _) as [b| |]; cbn [obind] in E; [|discriminate|discriminate].
  destruct syms as [|cnt syms]; [discriminate|]. inversion HS as [|? ? Hc HS']; subst. cbv beta in Hc.
  destruct (fillCounts _ _ _ _ _) as [nz1| |]; cbn [obind] in E; [|discriminate|discriminate].
  destruct (Z.leb_spec cnt 0).
  - injection E as _ _ _ <-. exists cnt, []. split; [reflexivity|]. split; [left; split; [reflexivity|lia]|cbn [length]; clearbody nb; lia].
  - cbv zeta in E. match type of E with obind ?m _ = _ => destruct m as [[[[r cs] q1] sy]| |] eqn:EL end; cbn [obind] in E; [|discriminate|discriminate].
    destruct (Z.eqb_spec r 0) as [->|]; [|discriminate]. injection E as _ _ _ ->. apply coeff_sound in EL; [|lia]. destruct EL as (used & -> & NE & La & Nz & Le).
    exists cnt, used. split; [reflexivity|]. split; [right; split; [exact La|lia]|]. unfold be_orderSize in *. cbn [be_order] in *. lia.
Qed.
