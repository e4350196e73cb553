(* Lemmas about the HF coefficients of a group. *)
From Coq Require Import ZArith List Bool Lia Arith Permutation ZifyBool ZifyNat.
From Verif Require Import GoBase GoLoop GoMatrix ModelBitReader ModelUtil ModelEntropy ModelHF ModelHFCoeff ModelHFGroup SpecCodes SpecHF SpecHFGroup SpecBitReader.
From Verif Require Import ProofReads ProofCodes ProofToc ProofCluster ProofHF ProofHFCoeff ProofModDecode ProofDecode.
Import ListNotations.
Open Scope Z_scope.

(* ---- the loops with the stream ---- *)
Lemma coeffs_read : forall n e k nonZero prevU used rest q r ctxs q', coeffLoop n e k nonZero prevU (used ++ rest) q = Ok (r, ctxs, q', rest) -> length ctxs = length used ->
  forall ss, gives_m 0 ss (combine ctxs used) -> readCoeffs n e k nonZero prevU q (ss 0%nat) = (Ok (r, q'), ss (length used)).
Proof.
  induction n as [|n IH]; intros e k nonZero prevU used rest q r ctxs q' E L ss G; cbn [coeffLoop readCoeffs] in *.
  - injection E as <- <- <- E. destruct used; [reflexivity|cbn in L; discriminate].
  - destruct (getCoefficientContext _ _ _ _) as [c| |]; cbn [obind] in E; try discriminate. unfold ebind at 1, hlift at 1.
    destruct used as [|uc used].
    + cbn [app] in E. destruct rest as [|uc rest]; [discriminate|]. destruct (slice_get _ _) as [o| |]; cbn [obind] in E; try discriminate. destruct (set2 _ _ _ _) as [q1| |]; cbn [obind] in E; try discriminate.
      destruct (negb (uc =? 0) && (i32 (nonZero - 1) =? 0)); [injection E as _ <- _ _; discriminate|].
      destruct (coeffLoop n _ _ _ _ _ _) as [[[[? ?] ?] ?]| |]; cbn [obind] in E; try discriminate. injection E as _ <- _ _. discriminate.
    + cbn [app] in E. destruct (slice_get (be_order e) _) as [o| |] eqn:Eo; cbn [obind] in E; try discriminate. destruct (set2 _ _ _ _) as [q1| |] eqn:Es; cbn [obind] in E; try discriminate.
      assert (RS : forall ctxs', ctxs = i32 (be_histCtx e + c) :: ctxs' -> ReadSymbol (i32 (be_histCtx e + c)) (ss 0%nat) = (Ok uc, ss 1%nat) /\ gives_m 0 (fun k => ss (S k)) (combine ctxs' used)).
      { intros ctxs' ->. split; [exact (G 0%nat _ _ eq_refl)|]. intros j cx v Hj. exact (G (S j) _ _ Hj). }
      destruct (negb (uc =? 0) && (i32 (nonZero - 1) =? 0)) eqn:T.
      * injection E as <- <- <- E. destruct used; [|cbn in L; discriminate]. destruct (RS [] eq_refl) as [R _]. unfold ebind at 1. rewrite R. unfold ebind, hlift. rewrite Es, T. reflexivity.
      * destruct (coeffLoop n _ _ _ _ _ _) as [[[[r1 cs1] q2] sy]| |] eqn:EL; cbn [obind] in E; try discriminate. injection E as <- <- <- ->. cbn [length] in L. destruct (RS cs1 eq_refl) as [R G'].
        unfold ebind at 1. rewrite R. unfold ebind, hlift. rewrite Es, T. exact (IH _ _ _ _ _ _ _ _ _ _ EL ltac:(lia) (fun k => ss (S k)) G').
Qed.
Lemma block_read hc t order offset c hfMult lfIndex y x shift cnt used rest nz q ctx0 ctxs nz' q' :
  decodeBlock hc t order offset c hfMult lfIndex y x shift (cnt :: used ++ rest) nz q = Ok (ctx0 :: ctxs, nz', q', rest) -> length ctxs = length used ->
  forall ss, gives_m 0 ss ((ctx0, cnt) :: combine ctxs used) -> readBlock hc t order offset c hfMult lfIndex y x shift nz q (ss 0%nat) = (Ok (nz', q'), ss (S (length used))).
Proof.
  intros E L ss G. unfold decodeBlock in E. unfold readBlock. cbv zeta in *.
  destruct (getPredictedNonZeros nz y x) as [pr| |]; cbn [obind] in E; try discriminate. destruct (getBlockContext _ _ _ _ _) as [b| |]; cbn [obind] in E; try discriminate.
  destruct (fillCounts t y x cnt nz) as [nz1| |] eqn:Ef; cbn [obind] in E; try discriminate. unfold ebind at 1, hlift at 1. unfold ebind at 1, hlift at 1.
  assert (G' : gives_m 0 (fun k => ss (S k)) (combine ctxs used)) by (intros j cx v Hj; exact (G (S j) _ _ Hj)).
  destruct (cnt <=? 0) eqn:T.
  - injection E as E1 <- <- <- E2. destruct used; [|cbn in L; discriminate]. assert (R : ReadSymbol ctx0 (ss 0%nat) = (Ok cnt, ss 1%nat)) by exact (G 0%nat _ _ eq_refl).
    rewrite E1. unfold ebind at 1. rewrite R. unfold ebind, hlift. rewrite Ef, T. reflexivity.
  - match type of E with obind ?m _ = _ => destruct m as [[[[r cs] q1] sy]| |] eqn:EL end; cbn [obind] in E; try discriminate. destruct (Z.eqb_spec r 0) as [->|]; [|discriminate].
    injection E as E1 <- <- <- ->. assert (R : ReadSymbol ctx0 (ss 0%nat) = (Ok cnt, ss 1%nat)) by exact (G 0%nat _ _ eq_refl).
    rewrite E1. unfold ebind at 1. rewrite R. unfold ebind, hlift. rewrite Ef, T.
    pose proof (coeffs_read _ _ _ _ _ _ _ _ _ _ _ EL L (fun k => ss (S k)) G') as RC. cbv beta in RC. rewrite RC. reflexivity.
Qed.

(* ---- transform types and contexts ---- *)
Lemma type_fields ty t : 0 <= ty <= 26 -> slice_get allDCT ty = Ok t -> tt_orderID t = order_of ty /\ tt_flip t = exchanged ty /\ tt_dctSelectHeight t = fst (cells ty) /\ tt_dctSelectWidth t = snd (cells ty).
Proof.
  intros Ht E. assert (X : exists n, ty = Z.of_nat n /\ (n <= 26)%nat) by (exists (Z.to_nat ty); lia). destruct X as (n & -> & Hn). clear Ht.
  do 27 (destruct n as [|n]; [injection E as <-; repeat split; reflexivity|]). lia.
Qed.
Lemma type_there ty : 0 <= ty <= 26 -> exists t, slice_get allDCT ty = Ok t.
Proof. intros H. rewrite (slice_get_ok allDCT ty (mkTT 0 0 0 0 0 0)) by (change (length allDCT) with 27%nat; lia). eexists. reflexivity. Qed.
Lemma context_exact hc c ty hfMult lf : hb_shape hc -> (c < 3)%nat -> 0 <= ty <= 26 -> 0 <= lf < hb_numLFContexts hc ->
  getBlockContext hc (Z.of_nat c) (order_of ty) hfMult lf = Ok (block_context hc c ty hfMult lf).
Proof.
  intros (t0 & t1 & t2 & E & N & L & B & F & _) Hc Ht Hl. unfold getBlockContext, block_context. cbv zeta. change (countAbove hfMult) with (above hfMult).
  pose proof (countAbove_range hfMult (hb_qfThresholds hc)) as Q. change (countAbove hfMult) with (above hfMult) in Q.
  set (nq := Z.of_nat (length (hb_qfThresholds hc))) in *. set (a := above _ _) in *. clearbody nq a.
  set (nl := hb_numLFContexts hc) in *. clearbody nl.
  assert (I : (if Z.of_nat c <? 2 then 1 - Z.of_nat c else Z.of_nat c) = place c /\ 0 <= place c <= 2) by (destruct c as [|[|[|c]]]; [cbn; lia|cbn; lia|cbn; lia|lia]). destruct I as [-> Hj].
  assert (O : 0 <= order_of ty <= 12).
  { assert (X : exists n, ty = Z.of_nat n /\ (n <= 26)%nat) by (exists (Z.to_nat ty); lia). destruct X as (n & -> & Hn). do 27 (destruct n as [|n]; [cbn; lia|]). lia. }
  set (j := place c) in *. set (o := order_of ty) in *. clearbody j o.
  assert (A : 0 <= (j * 13 + o) * (nq + 1) + a <= 39 * (nq + 1) - 1) by nia.
  set (m := (j * 13 + o) * (nq + 1) + a) in *. clearbody m.
  assert (C : 0 <= m * nl + lf < Z.of_nat (length (hb_clusterMap hc))) by nia.
  assert (D : 0 <= m * nl <= 39 * 64) by nia.
  rewrite (i32_id (m * nl)) by lia. rewrite i32_id by lia. rewrite (slice_get_ok _ _ 0) by lia. reflexivity.
Qed.
Lemma count_exact hc b pr : 0 <= b < hb_numClusters hc -> hb_numClusters hc <= 16 -> 0 <= pr -> getNonZeroContext hc pr b = count_context (hb_numClusters hc) b pr.
Proof.
  intros Hb Hn Hp. unfold getNonZeroContext, count_context. set (n := hb_numClusters hc) in *. clearbody n.
  destruct (Z.ltb_spec 64 pr).
  - change (64 <? 8) with false. replace (pr <? 8) with false by lia. rewrite Z.min_r by lia. change (Z.quot 64 2) with 32. change (64 / 2) with 32. cbv iota. apply i32_id. nia.
  - destruct (Z.ltb_spec pr 8); [apply i32_id; nia|]. rewrite Z.min_l by lia. rewrite Z.quot_div_nonneg by lia. pose proof (Z.div_mod pr 2 ltac:(lia)). pose proof (Z.mod_pos_bound pr 2 ltac:(lia)). apply i32_id. nia.
Qed.
Lemma prediction_exact N nz y x : rect 32 32 nz -> (y < 32)%nat -> (x < 32)%nat -> (forall y x, 0 <= px nz y x < 2 ^ 30) -> (forall y x, (y < 32)%nat -> (x < 32)%nat -> px nz y x = N y x) ->
  getPredictedNonZeros nz (Z.of_nat y) (Z.of_nat x) = Ok (prediction N y x).
Proof.
  intros R Hy Hx V HN. unfold getPredictedNonZeros.
  destruct y as [|y], x as [|x]; cbn [prediction].
  - reflexivity.
  - replace (Z.of_nat (S x) =? 0) with false by lia. cbn [andb]. change (Z.of_nat 0 =? 0) with true. cbv iota. rewrite (get2_ok 32 32) by (assumption || lia). f_equal. rewrite HN by lia. f_equal; lia.
  - replace (Z.of_nat (S y) =? 0) with false by lia. change (Z.of_nat 0 =? 0) with true. cbn [andb]. cbv iota. rewrite (get2_ok 32 32) by (assumption || lia). f_equal. rewrite HN by lia. f_equal; lia.
  - replace (Z.of_nat (S y) =? 0) with false by lia. replace (Z.of_nat (S x) =? 0) with false by lia. cbn [andb]. rewrite !(get2_ok 32 32) by (assumption || lia). cbn [obind]. f_equal.
    replace (Z.to_nat (Z.of_nat (S y) - 1)) with y by lia. replace (Z.to_nat (Z.of_nat (S x) - 1)) with x by lia. rewrite !Nat2Z.id.
    pose proof (V y (S x)). pose proof (V (S y) x). rewrite i32_id by lia. rewrite Z.shiftr_div_pow2 by lia. rewrite !HN by lia. reflexivity.
Qed.
Lemma shift_cell a k : Z.shiftr (Z.of_nat a) (Z.of_nat k) = Z.of_nat (a / 2 ^ k).
Proof. rewrite Z.shiftr_div_pow2 by lia. rewrite Nat2Z.inj_div, Nat2Z.inj_pow. reflexivity. Qed.
Lemma back_cell a k : (Z.of_nat a =? Z.shiftl (Z.of_nat (a / 2 ^ k)) (Z.of_nat k)) = (a mod 2 ^ k =? 0)%nat.
Proof.
  rewrite Z.shiftl_mul_pow2 by lia. change 2 with (Z.of_nat 2). rewrite <- Nat2Z.inj_pow, <- Nat2Z.inj_mul. assert (N : (2 ^ k <> 0)%nat) by (apply Nat.pow_nonzero; lia).
  pose proof (Nat.div_mod a (2 ^ k) N) as D. rewrite (Nat.mul_comm (a / 2 ^ k)). set (u := (2 ^ k * (a / 2 ^ k))%nat) in *. set (m := (a mod 2 ^ k)%nat) in *. clearbody u m. lia.
Qed.
Lemma coefficient v shift : 0 <= v < 2 ^ 31 -> 0 <= shift -> - 2 ^ 31 <= unzigzag v * 2 ^ shift < 2 ^ 31 -> i32 (Z.shiftl (UnpackSigned (u32 v)) shift) = unzigzag v * 2 ^ shift.
Proof.
  intros Hv Hs H. assert (E : UnpackSigned (u32 v) = unzigzag v).
  { replace (u32 v) with v by (symmetry; unfold u32; apply Z.mod_small; lia). destruct (Z.even v) eqn:P; [apply UnpackSigned_even; [lia|exact P]|]. rewrite UnpackSigned_odd by (lia || exact P). replace (v <? 2 ^ 31) with true by lia. reflexivity. }
  rewrite E, Z.shiftl_mul_pow2 by lia. apply i32_id. exact H.
Qed.

(* ---- groups ---- *)
Definition block_fits (g : hgroup) (H W : nat -> nat) (c : nat) (b : hblock) : Prop :=
  Z.of_nat (cell_y g c b) + fst (cells (b_type b)) <= 32 /\ Z.of_nat (cell_x g c b) + snd (cells (b_type b)) <= 32 /\
  8 * (Z.of_nat (cell_y g c b) + fst (cells (b_type b))) <= Z.of_nat (H c) /\ 8 * (Z.of_nat (cell_x g c b) + snd (cells (b_type b))) <= Z.of_nat (W c).
Record group_inputs (i : GroupIn) (g : hgroup) (Q : nat -> nat -> nat -> Z) : Prop := {
  gp_hc : gi_hc i = g_ctx g; gp_shape : hb_shape (g_ctx g); gp_map : Forall (fun c => 0 <= c) (hb_clusterMap (g_ctx g));
  gp_orders : forall o c, 0 <= o <= 12 -> (c < 3)%nat -> obind (slice_get (gi_orders i) o) (fun os => slice_get os (Z.of_nat c)) = Ok (g_order g o c);
  gp_scan : forall o c, 0 <= o <= 12 -> (c < 3)%nat -> scan_order (fst (order_cells o)) (snd (order_cells o)) (g_order g o c);
  gp_offset : 0 <= g_offset g < 2 ^ 29; gp_shift : 0 <= gi_shift i;
  gp_jy : forall c, (c < 3)%nat -> slice_get (gi_jy i) (Z.of_nat c) = Ok (Z.of_nat (g_sy g c));
  gp_jx : forall c, (c < 3)%nat -> slice_get (gi_jx i) (Z.of_nat c) = Ok (Z.of_nat (g_sx g c));
  gp_range : forall c y x, - 2 ^ 31 <= Q c y x * 2 ^ gi_shift i < 2 ^ 31;
  gp_y : Z.of_nat (g_y g) = 32 * fst (gi_pos i) /\ Z.of_nat (g_y g) < 2 ^ 31; gp_x : Z.of_nat (g_x g) = 32 * snd (gi_pos i) /\ Z.of_nat (g_x g) < 2 ^ 31 }.
(* what is known of the counts and the coefficients: D are the positions done *)
Definition state_ok (i : GroupIn) (H W : nat -> nat) (Q N : nat -> nat -> nat -> Z) (D : nat -> nat -> nat -> Prop) (s : list (list (list Z)) * list (list (list Z))) : Prop :=
  length (fst s) = 3%nat /\ length (snd s) = 3%nat /\ forall c, (c < 3)%nat ->
    (rect 32 32 (nth c (fst s) []) /\ (forall y x, 0 <= px (nth c (fst s) []) y x < 2 ^ 30) /\ forall y x, (y < 32)%nat -> (x < 32)%nat -> px (nth c (fst s) []) y x = N c y x) /\
    rect (H c) (W c) (nth c (snd s) []) /\ forall y x, (D c y x -> px (nth c (snd s) []) y x = Q c y x * 2 ^ gi_shift i) /\ (~ D c y x -> px (nth c (snd s) []) y x = 0).
Lemma state_more i H W Q N D D' s : (forall c y x, (c < 3)%nat -> D c y x <-> D' c y x) -> state_ok i H W Q N D s -> state_ok i H W Q N D' s.
Proof.
  intros E (L1 & L2 & S). split; [exact L1|]. split; [exact L2|]. intros c Hc. destruct (S c Hc) as (A & B & C). split; [exact A|]. split; [exact B|]. intros y x. destruct (C y x) as [C1 C2]. specialize (E c y x Hc). tauto.
Qed.
Lemma hf_length i g Q c b : group_inputs i g Q -> (c < 3)%nat -> 0 <= b_type b <= 26 -> Z.of_nat (length (hf_positions g c b)) = 63 * blocks8 (b_type b) /\ 1 <= blocks8 (b_type b) <= 1024 /\
  Z.of_nat (length (g_order g (order_of (b_type b)) c)) = 64 * blocks8 (b_type b).
Proof.
  intros G Hc Ht. destruct (type_there _ Ht) as (t & Et). destruct (tt_order _ _ Ht Et) as (T1 & T2 & T3 & T4 & T5). destruct (type_fields _ _ Ht Et) as (F1 & F2 & F3 & F4).
  destruct (gp_scan i g Q G _ c T1 Hc) as (_ & L & _). rewrite F1 in *. unfold blocks8. rewrite <- F3, <- F4.
  assert (L' : Z.of_nat (length (g_order g (order_of (b_type b)) c)) = 64 * (tt_dctSelectHeight t * tt_dctSelectWidth t)) by (rewrite L, T2; destruct (tt_flip t); cbn [fst snd]; ring).
  assert (B : 1 <= tt_dctSelectHeight t * tt_dctSelectWidth t <= 1024) by (clear - T4 T5; nia).
  split; [|split; [exact B|exact L']]. unfold hf_positions, blocks8. rewrite map_length, skipn_length, <- F3, <- F4. lia.
Qed.
Lemma nth_skip {A} n (l : list A) j d : nth j (skipn n l) d = nth (n + j) l d.
Proof. revert l. induction n as [|n IH]; intros l; [reflexivity|]. destruct l; [destruct j; reflexivity|]. cbn. apply IH. Qed.
(* the HF coefficients of a block lie in its cells *)
Lemma hf_inside i g Q c b y x : group_inputs i g Q -> (c < 3)%nat -> 0 <= b_type b <= 26 -> In (y, x) (hf_positions g c b) -> covers_cell g c b (y / 8) (x / 8) = true.
Proof.
  intros G Hc Ht HI. destruct (type_there _ Ht) as (t & Et). destruct (tt_order _ _ Ht Et) as (T1 & T2 & T3 & T4 & T5). destruct (type_fields _ _ Ht Et) as (F1 & F2 & F3 & F4).
  destruct (gp_scan i g Q G _ c T1 Hc) as (_ & _ & F & _). rewrite F1 in *. unfold hf_positions in HI. apply in_map_iff in HI. destruct HI as (o & E & HI).
  assert (HI' : In o (g_order g (order_of (b_type b)) c)) by (rewrite <- (firstn_skipn (Z.to_nat (blocks8 (b_type b)))); apply in_or_app; right; exact HI).
  rewrite Forall_forall in F. specialize (F o HI'). rewrite T2 in F. unfold stored in E. rewrite <- F2 in E. unfold covers_cell. rewrite <- F3, <- F4. clear - F E T4 T5.
  set (a := cell_y g c b) in *. set (u := cell_x g c b) in *. clearbody a u. set (h := tt_dctSelectHeight t) in *. set (w := tt_dctSelectWidth t) in *. clearbody h w.
  assert (X : exists r k, y = (8 * a + r)%nat /\ x = (8 * u + k)%nat /\ Z.of_nat r < 8 * h /\ Z.of_nat k < 8 * w).
  { destruct (tt_flip t); cbn [fst snd] in *; injection E as <- <-; eexists; eexists; (split; [reflexivity|]); (split; [reflexivity|]); lia. }
  destruct X as (r & k & -> & -> & Hr & Hk). rewrite (Nat.mul_comm 8 a), (Nat.mul_comm 8 u), !Nat.div_add_l by lia.
  pose proof (Nat.div_mod r 8 ltac:(lia)). pose proof (Nat.div_mod k 8 ltac:(lia)). set (r8 := (r / 8)%nat) in *. set (k8 := (k / 8)%nat) in *. clearbody r8 k8.
  repeat (apply andb_true_intro; split); lia.
Qed.
Lemma nonzeros_unzig l : 0 <= nonzeros l <= Z.of_nat (length l).
Proof. unfold nonzeros. induction l as [|a l IHl]; cbn [filter length]; [lia|]. destruct (negb (a =? 0)); cbn [length]; lia. Qed.

Section Group.
Context (i : GroupIn) (g : hgroup) (Q : nat -> nat -> nat -> Z) (H W : nat -> nat) (G : group_inputs i g Q).
Lemma channel_step b t c N D s l M ss : (c < 3)%nat -> in_group g b -> in_channel g c b -> 0 <= b_type b <= 26 -> slice_get allDCT (b_type b) = Ok t -> 0 <= b_lf b < hb_numLFContexts (g_ctx g) -> block_fits g H W c b ->
  state_ok i H W Q N D s -> (forall y x, In (y, x) (hf_positions g c b) -> ~ D c y x) -> block_sends g c b (Q c) (N c) l M -> gives_m 0 ss l ->
  exists s', readChannel i (g_offset g) t (b_mult b) (b_lf b) (Z.of_nat (b_y b - g_y g)) (Z.of_nat (b_x b - g_x g)) (Z.of_nat c) s (ss 0%nat) = (Ok s', ss (length l)) /\
    state_ok i H W Q (upd N c M) (fun c' y x => D c' y x \/ c' = c /\ In (y, x) (hf_positions g c b)) s'.
Proof.
  intros Hc Hg [Iy Ix] Ht Et Hlf (B1 & B2 & B3 & B4) (L1 & L2 & ST) Hfresh (used & k & La & Vu & EQ & -> & HM) GV.
  destruct (tt_order _ _ Ht Et) as (T1 & T2 & T3 & T4 & T5). destruct (type_fields _ _ Ht Et) as (F1 & F2 & F3 & F4).
  destruct (hf_length i g Q c b G Hc Ht) as (LP & Bn & LO).
  unfold readChannel. erewrite ebind_intro by (unfold hlift; rewrite (gp_jy i g Q G c Hc); reflexivity). erewrite ebind_intro by (unfold hlift; rewrite (gp_jx i g Q G c Hc); reflexivity). cbv zeta.
  rewrite !shift_cell, !back_cell, Iy, Ix. cbn [Nat.eqb negb orb]. fold (cell_y g c b). fold (cell_x g c b).
  erewrite ebind_intro by (unfold hlift; rewrite (slice_get_ok _ _ []) by (clear - L1 L2 Hc; lia); reflexivity). erewrite ebind_intro by (unfold hlift; rewrite (slice_get_ok _ _ []) by (clear - L1 L2 Hc; lia); reflexivity).
  rewrite F1. assert (O12 : 0 <= order_of (b_type b) <= 12) by (rewrite <- F1; exact T1).
  erewrite ebind_intro by (unfold hlift; rewrite (gp_orders i g Q G _ c O12 Hc); reflexivity). rewrite Nat2Z.id, (gp_hc i g Q G).
  destruct (ST c Hc) as ((R1 & R2 & R3) & R4 & R5). set (nz := nth c (fst s) []) in *. set (q := nth c (snd s) []) in *.
  set (o := g_order g (order_of (b_type b)) c) in *.
  assert (BI : block_inputs 32 32 (H c) (W c) (g_ctx g) t o (g_offset g) (Z.of_nat c) (b_lf b) (Z.of_nat (cell_y g c b)) (Z.of_nat (cell_x g c b)) nz q).
  { constructor; try exact R1; try exact R2; try exact R4; try exact Hlf; try exact (gp_shape i g Q G); try exact (gp_map i g Q G); try exact (gp_offset i g Q G); rewrite ?F3, ?F4; try lia.
    - exists (b_type b). split; assumption.
    - cbv zeta. rewrite F1. exact (gp_scan i g Q G _ c O12 Hc). }
  assert (Enb : tt_dctSelectHeight t * tt_dctSelectWidth t = blocks8 (b_type b)) by (unfold blocks8; rewrite F3, F4; reflexivity).
  assert (LL : (length (hf_positions g c b) = length used + k)%nat) by (rewrite <- (map_length (fun p => Q c (fst p) (snd p))), EQ, app_length, map_length, repeat_length; reflexivity).
  pose proof (block_exact 32 32 (H c) (W c) (g_ctx g) t o (g_offset g) (Z.of_nat c) (b_mult b) (b_lf b) _ _ (gi_shift i) nz q used [] BI La) as X. cbv zeta in X. rewrite !Enb in X.
  destruct (X ltac:(lia)) as (bc & ctx0 & ctxs & nz' & q' & E1 & Hb & _ & _ & E5 & _ & E7 & E8 & E9 & E10 & E11 & pr & P1 & P2 & P3 & P4 & P5). clear X.
  assert (Hy32 : (cell_y g c b < 32)%nat) by (rewrite <- F3 in B1; lia). assert (Hx32 : (cell_x g c b < 32)%nat) by (rewrite <- F4 in B2; lia).
  rewrite (prediction_exact (N c) nz _ _ R1 Hy32 Hx32 R2 R3) in P1. injection P1 as <-.
  rewrite F1, (context_exact (g_ctx g) c (b_type b) (b_mult b) (b_lf b) (gp_shape i g Q G) Hc Ht Hlf) in P3. injection P3 as <-.
  assert (N16 : hb_numClusters (g_ctx g) <= 16) by (destruct (gp_shape i g Q G) as (? & ? & ? & _ & _ & _ & _ & _ & ?); lia).
  rewrite (count_exact _ _ _ Hb N16 P2) in P4.
  assert (GV' : gives_m 0 ss ((ctx0, nonzeros used) :: combine ctxs used)).
  { unfold block_symbols in GV. subst ctx0 ctxs. replace (combine _ used) with (map (fun j => (coef_context (blocks8 (b_type b)) (g_offset g + 37 * hb_numClusters (g_ctx g) + 458 * block_context (g_ctx g) c (b_type b) (b_mult b) (b_lf b)) used j, nth j used 0)) (seq 0 (length used))); [exact GV|].
    generalize (coef_context (blocks8 (b_type b)) (g_offset g + 37 * hb_numClusters (g_ctx g) + 458 * block_context (g_ctx g) c (b_type b) (b_mult b) (b_lf b)) used). clear. intros f.
    assert (A : used = map (fun j => nth j used 0) (seq 0 (length used))).
    { apply (nth_ext _ _ 0 0); [now rewrite map_length, seq_length|]. intros n Hn. rewrite (nth_indep (map _ _) 0 (nth 0 used 0)) by (now rewrite map_length, seq_length). rewrite (map_nth (fun j => nth j used 0)), seq_nth by exact Hn. reflexivity. }
    transitivity (combine (map f (seq 0 (length used))) (map (fun j => nth j used 0) (seq 0 (length used)))); [|rewrite <- A; reflexivity].
    generalize (seq 0 (length used)). intros l. induction l as [|a l IHl]; [reflexivity|]. cbn [map combine]. now rewrite IHl. }
  pose proof (block_read _ _ _ _ _ _ _ _ _ _ _ _ _ _ _ _ _ _ _ E1 E5 ss GV') as RB.
  replace (length (block_symbols _ _ _ _ _ used)) with (S (length used)) by (unfold block_symbols; cbn [length]; rewrite map_length, seq_length; reflexivity).
  erewrite ebind_intro by exact RB. cbn [fst snd].
  erewrite ebind_intro by (unfold hlift; rewrite slice_set_ok by (clear - L1 L2 Hc; lia); reflexivity). erewrite ebind_intro by (unfold hlift; rewrite slice_set_ok by (clear - L1 L2 Hc; lia); reflexivity).
  eexists. split; [reflexivity|]. rewrite Nat2Z.id. split; [cbn [fst]; rewrite list_set_length; exact L1|]. split; [cbn [snd]; rewrite list_set_length; exact L2|].
  intros c' Hc'. cbn [fst snd]. destruct (Nat.eq_dec c c') as [<-|NE].
  2:{ rewrite !nth_list_set_neq by exact NE. destruct (ST c' Hc') as (S1 & S2 & S3). split; [|split; [exact S2|]].
    - unfold upd. replace (c' =? c)%nat with false by (clear - NE; lia). exact S1.
    - intros y x. destruct (S3 y x) as [S31 S32]. split; [intros [A|[A _]]; [exact (S31 A)|congruence]|]. intros A. apply S32. tauto. }
  rewrite !nth_list_set_eq by (clear - L1 L2 Hc; lia). unfold upd. rewrite Nat.eqb_refl. pose proof (nonzeros_unzig used) as NU.
  assert (CV : 0 <= (nonzeros used + blocks8 (b_type b) - 1) / blocks8 (b_type b) < 2 ^ 30).
  { split; [apply Z.div_pos; clear - NU Bn; lia|]. apply Z.div_lt_upper_bound; [clear - Bn; lia|]. clear - Bn NU LL LP. nia. }
  split; [split; [exact E7|split]|split; [exact E8|]].
  - intros y x. rewrite E9. match goal with |- context [if ?cond then _ else _] => destruct cond end; [exact CV|apply R2].
  - intros y x Hy Hx. rewrite E9, HM, R3 by assumption. unfold covers_cell. rewrite F3, F4. replace (Z.of_nat (cell_y g c b) <=? Z.of_nat y) with (cell_y g c b <=? y)%nat by lia. replace (Z.of_nat (cell_x g c b) <=? Z.of_nat x) with (cell_x g c b <=? x)%nat by lia. reflexivity.
  - clear - G Hc Ht O12 F2 LP LL Bn LO EQ E10 E11 R5 Hfresh Vu. assert (AT : forall j, (j < length (hf_positions g c b))%nat -> let p := nth j (hf_positions g c b) (0, 0)%nat in
      8 * Z.of_nat (cell_y g c b) + fst (block_pos t (nth (Z.to_nat (blocks8 (b_type b)) + j) o (0, 0))) = Z.of_nat (fst p) /\ 8 * Z.of_nat (cell_x g c b) + snd (block_pos t (nth (Z.to_nat (blocks8 (b_type b)) + j) o (0, 0))) = Z.of_nat (snd p)).
    { intros j Hj. cbv zeta. unfold hf_positions in Hj |- *. rewrite map_length in Hj. fold o in Hj |- *.
      set (f := fun o0 => _). rewrite (nth_indep (map f _) _ (f (0, 0))) by (rewrite map_length; exact Hj). rewrite (map_nth f). rewrite nth_skip. set (e := nth _ o (0, 0)). unfold f. cbn [fst snd].
      assert (HI : In e o) by (apply nth_In; rewrite skipn_length in Hj; lia). destruct (gp_scan i g Q G _ c O12 Hc) as (_ & _ & FO & _). fold o in FO. rewrite Forall_forall in FO. specialize (FO e HI).
      unfold stored, block_pos. rewrite F2. clear - FO. destruct (exchanged (b_type b)); cbn [fst snd]; lia. }
    assert (QV : forall j, (j < length (hf_positions g c b))%nat -> let p := nth j (hf_positions g c b) (0, 0)%nat in Q c (fst p) (snd p) = nth j (map unzigzag used ++ repeat 0 k) 0).
    { intros j Hj. cbv zeta. rewrite <- EQ. set (f := fun p : nat * nat => Q c (fst p) (snd p)). rewrite (nth_indep (map f _) 0 (f (0, 0)%nat)) by (rewrite map_length; exact Hj). rewrite (map_nth f). reflexivity. }
    assert (DN : forall y x, ~ In (y, x) (hf_positions g c b) -> px q' y x = px q y x).
    { intros y x NI. apply E11. intros j Hj Ej. apply NI. destruct (AT j ltac:(lia)) as [A1 A2]. apply pair_equal_spec in Ej; destruct Ej as [J1 J2]. replace (y, x) with (nth j (hf_positions g c b) (0, 0)%nat); [apply nth_In; lia|].
      cbv zeta in A1, A2. destruct (nth j (hf_positions g c b) _) as [u v]. cbn [fst snd] in *. f_equal; lia. }
    intros y x. destruct (R5 y x) as [R51 R52]. destruct (in_dec (fun a b : nat * nat => ltac:(decide equality; apply Nat.eq_dec) : {a = b} + {a <> b}) (y, x) (hf_positions g c b)) as [HI|NI].
    2:{ rewrite DN by exact NI. split; [intros [A|[_ A]]; [exact (R51 A)|contradiction]|]. intros A. apply R52. tauto. }
    split; [|intros A; exfalso; apply A; right; split; [reflexivity|exact HI]]. intros _.
    destruct (in_dec (fun a b : nat * nat => ltac:(decide equality; apply Nat.eq_dec) : {a = b} + {a <> b}) (y, x) (firstn (length used) (hf_positions g c b))) as [HF|NF].
    + apply (In_nth _ _ (0, 0)%nat) in HF. destruct HF as (j & Hj & Ej). rewrite firstn_length in Hj. assert (Ej' : nth j (hf_positions g c b) (0, 0)%nat = (y, x)).
      { rewrite <- Ej. rewrite <- (firstn_skipn (length used) (hf_positions g c b)) at 1. apply app_nth1. rewrite firstn_length. lia. }
      destruct (AT j ltac:(lia)) as [A1 A2]. pose proof (QV j ltac:(lia)) as QJ. cbv zeta in QJ. rewrite Ej' in A1, A2, QJ. cbn [fst snd] in A1, A2, QJ. specialize (E10 j ltac:(lia)). rewrite A1, A2, !Nat2Z.id in E10. rewrite E10.
      rewrite app_nth1 in QJ by (rewrite map_length; lia). rewrite (nth_indep _ _ (unzigzag 0)) in QJ by (rewrite map_length; lia). rewrite map_nth in QJ.
      rewrite QJ. apply coefficient; [|apply (gp_shift i g Q G)|rewrite <- QJ; apply (gp_range i g Q G)]. rewrite Forall_forall in Vu. apply Vu. apply nth_In. lia.
    + assert (Z0 : px q' y x = px q y x).
      { apply E11. intros j Hj Ej. apply NF. destruct (AT j ltac:(lia)) as [A1 A2]. apply pair_equal_spec in Ej; destruct Ej as [J1 J2]. replace (y, x) with (nth j (firstn (length used) (hf_positions g c b)) (0, 0)%nat); [apply nth_In; rewrite firstn_length; lia|].
        assert (K : nth j (firstn (length used) (hf_positions g c b)) (0, 0)%nat = nth j (hf_positions g c b) (0, 0)%nat) by (rewrite <- (firstn_skipn (length used) (hf_positions g c b)) at 2; rewrite app_nth1; [reflexivity|rewrite firstn_length; lia]).
        rewrite K. cbv zeta in A1, A2. destruct (nth j (hf_positions g c b) _) as [u v]. cbn [fst snd] in *. f_equal; lia. }
      rewrite Z0, R52 by (apply Hfresh; exact HI). rewrite <- (firstn_skipn (length used) (hf_positions g c b)) in HI. apply in_app_or in HI. destruct HI as [HI|HI]; [contradiction|].
      apply (In_nth _ _ (0, 0)%nat) in HI. destruct HI as (j & Hj & Ej). rewrite nth_skip in Ej. rewrite skipn_length in Hj. pose proof (QV (length used + j)%nat ltac:(lia)) as QJ. cbv zeta in QJ. rewrite Ej in QJ. cbn [fst snd] in QJ.
      rewrite app_nth2 in QJ by (rewrite map_length; lia). rewrite nth_repeat in QJ. rewrite QJ. reflexivity.
Qed.
Lemma channels_read b t cs : NoDup cs -> Forall (fun c => (c < 3)%nat) cs -> in_group g b -> 0 <= b_type b <= 26 -> slice_get allDCT (b_type b) = Ok t -> 0 <= b_lf b < hb_numLFContexts (g_ctx g) ->
  (forall c, (c < 3)%nat -> in_channel g c b -> block_fits g H W c b) ->
  forall N l N', channels_send g b Q cs N l N' -> forall D s ss, state_ok i H W Q N D s -> (forall c y x, (c < 3)%nat -> in_channel g c b -> In c cs -> In (y, x) (hf_positions g c b) -> ~ D c y x) -> gives_m 0 ss l ->
  exists s', readChannels i (g_offset g) t (b_mult b) (b_lf b) (Z.of_nat (b_y b - g_y g)) (Z.of_nat (b_x b - g_x g)) (map Z.of_nat cs) s (ss 0%nat) = (Ok s', ss (length l)) /\
    state_ok i H W Q N' (fun c y x => D c y x \/ In c cs /\ in_channel g c b /\ In (y, x) (hf_positions g c b)) s'.
Proof.
  intros ND H3 Hg Ht Et Hlf Hfit N l N' CS. induction CS as [N|c cs N l N' NI CS IH|c cs N l M l' N' II BS CS IH]; intros D s ss ST Hfresh GV; cbn [map readChannels].
  - exists s. split; [reflexivity|]. eapply state_more; [|exact ST]. intros c y x _. cbn [In]. tauto.
  - inversion ND; inversion H3; subst. destruct (IH ltac:(assumption) ltac:(assumption) D s ss ST ltac:(intros; apply Hfresh; try assumption; right; assumption) GV) as (s' & E & S').
    exists s'. split.
    + erewrite ebind_intro; [exact E|]. unfold readChannel. erewrite ebind_intro by (unfold hlift; rewrite (gp_jy i g Q G c) by assumption; reflexivity). erewrite ebind_intro by (unfold hlift; rewrite (gp_jx i g Q G c) by assumption; reflexivity). cbv zeta.
      rewrite !shift_cell, !back_cell. unfold in_channel in NI.
      destruct (Nat.eqb_spec ((b_y b - g_y g) mod 2 ^ g_sy g c) 0), (Nat.eqb_spec ((b_x b - g_x g) mod 2 ^ g_sx g c) 0); cbn [negb orb]; try reflexivity. tauto.
    + eapply state_more; [|exact S']. intros c' y x _. cbn [In]. split; [tauto|]. intros [A|[[<-|A] B]]; [tauto|tauto|tauto].
  - inversion ND; inversion H3; subst. destruct (gives_app _ _ _ _ GV) as [GV1 GV2].
    destruct (channel_step b t c N D s l M ss ltac:(assumption) Hg II Ht Et Hlf (Hfit c ltac:(assumption) II) ST ltac:(intros; apply Hfresh; try assumption; left; reflexivity) BS GV1) as (s1 & E1 & S1).
    destruct (IH ltac:(assumption) ltac:(assumption) _ s1 (fun k => ss (length l + k)%nat) S1) as (s' & E & S'); [|exact GV2|].
    { intros c' y x Hc' IC HI HP [A|[A _]]; [|subst; contradiction]. revert A. apply Hfresh; try assumption. right. exact HI. }
    cbv beta in E. rewrite Nat.add_0_r in E. exists s'. split.
    + erewrite ebind_intro by exact E1. rewrite E, app_length. reflexivity.
    + eapply state_more; [|exact S']. intros c' y x _. cbn [In]. split; [intros [[A|[A B]]|A]; [tauto|subst; tauto|tauto]|]. intros [A|[[<-|A] B]]; [tauto|tauto|tauto].
Qed.

(* ---- the blocks ---- *)
Definition block_given (b : hblock) : Prop := Z.of_nat (b_y b) < 2 ^ 31 /\ Z.of_nat (b_x b) < 2 ^ 31 /\ (in_group g b ->
  0 <= b_type b <= 26 /\ 0 <= b_lf b < hb_numLFContexts (g_ctx g) /\
  get2 (gi_select i) (Z.of_nat (b_y b)) (Z.of_nat (b_x b)) = Ok (b_type b + 1) /\ get2 (gi_mult i) (Z.of_nat (b_y b)) (Z.of_nat (b_x b)) = Ok (b_mult b) /\
  get2 (gi_lfIndex i) (Z.of_nat (b_y b)) (Z.of_nat (b_x b)) = Ok (b_lf b) /\
  forall c, (c < 3)%nat -> in_channel g c b -> block_fits g H W c b).
Definition in_groupb (b : hblock) : bool := ((g_y g <=? b_y b) && (b_y b <? g_y g + 32) && ((g_x g <=? b_x b) && (b_x b <? g_x g + 32)))%nat.
Definition block_place (b : hblock) : Z * Z := (Z.of_nat (b_y b), Z.of_nat (b_x b)).
Lemma in_groupb_spec b : in_groupb b = true <-> in_group g b.
Proof. unfold in_groupb, in_group. lia. Qed.
Lemma blocks_read bs N l : group_sends g Q bs N l -> Forall block_given bs -> ForallOrdPairs (separate g) bs ->
  forall D s ss, state_ok i H W Q N D s -> (forall b c y x, In b bs -> in_group g b -> (c < 3)%nat -> in_channel g c b -> In (y, x) (hf_positions g c b) -> ~ D c y x) -> gives_m 0 ss l ->
  exists N' s', readBlocks i (g_offset g) (map block_place bs) s (ss 0%nat) = (Ok (map (fun b => if in_groupb b then Some (block_place b) else None) bs, s'), ss (length l)) /\
    state_ok i H W Q N' (fun c y x => D c y x \/ exists b, In b bs /\ in_group g b /\ in_channel g c b /\ In (y, x) (hf_positions g c b)) s'.
Proof.
  intros GS. induction GS as [N|b bs N l NI GS IH|b bs N l M l' II CS GS IH]; intros HB HF D s ss ST Hfresh GV.
  - exists N, s. split; [reflexivity|]. eapply state_more; [|exact ST]. intros c y x _. cbn [In]. split; [tauto|]. intros [A|(b & [] & _)]. exact A.
  - inversion HB as [|? ? B1 B2]; subst. inversion HF as [|? ? P1 P2]; subst.
    destruct (IH B2 P2 D s ss ST ltac:(intros b' c y x A; apply Hfresh; right; exact A) GV) as (N' & s' & E & S'). exists N', s'. split.
    + cbn [map block_place readBlocks]. cbv zeta. destruct (gp_y i g Q G) as [Y1 Y2]. destruct (gp_x i g Q G) as [X1 X2]. rewrite !Z.shiftl_mul_pow2 by lia. change (2 ^ 5) with 32. destruct B1 as (U1 & U2 & _).
      rewrite (i32_id (fst (gi_pos i) * 32)), (i32_id (snd (gi_pos i) * 32)), !i32_id by lia.
      assert (F : in_groupb b = false) by (destruct (in_groupb b) eqn:T; [exfalso; apply NI, in_groupb_spec, T|reflexivity]). rewrite F.
      match goal with |- context [if ?cnd then _ else _] => replace cnd with true by (clear - F Y1 X1; unfold in_groupb in F; lia) end. erewrite ebind_intro by exact E. reflexivity.
    + eapply state_more; [|exact S']. intros c y x _. cbn [In]. split; [intros [A|(b' & A & A')]; [tauto|right; exists b'; tauto]|]. intros [A|(b' & [<-|A] & A' & A2)]; [tauto|contradiction|right; exists b'; tauto].
  - inversion HB as [|? ? B1 B2]; subst. inversion HF as [|? ? P1 P2]; subst. destruct (gives_app _ _ _ _ GV) as [GV1 GV2]. destruct B1 as (U1 & U2 & B1). destruct (B1 II) as (V1 & V2 & V3 & V4 & V5 & V6).
    destruct (type_there _ V1) as (t & Et).
    destruct (channels_read b t [1; 0; 2]%nat ltac:(repeat constructor; cbn; lia) ltac:(repeat constructor) II V1 Et V2 V6 N l M CS D s ss ST) as (s1 & E1 & S1); [|exact GV1|].
    { intros c y x Hc IC _ HI. apply (Hfresh b c y x); try assumption. left. reflexivity. }
    destruct (IH B2 P2 _ s1 (fun k => ss (length l + k)%nat) S1) as (N' & s' & E & S'); [|exact GV2|].
    { intros b' c y x HI' IG Hc IC HI [A|(_ & IC2 & A)]; [revert A; apply (Hfresh b' c y x); try assumption; right; assumption|]. rewrite Forall_forall in P1.
      pose proof (P1 b' HI' II IG c Hc IC2 IC _ _ (hf_inside i g Q c b y x G Hc V1 A)) as X. rewrite Forall_forall in B2. destruct (B2 b' HI') as (_ & _ & B3). destruct (B3 IG) as (V1' & _).
      rewrite (hf_inside i g Q c b' y x G Hc V1' HI) in X. discriminate. }
    cbv beta in E. rewrite Nat.add_0_r in E. exists N', s'. split.
    + cbn [map block_place readBlocks]. cbv zeta. destruct (gp_y i g Q G) as [Y1 Y2]. destruct (gp_x i g Q G) as [X1 X2]. rewrite !Z.shiftl_mul_pow2 by lia. change (2 ^ 5) with 32.
      rewrite (i32_id (fst (gi_pos i) * 32)), (i32_id (snd (gi_pos i) * 32)), !i32_id by lia.
      assert (F : in_groupb b = true) by (apply in_groupb_spec, II). rewrite F.
      replace (Z.of_nat (b_y b) - fst (gi_pos i) * 32) with (Z.of_nat (b_y b - g_y g)) by (clear - F Y1; unfold in_groupb in F; lia).
      replace (Z.of_nat (b_x b) - snd (gi_pos i) * 32) with (Z.of_nat (b_x b - g_x g)) by (clear - F X1; unfold in_groupb in F; lia).
      match goal with |- context [if ?cnd then _ else _] => replace cnd with false by (clear - F; unfold in_groupb in F; lia) end.
      erewrite ebind_intro by (unfold hlift; rewrite V3; reflexivity). erewrite ebind_intro by (unfold hlift; replace (b_type b + 1 =? 0) with false by lia; replace (b_type b + 1 - 1) with (b_type b) by lia; rewrite Et; reflexivity).
      erewrite ebind_intro by (unfold hlift; rewrite V4; reflexivity). erewrite ebind_intro by (unfold hlift; rewrite V5; reflexivity).
      erewrite ebind_intro by exact E1. erewrite ebind_intro by exact E. rewrite app_length. reflexivity.
    + eapply state_more; [|exact S']. intros c y x Hc. cbn [In]. split.
      * intros [[A|(_ & A & A')]|(b' & A & A')]; [tauto|right; exists b; tauto|right; exists b'; tauto].
      * intros [A|(b' & [<-|A] & A' & A2)]; [tauto| |right; exists b'; tauto]. left. right. split; [|tauto]. clear - Hc. lia.
Qed.
(* positions of the blocks, for decisions *)
Definition positions (bs : list hblock) (c : nat) : list (nat * nat) :=
  flat_map (fun b => if in_groupb b && (((b_y b - g_y g) mod 2 ^ g_sy g c =? 0) && ((b_x b - g_x g) mod 2 ^ g_sx g c =? 0))%nat then hf_positions g c b else []) bs.
Lemma positions_spec bs c y x : In (y, x) (positions bs c) <-> exists b, In b bs /\ in_group g b /\ in_channel g c b /\ In (y, x) (hf_positions g c b).
Proof.
  unfold positions. rewrite in_flat_map. split.
  - intros (b & HI & A). exists b. split; [exact HI|]. destruct (in_groupb b && _) eqn:T; [|destruct A]. apply andb_prop in T. destruct T as [T1 T2]. apply in_groupb_spec in T1. split; [exact T1|]. split; [|exact A].
    apply andb_prop in T2. destruct T2 as [T2 T3]. split; apply Nat.eqb_eq; assumption.
  - intros (b & HI & A & [B C] & HP). exists b. split; [exact HI|]. apply in_groupb_spec in A. rewrite A, B, C. exact HP.
Qed.
End Group.
