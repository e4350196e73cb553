(* Lemmas about the LF global information. *)
From Coq Require Import ZArith List Bool Lia ZifyBool ZifyNat.
From Verif Require Import GoBase GoLoop Bits ModelBitReader SpecBitReader SpecCodes SpecGrammar ModelHeader SpecHeader ModelEntropy ModelHF ModelHFCoeff ModelLF SpecLF.
From Verif Require Import ProofCodes ProofGrammar ProofHeader ProofFrameHeader.
Import ListNotations.
Open Scope Z_scope.

Lemma exact_map {A B} (m : RM A) R (f : A -> B) g : exact m R -> (forall c v, R c v -> f v = g v) ->
  exact (x <- m ;; rret (f x)) (c_map g R).
Proof. intros E H. apply exact_bind; [exact E|]. intros a [c Hc]. rewrite (H c a Hc). apply exact_ret. Qed.

Lemma exact_rrepeat {A} n (m : RM A) R : exact m R -> exact (rrepeat n m) (c_list n R).
Proof. intros H. exact (exact_list (fun n => rrepeat n m) m R eq_refl (fun n => eq_refl) H n). Qed.

(* without the restriction that the sums fit: the result is reduced *)
Lemma exact_u32_wrap c0 n0 c1 n1 c2 n2 c3 n3 :
  (forall i, (i < 4)%nat -> (nth i [n0; n1; n2; n3] O <= 32)%nat) ->
  exact (ReadU32 c0 (Z.of_nat n0) c1 (Z.of_nat n1) c2 (Z.of_nat n2) c3 (Z.of_nat n3)) (c_map u32 (c_u32 c0 n0 c1 n1 c2 n2 c3 n3)).
Proof.
  intros H. unfold ReadU32.
  apply (exact_iff _ (c_seq (c_fixed 2) (fun i => c_seq (c_fixed (nth (Z.to_nat i) [n0; n1; n2; n3] O))
           (fun x => c_ret (u32 (nth (Z.to_nat i) [c0; c1; c2; c3] 0 + x)))))).
  - intros c v. split.
    + intros (a & b & i & -> & [-> Hi] & b1 & b2 & x & -> & [-> Hx] & [-> ->]).
      change (2 ^ Z.of_nat 2) with 4 in Hi.
      exists (zbits 2 i ++ zbits (nth (Z.to_nat i) [n0; n1; n2; n3] O) x), [], (nth (Z.to_nat i) [c0; c1; c2; c3] 0 + x).
      rewrite !app_nil_r. split; [reflexivity|]. split; [|split; reflexivity].
      exists (Z.to_nat i), x. rewrite Z2Nat.id by lia. split; [lia|]. cbv zeta. auto.
    + intros (a & b & w & -> & (i & x & Hi & Hx & -> & ->) & -> & ->). rewrite app_nil_r.
      exists (zbits 2 (Z.of_nat i)), (zbits (nth i [n0; n1; n2; n3] O) x), (Z.of_nat i).
      split; auto. split; [split; auto; change (2 ^ Z.of_nat 2) with 4; lia|].
      rewrite Nat2Z.id. exists (zbits (nth i [n0; n1; n2; n3] O) x), [], x. rewrite app_nil_r. split; auto. split; [split; auto|].
      split; reflexivity.
  - apply exact_bind; [now apply exact_bits; [|lia]|]. intros i [ci [_ Hi]]. change (2 ^ Z.of_nat 2) with 4 in Hi.
    pose proof (H (Z.to_nat i) ltac:(lia)) as Hn. cbv zeta.
    assert (En : u32 (nth (Z.to_nat i) [Z.of_nat n0; Z.of_nat n1; Z.of_nat n2; Z.of_nat n3] 0) =
                 Z.of_nat (nth (Z.to_nat i) [n0; n1; n2; n3] O)).
    { assert (E : nth (Z.to_nat i) [Z.of_nat n0; Z.of_nat n1; Z.of_nat n2; Z.of_nat n3] 0 =
                  Z.of_nat (nth (Z.to_nat i) [n0; n1; n2; n3] O)).
      { change [Z.of_nat n0; Z.of_nat n1; Z.of_nat n2; Z.of_nat n3] with (map Z.of_nat [n0; n1; n2; n3]).
        change 0 with (Z.of_nat 0). now rewrite map_nth. }
      rewrite E. apply u32_small. lia. }
    rewrite En. apply exact_bind; [apply exact_bits; auto; lia|].
    intros x [cx [_ Hx]]. rewrite u32_mod_add. apply exact_ret.
Qed.

Lemma c_list_map {A B} (f : A -> B) (R : code A) : forall n c v, (exists l, c_list n R c l /\ v = map f l) <-> c_list n (c_map f R) c v.
Proof.
  induction n as [|n IH]; intros c v; cbn [c_list].
  - split; [intros (l & [-> ->] & ->); split; reflexivity|]. intros [-> ->]. exists []. split; [split; reflexivity|reflexivity].
  - split.
    + intros (l & (a & b & x & -> & Hx & b1 & b2 & t & -> & Ht & -> & ->) & ->).
      exists a, (b1 ++ []), (f x). split; [reflexivity|]. split.
      * exists a, [], x. rewrite app_nil_r. split; auto. split; auto. split; reflexivity.
      * exists b1, [], (map f t). split; [reflexivity|]. split; [apply IH; eauto|]. split; reflexivity.
    + intros (a & b & y & -> & (a1 & a2 & x & -> & Hx & -> & ->) & b1 & b2 & t' & -> & Ht & -> & ->).
      apply IH in Ht as (t & Ht & ->). exists (x :: t). split; [|reflexivity]. rewrite !app_nil_r.
      exists a1, b1, x. split; [reflexivity|]. split; auto. exists b1, [], t. rewrite app_nil_r. split; auto. split; auto. split; reflexivity.
Qed.

Lemma c_list_length {A} (R : code A) : forall n c v, c_list n R c v -> length v = n.
Proof.
  induction n as [|n IH]; intros c v; cbn [c_list]; [intros [_ ->]; reflexivity|].
  intros (a & b & x & -> & Hx & b1 & b2 & t & -> & Ht & -> & ->). cbn [length]. now rewrite (IH _ _ Ht).
Qed.
Lemma c_list_Forall {A} (R : code A) (P : A -> Prop) : (forall c v, R c v -> P v) -> forall n c v, c_list n R c v -> Forall P v.
Proof.
  intros HP. induction n as [|n IH]; intros c v; cbn [c_list]; [intros [_ ->]; constructor|].
  intros (a & b & x & -> & Hx & b1 & b2 & t & -> & Ht & -> & ->). constructor; eauto.
Qed.

Lemma exact_dequant : exact readLfDequant dequant_code.
Proof.
  unfold readLfDequant, dequant_code. apply exact_bind; [apply exact_bool|]. intros b _.
  destruct b; [apply exact_ret|].
  eapply exact_iff; [intros c v; apply c_list_map|].
  eapply exact_iff; [|apply (exact_map (readF16List 3) (c_list 3 c_f16) (map times128th) (map (scaled_float (-7)))); [apply exact_f16s|reflexivity]].
  intros c v. split.
  - intros (a & e & l & -> & Hl & -> & ->). rewrite app_nil_r. eauto.
  - intros (l & Hl & ->). exists c, [], l. rewrite app_nil_r. split; auto. split; auto. split; reflexivity.
Qed.

Lemma u32_range c0 n0 c1 n1 c2 n2 c3 n3 c v :
  c_u32 c0 n0 c1 n1 c2 n2 c3 n3 c v -> exists i x, (i < 4)%nat /\ 0 <= x < 2 ^ Z.of_nat (nth i [n0; n1; n2; n3] O) /\ v = nth i [c0; c1; c2; c3] 0 + x.
Proof. intros (i & x & Hi & Hx & _ & ->). exists i, x. auto. Qed.
Ltac u32_cases H := let i := fresh in let x := fresh in let Hi := fresh in let Hx := fresh in
  destruct (u32_range _ _ _ _ _ _ _ _ _ _ H) as (i & x & Hi & Hx & ->);
  do 4 (destruct i as [|i]; [cbn [nth] in *; lia|]); lia.

Lemma exact_quantizer : exact readQuantizer quantizer_code.
Proof.
  unfold readQuantizer, quantizer_code. apply exact_bind; [apply (exact_u32 1 11 2049 11 4097 12 8193 16); u32_side|]. intros g [c Hg].
  apply exact_bind; [apply (exact_u32 16 0 1 5 1 8 1 16); u32_side|]. intros q [c' Hq].
  assert (0 <= g < 2 ^ 31) by u32_cases Hg. assert (0 <= q < 2 ^ 31) by u32_cases Hq.
  rewrite !i32_small by lia. apply exact_ret.
Qed.

Lemma exact_correlation : exact NewLFChannelCorrelationWithReader correlation_code.
Proof.
  unfold NewLFChannelCorrelationWithReader, correlation_code. apply exact_bind; [apply exact_bool|]. intros b _.
  destruct b; [apply exact_ret|]. apply exact_bind; [apply (exact_u32 84 0 256 0 2 8 258 16); u32_side|]. intros f _.
  apply exact_bind; [apply exact_f16|]. intros x _. apply exact_bind; [apply exact_f16|]. intros y _.
  apply exact_bind; [now apply exact_bits; [|lia]|]. intros u [? [_ Hu]]. apply exact_bind; [now apply exact_bits; [|lia]|]. intros v [? [_ Hv]].
  change (2 ^ Z.of_nat 8) with 256 in *. rewrite !u32_small by lia. apply exact_ret.
Qed.

Definition code_threshold (v : Z) : Z := UnpackSigned (u32 v).
Lemma exact_thresholds : exact readLFThresholds
  (n <== c_fixed 4 ;;; c_list (Z.to_nat n) (c_map code_threshold (c_u32 0 4 16 8 272 16 65808 32))).
Proof.
  unfold readLFThresholds. apply exact_bind; [now apply exact_bits; [|lia]|]. intros n [? [_ Hn]]. change (2 ^ Z.of_nat 4) with 16 in Hn.
  rewrite i32_small by lia. apply exact_rrepeat.
  eapply exact_iff; [|apply exact_map; [apply (exact_u32_wrap 0 4 16 8 272 16 65808 32)|intros; reflexivity]].
  - intros c v. split.
    + intros (a & b & w & -> & (a1 & a2 & w' & -> & Hx & -> & ->) & -> & ->). rewrite !app_nil_r. exists a1, [], w'. rewrite app_nil_r.
      split; auto. split; auto. split; reflexivity.
    + intros (a & b & w & -> & Hx & -> & ->). exists a, [], (u32 w). split; auto. split; [|split; reflexivity].
      exists a, [], w. rewrite app_nil_r. split; auto. split; auto. split; reflexivity.
  - intros i Hi. do 4 (destruct i as [|i]; [cbn [nth]; lia|]). lia.
Qed.

Lemma intervals_fold l : forall a, fold_left (fun a ts => a * (Z.of_nat (length ts) + 1)) l a = a * intervals l.
Proof.
  induction l as [|t l IH]; intros a; cbn [fold_left intervals fold_right]; [lia|]. rewrite IH. fold (intervals l). lia.
Qed.
Lemma intervals_bound l : Forall (fun t : list Z => (length t <= 15)%nat) l -> 0 < intervals l <= 16 ^ Z.of_nat (length l).
Proof.
  induction 1 as [|t l Ht Hl IH]; cbn [intervals fold_right length]; [lia|]. fold (intervals l).
  rewrite Nat2Z.inj_succ, Z.pow_succ_r by lia. nia.
Qed.
Lemma wrap_fold l : forall a, 0 < a -> Forall (fun t : list Z => (length t <= 15)%nat) l -> a * 16 ^ Z.of_nat (length l) < 2 ^ 31 ->
  fold_left (fun a ts => i32 (a * (Z.of_nat (length ts) + 1))) l a = a * intervals l.
Proof.
  induction l as [|t l IH]; intros a Ha F Hb; cbn [fold_left]; [cbn; lia|]. inversion F as [|? ? Ht Hl]; subst.
  cbn [length] in Hb. rewrite Nat2Z.inj_succ, Z.pow_succ_r in Hb by lia.
  assert (0 < 16 ^ Z.of_nat (length l)) by (apply Z.pow_pos_nonneg; lia).
  rewrite i32_small by nia. rewrite IH; auto; [|nia|nia]. cbn [intervals fold_right]. fold (intervals l). lia.
Qed.

Lemma exact_block_context readMap map_code :
  (forall n, 0 < n <= 39 * 64 -> exact (readMap (Z.to_nat n) 16) (map_code n)) ->
  (forall n c v, map_code n c v -> 0 <= snd v < 2 ^ 31) ->
  exact (NewHFBlockContextWith readMap) (block_context_code code_threshold map_code).
Proof.
  intros HM HR. unfold NewHFBlockContextWith, block_context_code. apply exact_bind; [apply exact_bool|]. intros b _.
  destruct b; [apply exact_ret|].
  apply exact_bind; [apply exact_rrepeat, exact_thresholds|]. intros lf [clf Hlf].
  assert (L3 : length lf = 3%nat) by exact (c_list_length _ _ _ _ Hlf).
  assert (F : Forall (fun t : list Z => (length t <= 15)%nat) lf).
  { eapply c_list_Forall; [|exact Hlf]. cbv beta. intros c v (a & e & n & -> & [-> Hn] & H). apply c_list_length in H. rewrite H.
    change (2 ^ Z.of_nat 4) with 16 in Hn. lia. }
  cbv zeta. apply exact_bind; [now apply exact_bits; [|lia]|]. intros nq [? [_ Hn]]. change (2 ^ Z.of_nat 4) with 16 in Hn.
  apply exact_bind.
  { apply exact_rrepeat. apply exact_map; [apply (exact_u32 0 2 4 3 12 5 44 8); u32_side|]. intros c v Hv.
    assert (0 <= v < 1000) by u32_cases Hv. rewrite !i32_small; rewrite ?i32_small; lia. }
  intros qf [cq Hq]. apply c_list_length in Hq.
  rewrite (wrap_fold lf 1) by (rewrite ?L3; auto; cbn; lia).
  assert (E1 : i32 (39 * (i32 nq + 1)) = 39 * (nq + 1)) by (rewrite (i32_small nq), i32_small; lia). rewrite E1.
  rewrite (wrap_fold lf) by (rewrite ?L3; auto; try lia; change (16 ^ Z.of_nat 3) with 4096; lia).
  pose proof (intervals_bound lf F) as HI. rewrite L3 in HI. change (16 ^ Z.of_nat 3) with 4096 in HI.
  replace (39 * (nq + 1) * intervals lf) with (39 * intervals (qf :: lf)).
  2:{ cbn [intervals fold_right]. fold (intervals lf). rewrite Hq. rewrite Z2Nat.id by lia. lia. }
  assert (HI' : 0 < intervals (qf :: lf)) by (cbn [intervals fold_right]; fold (intervals lf); nia).
  apply exact_guard; [lia|]. intros HG. apply exact_bind; [apply HM; lia|]. intros r [cr Hr].
  rewrite (i32_small (snd r)) by (pose proof (HR _ _ _ Hr); lia). rewrite Z.mul_1_l. apply exact_ret.
Qed.

Definition handled (flags : Z) : bool := (Z.land flags 2 =? 0) && (Z.land flags 16 =? 0) && (Z.land flags 1 =? 0).
Lemma testbit_land f k : 0 <= k -> (Z.land f (2 ^ k) =? 0) = negb (Z.testbit f k).
Proof.
  intros Hk. destruct (Z.testbit f k) eqn:E; cbn [negb].
  - apply Z.eqb_neq. intros H. apply (f_equal (fun z => Z.testbit z k)) in H. rewrite Z.land_spec, Z.pow2_bits_true, Z.bits_0, E in H by lia. discriminate.
  - apply Z.eqb_eq. apply Z.bits_inj'. intros i Hi. rewrite Z.land_spec, Z.bits_0, Z.pow2_bits_eqb by lia.
    destruct (Z.eqb_spec k i); [subst; now rewrite E|]. apply andb_false_r.
Qed.

Lemma exact_lf_global readMap map_code flags vardct :
  (forall n, 0 < n <= 39 * 64 -> exact (readMap (Z.to_nat n) 16) (map_code n)) ->
  (forall n c v, map_code n c v -> 0 <= snd v < 2 ^ 31) ->
  exact (readLFGlobal (NewHFBlockContextWith readMap) flags vardct)
    (c_guard (Z.testbit flags 0 = false /\ Z.testbit flags 1 = false /\ Z.testbit flags 4 = false) (lf_global_code code_threshold map_code vardct)).
Proof.
  intros HM HR. unfold readLFGlobal.
  assert (E1 := testbit_land flags 1 ltac:(lia)). assert (E4 := testbit_land flags 4 ltac:(lia)). assert (E0 := testbit_land flags 0 ltac:(lia)).
  change (2 ^ 1) with 2 in E1. change (2 ^ 4) with 16 in E4. change (2 ^ 0) with 1 in E0. rewrite E0, E1, E4.
  destruct (Z.testbit flags 1); cbn [negb]; [apply exact_err; intros c v [G _]; destruct G as (_ & ? & _); discriminate|].
  destruct (Z.testbit flags 4); cbn [negb]; [apply exact_err; intros c v [G _]; destruct G as (_ & _ & ?); discriminate|].
  destruct (Z.testbit flags 0); cbn [negb]; [apply exact_err; intros c v [G _]; destruct G as (? & _); discriminate|].
  apply exact_true; [auto|]. unfold lf_global_code.
  apply exact_bind; [apply exact_dequant|]. intros d _. destruct vardct.
  - apply exact_assoc. apply exact_bind; [apply exact_quantizer|]. intros q _.
    apply exact_assoc. apply exact_bind; [apply exact_block_context; auto|]. intros h _.
    apply exact_assoc. apply exact_bind; [apply exact_correlation|]. intros cc _. apply exact_ret_l.
    apply exact_bind; [apply exact_bool|]. intros t _. apply exact_ret.
  - apply exact_ret_l. apply exact_bind; [apply exact_bool|]. intros t _. apply exact_ret.
Qed.

(* ---- thresholds of the standard ---- *)
Lemma threshold_eq v : (Z.even (v mod 2 ^ 32) = true \/ v mod 2 ^ 32 < 2 ^ 31) -> code_threshold v = standard_threshold v.
Proof.
  intros H. unfold code_threshold, standard_threshold. change (u32 v) with (v mod 2 ^ 32). set (w := v mod 2 ^ 32) in *.
  assert (0 <= w < 2 ^ 32) by (apply Z.mod_pos_bound; lia).
  destruct (Z.even w) eqn:E; [now apply UnpackSigned_even|]. rewrite UnpackSigned_odd by assumption.
  destruct H as [H|H]; [discriminate|]. replace (w <? 2 ^ 31) with true by (symmetry; now apply Z.ltb_lt). reflexivity.
Qed.

(* ---- the divisor ---- *)
Lemma divisor_small g q : 0 <= g * q < 2 ^ 31 -> scaleDivisor g q = g * q.
Proof. intros H. apply i32_small. lia. Qed.

(* thresholds decoded in two ways that agree on the results *)
Lemma c_list_mono {A} (R S : code A) (P : A -> Prop) : (forall c v, R c v -> P v -> S c v) -> forall n c v, c_list n R c v -> Forall P v -> c_list n S c v.
Proof.
  intros H. induction n as [|n IH]; intros c v; cbn [c_list]; [auto|].
  intros (a & b & x & -> & Hx & b1 & b2 & t & -> & Ht & -> & ->) F. inversion F; subst.
  exists a, (b1 ++ []), x. split; [reflexivity|]. split; [auto|]. exists b1, [], t. split; auto. split; [auto|]. split; reflexivity.
Qed.
Definition thresholds_ok (h : HFBlockContext) : Prop := Forall (Forall (fun t => - 2 ^ 30 <= t)) (hb_lfThresholds h).
Lemma standard_low v : - 2 ^ 30 <= standard_threshold v -> code_threshold v = standard_threshold v.
Proof.
  intros H. apply threshold_eq. unfold standard_threshold, unzigzag in H. destruct (Z.even (v mod 2 ^ 32)) eqn:E; [auto|right].
  destruct (odd_ex _ E) as (k & Ek). rewrite Ek in *. replace ((2 * k + 1 + 1) / 2) with (k + 1) in H.
  2:{ replace (2 * k + 1 + 1) with ((k + 1) * 2) by lia. now rewrite Z.div_mul by lia. }
  lia.
Qed.
Lemma block_context_standard mc c v : block_context_code standard_threshold mc c v -> thresholds_ok v -> block_context_code code_threshold mc c v.
Proof.
  intros (a & b & d & -> & Hd & H) T. exists a, b, d. split; [reflexivity|]. split; [exact Hd|]. destruct d; [exact H|].
  destruct H as (a1 & b1 & lf & -> & Hlf & a2 & b2 & nq & -> & Hnq & a3 & b3 & qf & -> & Hqf & HG & a4 & b4 & m & -> & Hm & -> & ->).
  unfold thresholds_ok in T. cbn [hb_lfThresholds] in T.
  exists a1, (a2 ++ a3 ++ a4 ++ []), lf. split; [reflexivity|]. split.
  - eapply (c_list_mono _ _ (Forall (fun t => - 2 ^ 30 <= t))); [|exact Hlf|exact T].
    intros c l (e & f & n & -> & Hn & Hl) F. exists e, f, n. split; [reflexivity|]. split; [exact Hn|].
    eapply c_list_mono; [|exact Hl|exact F]. intros c t (e1 & f1 & w & -> & Hw & -> & ->) Ht. cbv beta in Ht.
    exists e1, [], w. split; [reflexivity|]. split; [exact Hw|]. split; [reflexivity|]. symmetry. now apply standard_low.
  - exists a2, (a3 ++ a4 ++ []), nq. split; [reflexivity|]. split; [exact Hnq|]. exists a3, (a4 ++ []), qf. split; [reflexivity|]. split; [exact Hqf|].
    split; [exact HG|]. exists a4, [], m. split; [reflexivity|]. split; [exact Hm|]. split; reflexivity.
Qed.
Lemma lf_global_standard mc vd c v : lf_global_code standard_threshold mc vd c v -> (forall h, lg_hfBlockCtx v = Some h -> thresholds_ok h) ->
  lf_global_code code_threshold mc vd c v.
Proof.
  intros (a & b & d & -> & Hd & H) T. exists a, b, d. split; [reflexivity|]. split; [exact Hd|]. destruct vd; [|exact H].
  destruct H as (a1 & b1 & q & -> & Hq & a2 & b2 & h & -> & Hh & a3 & b3 & cc & -> & Hc & a4 & b4 & t & -> & Ht & -> & ->).
  exists a1, (a2 ++ a3 ++ a4 ++ []), q. split; [reflexivity|]. split; [exact Hq|]. exists a2, (a3 ++ a4 ++ []), h. split; [reflexivity|].
  split; [apply block_context_standard; [exact Hh|]; apply T; reflexivity|]. exists a3, (a4 ++ []), cc. split; [reflexivity|]. split; [exact Hc|].
  exists a4, [], t. split; [reflexivity|]. split; [exact Ht|]. split; reflexivity.
Qed.
