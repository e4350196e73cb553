(* C23: cluster maps, and the types of decoded tokens. *)
From Coq Require Import ZArith List Bool Lia ZifyBool ZifyNat.
From Verif Require Import GoBase GoLoop Bits ModelBitReader ModelUtil ModelEntropy SpecBitReader.
From Verif Require Import ProofBitReader ProofBitReader2 ProofReads ProofCodes ProofHybrid ProofANS.
Import ListNotations.
Open Scope Z_scope.

Lemma count_spec cm : forall n0, 0 <= n0 ->
  let n := fold_left (fun n c => if n <=? c then c + 1 else n) cm n0 in n0 <= n /\ Forall (fun c => c < n) cm.
Proof.
  induction cm as [|c cm IH]; intros n0 Hn; cbn [fold_left]; [split; [lia|constructor]|].
  destruct (Z.leb_spec n0 c) as [L|L].
  - destruct (IH (c + 1) ltac:(lia)) as [H1 H2]. cbv zeta in *. split; [lia|]. constructor; [lia|assumption].
  - destruct (IH n0 Hn) as [H1 H2]. cbv zeta in *. split; [lia|]. constructor; [lia|assumption].
Qed.
(* the count is the smallest bound *)
Lemma count_tight cm : forall n0, let n := fold_left (fun n c => if n <=? c then c + 1 else n) cm n0 in n = n0 \/ In (n - 1) cm.
Proof.
  induction cm as [|c cm IH]; intros n0; cbn [fold_left]; [left; reflexivity|].
  destruct (Z.leb_spec n0 c) as [L|L].
  - destruct (IH (c + 1)) as [H|H]; cbv zeta in *; [right; left; lia|right; right; assumption].
  - destruct (IH n0) as [H|H]; cbv zeta in *; [left; assumption|right; right; assumption].
Qed.

Lemma rbind_ok {A B} (m : RM A) (f : A -> RM B) s b s' : rbind m f s = (Ok b, s') ->
  exists a s1, m s = (Ok a, s1) /\ f a s1 = (Ok b, s').
Proof. unfold rbind. destruct (m s) as [[a| |] s1]; intros H; try discriminate. eauto. Qed.

Lemma readSimple_ok n : forall nb s l s', readSimple n nb s = (Ok l, s') -> 0 <= nb <= 3 ->
  length l = n /\ ((forall s s' v, ReadBits nb s = (Ok v, s') -> 0 <= v < 2 ^ 63) -> Forall (fun c => 0 <= c) l).
Proof.
  induction n as [|n IH]; intros nb s l s' H Hb; cbn [readSimple] in H.
  - injection H as <- _. split; [reflexivity|constructor].
  - apply rbind_ok in H. destruct H as (v & s1 & Hv & H). apply rbind_ok in H. destruct H as (t & s2 & Ht & H).
    injection H as <- _. destruct (IH _ _ _ _ Ht Hb) as [L F]. split; [cbn; lia|]. intros HB. constructor; [|apply F, HB].
    rewrite u32_small in Hv by lia. specialize (HB _ _ _ Hv). rewrite i64_small by lia. lia.
Qed.

Lemma readSymbols_length n : forall e s l e' s', readSymbols n e s = (Ok (l, e'), s') -> length l = n.
Proof.
  induction n as [|n IH]; intros e s l e' s' H; cbn [readSymbols] in H; [injection H as <- _ _; reflexivity|].
  destruct (ReadSymbol 0 (e, s)) as [[c| |] [e1 s1]]; try discriminate.
  destruct (readSymbols n e1 s1) as [[[t e2]| |] s2] eqn:E; try discriminate.
  injection H as <- _ _. cbn. f_equal. eapply IH, E.
Qed.

Lemma mtfShift_length j : forall l, length (mtfShift j l) = length l.
Proof. induction j as [|j IH]; intros l; [reflexivity|]. cbn [mtfShift]. rewrite IH, list_set_length. reflexivity. Qed.
Lemma list_set_forall {A} (P : A -> Prop) l i v : Forall P l -> P v -> Forall P (list_set l i v).
Proof.
  revert i. induction l as [|x l IH]; intros i H Hv; destruct i; cbn; inversion H; subst; constructor; auto.
Qed.
Lemma mtfShift_forall (P : Z -> Prop) j : forall l, Forall P l -> P 0 -> Forall P (mtfShift j l).
Proof.
  induction j as [|j IH]; intros l H H0; [assumption|]. cbn [mtfShift]. apply IH; [|assumption]. apply list_set_forall; [assumption|].
  destruct (Nat.lt_ge_cases j (length l)) as [L|L].
  - rewrite Forall_forall in H. apply H, nth_In, L.
  - rewrite nth_overflow by assumption. assumption.
Qed.
Lemma invMTF_range (P : Z -> Prop) : P 0 -> forall l mtf r, Forall P mtf -> invMTF l mtf = Ok r -> length r = length l /\ Forall P r.
Proof.
  intros H0. induction l as [|i l IH]; intros mtf r HF H; cbn [invMTF] in H.
  - injection H as <-. split; [reflexivity|constructor].
  - destruct (slice_get mtf i) as [v| |] eqn:Ei; try discriminate. cbn [obind] in H.
    assert (Pv : P v).
    { unfold slice_get in Ei. destruct (i <? 0); [discriminate|]. destruct (nth_error mtf (Z.to_nat i)) eqn:En; [|discriminate].
      injection Ei as <-. rewrite Forall_forall in HF. eapply HF, nth_error_In, En. }
    destruct (invMTF l _) as [t| |] eqn:Et; try discriminate. cbn [obind] in H. injection H as <-.
    apply IH in Et.
    + destruct Et as [L F]. split; [cbn; lia|]. constructor; assumption.
    + destruct (i =? 0); [assumption|]. apply list_set_forall; [|assumption]. apply mtfShift_forall; assumption.
Qed.

Lemma yields_inv {A} (m : RM A) P s d p v s' : yields m P -> reader_at s d p -> m s = (Ok v, s') -> P v /\ exists q, reader_at s' d q.
Proof. intros H Hr E. specialize (H s d p Hr). rewrite E in H. destruct H as (H1 & q & H2 & H3). eauto. Qed.

Lemma readSimple_yields n nb : 0 <= nb <= 3 -> yields (readSimple n nb) (Forall (fun c => 0 <= c)).
Proof.
  intros Hb. induction n as [|n IH]; cbn [readSimple]; [apply yields_ret; constructor|].
  eapply yields_bind; [apply yields_bits; rewrite u32_small; lia|]. intros v Hv. cbv beta in Hv. rewrite u32_small in Hv by lia.
  assert (2 ^ nb <= 2 ^ 3) by (apply Z.pow_le_mono_r; lia).
  eapply yields_bind; [exact IH|]. intros t Ht. apply yields_ret. constructor; [|assumption]. rewrite i64_small by lia. lia.
Qed.

Lemma readClusterMap_ok nested n mx s cm k s' : readClusterMapWith nested n mx s = (Ok (cm, k), s') ->
  length cm = n /\ Forall (fun c => c < k) cm /\ 0 <= k <= mx /\ (k = 0 \/ In (k - 1) cm) /\
  (forall d p, reader_at s d p -> n = 1%nat \/ fst (ReadBool s) = Ok true \/ fst (ReadBool (snd (ReadBool s))) = Ok true ->
   Forall (fun c => 0 <= c) cm).
Proof.
  unfold readClusterMapWith. intros H. apply rbind_ok in H. destruct H as (cm0 & s1 & Hcm & H).
  destruct (Z.ltb_spec mx (countClusters cm0)) as [L|L]; [discriminate|].
  assert (cm0 = cm) by (injection H as -> _ _; reflexivity). subst cm0.
  assert (k = countClusters cm) by (injection H as -> _; reflexivity). subst k. clear H.
  destruct (count_spec cm 0 ltac:(lia)) as [H1 H2]. pose proof (count_tight cm 0) as H3. cbv zeta in *.
  fold (countClusters cm) in H1, H2, H3.
  cut (length cm = n /\ (forall d p, reader_at s d p -> n = 1%nat \/ fst (ReadBool s) = Ok true \/ fst (ReadBool (snd (ReadBool s))) = Ok true ->
   Forall (fun c => 0 <= c) cm)).
  { intros [A B]. split; [assumption|]. split; [assumption|]. split; [lia|]. split; assumption. }
  destruct (Nat.eqb_spec n 1) as [E|E].
  - injection Hcm as <- _. split; [cbn; lia|]. intros. constructor; [lia|constructor].
  - apply rbind_ok in Hcm. destruct Hcm as (simple & s2 & Hs & Hcm). rewrite Hs. cbn [fst snd]. destruct simple.
    + apply rbind_ok in Hcm. destruct Hcm as (nb & s3 & Hnb & Hcm). split.
      * clear - Hcm. revert s3 s1 cm Hcm. induction n as [|n IH]; intros s3 s1 cm H; cbn [readSimple] in H; [injection H as <- _; reflexivity|].
        apply rbind_ok in H. destruct H as (v & s4 & Hv & H). apply rbind_ok in H. destruct H as (t & s5 & Ht & H).
        injection H as <- _. cbn. f_equal. eapply IH, Ht.
      * intros d p Hr _. destruct (yields_inv _ _ _ _ _ _ _ yields_bool Hr Hs) as (_ & q & Hr2).
        destruct (yields_inv _ _ _ _ _ _ _ (yields_bits 2 ltac:(lia)) Hr2 Hnb) as (Hnb2 & q2 & Hr3).
        destruct (yields_inv _ _ _ _ _ _ _ (readSimple_yields n nb ltac:(lia)) Hr3 Hcm) as (HF & _). exact HF.
    + apply rbind_ok in Hcm. destruct Hcm as (mtf & s3 & Hm & Hcm). rewrite Hm. cbn [fst snd].
      apply rbind_ok in Hcm. destruct Hcm as (es & s4 & Hes & Hcm).
      apply rbind_ok in Hcm. destruct Hcm as ([cm1 es'] & s5 & Hr & Hcm). apply readSymbols_length in Hr.
      destruct (negb (ValidateFinalState es')); [discriminate|]. destruct mtf.
      * unfold rlift in Hcm. destruct (invMTF cm1 _) as [r| |] eqn:Em; try discriminate. injection Hcm as <- _.
        apply (invMTF_range (fun c => 0 <= c)) in Em; [|lia|].
        -- destruct Em as [L1 F1]. split; [lia|]. intros. exact F1.
        -- apply Forall_forall. intros x Hx. apply in_map_iff in Hx. destruct Hx as (y & <- & _). lia.
      * injection Hcm as <- _. split; [assumption|]. intros d p _ [A|[A|A]]; congruence.
Qed.

(* What a stream created from a reader looks like *)
Lemma rrepeat_length {A} (m : RM A) n : forall s l s', rrepeat n m s = (Ok l, s') -> length l = n.
Proof.
  induction n as [|n IH]; intros s l s' H; cbn [rrepeat] in H; [injection H as <- _; reflexivity|].
  apply rbind_ok in H. destruct H as (a & s1 & H1 & H). apply rbind_ok in H. destruct H as (t & s2 & H2 & H).
  injection H as <- _. cbn. f_equal. eapply IH, H2.
Qed.
Lemma rmapM_length {A B} (f : A -> RM B) l : forall s r s', rmapM f l s = (Ok r, s') -> length r = length l.
Proof.
  induction l as [|a l IH]; intros s r s' H; cbn [rmapM] in H; [injection H as <- _; reflexivity|].
  apply rbind_ok in H. destruct H as (b & s1 & H1 & H). apply rbind_ok in H. destruct H as (t & s2 & H2 & H).
  injection H as <- _. cbn. f_equal. eapply IH, H2.
Qed.

Lemma load_ok depth n dis s e s' : loadDepth depth n dis s = (Ok e, s') ->
  0 < n /\
  Z.of_nat (length (es_clusterMap e)) = n + (if es_usesLZ77 e then 1 else 0) /\
  Forall (fun c => c < Z.of_nat (length (es_dists e))) (es_clusterMap e) /\
  Z.of_nat (length (es_dists e)) <= Z.of_nat (length (es_clusterMap e)) /\
  (dis = true -> es_usesLZ77 e = false) /\
  (es_numToCopy77 e = 0 /\ es_numDecoded77 e = 0 /\ ans_has (es_ans e) = false).
Proof.
  destruct depth as [|depth]; cbn [loadDepth]; [discriminate|]. unfold loadWith. intros H.
  destruct (Z.leb_spec n 0) as [L|L]; [discriminate|]. split; [assumption|].
  apply rbind_ok in H. destruct H as (lz & s1 & Hlz & H). apply rbind_ok in H. destruct H as ([[[ms ml] lc] nd] & s2 & H2 & H).
  apply rbind_ok in H. destruct H as ([cm k] & s3 & Hcm & H).
  apply rbind_ok in H. destruct H as (pc & s4 & Hpc & H).
  apply rbind_ok in H. destruct H as (las & s5 & Hlas & H).
  apply rbind_ok in H. destruct H as (cfgs & s6 & Hcfg & H).
  apply rbind_ok in H. destruct H as (ds & s7 & Hds & H). injection H as <- _.
  cbn [es_clusterMap es_dists es_usesLZ77 es_numToCopy77 es_numDecoded77 es_ans ans_has].
  assert (Hnd : nd = n + (if lz then 1 else 0) /\ (dis = true -> lz = false)).
  { destruct lz.
    - destruct dis; [discriminate|]. apply rbind_ok in H2. destruct H2 as (? & ? & _ & H2). apply rbind_ok in H2. destruct H2 as (? & ? & _ & H2).
      apply rbind_ok in H2. destruct H2 as (? & ? & _ & H2). injection H2 as _ _ _ <- _. split; [reflexivity|congruence].
    - injection H2 as _ _ _ <- _. split; [lia|reflexivity]. }
  destruct Hnd as [Hnd Hdis]. apply readClusterMap_ok in Hcm. destruct Hcm as (C1 & C2 & C3 & _).
  apply rrepeat_length in Hcfg.
  assert (Lds : length ds = Z.to_nat k).
  { destruct pc.
    - apply rbind_ok in Hds. destruct Hds as (sz & ? & Hsz & Hds). apply rrepeat_length in Hsz. apply rmapM_length in Hds. lia.
    - apply rrepeat_length in Hds. assumption. }
  assert (Lc : Z.of_nat (length (combine ds cfgs)) = k) by (rewrite combine_length; lia).
  rewrite Lc. split; [destruct lz; lia|]. split; [exact C2|]. split; [destruct lz; lia|]. split; [exact Hdis|]. auto.
Qed.

(* Tokens are int32 values if the tables hold int32 values. *)
Definition int32 (v : Z) : Prop := - 2 ^ 31 <= v < 2 ^ 31.
Definition dist_typed (d : SymDist) : Prop :=
  match d with
  | PrefixDist None v => int32 v
  | PrefixDist (Some t) _ => Forall (fun e => int32 (fst e)) (vt_table t)
  | AnsDist lb _ _ syms _ => 0 <= lb /\ Forall int32 syms
  end.
Lemma slice_get_in {A} (l : list A) i v : slice_get l i = Ok v -> In v l.
Proof.
  unfold slice_get. destruct (i <? 0); [discriminate|]. destruct (nth_error l (Z.to_nat i)) eqn:E; [|discriminate].
  intros H. injection H as <-. eapply nth_error_In, E.
Qed.
Lemma rlift_inv {A} (o : Outcome A) s v s' : rlift o s = (Ok v, s') -> o = Ok v /\ s' = s.
Proof. unfold rlift. destruct o; intros H; try discriminate. injection H as <- <-. auto. Qed.
Lemma token_typed d a s t a1 s1 : dist_typed d -> distReadSymbol d a s = (Ok (t, a1), s1) -> int32 t.
Proof.
  destruct d as [[tb|] v|lb f c sy o]; cbn [dist_typed distReadSymbol]; intros Hd H.
  - apply rbind_ok in H. destruct H as (x & s2 & Hx & H). injection H as <- _ _.
    unfold GetVLC in Hx. apply rbind_ok in Hx. destruct Hx as (ix & s3 & _ & Hx). apply rbind_ok in Hx. destruct Hx as (en & s4 & He & Hx).
    apply rbind_ok in Hx. destruct Hx as (u & s5 & _ & Hx). injection Hx as <- _.
    apply rlift_inv in He. destruct He as [He _]. apply slice_get_in in He. rewrite Forall_forall in Hd. exact (Hd _ He).
  - injection H as <- _ _. exact Hd.
  - unfold ansReadSymbol in H. apply rbind_ok in H. destruct H as (st & s2 & H2 & H).
    apply rbind_ok in H. destruct H as (cc & s3 & H3 & H). apply rbind_ok in H. destruct H as ([sym off] & s4 & H4 & H).
    apply rbind_ok in H. destruct H as (ff & s5 & H5 & H). apply rbind_ok in H. destruct H as (st' & s6 & H6 & H). injection H as <- _ _.
    destruct Hd as [Hlb Hd]. rewrite Forall_forall in Hd. destruct (cc <=? _).
    + apply rbind_ok in H4. destruct H4 as (x & s7 & H7 & H4). apply rlift_inv in H7. destruct H7 as [H7 _]. apply slice_get_in in H7.
      apply rbind_ok in H4. destruct H4 as (y & s8 & H8 & H4). injection H4 as <- _ _. apply Hd, H7.
    + injection H4 as <- _ _. rewrite land4095. pose proof (Z.mod_pos_bound st 4096 ltac:(lia)).
      rewrite u32_small by lia. rewrite Z.shiftr_div_pow2 by assumption. pose proof (pow2_pos lb Hlb).
      unfold int32. split; [apply Z.le_trans with 0; [lia|apply Z.div_pos; lia]|].
      apply Z.le_lt_trans with (st mod 4096); [|lia]. apply Z.div_le_upper_bound; [lia|]. nia.
Qed.
