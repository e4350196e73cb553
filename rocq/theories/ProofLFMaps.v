(* Lemmas about LF global information with block contexts that have maps of
   their own. *)
From Coq Require Import ZArith List Bool Lia ZifyBool ZifyNat.
From Verif Require Import GoBase GoLoop Bits ModelBitReader ModelUtil ModelHeader ModelEntropy ModelHF ModelHFCoeff ModelLF.
From Verif Require Import SpecBitReader SpecCodes SpecGrammar SpecEntropy SpecAlias SpecLZ SpecDist SpecPrefix SpecStream SpecSymbols SpecHeader SpecLF SpecVarFrame.
From Verif Require Import ProofBitReader ProofReads ProofCodes ProofGrammar ProofHeader ProofFrameHeader ProofHF ProofHFCoeff ProofLF ProofStream ProofSymbols PropSymbols.
Import ListNotations.
Open Scope Z_scope.

Local Notation "x <== R ;;; S" := (c_seq R (fun x => S)) (at level 61, R at next level, right associativity).

Definition reads15 {A} (m : RM A) (R : code A) : Prop := forall c v, R c v -> reads_ahead 15 m c v.
Lemma reads15_exact {A} (m : RM A) R : exact m R -> reads15 m R.
Proof. intros [H _] c v Hv. apply reads_ahead0. now apply H. Qed.
Lemma reads15_bind {A B} (m : RM A) (f : A -> RM B) R S : reads15 m R -> (forall v, (exists c, R c v) -> reads15 (f v) (S v)) -> reads15 (rbind m f) (c_seq R S).
Proof. intros H1 H2 c y (c1 & c2 & x & -> & Hx & Hy). eapply reads_ahead_bind; [exact (H1 _ _ Hx)|]. exact (H2 x (ex_intro _ c1 Hx) c2 y Hy). Qed.
Lemma reads15_eq {A} (m m' : RM A) R : (forall s, m s = m' s) -> reads15 m R -> reads15 m' R.
Proof. intros E H c v Hv s d p Hr Hb Hk. rewrite <- E. exact (H c v Hv s d p Hr Hb Hk). Qed.
Lemma reads15_assoc {A B C} (m : RM A) (f : A -> RM B) (g : B -> RM C) R :
  reads15 (a <- m ;; b <- f a ;; g b) R -> reads15 (b <- (a <- m ;; f a) ;; g b) R.
Proof. apply reads15_eq. intros s. unfold rbind. destruct (m s) as [[a| |] s']; auto. Qed.
Lemma reads15_ret_l {A B} (v : A) (f : A -> RM B) R : reads15 (f v) R -> reads15 (rbind (rret v) f) R.
Proof. apply reads15_eq. reflexivity. Qed.

(* The largest number of clusters is only looked at in the end. *)
Lemma map_limit nested k m m' s v s' : readClusterMapWith nested k m s = (Ok v, s') -> snd v <= m' -> readClusterMapWith nested k m' s = (Ok v, s').
Proof.
  unfold readClusterMapWith. intros E Hm. unfold rbind at 1 in E. unfold rbind at 1.
  destruct ((if (k =? 1)%nat then rret [0] else _) s) as [[cm| |] s1]; [|discriminate|discriminate].
  destruct (m <? countClusters cm); [discriminate|]. injection E as <- <-. cbn [snd] in Hm. replace (m' <? countClusters cm) with false by lia. reflexivity.
Qed.
Lemma reads15_map n : 0 < n -> reads15 (ReadClusterMap (Z.to_nat n) 16) (map16 n).
Proof.
  intros Hn c v [Hv H16] s d p Hr Hb Hk. destruct (complete_map_code 2 n Hn c v Hv) as (a & -> & R). destruct (R s d p Hr Hb Hk) as (s' & E & Hr').
  exists s'. split; [|exact Hr']. exact (map_limit _ _ _ _ _ _ _ E H16).
Qed.
Lemma map_code_length depth n c v : 0 < n -> map_code depth n c v -> Z.of_nat (length (fst v)) = n.
Proof.
  intros Hn. assert (P : plain_map n c v -> Z.of_nat (length (fst v)) = n).
  { unfold plain_map. destruct (Z.eqb_spec n 1) as [->|]; [intros [_ ->]; reflexivity|]. intros (w & l & _ & _ & L & _ & _ & ->). exact L. }
  destruct depth; [exact P|]. intros [H|H]; [exact (P H)|]. destruct H as (? & ? & ? & l & ? & ? & _ & _ & _ & _ & _ & _ & L & _ & _ & ->). exact L.
Qed.
Lemma map_code_some n c v : 0 < n -> map16 n c v -> Z.of_nat (length (fst v)) = n /\ Forall (fun x => 0 <= x < snd v) (fst v) /\ 0 < snd v <= 16.
Proof.
  intros Hn [H H16]. pose proof (map_code_length 2 n c v Hn H) as L. destruct (good_map_code 2 n c v H) as [_ F]. split; [exact L|]. split; [exact F|].
  split; [|exact H16]. destruct (fst v) as [|a l]; [cbn in L; lia|]. inversion F; subst. lia.
Qed.

Lemma context_lists (u : Z -> Z) c lf : c_list 3 (n <== c_fixed 4 ;;; c_list (Z.to_nat n) (c_map u (c_u32 0 4 16 8 272 16 65808 32))) c lf ->
  length lf = 3%nat /\ Forall (fun t : list Z => (length t <= 15)%nat) lf.
Proof.
  intros H. split; [exact (c_list_length _ _ _ _ H)|]. eapply c_list_Forall; [|exact H]. cbv beta. intros c' v (a & e & n & -> & [-> Hn] & H').
  apply c_list_length in H'. rewrite H'. change (2 ^ Z.of_nat 4) with 16 in Hn. lia.
Qed.
Lemma reads15_block_context : reads15 (NewHFBlockContextWith ReadClusterMap) (block_context_code code_threshold map16).
Proof.
  unfold NewHFBlockContextWith, block_context_code. apply reads15_bind; [apply reads15_exact, exact_bool|]. intros b _.
  destruct b; [apply reads15_exact, exact_ret|].
  apply reads15_bind; [apply reads15_exact, exact_rrepeat, exact_thresholds|]. intros lf [clf Hlf]. destruct (context_lists _ _ _ Hlf) as [L3 F].
  cbv zeta. apply reads15_bind; [now apply reads15_exact, exact_bits; [|lia]|]. intros nq [? [_ Hn]]. change (2 ^ Z.of_nat 4) with 16 in Hn.
  apply reads15_bind.
  { apply reads15_exact, exact_rrepeat. apply exact_map; [apply (exact_u32 0 2 4 3 12 5 44 8); u32_side|]. intros c v Hv.
    assert (0 <= v < 1000) by u32_cases Hv. rewrite !i32_small; rewrite ?i32_small; lia. }
  intros qf [cq Hq]. apply c_list_length in Hq.
  rewrite (wrap_fold lf 1) by (rewrite ?L3; auto; cbn; lia).
  assert (E1 : i32 (39 * (i32 nq + 1)) = 39 * (nq + 1)) by (rewrite (i32_small nq), i32_small; lia). rewrite E1.
  rewrite (wrap_fold lf) by (rewrite ?L3; auto; try lia; change (16 ^ Z.of_nat 3) with 4096; lia).
  pose proof (intervals_bound lf F) as HI. rewrite L3 in HI. change (16 ^ Z.of_nat 3) with 4096 in HI.
  replace (39 * (nq + 1) * intervals lf) with (39 * intervals (qf :: lf)).
  2:{ cbn [intervals fold_right]. fold (intervals lf). rewrite Hq. rewrite Z2Nat.id by lia. lia. }
  assert (HI' : 0 < intervals (qf :: lf)) by (cbn [intervals fold_right]; fold (intervals lf); nia).
  intros c v [HG H]. replace (39 * 64 <? 39 * intervals (qf :: lf)) with false by lia. revert c v H.
  change (reads15 (r <- ReadClusterMap (Z.to_nat (39 * intervals (qf :: lf))) 16 ;; rret (mkHFB lf (fst r) (i32 (snd r)) qf (1 * intervals lf)))
    (m <== map16 (39 * intervals (qf :: lf)) ;;; c_ret (mkHFB lf (fst m) (snd m) qf (intervals lf)))).
  apply reads15_bind; [apply reads15_map; lia|]. intros r [cr Hr].
  destruct (map_code_some (39 * intervals (qf :: lf)) _ _ ltac:(lia) Hr) as (_ & _ & H16). rewrite (i32_small (snd r)) by lia. rewrite Z.mul_1_l. apply reads15_exact, exact_ret.
Qed.
Lemma reads15_lf_global flags : Z.testbit flags 0 = false -> Z.testbit flags 1 = false -> Z.testbit flags 4 = false ->
  reads15 (readLFGlobal (NewHFBlockContextWith ReadClusterMap) flags true) (lf_global_code code_threshold map16 true).
Proof.
  intros F0 F1 F4. unfold readLFGlobal.
  assert (E1 := testbit_land flags 1 ltac:(lia)). assert (E4 := testbit_land flags 4 ltac:(lia)). assert (E0 := testbit_land flags 0 ltac:(lia)).
  change (2 ^ 1) with 2 in E1. change (2 ^ 4) with 16 in E4. change (2 ^ 0) with 1 in E0. rewrite E0, E1, E4, F0, F1, F4. cbn [negb].
  unfold lf_global_code. apply reads15_bind; [apply reads15_exact, exact_dequant|]. intros d _.
  apply reads15_assoc. apply reads15_bind; [apply reads15_exact, exact_quantizer|]. intros q _.
  apply reads15_assoc. apply reads15_bind; [apply reads15_block_context|]. intros h _.
  apply reads15_assoc. apply reads15_bind; [apply reads15_exact, exact_correlation|]. intros cc _. apply reads15_ret_l.
  apply reads15_bind; [apply reads15_exact, exact_bool|]. intros t _. apply reads15_exact, exact_ret.
Qed.

(* The shape of block contexts as sent *)
Lemma context_shape u c hc : block_context_code u map16 c hc -> hb_shape hc /\ 0 < hb_numClusters hc <= 16 /\ Forall (fun x => 0 <= x) (hb_clusterMap hc).
Proof.
  intros (a & e & b & -> & _ & H). destruct b.
  - destruct H as [_ ->]. cbn [hb_numClusters hb_clusterMap]. split; [|split; [lia|repeat constructor; lia]].
    exists [], [], []. cbn [hb_lfThresholds hb_numLFContexts hb_clusterMap hb_qfThresholds hb_numClusters]. split; [reflexivity|]. split; [reflexivity|].
    split; [reflexivity|]. split; [cbn; lia|]. split; [repeat constructor; lia|lia].
  - destruct H as (a1 & e1 & lf & -> & Hlf & a2 & e2 & nq & -> & [_ Hn] & a3 & e3 & qf & -> & Hq & HG & a4 & e4 & r & -> & Hr & -> & ->).
    destruct (context_lists _ _ _ Hlf) as [L3 F]. destruct lf as [|t0 [|t1 [|t2 [|? ?]]]]; try discriminate.
    destruct (map_code_some (39 * intervals (qf :: [t0; t1; t2])) _ _ ltac:(cbn [intervals fold_right]; nia) Hr) as (L & FR & H16). cbn [hb_numClusters hb_clusterMap].
    split; [|split; [exact H16|eapply Forall_impl; [|exact FR]; cbv beta; lia]].
    exists t0, t1, t2. cbn [hb_lfThresholds hb_numLFContexts hb_clusterMap hb_qfThresholds hb_numClusters].
    split; [reflexivity|]. split; [cbn [intervals fold_right]; lia|]. split; [rewrite L; cbn [intervals fold_right]; lia|]. split; [lia|].
    split; [eapply Forall_impl; [|exact FR]; cbv beta; lia|lia].
Qed.
