(* Properties of parallel decoding and the buffer pools: C32-C35, C59. *)
From Coq Require Import ZArith List Bool Lia Arith Permutation.
From Verif Require Import GoBase GoLoop GoMatrix ModelConcurrency ModelPool SpecConcurrency SpecPool ProofConcurrency ProofQueue ProofPool.
Import ListNotations.
Open Scope Z_scope.

(* ---- C32: rows are split without overlap, any schedule gives the result ---- *)
Theorem C32_partition_partial : forall maxGoroutines h, 0 <= h -> h + Z.max 1 maxGoroutines <= 2 ^ 31 ->
  (exists rs, splitRows maxGoroutines h = Ok rs /\ partition h rs) /\ partition h (splitRowsUp maxGoroutines h).
Proof.
  intros m h Hh Hm. split.
  - destruct (split_chain m h Hh Hm) as (rs & E & C). exists rs. split; [exact E|exact (chain_partition h rs C)].
  - apply chain_partition. apply split_up_chain; lia.
Qed.
Print Assumptions C32_partition_partial.
Example C32_partition_ex : splitRows 4 10 = Ok [(0, 3); (3, 6); (6, 9); (9, 10)] /\ splitRows 5 3 = Ok [(0, 1); (1, 2); (2, 3)] /\
  splitRowsUp 4 9 = [(0, 3); (3, 6); (6, 9)].
Proof. repeat split; reflexivity. Qed.

(* Workers that write cells computed from a read-only input: whatever the
   interleaving no cell is written twice and the result is the same. *)
Theorem C32_schedule_partial : forall maxGoroutines h w (val : Z -> Z -> Outcome Z) V rs steps out,
  (forall y x, (y < h)%nat -> (x < w)%nat -> val (Z.of_nat y) (Z.of_nat x) = Ok (V y x)) -> rect h w out ->
  Z.of_nat h + Z.max 1 maxGoroutines <= 2 ^ 31 ->
  splitRows maxGoroutines (Z.of_nat h) = Ok rs \/ splitRowsUp maxGoroutines (Z.of_nat h) = rs ->
  interleaving (map (worker (Z.of_nat w)) rs) steps ->
  NoDup steps /\ execSteps val steps out = Ok (mat h w V).
Proof.
  intros m h w val V rs steps out HV R Hm E I. refine (schedule_ok h w val V rs steps out HV R _ I). destruct E as [E|<-].
  - destruct (split_chain m (Z.of_nat h) ltac:(lia) Hm) as (rs' & E' & C). rewrite E in E'. injection E' as ->. exact C.
  - apply split_up_chain; lia.
Qed.
Print Assumptions C32_schedule_partial.

(* The Gaborish filter is the 3x3 convolution of the image with repeated
   borders, for any number of workers and any schedule; the float operations
   are arbitrary. *)
Theorem C32_gaborish_partial : forall fadd fmul base adj diag maxGoroutines h w A out rs steps, rect h w A -> rect h w out ->
  Z.of_nat h + Z.max 1 maxGoroutines <= 2 ^ 31 -> Z.of_nat w < 2 ^ 31 ->
  splitRows maxGoroutines (Z.of_nat h) = Ok rs -> interleaving (map (worker (Z.of_nat w)) rs) steps ->
  execSteps (gabPixel fadd fmul base adj diag A (Z.of_nat h) (Z.of_nat w)) steps out = Ok (mat h w (gab3x3 fadd fmul base adj diag h w A)).
Proof.
  intros fadd fmul base adj diag m h w A out rs steps RA RO Hm Hw E I.
  refine (proj2 (C32_schedule_partial m h w _ _ rs steps out _ RO Hm (or_introl E) I)). intros y x Hy Hx. apply gab_ok; try assumption; lia.
Qed.
Print Assumptions C32_gaborish_partial.
Example C32_gaborish_ex :
  let A := [[1; 2]; [3; 4]; [5; 6]] in
  interleaving (map (worker 2) [(0, 2); (2, 3)]) [(0, 0); (2, 0); (0, 1); (2, 1); (1, 0); (1, 1)] /\ splitRows 2 3 = Ok [(0, 2); (2, 3)] /\
  execSteps (gabPixel Z.add Z.mul 100 10 1 A 3 2) [(0, 0); (2, 0); (0, 1); (2, 1); (1, 0); (1, 1)] (zeros2 3 2) =
    Ok [[180; 300]; [444; 564]; [708; 828]].
Proof.
  split; [|split; reflexivity]. cbn.
  apply (il_step [] (0, 0) [(0, 1); (1, 0); (1, 1)] [[(2, 0); (2, 1)]]). cbn.
  apply (il_step [[(0, 1); (1, 0); (1, 1)]] (2, 0) [(2, 1)] []). cbn.
  apply (il_step [] (0, 1) [(1, 0); (1, 1)] [[(2, 1)]]). cbn.
  apply (il_step [[(1, 0); (1, 1)]] (2, 1) [] []). cbn.
  apply (il_step [] (1, 0) [(1, 1)] [[]]). cbn. apply (il_step [] (1, 1) [] [[]]). cbn. apply il_done. repeat constructor.
Qed.
(* Not for every worker count: it is converted to int32, so 2^32 workers
   divide by zero. *)
Theorem C32_many_workers_refuted : splitRows (2 ^ 32) 8 = Panic.
Proof. reflexivity. Qed.
Print Assumptions C32_many_workers_refuted.

(* ---- C33: every pass group is handled exactly once ---- *)
(* Every run is finite; while a worker has not finished some step is possible
   (no deadlock); when all have, every pair was handled exactly once. *)
Theorem C33_queue : forall p g k n s, (1 <= k)%nat -> run qstep n (q_init p g k) s ->
  (n <= 3 * (p * g) + k)%nat /\
  (Exists (fun w => w <> Exited) (q_workers s) -> exists t, qstep s t) /\
  (Forall (fun w => w = Exited) (q_workers s) -> NoDup (q_handled s) /\ forall a b, In (a, b) (q_handled s) <-> (a < p /\ b < g)%nat).
Proof.
  intros p g k n s Hk R.
  pose proof (run_inv qstep (q_inv (workItems p g) k) (fun s t H E => q_step_inv _ _ s t H E) n _ _ R (q_init_inv p g k)) as I.
  split; [|split].
  - pose proof (run_measure qstep (fun _ => True) q_measure (fun _ _ _ _ => Logic.I) (fun s t _ E => q_step_measure s t E) n _ _ R Logic.I) as M.
    unfold q_measure in M at 2. cbn [q_init q_queue q_workers] in M.
    assert (length (workItems p g) = (p * g)%nat) as L.
    { unfold workItems. rewrite <- (seq_length p 0) at 2. induction (seq 0 p) as [|a l IH]; cbn [flat_map length]; [reflexivity|].
      rewrite app_length, map_length, seq_length, IH. reflexivity. }
    rewrite L in M. assert (sum_nat weight (repeat Idle k) = k) as W by (clear; unfold sum_nat; induction k; cbn; [reflexivity|f_equal; assumption]). rewrite W in M. lia.
  - exact (q_progress s).
  - intros F. destruct (q_final _ _ _ Hk I F) as [_ P]. split; [exact (Permutation_NoDup (Permutation_sym P) (items_nodup p g))|].
    intros a b. rewrite <- in_items. split; apply Permutation_in; [exact P|symmetry; exact P].
Qed.
Print Assumptions C33_queue.
Example C33_queue_ex : exists s, run qstep 8 (q_init 1 3 2) s /\ Forall (fun w => w = Exited) (q_workers s) /\ q_handled s = [(0, 1); (0, 0); (0, 2)]%nat.
Proof.
  exists (mkQ [] [Exited; Exited] [(0, 1); (0, 0); (0, 2)]%nat). split; [|split; [repeat constructor|reflexivity]].
  eapply run_S; [apply (q_take 0); reflexivity|]. eapply run_S; [apply (q_take 1); reflexivity|]. eapply run_S; [apply (q_finish 1); reflexivity|].
  eapply run_S; [apply (q_take 1); reflexivity|]. eapply run_S; [apply (q_finish 0); reflexivity|]. eapply run_S; [apply (q_exit 0); reflexivity|].
  eapply run_S; [apply (q_finish 1); reflexivity|]. eapply run_S; [apply (q_exit 1); reflexivity|]. apply run_0.
Qed.

(* ---- C34: failing sections ---- *)
(* Groups limited by a semaphore (LF groups, inverse transforms): every run is
   finite, nobody blocks for ever, and an error is returned exactly when some
   group fails, whatever the schedule. *)
Theorem C34_semaphore_partial : forall inMain fails n cap k s, (1 <= cap)%nat -> run (sstep inMain fails n cap) k s_init s ->
  (k <= 3 * n)%nat /\ (~ s_done n s -> exists t, sstep inMain fails n cap s t) /\
  (s_done n s -> (s_result s = Err <-> exists i, (i < n)%nat /\ fails i = true) /\ (s_result s = Ok tt \/ s_result s = Err)).
Proof.
  intros inMain fails n cap k s Hc R.
  assert (I : s_inv fails n cap s) by exact (run_inv _ (s_inv fails n cap) (s_step_inv inMain fails n cap) k _ _ R (s_init_inv fails n cap)).
  split; [|split].
  - pose proof (run_measure _ (s_inv fails n cap) (s_measure n) (s_step_inv inMain fails n cap) (s_step_measure inMain fails n cap) k _ _ R (s_init_inv fails n cap)) as M.
    assert (E : s_measure n s_init = (3 * n)%nat) by (unfold s_measure, s_init; cbn [s_spawned s_groups]; unfold sum_nat; cbn [fold_right]; lia).
    rewrite E in M. lia.
  - exact (s_progress inMain fails n cap s Hc I).
  - exact (s_final fails n cap s I).
Qed.
Print Assumptions C34_semaphore_partial.
Example C34_semaphore_ex : exists s, run (sstep true (fun i => Nat.eqb i 1) 2 1) 4 s_init s /\ s_done 2 s /\ s_result s = Err.
Proof.
  exists (mkS 2 [Finished; Finished] 0 [1%nat]). split; [|split; [split; [reflexivity|repeat constructor]|reflexivity]].
  eapply run_S; [apply s_spawn_main; auto|]. eapply run_S; [apply (s_ok _ _ _ _ 0); reflexivity|].
  eapply run_S; [apply s_spawn_main; auto|]. eapply run_S; [apply (s_err _ _ _ _ 1); [reflexivity|reflexivity|cbn; lia]|]. apply run_0.
Qed.
(* One pass whose groups all decode: the result is an error exactly when some
   inverse transform fails. *)
Theorem C34_inverse_partial : forall ng replaced proc inverse, (forall g, (g < ng)%nat -> proc 0%nat g = Ok tt) ->
  (forall g, (g < ng)%nat -> inverse 0%nat g <> Panic) ->
  (decodePassGroups true 1 ng replaced proc inverse = Err <-> exists g, (g < ng)%nat /\ inverse 0%nat g = Err) /\
  decodePassGroups true 1 ng replaced proc inverse <> Panic.
Proof.
  intros ng replaced proc inverse HP HI. rewrite (one_pass_result ng replaced proc inverse HP HI). destruct (existsb _ _) eqn:E.
  - split; [|discriminate]. split; [|reflexivity]. intros _. apply existsb_exists in E as (g & Hg & Eg). exists g. apply in_seq in Hg. split; [lia|].
    destruct (inverse 0%nat g); [discriminate|reflexivity|discriminate].
  - split; [|discriminate]. split; [discriminate|]. intros (g & Hg & Eg). exfalso. rewrite <- not_true_iff_false in E. apply E. apply existsb_exists. exists g.
    split; [apply in_seq; lia|]. rewrite Eg. reflexivity.
Qed.
Print Assumptions C34_inverse_partial.
Example C34_inverse_ex : decodePassGroups true 1 4 (fun _ => 2%nat) (fun _ _ => Ok tt) (fun _ g => if Nat.eqb g 3 then Err else Ok tt) = Err.
Proof. reflexivity. Qed.
(* Errors of pass groups themselves are dropped (startWorker prints them): a
   modular frame never reports one, whichever groups fail. *)
Theorem C34_modular_refuted : forall numPasses numGroups replaced proc inverse, decodePassGroups false numPasses numGroups replaced proc inverse <> Err.
Proof. exact modular_never_err. Qed.
Print Assumptions C34_modular_refuted.
Example C34_modular_ex : decodePassGroups false 1 4 (fun _ => 0%nat) (fun _ _ => Err) (fun _ _ => Err) = Ok tt.
Proof. reflexivity. Qed.
(* In a VarDCT frame a failed group of the first pass ends in a nil pointer
   dereference instead. *)
Theorem C34_vardct_refuted : forall numPasses numGroups replaced proc inverse g, (1 <= numPasses)%nat -> (g < numGroups)%nat -> proc 0%nat g = Err ->
  decodePassGroups true numPasses numGroups replaced proc inverse = Panic.
Proof. intros np ng replaced proc inverse g Hn Hg E. apply (vardct_failed np ng replaced proc inverse g Hn Hg). rewrite E. discriminate. Qed.
Print Assumptions C34_vardct_refuted.

(* ---- C59: several passes ---- *)
Theorem C59_one_pass_partial : forall ng replaced proc inverse, (forall p g, proc p g = Ok tt) -> (forall p g, inverse p g = Ok tt) ->
  decodePassGroups true 1 ng replaced proc inverse = Ok tt.
Proof.
  intros ng replaced proc inverse HP HI. destruct (C34_inverse_partial ng replaced proc inverse (fun g _ => HP 0%nat g)) as [[H _] N].
  - intros g _. rewrite HI. discriminate.
  - destruct (decodePassGroups true 1 ng replaced proc inverse) as [[]| |]; [reflexivity| |congruence]. destruct (H eq_refl) as (g & _ & E). rewrite HI in E. discriminate.
Qed.
Print Assumptions C59_one_pass_partial.
(* Two or more passes always panic, even when every group is fine. *)
Theorem C59_several_passes_refuted : forall np ng replaced proc inverse, (2 <= np)%nat -> (1 <= ng)%nat ->
  (forall p g, proc p g = Ok tt) -> (forall p g, inverse p g = Ok tt) -> decodePassGroups true np ng replaced proc inverse = Panic.
Proof. exact two_passes. Qed.
Print Assumptions C59_several_passes_refuted.
Example C59_ex : decodePassGroups true 2 3 (fun _ => 1%nat) (fun _ _ => Ok tt) (fun _ _ => Ok tt) = Panic.
Proof. reflexivity. Qed.

(* ---- C35: the buffer pools ---- *)
(* After any history of a program that only gives back matrices it holds and
   forgets them, what the pool hands out is zero, has the requested
   dimensions, and shares no row with a matrix in use or in a pool. *)
Theorem C35_pooled_partial : forall live s d h w m t, history live s -> pget d h w s m t ->
  zero_matrix d h w (m_rows t) m /\ separate m live /\ (forall k l, m_pools t k = Some l -> separate m l).
Proof. exact pooled_get. Qed.
Print Assumptions C35_pooled_partial.
(* get, write, put, get again: the same rows come back, cleared *)
Example C35_pooled_ex : exists s t, history [] s /\ pget 1 2 2 s [[0; 1]]%nat t /\ m_rows t 1%nat = [0; 0] /\ m_pools s (1, 2, 2)%nat = Some [[[0; 1]]]%nat.
Proof.
  pose (s1 := snd (makeMatrix3D 1 2 2 (mkMem 0 (fun _ => []) (setPool (fun _ => None) (1, 2, 2)%nat [])))).
  assert (H1 : history [[[0; 1]]]%nat s1).
  { eapply (h_get [] mem_init 1 2 2); [apply h_init|]. eapply (pg_new 1 2 2 mem_init _ _ []); [lia|right; split; reflexivity|reflexivity]. }
  pose (s2 := mkMem (m_next s1) (fun a => if (a =? 1)%nat then [7; 8] else m_rows s1 a) (m_pools s1)).
  assert (H2 : history [[[0; 1]]]%nat s2) by (eapply (h_write _ s1 [[0; 1]]%nat 1); [exact H1|left; reflexivity|cbn; auto|reflexivity]).
  pose (s3 := pput [[0; 1]]%nat s2). assert (H3 : history [] s3) by exact (h_put [] [[0; 1]]%nat [] s2 H2).
  exists s3. eexists. split; [exact H3|]. split; [apply (pg_reuse 1 2 2 s3 [[0; 1]]%nat [] []); [lia|reflexivity]|]. split; reflexivity.
Qed.
(* But the decoder gives back the frame buffer itself: after any earlier use
   of a pooled matrix of the frame's dimensions (the edge-preserving filter of
   an earlier frame or image) decoding a VarDCT frame leaves zeros in the
   frame buffer, whatever was decoded, and its rows in the pool. *)
Theorem C35_frame_buffer_refuted : forall c0 c1 c2 work s h w l, (h <> 0)%nat -> length c0 = h ->
  (forall r, In r (concat [c0; c1; c2]) -> length (work (m_rows s) r) = w) -> m_pools s (3%nat, h, w) = Some l ->
  let t := decodeVarDCT [c0; c1; c2] work s in
  (forall r, In r (concat [c0; c1; c2]) -> m_rows t r = repeat 0 w) /\ m_pools t (3%nat, h, w) = Some ([c0; c1; c2] :: l).
Proof. exact decodeVarDCT_zero. Qed.
Print Assumptions C35_frame_buffer_refuted.
(* Without such an earlier use the decoded samples stay. *)
Theorem C35_first_decode_partial : forall c0 c1 c2 work s h w, length c0 = h ->
  (forall r, In r (concat [c0; c1; c2]) -> length (work (m_rows s) r) = w) -> m_pools s (3%nat, h, w) = None ->
  m_rows (decodeVarDCT [c0; c1; c2] work s) = work (m_rows s).
Proof. exact decodeVarDCT_keep. Qed.
Print Assumptions C35_first_decode_partial.
(* A frame buffer of one pixel (rows 0, 1, 2), decoded sample 7: kept in a new
   process, lost once a 3x1x1 matrix has been taken from the pool. *)
Example C35_twice_ex : exists s t, history [[[0]; [1]; [2]]]%nat s /\ history [[[0]; [1]; [2]]]%nat t /\
  let work := fun (_ : nat -> list Z) (_ : nat) => [7] in
  m_rows (decodeVarDCT [[0]; [1]; [2]]%nat work s) 1%nat = [7] /\ m_rows (decodeVarDCT [[0]; [1]; [2]]%nat work t) 1%nat = [0].
Proof.
  pose (s1 := snd (makeMatrix3D 3 1 1 mem_init)).
  assert (H1 : history [[[0]; [1]; [2]]]%nat s1) by (eapply (h_make [] mem_init 3 1 1); [apply h_init|reflexivity]).
  pose (s2 := snd (makeMatrix3D 3 1 1 (mkMem (m_next s1) (m_rows s1) (setPool (m_pools s1) (3, 1, 1)%nat [])))).
  assert (H2 : history [[[3]; [4]; [5]]; [[0]; [1]; [2]]]%nat s2).
  { eapply (h_get _ s1 3 1 1); [exact H1|]. eapply (pg_new 3 1 1 s1 _ _ []); [lia|right; split; reflexivity|reflexivity]. }
  pose (s3 := pput [[3]; [4]; [5]]%nat s2).
  assert (H3 : history [[[0]; [1]; [2]]]%nat s3) by exact (h_put [] [[3]; [4]; [5]]%nat [[[0]; [1]; [2]]]%nat s2 H2).
  exists s1, s3. split; [exact H1|]. split; [exact H3|]. split; reflexivity.
Qed.
(* Matrices are filed under the dimensions of their first channel only: one
   with a smaller second channel (a subsampled group's coefficients) comes
   back where a 3x2x2 matrix was asked for. *)
Theorem C35_shape_refuted : exists s t m, m_pools s (3, 2, 2)%nat = Some [] /\ length m = 3%nat /\ pget 3 2 2 (pput m s) m t /\
  exists c, nth_error m 1 = Some c /\ length c = 1%nat.
Proof.
  pose (s := mkMem 5 (fun a => if (a <? 2)%nat then [0; 0] else [0]) (setPool (fun _ => None) (3, 2, 2)%nat [])).
  exists s. eexists. exists [[0; 1]; [2]; [3]]%nat. split; [reflexivity|]. split; [reflexivity|].
  split; [apply (pg_reuse 3 2 2 _ [[0; 1]; [2]; [3]]%nat [] []); [lia|reflexivity]|]. exists [2]%nat. split; reflexivity.
Qed.
Print Assumptions C35_shape_refuted.
