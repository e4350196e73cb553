(* C115: the two-dimensional pool. *)
From Coq Require Import ZArith List Bool Lia Arith ZifyBool ZifyNat.
From Verif Require Import GoBase GoLoop ModelPool SpecPool ProofPool ModelPool2 SpecPool2.
Import ListNotations.
Open Scope Z_scope.

(* Every history of the two-dimensional pool is one of the three-dimensional pool with
   matrices of one channel. *)
Definition one (m : Matrix2) : Matrix3 := [m].
Definition sim (s : Mem2) (t : Mem) : Prop :=
  m_next t = m2_next s /\ (forall a, m_rows t a = m2_rows s a) /\ forall h w, m_pools t (1%nat, h, w) = option_map (map one) (m2_pools s (h, w)).
Lemma one_rows m : concat (one m) = m.
Proof. unfold one. cbn. apply app_nil_r. Qed.
Lemma key2_eqb_eq a b : key2_eqb a b = true <-> a = b.
Proof. destruct a as [a1 a2], b as [b1 b2]. unfold key2_eqb. cbn [fst snd]. rewrite andb_true_iff, !Nat.eqb_eq. split; [intros [-> ->]; reflexivity|intros [= -> ->]; auto]. Qed.
Lemma sim_pools p q h w l : (forall h w, q (1%nat, h, w) = option_map (map one) (p (h, w))) ->
  forall h' w', setPool q (1%nat, h, w) (map one l) (1%nat, h', w') = option_map (map one) (setPool2 p (h, w) l (h', w')).
Proof.
  intros H h' w'. unfold setPool2. destruct (key2_eqb (h, w) (h', w')) eqn:E.
  - apply key2_eqb_eq in E. injection E as <- <-. apply setPool_eq.
  - rewrite setPool_neq; [apply H|]. intros X. injection X as -> ->. rewrite (proj2 (key2_eqb_eq (h', w') (h', w')) eq_refl) in E. discriminate.
Qed.
Lemma sim_make h w s u m t : sim s u -> makeMatrix2D h w s = (m, t) -> exists v, makeMatrix3D 1 h w u = (one m, v) /\ sim t v.
Proof.
  intros (S1 & S2 & S3) E. unfold makeMatrix2D in E. injection E as <- <-. exists (snd (makeMatrix3D 1 h w u)). split; [unfold makeMatrix3D, one; cbn [channelAddrs snd]; rewrite S1; reflexivity|]. unfold makeMatrix3D. cbn [snd].
  split; [cbn [m_next m2_next]; lia|]. split; [|exact S3]. intros a. cbn [m_rows m2_rows]. rewrite S1, S2. replace (m2_next s + 1 * h)%nat with (m2_next s + h)%nat by lia. reflexivity.
Qed.
Lemma sim_get h w s u new m t : sim s u -> pget2 h w s new m t -> exists v, pget 1 h w u (one m) v /\ sim t v.
Proof.
  intros S E. destruct E as [m t Hz E|m t l Hd Hl E|m l1 l2 Hd E].
  - destruct (sim_make h w s u m t S E) as (v & E' & S'). exists v. split; [apply pg_zero; [tauto|exact E']|exact S'].
  - destruct S as (S1 & S2 & S3). assert (S' : sim (mkMem2 (m2_next s) (m2_rows s) (setPool2 (m2_pools s) (h, w) l) (m2_hits s) (m2_misses s)) (mkMem (m_next u) (m_rows u) (setPool (m_pools u) (1%nat, h, w) (map one l)))).
    { split; [exact S1|]. split; [exact S2|]. apply sim_pools. exact S3. }
    destruct (sim_make _ _ _ _ _ _ S' E) as (v & E' & S''). clear S'. rename S'' into S'.
    exists v. split; [|exact S']. apply (pg_new _ _ _ _ _ _ (map one l)); [lia| |exact E'].
    rewrite S3. destruct Hl as [->|[-> ->]]; [left; reflexivity|right; split; reflexivity].
  - destruct S as (S1 & S2 & S3). eexists. split.
    + apply (pg_reuse _ _ _ _ _ (map one l1) (map one l2)); [lia|]. rewrite S3, E. cbn [option_map]. rewrite map_app. reflexivity.
    + split; [exact S1|]. split; [exact S2|]. cbn [addHit m_pools m2_pools]. rewrite <- map_app. apply sim_pools. exact S3.
Qed.
Lemma sim_put m s u : sim s u -> sim (pput2 m s) (pput (one m) u).
Proof.
  intros (S1 & S2 & S3). unfold pput2, pput, one. destruct m as [|r m]; [split; [exact S1|split; [exact S2|exact S3]]|]. fold (one (r :: m)). cbv zeta. change (length (one (r :: m))) with 1%nat. rewrite S2, S3.
  destruct (m2_pools s (length (r :: m), length (m2_rows s r))) as [l|]; cbn [option_map]; [|split; [exact S1|split; [exact S2|exact S3]]].
  split; [exact S1|]. split; [|cbn [m_pools m2_pools]; change (one (r :: m) :: map one l) with (map one ((r :: m) :: l)); apply sim_pools; exact S3].
  intros a. cbn [m_rows m2_rows]. unfold clearRows, clearRows2. rewrite one_rows, S2. reflexivity.
Qed.
Lemma sim_history live s asked made : history2 live s asked made -> exists u, history (map one live) u /\ sim s u.
Proof.
  induction 1 as [|live s asked made h w new m t H (u & IH & S) E|live s asked made h w m t H (u & IH & S) E|live s asked made m r v H (u & IH & S) Hm Hr Hv|l1 m l2 s asked made H (u & IH & S)|l1 m l2 s asked made H (u & IH & S)].
  - exists mem_init. split; [constructor|]. repeat split.
  - destruct (sim_get _ _ _ _ _ _ _ S E) as (v & E' & S'). exists v. split; [exact (h_get _ _ _ _ _ _ _ IH E')|exact S'].
  - destruct (sim_make _ _ _ _ _ _ S E) as (v & E' & S'). exists v. split; [exact (h_make _ _ _ _ _ _ _ IH E')|exact S'].
  - destruct S as (S1 & S2 & S3). eexists. split.
    + apply (h_write (map one live) u (one m) r v IH); [apply in_map, Hm|rewrite one_rows; exact Hr|rewrite S2; exact Hv].
    + split; [exact S1|]. split; [|exact S3]. intros a. cbn [m_rows m2_rows]. rewrite S2. reflexivity.
  - exists (pput (one m) u). rewrite map_app in *. split; [apply h_put; exact IH|apply sim_put, S].
  - exists u. rewrite map_app in *. split; [exact (h_forget _ _ _ _ IH)|exact S].
Qed.
(* C115.  A matrix got from the pool has the size asked for and samples 0, and shares no
   row with the matrices in use or in the pool. *)
Theorem C115_pooled_partial : forall live s asked made h w new m t, history2 live s asked made -> pget2 h w s new m t ->
  zero_matrix2 h w (m2_rows t) m /\ separate2 m live /\ forall k l, m2_pools t k = Some l -> separate2 m l.
Proof.
  intros live s asked made h w new m t H E. destruct (sim_history _ _ _ _ H) as (u & H' & S). destruct (sim_get _ _ _ _ _ _ _ S E) as (v & E' & (T1 & T2 & T3)).
  destruct (pooled_get _ _ _ _ _ _ _ H' E') as ((Z1 & Z2 & Z3) & (N & D) & P). rewrite one_rows in Z3, N.
  assert (D' : forall o l, separate (one m) (map one l) -> In o l -> forall r, In r m -> ~ In r o).
  { intros o l (_ & Q) Ho r Hr. specialize (Q r (one o)). rewrite !one_rows in Q. apply Q; [exact Hr|apply in_map, Ho]. }
  split; [split; [inversion Z2; assumption|]; rewrite Forall_forall in *; intros r Hr; rewrite <- T2; apply Z3, Hr|]. split.
  - split; [exact N|]. intros r o Hr Ho. apply (D' o live); [split; [rewrite one_rows; exact N|exact D]|exact Ho|exact Hr].
  - intros (h', w') l Hl. split; [exact N|]. intros r o Hr Ho. apply (D' o l); [|exact Ho|exact Hr]. apply (P (1%nat, h', w')). rewrite T3, Hl. reflexivity.
Qed.
Print Assumptions C115_pooled_partial.
(* A matrix that is put back, of a size that was got before, is given again. *)
Theorem C115_reuse : forall h w m s l, length m = h -> (0 < h)%nat -> (0 < w)%nat -> length (m2_rows s (nth 0 m 0%nat)) = w -> m2_pools s (h, w) = Some l ->
  exists t, pget2 h w (pput2 m s) false m t.
Proof.
  intros h w m s l L Hh Hw HL HP. unfold pput2. destruct m as [|r m]; [cbn in L; lia|]. cbn [nth] in HL. rewrite HL, L, HP.
  eexists. apply (pg2_reuse h w _ (r :: m) [] l); [lia|]. cbn [m2_pools app]. unfold setPool2. rewrite (proj2 (key2_eqb_eq (h, w) (h, w)) eq_refl). reflexivity.
Qed.
Print Assumptions C115_reuse.
Lemma metrics : forall live s asked made, history2 live s asked made -> m2_hits s = asked /\ m2_misses s = 0.
Proof.
  induction 1 as [|live s asked made h w new m t H IH E|live s asked made h w m t H IH E|live s asked made m r v H IH Hm Hr Hv|l1 m l2 s asked made H IH|l1 m l2 s asked made H IH]; try exact IH; [split; reflexivity| | |].
  - destruct E as [m t Hz E|m t l Hd Hl E|m l1 l2 Hd E].
    + injection E as <- <-. cbn [m2_hits m2_misses]. destruct Hz as [-> | ->]; [|rewrite orb_true_r]; cbn [Nat.eqb orb]; lia.
    + injection E as <- <-. cbn [addHit m2_hits m2_misses]. destruct Hd. destruct (Nat.eqb_spec h 0); [contradiction|]. destruct (Nat.eqb_spec w 0); [contradiction|]. cbn [orb]. lia.
    + cbn [addHit m2_hits m2_misses]. destruct Hd. destruct (Nat.eqb_spec h 0); [contradiction|]. destruct (Nat.eqb_spec w 0); [contradiction|]. cbn [orb]. lia.
  - injection E as <- <-. exact IH.
  - unfold pput2. destruct m as [|r m]; [exact IH|]. destruct (m2_pools s _); exact IH.
Qed.
(* Finding: the metrics count every request as a hit and none as a miss, though the first
   one of every size makes a new matrix. *)
Theorem C115_metrics_refuted : (forall live s asked made, history2 live s asked made -> m2_hits s = asked /\ m2_misses s = 0) /\
  forall h w, (0 < h)%nat -> (0 < w)%nat -> exists m s, history2 [m] s 1 1 /\ m2_hits s = 1 /\ m2_misses s = 0.
Proof.
  split; [exact metrics|]. intros h w Hh Hw. set (s1 := snd (makeMatrix2D h w (mkMem2 0 (fun _ => []) (setPool2 (fun _ => None) (h, w) []) 0 0))).
  exists (seq 0 h), (addHit s1). split; [|split; reflexivity].
  assert (N : (h =? 0)%nat || (w =? 0)%nat = false) by (destruct (Nat.eqb_spec h 0), (Nat.eqb_spec w 0); (lia || reflexivity)).
  assert (G : pget2 h w mem2_init true (seq 0 h) (addHit s1)) by (apply (pg2_new _ _ _ _ _ []); [lia|right; split; reflexivity|reflexivity]).
  pose proof (h2_get _ _ _ _ _ _ _ _ _ h2_init G) as X. rewrite N in X. exact X.
Qed.
Print Assumptions C115_metrics_refuted.

(* Two matrices got, the first one written and put back, and got again. *)
Example C115_example : exists s t, history2 [[2; 3]]%nat s 2 2 /\ pget2 2 1 s false [0; 1]%nat t /\ m2_rows t 0%nat = [0] /\ m2_hits t = 3 /\ m2_misses t = 0.
Proof.
  set (s1 := addHit (snd (makeMatrix2D 2 1 (mkMem2 0 (fun _ => []) (setPool2 (fun _ => None) (2, 1)%nat []) 0 0)))).
  set (s2 := addHit (snd (makeMatrix2D 2 1 (mkMem2 (m2_next s1) (m2_rows s1) (setPool2 (m2_pools s1) (2, 1)%nat []) (m2_hits s1) (m2_misses s1))))).
  set (s3 := mkMem2 (m2_next s2) (fun a => if (a =? 0)%nat then [7] else m2_rows s2 a) (m2_pools s2) (m2_hits s2) (m2_misses s2)).
  exists (pput2 [0; 1]%nat s3). eexists. split; [|split; [apply (pg2_reuse 2 1 _ [0; 1]%nat [] []); [lia|reflexivity]|repeat split]].
  apply (h2_put [[2; 3]]%nat [0; 1]%nat []). change 2 with (1 + 1).
  apply (h2_write _ s2 _ _ [0; 1]%nat 0%nat [7]); [|right; left; reflexivity|left; reflexivity|reflexivity].
  apply (h2_get [[0; 1]]%nat s1 1 1 2 1 true [2; 3]%nat s2); [|apply (pg2_new _ _ _ _ _ []); [lia|left; reflexivity|reflexivity]].
  apply (h2_get [] mem2_init 0 0 2 1 true [0; 1]%nat s1); [constructor|]. apply (pg2_new _ _ _ _ _ []); [lia|right; split; reflexivity|reflexivity].
Qed.
