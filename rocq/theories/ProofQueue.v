(* Lemmas on the work queue, the semaphore and decodePassGroupsConcurrent. *)
From Coq Require Import ZArith List Bool Lia Arith Permutation ZifyBool ZifyNat.
From Verif Require Import GoBase GoLoop ModelConcurrency SpecConcurrency.
Import ListNotations.

Lemma run_inv {S} (step : S -> S -> Prop) (P : S -> Prop) : (forall s t, P s -> step s t -> P t) -> forall n s t, run step n s t -> P s -> P t.
Proof. intros H n s t R. induction R; eauto. Qed.
Lemma run_measure {S} (step : S -> S -> Prop) (P : S -> Prop) (m : S -> nat) : (forall s t, P s -> step s t -> P t) -> (forall s t, P s -> step s t -> (m t < m s)%nat) ->
  forall n s t, run step n s t -> P s -> (n + m t <= m s)%nat.
Proof. intros HP Hm n s t R. induction R as [s|n s t u E R IH]; intros H; [lia|]. specialize (IH (HP _ _ H E)). specialize (Hm _ _ H E). lia. Qed.

(* sums over a list with one entry changed *)
Definition sum_nat {A} (f : A -> nat) (l : list A) : nat := fold_right (fun a s => f a + s)%nat 0%nat l.
Lemma sum_set {A} (f : A -> nat) l : forall i a b, nth_error l i = Some a -> (sum_nat f (list_set l i b) + f a = sum_nat f l + f b)%nat.
Proof.
  induction l as [|x l IH]; intros [|i] a b H; cbn [nth_error list_set] in *; try discriminate; [injection H as ->; unfold sum_nat; cbn; lia|].
  specialize (IH i a b H). unfold sum_nat in *. cbn [fold_right]. lia.
Qed.
Lemma perm_set {A B} (f : A -> list B) l : forall i a b, nth_error l i = Some a -> Permutation (f a ++ flat_map f (list_set l i b)) (f b ++ flat_map f l).
Proof.
  induction l as [|x l IH]; intros [|i] a b H; cbn in *; try discriminate.
  - injection H as ->. apply Permutation_app_swap_app.
  - specialize (IH i a b H). rewrite (Permutation_app_swap_app (f a)). rewrite (Permutation_app_swap_app (f b)). apply Permutation_app_head. exact IH.
Qed.
Lemma Forall_set {A} (P : A -> Prop) l i b : Forall P l -> P b -> Forall P (list_set l i b).
Proof. revert i. induction l as [|x l IH]; intros [|i] H Hb; cbn; inversion H; subst; constructor; auto. Qed.
Lemma nth_error_set {A} (l : list A) i j b : (i < length l)%nat -> nth_error (list_set l i b) j = if (j =? i)%nat then Some b else nth_error l j.
Proof.
  revert i j. induction l as [|x l IH]; intros [|i] [|j] H; cbn in *; try lia; try reflexivity. apply IH. lia.
Qed.

(* ---- the queue ---- *)
Definition wbusy (w : WState) : list (nat * nat) := match w with Busy a => [a] | _ => [] end.
Definition weight (w : WState) : nat := match w with Idle => 1 | Busy _ => 2 | Exited => 0 end.
Definition q_measure (s : QState) : nat := (3 * length (q_queue s) + sum_nat weight (q_workers s))%nat.
Record q_inv (items : list (nat * nat)) (k : nat) (s : QState) : Prop := {
  qi_perm : Permutation (q_queue s ++ flat_map wbusy (q_workers s) ++ q_handled s) items;
  qi_exit : In Exited (q_workers s) -> q_queue s = [];
  qi_len : length (q_workers s) = k }.

Lemma In_set {A} (l : list A) i b a : In a (list_set l i b) -> a = b \/ In a l.
Proof. revert i. induction l as [|x l IH]; intros [|i] H; cbn in *; try tauto; [destruct H; auto|]. destruct H as [H|H]; [auto|]. apply IH in H. tauto. Qed.

Lemma q_step_inv items k s t : q_inv items k s -> qstep s t -> q_inv items k t.
Proof.
  intros [H1 H2 H3] E. inversion E as [i a q ws h Hi|i a q ws h Hi|i ws h Hi]; subst; cbn [q_queue q_workers q_handled] in *.
  - constructor; cbn [q_queue q_workers q_handled].
    + rewrite <- H1. pose proof (perm_set wbusy ws i Idle (Busy a) Hi) as P. cbn [wbusy app] in P. rewrite P. cbn [app]. symmetry. apply Permutation_middle.
    + intros I. apply In_set in I as [I|I]; [discriminate|]. specialize (H2 I). discriminate.
    + rewrite list_set_length. reflexivity.
  - constructor; cbn [q_queue q_workers q_handled].
    + rewrite <- H1. apply Permutation_app_head. pose proof (perm_set wbusy ws i (Busy a) Idle Hi) as P. cbn [wbusy app] in P. rewrite <- P.
      rewrite app_assoc. rewrite <- Permutation_cons_append. reflexivity.
    + intros I. apply In_set in I as [I|I]; [discriminate|]. exact (H2 I).
    + rewrite list_set_length. reflexivity.
  - constructor; cbn [q_queue q_workers q_handled].
    + rewrite <- H1. cbn [app]. apply Permutation_app_tail. exact (perm_set wbusy ws i Idle Exited Hi).
    + reflexivity.
    + rewrite list_set_length. reflexivity.
Qed.
Lemma q_step_measure s t : qstep s t -> (q_measure t < q_measure s)%nat.
Proof.
  intros E. inversion E as [i a q ws h Hi|i a q ws h Hi|i ws h Hi]; subst; unfold q_measure; cbn [q_queue q_workers length];
  match goal with |- context [list_set ws i ?b] => pose proof (sum_set weight ws i _ b Hi) as P end; cbn [weight] in P; lia.
Qed.
Lemma q_progress s : Exists (fun w => w <> Exited) (q_workers s) -> exists t, qstep s t.
Proof.
  destruct s as [q ws h]. cbn [q_workers]. intros H. apply Exists_exists in H as (w & Hw & Hn). apply In_nth_error in Hw as (i & Hi).
  destruct w as [|a|]; [|exists (mkQ q (list_set ws i Idle) (h ++ [a])); apply q_finish; exact Hi|congruence].
  destruct q as [|a q]; [exists (mkQ [] (list_set ws i Exited) h); apply q_exit; exact Hi|].
  exists (mkQ q (list_set ws i (Busy a)) h). apply q_take. exact Hi.
Qed.
Lemma q_init_inv p g k : q_inv (workItems p g) k (q_init p g k).
Proof.
  constructor; cbn [q_init q_queue q_workers q_handled].
  - replace (flat_map wbusy (repeat Idle k)) with (@nil (nat * nat)) by (induction k; cbn; auto). cbn [app]. rewrite app_nil_r. reflexivity.
  - intros H. apply repeat_spec in H. discriminate.
  - apply repeat_length.
Qed.
Lemma q_final items k s : (1 <= k)%nat -> q_inv items k s -> Forall (fun w => w = Exited) (q_workers s) -> q_queue s = [] /\ Permutation (q_handled s) items.
Proof.
  intros Hk [H1 H2 H3] F. assert (E : q_queue s = []).
  { apply H2. destruct (q_workers s) as [|w ws]; [cbn in H3; lia|]. inversion F; subst. left. reflexivity. }
  split; [exact E|]. rewrite <- H1, E. cbn [app]. replace (flat_map wbusy (q_workers s)) with (@nil (nat * nat)); [reflexivity|].
  clear - F. induction F as [|w ws Hw F IH]; [reflexivity|]. subst. cbn. exact IH.
Qed.
Lemma items_nodup p g : NoDup (workItems p g).
Proof.
  unfold workItems. generalize (seq_NoDup p 0). induction (seq 0 p) as [|a l IH]; intros N; cbn [flat_map]; [constructor|]. inversion N; subst.
  assert (G : forall (l1 l2 : list (nat * nat)), NoDup l1 -> NoDup l2 -> (forall a, In a l1 -> ~ In a l2) -> NoDup (l1 ++ l2)).
  { clear. induction l1 as [|a l1 IH]; intros l2 N1 N2 D; [exact N2|]. inversion N1; subst. cbn. constructor.
    - rewrite in_app_iff. intros [H|H]; [tauto|]. exact (D a (or_introl eq_refl) H).
    - apply IH; auto. intros b Hb. apply D. right. exact Hb. }
  apply G.
  - apply FinFun.Injective_map_NoDup; [intros i j [=]; assumption|apply seq_NoDup].
  - apply IH. assumption.
  - intros [y x] H3 H4. apply in_map_iff in H3 as (x1 & [= <- <-] & _). apply in_flat_map in H4 as (y2 & Hy2 & H5).
    apply in_map_iff in H5 as (x3 & [= -> ->] & _). contradiction.
Qed.
Lemma in_items p g a b : In (a, b) (workItems p g) <-> (a < p /\ b < g)%nat.
Proof.
  unfold workItems. rewrite in_flat_map. split.
  - intros (y & H1 & H2). apply in_map_iff in H2 as (x & [= -> ->] & H3). apply in_seq in H1, H3. lia.
  - intros [H1 H2]. exists a. split; [apply in_seq; lia|]. apply in_map_iff. exists b. split; [reflexivity|]. apply in_seq. lia.
Qed.

(* ---- the semaphore ---- *)
Definition running (g : GState) : nat := match g with Running => 1 | _ => 0 end.
Definition gweight (g : GState) : nat := match g with Waiting => 2 | Running => 1 | Finished => 0 end.
Definition s_measure (n : nat) (s : SState) : nat := (3 * (n - s_spawned s) + sum_nat gweight (s_groups s))%nat.
Section sem.
  Context (inMain : bool) (fails : nat -> bool) (n cap : nat).
  Record s_inv (s : SState) : Prop := {
    si_len : length (s_groups s) = s_spawned s;
    si_n : (s_spawned s <= n)%nat;
    si_sem : s_sem s = sum_nat running (s_groups s);
    si_cap : (s_sem s <= cap)%nat;
    si_nodup : NoDup (s_errs s);
    si_errs : forall i, In i (s_errs s) <-> nth_error (s_groups s) i = Some Finished /\ fails i = true }.
  Lemma sum_app {A} (f : A -> nat) a b : sum_nat f (a ++ b) = (sum_nat f a + sum_nat f b)%nat.
  Proof. unfold sum_nat. induction a as [|x a IH]; cbn; [reflexivity|]. rewrite IH. lia. Qed.
  Lemma nth_error_snoc {A} (l : list A) x i : nth_error (l ++ [x]) i = if (i =? length l)%nat then Some x else nth_error l i.
  Proof.
    destruct (Nat.eqb_spec i (length l)) as [->|E].
    - rewrite nth_error_app2, Nat.sub_diag by lia. reflexivity.
    - destruct (Nat.lt_ge_cases i (length l)); [apply nth_error_app1; lia|].
      rewrite nth_error_app2 by lia. destruct (i - length l)%nat as [|k] eqn:K; [lia|]. cbn. rewrite nth_error_nil || destruct k; symmetry; apply nth_error_None; lia.
  Qed.
  (* errors sent so far are fewer than n while a failing group is running *)
  Lemma errs_room s i : s_inv s -> nth_error (s_groups s) i = Some Running -> fails i = true -> (length (s_errs s) < n)%nat.
  Proof.
    intros [I1 I2 I3 I4 I5 I6] Hi Hf.
    assert (NoDup (i :: s_errs s)) by (constructor; [rewrite I6; intros [H _]; congruence|exact I5]).
    assert (incl (i :: s_errs s) (seq 0 n)).
    { intros j [<-|Hj]; apply in_seq; split; try lia.
      - assert (i < length (s_groups s))%nat by (apply nth_error_Some; congruence). lia.
      - apply I6 in Hj as [Hj _]. assert (j < length (s_groups s))%nat by (apply nth_error_Some; congruence). lia. }
    pose proof (NoDup_incl_length H H0) as L. rewrite seq_length in L. cbn in L. lia.
  Qed.
  Lemma s_step_inv s t : s_inv s -> sstep inMain fails n cap s t -> s_inv t.
  Proof.
    intros HI E. pose proof HI as [I1 I2 I3 I4 I5 I6].
    inversion E as [k gs m es Hm Hk Hc|k gs m es Hm Hk|i k gs m es Hi Hc|i k gs m es Hi Hf|i k gs m es Hi Hf Hl]; subst;
      cbn [s_spawned s_groups s_sem s_errs] in *.
    - constructor; cbn [s_spawned s_groups s_sem s_errs]; try assumption; try lia.
      + rewrite app_length. cbn. lia.
      + rewrite sum_app. cbn. lia.
      + intros i. rewrite I6, nth_error_snoc. destruct (Nat.eqb_spec i (length gs)) as [->|]; [|tauto]. rewrite (proj2 (nth_error_None gs (length gs))) by lia. split; intros [H _]; discriminate.
    - constructor; cbn [s_spawned s_groups s_sem s_errs]; try assumption; try lia.
      + rewrite app_length. cbn. lia.
      + rewrite sum_app. cbn. lia.
      + intros i. rewrite I6, nth_error_snoc. destruct (Nat.eqb_spec i (length gs)) as [->|]; [|tauto]. rewrite (proj2 (nth_error_None gs (length gs))) by lia. split; intros [H _]; discriminate.
    - pose proof (sum_set running gs i Waiting Running Hi) as S. cbn [running] in S.
      assert (Hi' : (i < length gs)%nat) by (apply nth_error_Some; congruence).
      constructor; cbn [s_spawned s_groups s_sem s_errs]; try assumption; try lia; [rewrite list_set_length; lia|].
      intros j. rewrite I6, nth_error_set by assumption. destruct (Nat.eqb_spec j i) as [->|]; [|tauto]. rewrite Hi. split; intros [H _]; discriminate.
    - pose proof (sum_set running gs i Running Finished Hi) as S. cbn [running] in S.
      assert (Hi' : (i < length gs)%nat) by (apply nth_error_Some; congruence).
      constructor; cbn [s_spawned s_groups s_sem s_errs]; try assumption; try lia; [rewrite list_set_length; lia|].
      intros j. rewrite I6, nth_error_set by assumption. destruct (Nat.eqb_spec j i) as [->|]; [|tauto]. rewrite Hi, Hf. split; intros [_ H]; discriminate.
    - pose proof (sum_set running gs i Running Finished Hi) as S. cbn [running] in S.
      assert (Hi' : (i < length gs)%nat) by (apply nth_error_Some; congruence).
      constructor; cbn [s_spawned s_groups s_sem s_errs]; try assumption; try lia; [rewrite list_set_length; lia| |].
      + apply (Permutation_NoDup (Permutation_cons_append es i)). constructor; [|assumption]. rewrite I6, Hi. intros [H _]. discriminate.
      + intros j. rewrite in_app_iff, I6, nth_error_set by assumption. cbn [In]. destruct (Nat.eqb_spec j i) as [->|Hj].
        * rewrite Hf. split; [intros _; auto|intros _; right; left; reflexivity].
        * split; [intros [H|[H|[]]]; [exact H|congruence]|tauto].
  Qed.
  Lemma s_step_measure s t : s_inv s -> sstep inMain fails n cap s t -> (s_measure n t < s_measure n s)%nat.
  Proof.
    intros HI E. unfold s_measure.
    inversion E as [k gs m es Hm Hk Hc|k gs m es Hm Hk|i k gs m es Hi Hc|i k gs m es Hi Hf|i k gs m es Hi Hf Hl]; subst; cbn [s_spawned s_groups];
      rewrite ?sum_app; try (cbn; lia);
      match goal with |- context [list_set gs i ?b] => pose proof (sum_set gweight gs i _ b Hi) as P end; cbn [gweight] in P; lia.
  Qed.
  Lemma s_init_inv : s_inv s_init.
  Proof.
    constructor; cbn; try lia; [constructor|]. intros i. destruct i; cbn; split; try tauto; intros [H _]; discriminate.
  Qed.
  Lemma has_state gs : sum_nat running gs = 0%nat -> Forall (fun g => g = Finished) gs \/ exists i, nth_error gs i = Some Waiting.
  Proof.
    induction gs as [|g gs IH]; [auto|]. unfold sum_nat in *. cbn [fold_right]. intros H. destruct g; [right; exists 0%nat; reflexivity|cbn in H; lia|].
    destruct IH as [IH|(i & Hi)]; [exact H|left; constructor; auto|right; exists (S i); exact Hi].
  Qed.
  Lemma has_running gs : (0 < sum_nat running gs)%nat -> exists i, nth_error gs i = Some Running.
  Proof.
    unfold sum_nat. induction gs as [|g gs IH]; cbn; [lia|]. destruct g; cbn; intros H; [|exists 0%nat; reflexivity|]; destruct (IH H) as (i & Hi); exists (S i); exact Hi.
  Qed.
  Lemma s_progress s : (1 <= cap)%nat -> s_inv s -> ~ s_done n s -> exists t, sstep inMain fails n cap s t.
  Proof.
    intros Hc HI Hd. pose proof HI as [I1 I2 I3 I4 I5 I6]. destruct s as [k gs m es]. cbn [s_spawned s_groups s_sem s_errs] in *.
    destruct (Nat.eq_dec (sum_nat running gs) 0) as [Z|NZ].
    - destruct (has_state gs Z) as [F|(i & Hi)].
      + assert (k < n)%nat by (destruct (Nat.eq_dec k n); [exfalso; apply Hd; split; assumption|lia]).
        destruct inMain eqn:M; eexists; [apply s_spawn_main; auto; lia|apply s_spawn; auto].
      + eexists. eapply s_acquire; [exact Hi|lia].
    - destruct (has_running gs ltac:(lia)) as (i & Hi). destruct (fails i) eqn:F; eexists; [|eapply s_ok; eassumption].
      eapply s_err; [exact Hi|exact F|]. exact (errs_room (mkS k gs m es) i HI Hi F).
  Qed.
  Lemma s_final s : s_inv s -> s_done n s -> (s_result s = Err <-> exists i, (i < n)%nat /\ fails i = true) /\ (s_result s = Ok tt \/ s_result s = Err).
  Proof.
    intros [I1 I2 I3 I4 I5 I6] [D1 D2]. unfold s_result. split; [|destruct (s_errs s); auto].
    assert (G : forall i, In i (s_errs s) <-> (i < n)%nat /\ fails i = true).
    { intros i. rewrite I6. split; intros [H Hf]; (split; [|exact Hf]).
      - assert (i < length (s_groups s))%nat by (apply nth_error_Some; congruence). lia.
      - destruct (nth_error (s_groups s) i) as [g|] eqn:E; [|apply nth_error_None in E; lia]. f_equal. rewrite Forall_forall in D2. apply D2. exact (nth_error_In _ _ E). }
    destruct (s_errs s) as [|e es] eqn:E.
    - split; [discriminate|]. intros (i & H). apply G in H. destruct H.
    - split; [|reflexivity]. intros _. exists e. apply G. left. reflexivity.
  Qed.
End sem.

(* ---- decodePassGroupsConcurrent ---- *)
Lemma allOk_cases {A} (f : A -> Outcome unit) l : (allOk f l = Ok tt /\ Forall (fun a => f a = Ok tt) l) \/
  exists a pre post, l = pre ++ a :: post /\ Forall (fun a => f a = Ok tt) pre /\ f a <> Ok tt /\ allOk f l = f a.
Proof.
  induction l as [|a l IH]; [left; split; [reflexivity|constructor]|]. unfold allOk in *. cbn [fold_right]. destruct (f a) as [[]| |] eqn:E; cbn [obind].
  - destruct IH as [[H1 H2]|(b & pre & post & -> & H1 & H2 & H3)].
    + left. split; [exact H1|]. constructor; assumption.
    + right. exists b, (a :: pre), post. split; [reflexivity|]. split; [constructor; assumption|]. split; [exact H2|exact H3].
  - right. exists a, [], l. rewrite E. repeat split; [constructor|discriminate].
  - right. exists a, [], l. rewrite E. repeat split; [constructor|discriminate].
Qed.
Lemma allOk_not_err {A} (f : A -> Outcome unit) l : (forall a, In a l -> f a <> Err) -> allOk f l <> Err.
Proof.
  intros H. destruct (allOk_cases f l) as [[-> _]|(a & pre & post & -> & _ & _ & ->)]; [discriminate|]. apply H. apply in_app_iff. right. left. reflexivity.
Qed.
Lemma allOk_all {A} (f : A -> Outcome unit) l : (forall a, In a l -> f a = Ok tt) -> allOk f l = Ok tt.
Proof.
  intros H. destruct (allOk_cases f l) as [[-> _]|(a & pre & post & -> & _ & N & _)]; [reflexivity|]. exfalso. apply N, H, in_app_iff. right. left. reflexivity.
Qed.
Lemma copyReplaced_not_err np ng replaced proc : copyReplaced np ng replaced proc <> Err.
Proof.
  unfold copyReplaced. apply allOk_not_err. intros p _. apply allOk_not_err. intros c _. apply allOk_not_err. intros g _. unfold nilUse. destruct (proc p g); discriminate.
Qed.
Lemma modular_never_err np ng replaced proc inverse : decodePassGroups false np ng replaced proc inverse <> Err.
Proof.
  unfold decodePassGroups. destruct (anyPanic _); [discriminate|]. pose proof (copyReplaced_not_err np ng replaced proc) as H.
  destruct (copyReplaced np ng replaced proc); cbn; [discriminate|congruence|discriminate].
Qed.
Lemma no_panic l : (forall o, In o l -> o <> Panic) -> anyPanic l = false.
Proof. intros H. unfold anyPanic. destruct (existsb _ l) eqn:E; [|reflexivity]. apply existsb_exists in E as (o & Ho & Eo). specialize (H o Ho). destruct o; congruence. Qed.
Lemma some_err l : In Err l -> anyErr l = true.
Proof. intros H. unfold anyErr. apply existsb_exists. exists Err. auto. Qed.

(* all groups decoded: the inverse transforms of a single pass decide *)
Lemma one_pass_result ng replaced proc inverse : (forall g, (g < ng)%nat -> proc 0%nat g = Ok tt) -> (forall g, (g < ng)%nat -> inverse 0%nat g <> Panic) ->
  decodePassGroups true 1 ng replaced proc inverse = (if existsb (fun g => match inverse 0%nat g with Err => true | _ => false end) (seq 0 ng) then Err else Ok tt).
Proof.
  intros HP HI. unfold decodePassGroups. rewrite no_panic.
  2: { intros o H. apply in_map_iff in H as ([p g] & <- & H). apply in_items in H as [H1 H2]. assert (p = 0%nat) by lia. subst. cbn [fst snd]. rewrite HP by lia. discriminate. }
  replace (copyReplaced 1 ng replaced proc) with (Ok tt).
  2: { symmetry. unfold copyReplaced. apply allOk_all. intros p Hp. apply allOk_all. intros c _. apply allOk_all. intros g Hg. apply in_seq in Hp, Hg. unfold nilUse.
       assert (p = 0%nat) by lia. subst. rewrite HP by lia. reflexivity. }
  cbn [obind seq]. unfold allOk. cbn [fold_right]. unfold invertPass.
  assert (E : forall g, In g (seq 0 ng) -> invertOne proc inverse 0 g = inverse 0%nat g).
  { intros g Hg. apply in_seq in Hg. unfold invertOne. rewrite HP by lia. reflexivity. }
  rewrite (map_ext_in _ _ _ E). rewrite no_panic by (intros o H; apply in_map_iff in H as (g & <- & H); apply in_seq in H; apply HI; lia).
  unfold anyErr. assert (X : forall l, existsb (fun o : Outcome unit => match o with Err => true | _ => false end) (map (inverse 0%nat) l) = existsb (fun g => match inverse 0%nat g with Err => true | _ => false end) l).
  { induction l as [|g l IHl]; [reflexivity|]. cbn. rewrite IHl. reflexivity. }
  rewrite X. destruct (existsb _ _); reflexivity.
Qed.
(* a failed group of the first pass of a VarDCT frame *)
Lemma vardct_failed np ng replaced proc inverse g : (1 <= np)%nat -> (g < ng)%nat -> proc 0%nat g <> Ok tt -> decodePassGroups true np ng replaced proc inverse = Panic.
Proof.
  intros Hn Hg HP. unfold decodePassGroups. destruct (anyPanic _); [reflexivity|].
  pose proof (copyReplaced_not_err np ng replaced proc) as HE. destruct (copyReplaced np ng replaced proc) as [u| |]; [|congruence|reflexivity]. cbn [obind].
  destruct np as [|np]; [lia|]. cbn [seq]. unfold allOk. cbn [fold_right]. unfold invertPass.
  replace (anyPanic (map (invertOne proc inverse 0) (seq 0 ng))) with true; [reflexivity|]. symmetry. unfold anyPanic. apply existsb_exists. exists Panic. split; [|reflexivity].
  apply in_map_iff. exists g. split; [|apply in_seq; lia]. unfold invertOne. destruct (proc 0%nat g) as [[]| |]; [congruence|reflexivity|reflexivity].
Qed.
(* two passes *)
Lemma two_passes np ng replaced proc inverse : (2 <= np)%nat -> (1 <= ng)%nat -> (forall p g, proc p g = Ok tt) -> (forall p g, inverse p g = Ok tt) ->
  decodePassGroups true np ng replaced proc inverse = Panic.
Proof.
  intros Hn Hg HP HI. unfold decodePassGroups. destruct (anyPanic _); [reflexivity|].
  pose proof (copyReplaced_not_err np ng replaced proc) as HE. destruct (copyReplaced np ng replaced proc) as [u| |]; [|congruence|reflexivity]. cbn [obind].
  destruct np as [|[|np]]; [lia|lia|]. cbn [seq]. unfold allOk. cbn [fold_right].
  assert (E0 : invertPass ng proc inverse 0 = Ok tt).
  { unfold invertPass. assert (E : map (invertOne proc inverse 0) (seq 0 ng) = map (fun _ => Ok tt) (seq 0 ng)) by (apply map_ext; intros g; unfold invertOne; rewrite HP; apply HI).
    rewrite E. rewrite no_panic by (intros o H; apply in_map_iff in H as (? & <- & _); discriminate).
    destruct (anyErr _) eqn:X; [|reflexivity]. unfold anyErr in X. apply existsb_exists in X as (o & Ho & Eo). apply in_map_iff in Ho as (? & <- & _). discriminate. }
  rewrite E0. cbn [obind]. unfold invertPass.
  replace (anyPanic (map (invertOne proc inverse 1) (seq 0 ng))) with true; [reflexivity|]. symmetry. unfold anyPanic. apply existsb_exists. exists Panic. split; [|reflexivity].
  apply in_map_iff. exists 0%nat. split; [|apply in_seq; lia]. unfold invertOne. rewrite HP. reflexivity.
Qed.
