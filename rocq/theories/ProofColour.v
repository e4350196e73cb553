(* Lemmas about the matrix functions. *)
From Coq Require Import ZArith List Bool Lia Arith Reals Lra Psatz.
From Verif Require Import GoBase GoLoop GoMatrix ModelDCT SpecDCT ProofDCTMath ProofDCT ModelColour SpecColour.
Import ListNotations.
Open Scope R_scope.

Lemma rrect_row h w m y : rrect h w m -> (y < h)%nat -> length (nth y m []) = w.
Proof. intros [H1 H2] Hy. rewrite Forall_forall in H2. apply H2, nth_In. lia. Qed.
Lemma rrect_get h w m y x z t : rrect h w m -> (y < h)%nat -> (x < w)%nat -> z = Z.of_nat y -> t = Z.of_nat x -> rget2 m z t = Ok (pixel m y x).
Proof. intros H Hy Hx -> ->. apply rget2_ok; [destruct H; lia|]. rewrite (rrect_row h w) by assumption. lia. Qed.
Lemma rrect_repeat h w : rrect h w (repeat (repeat 0 w) h).
Proof. split; [apply repeat_length|]. apply Forall_forall. intros r Hr. apply repeat_spec in Hr as ->. apply repeat_length. Qed.
Lemma get_nth {A} (l : list A) i d z : (i < length l)%nat -> z = Z.of_nat i -> slice_get l z = Ok (nth i l d).
Proof. intros H ->. rewrite (slice_get_ok l _ d) by lia. now rewrite Nat2Z.id. Qed.

Lemma nth_rep {A} (a : A) n i d : (i < n)%nat -> nth i (repeat a n) d = a.
Proof. revert i. induction n as [|n IH]; intros [|i] H; cbn; try lia; auto. apply IH. lia. Qed.

(* ---- products ---- *)
Lemma mul_row a row res p : length row = p -> length res = p ->
  exists res', oloop p 0 (fun j r => obind (slice_get r (Z.of_nat j)) (fun x => obind (slice_get row (Z.of_nat j)) (fun b => slice_set r (Z.of_nat j) (x + a * b)))) res = Ok res' /\
    length res' = p /\ forall j, (j < p)%nat -> nth j res' 0 = nth j res 0 + a * nth j row 0.
Proof.
  intros L1 L2.
  destruct (oloop_inv (fun k r => length r = p /\ forall j, (j < p)%nat -> nth j r 0 = if (j <? k)%nat then nth j res 0 + a * nth j row 0 else nth j res 0)
    (fun j r => obind (slice_get r (Z.of_nat j)) (fun x => obind (slice_get row (Z.of_nat j)) (fun b => slice_set r (Z.of_nat j) (x + a * b)))) p 0 res) as (r & E & L & H).
  - split; [exact L2|]. intros j Hj. reflexivity.
  - intros i r Hi [Lr Hr]. rewrite (get_nth r i 0) by (auto; lia). cbn [obind]. rewrite (get_nth row i 0) by (auto; lia). cbn [obind].
    rewrite slice_set_ok by lia. rewrite Nat2Z.id. eexists. split; [reflexivity|]. split; [rewrite list_set_length; exact Lr|].
    intros j Hj. rewrite nth_list_set by lia. rewrite !Hr by lia. destruct (Nat.eqb_spec j i) as [->|].
    + replace (i <? i)%nat with false by (symmetry; apply Nat.ltb_irrefl). replace (i <? S i)%nat with true by (symmetry; apply Nat.ltb_lt; lia). reflexivity.
    + destruct (Nat.ltb_spec j i), (Nat.ltb_spec j (S i)); try lia; reflexivity.
  - exists r. split; [exact E|]. split; [exact L|]. intros j Hj. rewrite H by lia. replace (j <? 0 + p)%nat with true by (symmetry; apply Nat.ltb_lt; lia). reflexivity.
Qed.
Lemma mul_ok n m p A B : (0 < n)%nat -> (0 < m)%nat -> rrect n m A -> rrect m p B ->
  exists C, MatrixMatrixMultiply A B = Ok C /\ rrect n p C /\ forall i j, (i < n)%nat -> (j < p)%nat -> pixel C i j = prod m (pixel A) (pixel B) i j.
Proof.
  intros Hn Hm HA HB. unfold MatrixMatrixMultiply. pose proof (proj1 HA) as LA. pose proof (proj1 HB) as LB.
  replace (is_nil A) with false by (destruct A; [cbn in LA; lia|reflexivity]).
  replace (is_nil B) with false by (destruct B; [cbn in LB; lia|reflexivity]).
  rewrite (get_nth A 0 []) by (auto; lia). cbn [obind]. rewrite (rrect_row n m A) by (auto; lia). rewrite LB, Nat.eqb_refl. cbn [negb].
  rewrite (get_nth B 0 []) by (auto; lia). cbn [obind]. rewrite (rrect_row m p B) by (auto; lia). rewrite LA.
  match goal with |- exists zz, oloop _ _ ?F ?D = _ /\ _ =>
    destruct (oloop_inv (fun k (C : list (list R)) => rrect n p C /\ (forall i j, (k <= i < n)%nat -> (j < p)%nat -> pixel C i j = 0) /\
      forall i j, (i < k)%nat -> (j < p)%nat -> pixel C i j = prod m (pixel A) (pixel B) i j) F n 0%nat D) as (C & E & RC & _ & HC) end.
  - split; [apply rrect_repeat|]. split; [|intros; lia]. intros i j Hi Hj. unfold pixel. rewrite nth_rep by lia. apply nth_repeat.
  - intros i C Hi (RC & H0 & HC). pose proof (proj1 RC) as LC. rewrite (get_nth C i []) by (auto; lia). cbn [obind]. rewrite (get_nth A i []) by (auto; lia). cbn [obind].
    match goal with |- exists zz, obind (oloop _ _ ?F ?D) _ = _ /\ _ =>
      destruct (oloop_inv (fun k r => length r = p /\ forall j, (j < p)%nat -> nth j r 0 = sum k (fun q => pixel A i q * pixel B q j)) F m 0%nat D) as (r & Er & Lr & Hr) end.
    + split; [rewrite (rrect_row n p) by (auto; lia); reflexivity|]. intros j Hj. cbn [sum]. apply (H0 i j); lia.
    + intros k r Hk [Lr Hr]. rewrite (get_nth (nth i A []) k 0) by (auto; rewrite (rrect_row n m) by (auto; lia); lia). cbn [obind].
      rewrite (get_nth B k []) by (auto; lia). cbn [obind]. rewrite (rrect_row m p B) by (auto; lia).
      destruct (mul_row (nth k (nth i A []) 0) (nth k B []) r p) as (r' & E' & L' & H'); [rewrite (rrect_row m p B) by (auto; lia); reflexivity|exact Lr|].
      exists r'. split; [exact E'|]. split; [exact L'|]. intros j Hj. rewrite H', Hr by lia. reflexivity.
    + rewrite Er. cbn [obind]. rewrite slice_set_ok by lia. rewrite Nat2Z.id. eexists. split; [reflexivity|].
      assert (RC' : rrect n p (list_set C i r)).
      { split; [rewrite list_set_length; exact LC|]. apply Forall_forall. intros q Hq. apply list_set_In in Hq as [->|Hq]; [exact Lr|]. destruct RC as [_ F]. rewrite Forall_forall in F. auto. }
      split; [exact RC'|]. split.
      * intros i' j Hi' Hj. unfold pixel. rewrite nth_list_set_neq by lia. apply H0; lia.
      * intros i' j Hi' Hj. unfold pixel at 1. rewrite nth_list_set by lia. destruct (Nat.eqb_spec i' i) as [->|]; [apply Hr; lia|]. apply HC; lia.
  - exists C. split; [exact E|]. split; [exact RC|]. intros i j Hi Hj. apply HC; lia.
Qed.

Lemma mulvec_ok n m A v : (0 < n)%nat -> (0 < m)%nat -> rrect n m A -> length v = m ->
  exists r, MatrixVectorMultiply A v = Ok r /\ length r = n /\ forall i, (i < n)%nat -> nth i r 0 = app m (pixel A) (fun k => nth k v 0) i.
Proof.
  intros Hn Hm HA Lv. unfold MatrixVectorMultiply. pose proof (proj1 HA) as LA.
  replace (is_nil A) with false by (destruct A; [cbn in LA; lia|reflexivity]).
  replace (is_nil v) with false by (destruct v; [cbn in Lv; lia|reflexivity]).
  rewrite (get_nth A 0 []) by (auto; lia). cbn [obind]. rewrite (rrect_row n m A) by (auto; lia). rewrite Lv, Nat.ltb_irrefl, Nat.sub_diag. cbn [orb].
  rewrite LA, Nat.add_0_r.
  match goal with |- exists zz, obind (oloop _ _ ?F ?D) _ = _ /\ _ =>
    destruct (oloop_inv (fun k (t : list R) => length t = n /\ (forall i, (k <= i < n)%nat -> nth i t 0 = 0) /\
      forall i, (i < k)%nat -> nth i t 0 = app m (pixel A) (fun k => nth k v 0) i) F n 0%nat D) as (t & E & Lt & _ & Ht) end.
  - split; [apply repeat_length|]. split; [|intros; lia]. intros. apply nth_repeat.
  - intros i t Hi (Lt & H0 & Ht). rewrite (get_nth A i []) by (auto; lia). cbn [obind]. rewrite (rrect_row n m A) by (auto; lia).
    match goal with |- exists zz, oloop _ _ ?F ?D = _ /\ _ =>
      destruct (oloop_inv (fun k r => length r = n /\ (forall j, j <> i -> nth j r 0 = nth j t 0) /\ nth i r 0 = sum k (fun q => pixel A i q * nth q v 0)) F m 0%nat D) as (r & Er & Lr & Hne & Hr) end.
    + split; [exact Lt|]. split; [reflexivity|]. cbn [sum]. apply H0. lia.
    + intros k r Hk (Lr & Hne & Hr). rewrite (get_nth r i 0) by (auto; lia). cbn [obind].
      rewrite (get_nth (nth i A []) k 0) by (auto; rewrite (rrect_row n m) by (auto; lia); lia). cbn [obind]. rewrite (get_nth v k 0) by (auto; lia). cbn [obind].
      rewrite slice_set_ok by lia. rewrite Nat2Z.id. eexists. split; [reflexivity|]. split; [rewrite list_set_length; exact Lr|].
      split; [intros j Hj; rewrite nth_list_set_neq by lia; auto|]. rewrite nth_list_set_eq by lia. rewrite Hr. reflexivity.
    + exists r. split; [exact Er|]. split; [exact Lr|]. split.
      * intros j Hj. rewrite Hne by lia. apply H0. lia.
      * intros j Hj. destruct (Nat.eq_dec j i) as [->|]; [exact Hr|]. rewrite Hne by lia. apply Ht. lia.
  - rewrite E. cbn [obind]. eexists. split; [reflexivity|]. rewrite (skipn_all2 v) by lia. rewrite app_nil_r. rewrite (firstn_all2 t) by lia. split; [exact Lt|].
    intros i Hi. apply Ht. lia.
Qed.

(* ---- inversion of 3x3 matrices ---- *)
Definition det3 (M : nat -> nat -> R) : R :=
  M 0%nat 0%nat * M 1%nat 1%nat * M 2%nat 2%nat + M 0%nat 1%nat * M 1%nat 2%nat * M 2%nat 0%nat + M 0%nat 2%nat * M 1%nat 0%nat * M 2%nat 1%nat
  - M 0%nat 2%nat * M 1%nat 1%nat * M 2%nat 0%nat - M 0%nat 1%nat * M 1%nat 0%nat * M 2%nat 2%nat - M 0%nat 0%nat * M 1%nat 2%nat * M 2%nat 1%nat.
Ltac three := repeat match goal with H : (?i < 3)%nat |- _ => is_var i; destruct i as [|[|[|i]]]; [clear H|clear H|clear H|exfalso; lia] end.
Lemma det3_prod A B : det3 (prod 3 A B) = det3 A * det3 B.
Proof. unfold det3, prod. cbn [sum]. ring. Qed.
Lemma det3_ext A B : (forall i j, (i < 3)%nat -> (j < 3)%nat -> A i j = B i j) -> det3 A = det3 B.
Proof. intros H. unfold det3. rewrite !H by lia. reflexivity. Qed.
Lemma det3_delta : det3 delta = 1.
Proof. unfold det3, delta. cbn [Nat.eqb]. ring. Qed.
Lemma inverse_det A B : (forall i j, (i < 3)%nat -> (j < 3)%nat -> prod 3 A B i j = delta i j) -> det3 A <> 0.
Proof. intros H E. pose proof (det3_prod A B) as P. rewrite (det3_ext _ delta) in P by exact H. rewrite det3_delta, E in P. lra. Qed.
Lemma invert_ok M : rrect 3 3 M ->
  (det3 (pixel M) = 0 -> InvertMatrix3x3 M = Ok []) /\
  (det3 (pixel M) <> 0 -> exists N, InvertMatrix3x3 M = Ok N /\ rrect 3 3 N /\ inverse3 (pixel M) (pixel N)).
Proof.
  intros H. unfold InvertMatrix3x3. rewrite (rrect_get 3 3 M 0 0 0 0), (rrect_get 3 3 M 0 1 0 1), (rrect_get 3 3 M 0 2 0 2), (rrect_get 3 3 M 1 0 1 0), (rrect_get 3 3 M 1 1 1 1),
    (rrect_get 3 3 M 1 2 1 2), (rrect_get 3 3 M 2 0 2 0), (rrect_get 3 3 M 2 1 2 1), (rrect_get 3 3 M 2 2 2 2) by (auto; lia). cbn [obind]. cbv zeta.
  change (pixel M 0 0 * pixel M 1 1 * pixel M 2 2 + pixel M 0 1 * pixel M 1 2 * pixel M 2 0 + pixel M 0 2 * pixel M 1 0 * pixel M 2 1 -
    pixel M 0 2 * pixel M 1 1 * pixel M 2 0 - pixel M 0 1 * pixel M 1 0 * pixel M 2 2 - pixel M 0 0 * pixel M 1 2 * pixel M 2 1) with (det3 (pixel M)).
  split; intros D.
  - destruct (Req_EM_T (det3 (pixel M)) 0); [reflexivity|contradiction].
  - destruct (Req_EM_T (det3 (pixel M)) 0) as [E|_]; [contradiction|]. eexists. split; [reflexivity|]. split; [split; [reflexivity|repeat constructor]|].
    set (d := det3 (pixel M)) in *.
    assert (Ed : det3 (pixel M) = d) by reflexivity. unfold det3 in Ed. clearbody d.
    intros i j Hi Hj. three; unfold prod, delta; cbn [sum pixel nth Nat.eqb]; split; (field_simplify_eq; [|exact D]; try rewrite <- Ed; try ring).
Qed.
