(* Matrices as slices of slices: element access and assignment as in Go,
   and lemmas about them. *)
From Coq Require Import ZArith List Bool Lia Arith ZifyBool ZifyNat.
From Verif Require Import GoBase GoLoop.
Import ListNotations.
Open Scope Z_scope.

(* m[y][x] *)
Definition get2 (m : list (list Z)) (y x : Z) : Outcome Z := obind (slice_get m y) (fun r => slice_get r x).
(* m[y][x] = v *)
Definition set2 (m : list (list Z)) (y x v : Z) : Outcome (list (list Z)) :=
  obind (slice_get m y) (fun r => obind (slice_set r x v) (fun r' => slice_set m y r')).
(* util.MakeMatrix2D: h rows of w zeros *)
Definition zeros2 (h w : Z) : list (list Z) := repeat (repeat 0 (Z.to_nat w)) (Z.to_nat h).

(* Total access, for specifications *)
Definition px (m : list (list Z)) (y x : nat) : Z := nth x (nth y m []) 0.
Definition rect (h w : nat) (m : list (list Z)) : Prop := length m = h /\ Forall (fun r => length r = w) m.

Lemma rect_row h w m y : rect h w m -> (y < h)%nat -> length (nth y m []) = w.
Proof. intros [H1 H2] Hy. rewrite Forall_forall in H2. apply H2, nth_In. lia. Qed.
Lemma get2_ok h w m y x : rect h w m -> 0 <= y < Z.of_nat h -> 0 <= x < Z.of_nat w -> get2 m y x = Ok (px m (Z.to_nat y) (Z.to_nat x)).
Proof.
  intros Hr Hy Hx. unfold get2. rewrite (slice_get_ok m y []) by (destruct Hr; lia). cbn [obind].
  rewrite (slice_get_ok _ x 0); [reflexivity|]. rewrite (rect_row h w) by (assumption || lia). lia.
Qed.
Lemma rect_zeros h w : rect (Z.to_nat h) (Z.to_nat w) (zeros2 h w).
Proof. unfold rect, zeros2. split; [apply repeat_length|]. apply Forall_forall. intros r Hr. apply repeat_spec in Hr. subst. apply repeat_length. Qed.
Lemma list_set_In {A} (l : list A) n v a : In a (list_set l n v) -> a = v \/ In a l.
Proof. revert n. induction l as [|x l IH]; intros [|n] H; cbn in *; try tauto; [destruct H; auto|]. destruct H as [H|H]; [auto|]. apply IH in H. tauto. Qed.
Lemma set2_ok h w m y x v : rect h w m -> 0 <= y < Z.of_nat h -> 0 <= x < Z.of_nat w ->
  exists m', set2 m y x v = Ok m' /\ rect h w m' /\
    forall y' x', px m' y' x' = if (y' =? Z.to_nat y)%nat && (x' =? Z.to_nat x)%nat then v else px m y' x'.
Proof.
  intros Hr Hy Hx. pose proof (rect_row h w m (Z.to_nat y) Hr ltac:(lia)) as Lr. destruct Hr as [H1 H2].
  unfold set2. rewrite (slice_get_ok m y []) by lia. cbn [obind]. rewrite slice_set_ok by lia. cbn [obind].
  rewrite slice_set_ok by lia. eexists. split; [reflexivity|]. split.
  - split; [rewrite list_set_length; assumption|]. apply Forall_forall. intros r Hin. apply list_set_In in Hin as [->|Hin].
    + rewrite list_set_length. assumption.
    + rewrite Forall_forall in H2. auto.
  - intros y' x'. unfold px. rewrite nth_list_set by lia. destruct (Nat.eqb_spec y' (Z.to_nat y)) as [->|E]; cbn [andb]; [|reflexivity].
    rewrite nth_list_set by lia. reflexivity.
Qed.
Lemma rect_ext h w a b : rect h w a -> rect h w b -> (forall y x, (y < h)%nat -> (x < w)%nat -> px a y x = px b y x) -> a = b.
Proof.
  intros Ha Hb H. destruct (Ha) as [A1 A2]. destruct (Hb) as [B1 B2].
  apply (nth_ext_len a b []); [lia|]. intros y Hy. apply (nth_ext_len _ _ 0).
  - rewrite (rect_row h w a), (rect_row h w b) by (assumption || lia). reflexivity.
  - intros x Hx. rewrite (rect_row h w a) in Hx by (assumption || lia). apply H; lia.
Qed.
(* matrices from functions *)
Definition mat (h w : nat) (f : nat -> nat -> Z) : list (list Z) := tab h (fun y => tab w (f y)).
Lemma rect_mat h w f : rect h w (mat h w f).
Proof.
  split; [apply tab_length|]. apply Forall_forall. intros r Hr. unfold mat, tab in Hr. apply in_map_iff in Hr as (y & <- & _). apply tab_length.
Qed.
Lemma px_mat h w f y x : (y < h)%nat -> (x < w)%nat -> px (mat h w f) y x = f y x.
Proof. intros Hy Hx. unfold px, mat. rewrite nth_tab by lia. rewrite nth_tab by lia. reflexivity. Qed.
Lemma mat_px h w m : rect h w m -> mat h w (px m) = m.
Proof. intros H. apply (rect_ext h w); [apply rect_mat|assumption|]. intros. apply px_mat; lia. Qed.

(* Loops over all cells: for y < h { for x < w { body } } *)
Definition loop2 {S} (h w : nat) (body : nat -> nat -> S -> Outcome S) (s : S) : Outcome S :=
  oloop h 0 (fun y s => oloop w 0 (fun x s => body y x s) s) s.
Lemma loop2_inv {S} (P : nat -> nat -> S -> Prop) body h w s :
  P 0%nat 0%nat s ->
  (forall y x s, (y < h)%nat -> (x < w)%nat -> P y x s -> exists s', body y x s = Ok s' /\ P y (Datatypes.S x) s') ->
  (forall y s, (y < h)%nat -> P y w s -> P (Datatypes.S y) 0%nat s) ->
  exists s', loop2 h w body s = Ok s' /\ P h 0%nat s'.
Proof.
  intros H0 Hstep Hrow. unfold loop2. apply (oloop_inv (fun y s => P y 0%nat s)); [exact H0|].
  intros y t Hy Ht. destruct (oloop_inv (fun x s => P y x s) (fun x s => body y x s) w 0 t Ht) as (t' & E & Ht').
  - intros x u Hx Hu. apply Hstep; lia || assumption.
  - exists t'. split; [exact E|]. apply Hrow; [lia|exact Ht'].
Qed.
