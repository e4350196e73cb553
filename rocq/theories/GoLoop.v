(* Counted Go loops over a state, with outcomes, and list lemmas used by the
   array models. *)
From Coq Require Import ZArith List Bool Lia Arith ZifyBool ZifyNat.
From Verif Require Import GoBase.
Import ListNotations.
Open Scope Z_scope.

(* for i := i0; i < i0+n; i++ { s = f(i, s) } *)
Fixpoint oloop {S} (n i0 : nat) (f : nat -> S -> Outcome S) (s : S) : Outcome S :=
  match n with
  | O => Ok s
  | Datatypes.S n' => obind (f i0 s) (oloop n' (Datatypes.S i0) f)
  end.

Lemma oloop_inv {S} (P : nat -> S -> Prop) f : forall n i0 s,
  P i0 s -> (forall i s, (i0 <= i < i0 + n)%nat -> P i s -> exists s', f i s = Ok s' /\ P (Datatypes.S i) s') ->
  exists s', oloop n i0 f s = Ok s' /\ P (i0 + n)%nat s'.
Proof.
  induction n as [|n IH]; intros i0 s H0 Hs.
  - exists s. split; auto. now rewrite Nat.add_0_r.
  - destruct (Hs i0 s ltac:(lia) H0) as (s1 & E1 & H1). cbn [oloop]. rewrite E1. cbn [obind].
    destruct (IH (Datatypes.S i0) s1 H1) as (s2 & E2 & H2).
    + intros i t Hi. apply Hs. lia.
    + exists s2. split; auto. now replace (i0 + Datatypes.S n)%nat with (Datatypes.S i0 + n)%nat by lia.
Qed.

(* Weaker rule: errors allowed, panics excluded. *)
Lemma oloop_safe {S} (P : nat -> S -> Prop) f : forall n i0 s,
  P i0 s -> (forall i s, (i0 <= i < i0 + n)%nat -> P i s ->
     match f i s with Ok s' => P (Datatypes.S i) s' | Err => True | Panic => False end) ->
  match oloop n i0 f s with Ok s' => P (i0 + n)%nat s' | Err => True | Panic => False end.
Proof.
  induction n as [|n IH]; intros i0 s H0 Hs.
  - cbn. now rewrite Nat.add_0_r.
  - cbn [oloop]. specialize (Hs i0 s ltac:(lia) H0) as H1. destruct (f i0 s) as [s1| |]; cbn [obind]; auto.
    specialize (IH (Datatypes.S i0) s1 H1).
    replace (i0 + Datatypes.S n)%nat with (Datatypes.S i0 + n)%nat by lia. apply IH.
    intros i t Hi. apply Hs. lia.
Qed.

Lemma oloop_split {S} (f : nat -> S -> Outcome S) : forall a b i0 s,
  oloop (a + b) i0 f s = obind (oloop a i0 f s) (oloop b (i0 + a) f).
Proof.
  induction a as [|a IH]; intros b i0 s.
  - cbn. now rewrite Nat.add_0_r.
  - cbn [oloop Nat.add]. destruct (f i0 s); cbn [obind]; auto. rewrite IH.
    now replace (Datatypes.S i0 + a)%nat with (i0 + Datatypes.S a)%nat by lia.
Qed.

Lemma oloop_ext {S} (f g : nat -> S -> Outcome S) : forall n i0 s,
  (forall i s, (i0 <= i < i0 + n)%nat -> f i s = g i s) -> oloop n i0 f s = oloop n i0 g s.
Proof.
  induction n as [|n IH]; intros i0 s H; auto. cbn [oloop]. rewrite H by lia.
  destruct (g i0 s); cbn [obind]; auto. apply IH. intros; apply H; lia.
Qed.

(* ---- list_set / slice accessors ---- *)
Lemma list_set_length {A} (l : list A) n v : length (list_set l n v) = length l.
Proof. revert n. induction l; intros [|n]; cbn; auto. Qed.
Lemma nth_list_set_eq {A} (l : list A) n v d : (n < length l)%nat -> nth n (list_set l n v) d = v.
Proof. revert n. induction l; intros [|n] H; cbn in *; try lia; auto. apply IHl. lia. Qed.
Lemma nth_list_set_neq {A} (l : list A) n m v d : n <> m -> nth m (list_set l n v) d = nth m l d.
Proof. revert n m. induction l; intros [|n] [|m] H; cbn; auto; try lia. Qed.
Lemma nth_list_set {A} (l : list A) n m v d : (n < length l)%nat ->
  nth m (list_set l n v) d = if (m =? n)%nat then v else nth m l d.
Proof.
  intros H. destruct (Nat.eqb_spec m n) as [->|E]; [now apply nth_list_set_eq|apply nth_list_set_neq; lia].
Qed.
Lemma slice_set_ok {A} (l : list A) i v : 0 <= i < Z.of_nat (length l) -> slice_set l i v = Ok (list_set l (Z.to_nat i) v).
Proof. intros H. unfold slice_set. destruct (Z.ltb_spec i 0); [lia|]. destruct (Z.leb_spec (Z.of_nat (length l)) i); [lia|]. reflexivity. Qed.
Lemma slice_get_ok {A} (l : list A) i d : 0 <= i < Z.of_nat (length l) -> slice_get l i = Ok (nth (Z.to_nat i) l d).
Proof.
  intros H. unfold slice_get. destruct (Z.ltb_spec i 0); [lia|].
  rewrite (nth_error_nth' l d) by lia. reflexivity.
Qed.
Lemma slice_get_panic {A} (l : list A) i : i < 0 \/ Z.of_nat (length l) <= i -> slice_get l i = Panic.
Proof.
  intros H. unfold slice_get. destruct (Z.ltb_spec i 0); [reflexivity|].
  assert (E : nth_error l (Z.to_nat i) = None) by (apply nth_error_None; lia). now rewrite E.
Qed.
Lemma slice_set_panic {A} (l : list A) i v : i < 0 \/ Z.of_nat (length l) <= i -> slice_set l i v = Panic.
Proof. intros H. unfold slice_set. destruct (Z.ltb_spec i 0); [reflexivity|]. destruct (Z.leb_spec (Z.of_nat (length l)) i); [reflexivity|lia]. Qed.
Lemma nth_ext_len {A} (a b : list A) d : length a = length b -> (forall n, (n < length a)%nat -> nth n a d = nth n b d) -> a = b.
Proof. intros H1 H2. apply (nth_ext a b d d); auto. Qed.

(* list built from a function *)
Definition tab {A} (n : nat) (f : nat -> A) : list A := map f (seq 0 n).
Lemma tab_length {A} n (f : nat -> A) : length (tab n f) = n.
Proof. unfold tab. now rewrite map_length, seq_length. Qed.
Lemma nth_tab {A} n (f : nat -> A) i d : (i < n)%nat -> nth i (tab n f) d = f i.
Proof.
  intros H. unfold tab. rewrite (nth_indep _ d (f 0%nat)) by (rewrite map_length, seq_length; lia).
  rewrite map_nth, seq_nth by lia. reflexivity.
Qed.
Lemma tab_ext {A} n (f g : nat -> A) : (forall i, (i < n)%nat -> f i = g i) -> tab n f = tab n g.
Proof. intros H. unfold tab. apply map_ext_in. intros i Hi. apply in_seq in Hi. apply H. lia. Qed.
