(* Independent specifications for the util helpers. *)
From Coq Require Import ZArith List Bool.
From Verif Require Import ModelUtil.
Import ListNotations.
Open Scope Z_scope.

(* q is the ceiling of n/d. *)
Definition is_ceil_div (n d q : Z) : Prop := (q - 1) * d < n <= q * d.
(* k is the ceiling / floor of the base-2 logarithm of x >= 1. *)
Definition is_ceil_log2 (x k : Z) : Prop := 0 <= k /\ x <= 2 ^ k /\ (k = 0 \/ 2 ^ (k - 1) < x).
Definition is_floor_log2 (x k : Z) : Prop := 0 <= k /\ 2 ^ k <= x < 2 ^ (k + 1).

Definition int32 (z : Z) : Prop := - 2 ^ 31 <= z < 2 ^ 31.
Definition uint32 (z : Z) : Prop := 0 <= z < 2 ^ 32.

(* r is the position coordinate c reflects to in an interval of n samples
   extended by reflection including the edge sample. *)
Definition is_mirror (n c r : Z) : Prop :=
  0 <= r < n /\ exists k, c = r + 2 * n * k \/ c = 2 * n * k - 1 - r.

(* Reference double-ended queue. *)
Inductive dq_op (A : Type) := PushFront (a : A) | PushBack (a : A) | PopFront | PopBack | TestEmpty.
Arguments PushFront {A}. Arguments PushBack {A}. Arguments PopFront {A}. Arguments PopBack {A}. Arguments TestEmpty {A}.
Inductive dq_out (A : Type) := ONone | OPop (r : option A) | OEmpty (b : bool).
Arguments ONone {A}. Arguments OPop {A}. Arguments OEmpty {A}.

Definition dq_spec {A} (l : list A) (o : dq_op A) : list A * dq_out A :=
  match o with
  | PushFront a => (a :: l, ONone)
  | PushBack a => (l ++ [a], ONone)
  | PopFront => match l with [] => ([], OPop None) | x :: t => (t, OPop (Some x)) end
  | PopBack => match rev l with [] => ([], OPop None) | x :: t => (rev t, OPop (Some x)) end
  | TestEmpty => (l, OEmpty (match l with [] => true | _ => false end))
  end.
Fixpoint dq_spec_run {A} (l : list A) (os : list (dq_op A)) : list (dq_out A) :=
  match os with [] => [] | o :: t => let '(l', r) := dq_spec l o in r :: dq_spec_run l' t end.

(* Driver: the repository's deque on the same operations.  pads supplies the
   spare capacity of every reallocation, which must not matter. *)
Definition dq_step {A} (pads : nat -> list A) (n : nat) (dq : GoSlice A) (o : dq_op A) : GoSlice A * dq_out A :=
  match o with
  | PushFront a => (AddFirst (pads n) (pads (S n)) dq a, ONone)
  | PushBack a => (AddLast (pads n) dq a, ONone)
  | PopFront => let '(r, dq') := RemoveFirst dq in (dq', OPop r)
  | PopBack => let '(r, dq') := RemoveLast dq in (dq', OPop r)
  | TestEmpty => (dq, OEmpty (IsEmpty dq))
  end.
Fixpoint dq_run {A} (pads : nat -> list A) (n : nat) (dq : GoSlice A) (os : list (dq_op A)) : list (dq_out A) :=
  match os with
  | [] => []
  | o :: t => let '(dq', r) := dq_step pads n dq o in r :: dq_run pads (S (S n)) dq' t
  end.
