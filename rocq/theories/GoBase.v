(* Go semantics shared by all model files: fixed-width integers, outcomes.  *)
From Coq Require Import ZArith List Bool.
Import ListNotations.
Open Scope Z_scope.

(* Result of running a Go function: a value, a returned error, or a
   run-time panic (index out of range, explicit panic, ...). *)
Inductive Outcome (A : Type) : Type :=
| Ok (a : A)
| Err
| Panic.
Arguments Ok {A} a.
Arguments Err {A}.
Arguments Panic {A}.

Definition obind {A B} (o : Outcome A) (f : A -> Outcome B) : Outcome B :=
  match o with Ok a => f a | Err => Err | Panic => Panic end.

Definition omap {A B} (f : A -> B) (o : Outcome A) : Outcome B :=
  match o with Ok a => Ok (f a) | Err => Err | Panic => Panic end.

(* Conversion to (wrap-around in) the Go integer types. *)
Definition u8 (z : Z) : Z := z mod 2 ^ 8.
Definition u16 (z : Z) : Z := z mod 2 ^ 16.
Definition u32 (z : Z) : Z := z mod 2 ^ 32.
Definition u64 (z : Z) : Z := z mod 2 ^ 64.
Definition i32 (z : Z) : Z := (z + 2 ^ 31) mod 2 ^ 32 - 2 ^ 31.
Definition i64 (z : Z) : Z := (z + 2 ^ 63) mod 2 ^ 64 - 2 ^ 63.

(* Go slice indexing with a (signed) index: out of range is a panic. *)
Definition slice_get {A} (l : list A) (i : Z) : Outcome A :=
  if i <? 0 then Panic
  else match nth_error l (Z.to_nat i) with Some a => Ok a | None => Panic end.

(* Replace element n of a list; unchanged if n is out of range. *)
Fixpoint list_set {A} (l : list A) (n : nat) (v : A) : list A :=
  match l, n with
  | [], _ => []
  | _ :: t, O => v :: t
  | h :: t, S n' => h :: list_set t n' v
  end.

(* Go slice assignment: out of range is a panic. *)
Definition slice_set {A} (l : list A) (i : Z) (v : A) : Outcome (list A) :=
  if (i <? 0) || (Z.of_nat (length l) <=? i) then Panic
  else Ok (list_set l (Z.to_nat i) v).
