(* Helpers of util that are not in ModelUtil.v: extremes and clamping of ordered values,
   the iterator over ranges, and comparing and filling of slices.

   Simplifications: the type cmp.Ordered is any type with its tests < and >; values
   unequal to themselves (NaN) are told by nan. *)
From Coq Require Import ZArith List Bool.
From Verif Require Import GoBase.
Import ListNotations.
Open Scope Z_scope.

Local Notation "x <o- m ;; k" := (obind m (fun x => k)) (at level 60, m at next level, right associativity).

(* the operations of an ordered type: its zero value, < and >, and being NaN.  They are
   one argument, so that no test can be given in the place of another *)
Record Ops (T : Type) := mkOps { zero : T; less : T -> T -> bool; greater : T -> T -> bool; nan : T -> bool }.
Arguments zero {T}. Arguments less {T}. Arguments greater {T}. Arguments nan {T}. Arguments mkOps {T}.

Section Ordered.
  Context {T : Type} (O : Ops T).

  (* util/MathsHelper.go:80-91: the loop of Max *)
  Fixpoint maxLoop (max : T) (args : list T) : T :=
    match args with
    | [] => max
    | arg :: args => if nan O arg then arg else maxLoop (if greater O arg max then arg else max) args
    end.
  (* util/MathsHelper.go:71-92, Max *)
  Definition Max (args : list T) : T :=
    match args with
    | [] => zero O
    | a :: r => if nan O a then a else maxLoop a r
    end.

  (* util/MathsHelper.go:103-114: the loop of Min *)
  Fixpoint minLoop (min : T) (args : list T) : T :=
    match args with
    | [] => min
    | arg :: args => if nan O arg then arg else minLoop (if less O arg min then arg else min) args
    end.
  (* util/MathsHelper.go:94-115, Min *)
  Definition Min (args : list T) : T :=
    match args with
    | [] => zero O
    | a :: r => if nan O a then a else minLoop a r
    end.

  (* util/MathsHelper.go:135-155, Clamp3Float32 *)
  Definition Clamp3Float32 (v a b : T) : T :=
    let lower := if less O a b then a else b in
    let upper := if less O a b then b else a in
    if less O v lower then lower else if greater O v upper then upper else v.
End Ordered.

(* util/RangeInterator.go:9-23, RangeIterator: the variables x and y of the closure, and
   one call of it; None is io.EOF.  Points have int32 coordinates (x, y). *)
Record Range := mkRange { startX : Z; startY : Z; endX : Z; endY : Z }.
Definition RangeIterator (r : Range) : Z * Z := (startX r, startY r).
Definition nextPoint (r : Range) (state : Z * Z) : option ((Z * Z) * (Z * Z)) :=
  let '(x, y) := state in
  let '(x, y) := if x >? endX r then (startX r, u32 (y + 1)) else (x, y) in
  if y >? endY r then None
  else let x := u32 (x + 1) in Some ((i32 x, i32 y), (x, y)).

(* util/RangeInterator.go:25-27, RangeIteratorWithIntPoint *)
Definition RangeIteratorWithIntPoint (x y : Z) : Range := mkRange 0 0 (u32 x) (u32 y).

Section Compare.
  Context {T : Type} (compare : T -> T -> bool).

  (* util/misc.go:79-83: the innermost loop of CompareMatrix3D; the lengths are equal *)
  Fixpoint compareRow (a b : list T) : bool :=
    match a, b with
    | x :: a, y :: b => if negb (compare x y) then false else compareRow a b
    | _, _ => true
    end.
  (* util/misc.go:75-84: the loop over rows *)
  Fixpoint compareRows (a b : list (list T)) : bool :=
    match a, b with
    | x :: a, y :: b =>
        if negb (length x =? length y)%nat then false
        else if negb (compareRow x y) then false else compareRows a b
    | _, _ => true
    end.
  (* util/misc.go:71-85: the loop over matrices *)
  Fixpoint compareMatrices (a b : list (list (list T))) : bool :=
    match a, b with
    | x :: a, y :: b =>
        if negb (length x =? length y)%nat then false
        else if negb (compareRows x y) then false else compareMatrices a b
    | _, _ => true
    end.
  (* util/misc.go:65-88, CompareMatrix3D *)
  Definition CompareMatrix3D (a b : list (list (list T))) : bool :=
    if negb (length a =? length b)%nat then false else compareMatrices a b.

  (* util/MathsHelper.go:327-335: the loops of Matrix3Equal, where compare is equality.
     The index of b is checked for every element of a. *)
  Fixpoint equalRow (a b : list T) : Outcome bool :=
    match a, b with
    | [], _ => Ok true
    | _ :: _, [] => Panic
    | x :: a, y :: b => if negb (compare x y) then Ok false else equalRow a b
    end.
  Fixpoint equalRows (a b : list (list T)) : Outcome bool :=
    match a with
    | [] => Ok true
    | x :: a =>
        e <o- (match x, b with [], _ => Ok true | _ :: _, [] => Panic | _, y :: _ => equalRow x y end) ;;
        if negb e then Ok false else equalRows a (tl b)
    end.
  Fixpoint equalMatrices (a b : list (list (list T))) : Outcome bool :=
    match a, b with
    | x :: a, y :: b => e <o- equalRows x y ;; if negb e then Ok false else equalMatrices a b
    | _, _ => Ok true
    end.
  (* util/MathsHelper.go:323-337, Matrix3Equal *)
  Definition Matrix3Equal (a b : list (list (list T))) : Outcome bool :=
    if negb (length a =? length b)%nat then Ok false else equalMatrices a b.
End Compare.

(* util/misc.go:90-94, FillFloat32: n = toIndex - fromIndex elements from fromIndex on *)
Fixpoint fillLoop {T} (n i : nat) (val : T) (a : list T) : Outcome (list T) :=
  match n with
  | O => Ok a
  | S n => if (i <? length a)%nat then fillLoop n (S i) val (firstn i a ++ val :: skipn (S i) a) else Panic
  end.
Definition FillFloat32 {T} (a : list T) (fromIndex toIndex : Z) (val : T) : Outcome (list T) :=
  fillLoop (Z.to_nat (toIndex - fromIndex)) (Z.to_nat fromIndex) val a.

(* util/MathsHelper.go:195-204, MakeSliceWithDefault; None is nil *)
Definition MakeSliceWithDefault {T} (length : Z) (defaultVal : T) : option (list T) :=
  if length <? 0 then None else Some (repeat defaultVal (Z.to_nat length)).
