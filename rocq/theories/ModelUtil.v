(* Model of the integer and container helpers in util/.  Definitions only. *)
From Coq Require Import ZArith List Bool.
From Verif Require Import GoBase.
Import ListNotations.
Open Scope Z_scope.

(* math/bits.Len64 (standard library): number of bits needed for x *)
Definition Len64 (x : Z) : Z := if x =? 0 then 0 else Z.log2 x + 1.
(* math/bits.LeadingZeros64 (standard library) *)
Definition LeadingZeros64 (x : Z) : Z := 64 - Len64 x.

(* util/MathsHelper.go:43-45 and 47-49, CeilLog1p, CeilLog1pUint64: the
   argument is first converted to uint64 (sign extension for signed T). *)
Definition CeilLog1p (x : Z) : Z := 64 - LeadingZeros64 (u64 x).

(* util/MathsHelper.go:59-65, FloorLog1pUint64 *)
Definition FloorLog1pUint64 (x : Z) : Z :=
  let c := CeilLog1p x in
  if negb (Z.land (u64 (x + 1)) x =? 0) then c - 1 else c.
(* util/MathsHelper.go:51-57, FloorLog1p at T = int64 *)
Definition FloorLog1p_i64 (x : Z) : Z :=
  let c := CeilLog1p x in
  if negb (Z.land (i64 (x + 1)) x =? 0) then c - 1 else c.

(* util/MathsHelper.go:67-69, CeilLog2 at T = uint32 and T = int64 *)
Definition CeilLog2_u32 (x : Z) : Z := CeilLog1p (u32 (x - 1)).
Definition CeilLog2_i64 (x : Z) : Z := CeilLog1p (i64 (x - 1)).

(* util/MathsHelper.go:117-133, Clamp3 *)
Definition Clamp3 (v a b : Z) : Z :=
  let lower := if a <? b then a else b in
  let upper := Z.lxor (Z.lxor lower a) b in
  if v <? lower then lower else if upper <? v then upper else v.

(* util/MathsHelper.go:157-183, Clamp *)
Definition Clamp (v a b c : Z) : Z :=
  let lower := if a <? b then a else b in
  let upper := Z.lxor (Z.lxor lower a) b in
  let lower := if c <=? lower then c else lower in
  let upper := if upper <=? c then c else upper in
  if v <? lower then lower else if upper <? v then upper else v.

(* util/MathsHelper.go:188-193, Abs at T = int32 *)
Definition Abs_i32 (a : Z) : Z := if a <? 0 then i32 (- a) else a.

(* util/MathsHelper.go:301-303, CeilDiv (uint32); division by zero panics *)
Definition CeilDiv (numerator denominator : Z) : Outcome Z :=
  if denominator =? 0 then Panic
  else Ok (u32 (u32 (numerator - 1) / denominator + 1)).

(* util/MathsHelper.go:435-445, MirrorCoordinate: one iteration and the
   loop.  ^c is -1-c.  The fuel is an upper bound on the iterations for
   size >= 1; running out of it (only possible for size <= 0, where the Go
   loop never ends) is reported as Panic. *)
Fixpoint mirrorLoop (fuel : nat) (coordinate size : Z) : Outcome Z :=
  if (coordinate <? 0) || (size <=? coordinate) then
    match fuel with
    | O => Panic
    | S f =>
        let tc := -1 - coordinate in
        if 0 <=? tc then mirrorLoop f tc size
        else mirrorLoop f (i32 (i32 (2 * size) + tc)) size
    end
  else Ok coordinate.
Definition MirrorCoordinate (coordinate size : Z) : Outcome Z :=
  mirrorLoop (Z.to_nat (2 * Z.abs coordinate + 4)) coordinate size.

(* Go slices with their backing array made explicit: the array (its whole
   capacity from index 0), the offset of element 0 and the length. *)
Record GoSlice (A : Type) := mkSlice { sl_arr : list A; sl_off : nat; sl_len : nat }.
Arguments mkSlice {A}. Arguments sl_arr {A}. Arguments sl_off {A}. Arguments sl_len {A}.

Definition contents {A} (s : GoSlice A) : list A := firstn (sl_len s) (skipn (sl_off s) (sl_arr s)).

(* write xs into the array from index n on *)
Fixpoint overwrite {A} (arr : list A) (n : nat) (xs : list A) : list A :=
  match xs with [] => arr | x :: t => overwrite (list_set arr n x) (S n) t end.

(* the built-in append: in place if the capacity suffices, otherwise a new
   array with some spare capacity pad (its content is never read). *)
Definition append {A} (pad : list A) (s : GoSlice A) (xs : list A) : GoSlice A :=
  if (sl_off s + sl_len s + length xs <=? length (sl_arr s))%nat
  then mkSlice (overwrite (sl_arr s) (sl_off s + sl_len s) xs) (sl_off s) (sl_len s + length xs)
  else mkSlice (contents s ++ xs ++ pad) 0 (sl_len s + length xs).

(* s[:n] and s[n:] for 0 <= n <= len(s) *)
Definition slice_to {A} (s : GoSlice A) (n : nat) : GoSlice A := mkSlice (sl_arr s) (sl_off s) n.
Definition slice_from {A} (s : GoSlice A) (n : nat) : GoSlice A :=
  mkSlice (sl_arr s) (sl_off s + n) (sl_len s - n).

(* util/misc.go:96-100, Add.  Line 97 appends to slice[:index], which (when
   there is capacity) overwrites the shared array; line 98 then reads
   slice[index:] from that array.  Simplification: index > len panics even
   where index <= cap (slice[index:] would panic then). *)
Definition Add {A} (pad1 pad2 : list A) (slice : GoSlice A) (index : nat) (elem : A) : Outcome (GoSlice A) :=
  if (sl_len slice <? index)%nat then Panic
  else
    let newSlice := append pad1 (slice_to slice index) [elem] in
    (* the array seen through [slice] after the first append *)
    let arr' := if (sl_off slice + index + 1 <=? length (sl_arr slice))%nat
                then sl_arr newSlice else sl_arr slice in
    let slice' := mkSlice arr' (sl_off slice) (sl_len slice) in
    Ok (append pad2 newSlice (contents (slice_from slice' index))).

(* util/sliceutil.go:3-25, AddToSlice; copy() into fresh memory is list
   concatenation. *)
Definition AddToSlice {A} (pad : list A) (slice : GoSlice A) (pos : Z) (item : A) : Outcome (GoSlice A) :=
  if (sl_len slice =? 0)%nat then Ok (mkSlice [item] 0 1)
  else if pos =? Z.of_nat (sl_len slice) then Ok (append pad slice [item])
  else if (pos <? 0) || (Z.of_nat (sl_len slice) <? pos) then Panic
  else
    let p := Z.to_nat pos in
    Ok (mkSlice (firstn p (contents slice) ++ item :: skipn p (contents slice)) 0 (S (sl_len slice))).

(* util/deque.go:4-44, Deque.  AddFirst builds a new array; the removals
   re-slice. *)
Definition NewDeque {A} : GoSlice A := mkSlice [] 0 0.
Definition AddFirst {A} (pad1 pad2 : list A) (dq : GoSlice A) (item : A) : GoSlice A :=
  append pad2 (mkSlice ([item] ++ pad1) 0 1) (contents dq).
Definition AddLast {A} (pad : list A) (dq : GoSlice A) (item : A) : GoSlice A := append pad dq [item].
Definition RemoveFirst {A} (dq : GoSlice A) : option A * GoSlice A :=
  if (sl_len dq =? 0)%nat then (None, dq)
  else (nth_error (contents dq) 0, slice_from dq 1).
Definition RemoveLast {A} (dq : GoSlice A) : option A * GoSlice A :=
  if (sl_len dq =? 0)%nat then (None, dq)
  else (nth_error (contents dq) (sl_len dq - 1), slice_to dq (sl_len dq - 1)).
Definition IsEmpty {A} (dq : GoSlice A) : bool := (sl_len dq =? 0)%nat.
