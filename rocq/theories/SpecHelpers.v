(* What the helpers of util should do. *)
From Coq Require Import ZArith List.
Import ListNotations.
Open Scope Z_scope.

(* le is a total order, lt and gt test it strictly *)
Definition ordered {T} (le : T -> T -> Prop) (lt gt : T -> T -> bool) : Prop :=
  (forall a, le a a) /\ (forall a b c, le a b -> le b c -> le a c) /\ (forall a b, le a b \/ le b a) /\
  (forall a b, gt a b = false <-> le a b) /\ (forall a b, lt a b = false <-> le b a).

(* m is an element of l, and every element is below it *)
Definition greatest {T} (le : T -> T -> Prop) (l : list T) (m : T) : Prop := In m l /\ forall a, In a l -> le a m.

(* The points of a range, row by row *)
Definition points_of (x0 y0 : Z) (columns rows : nat) : list (Z * Z) :=
  flat_map (fun y => map (fun x => (x0 + Z.of_nat x, y0 + Z.of_nat y)) (seq 0 columns)) (seq 0 rows).

(* The same shape, and related elements *)
Definition related {T} (R : T -> T -> Prop) : list (list (list T)) -> list (list (list T)) -> Prop :=
  Forall2 (Forall2 (Forall2 R)).
Definition same_shape {T} : list (list (list T)) -> list (list (list T)) -> Prop := related (fun _ _ : T => True).
