(* Independent specification of decision trees given as lists of nodes. *)
From Coq Require Import ZArith List Bool.
From Verif Require Import ModelMATree.
Import ListNotations.
Open Scope Z_scope.

Definition leaf_at (nodes : list Node) (i : nat) : Prop := exists n, nth_error nodes i = Some n /\ n_property n < 0.

(* Breadth-first order: the children of the k-th inner node are the nodes
   2k+1 and 2k+2. *)
Fixpoint inner_before (nodes : list Node) (i : nat) : nat :=
  match i, nodes with
  | S i', n :: t => (if n_property n <? 0 then 0 else 1) + inner_before t i'
  | _, _ => 0
  end.
Definition proper_tree (nodes : list Node) : Prop :=
  nodes <> [] /\
  forall i n, nth_error nodes i = Some n -> 0 <= n_property n ->
    n_left n = 1 + 2 * Z.of_nat (inner_before nodes i) /\ n_right n = n_left n + 1 /\
    Z.of_nat i < n_left n /\ n_right n < Z.of_nat (length nodes).

Definition leaves (nodes : list Node) : list Node := filter (fun n => n_property n <? 0) nodes.

(* The decision of a tree: an inner node asks whether a property exceeds its
   value; yes goes left. *)
Inductive decides (nodes : list Node) (prop : Z -> Z) : nat -> nat -> Prop :=
| dec_leaf i n : nth_error nodes i = Some n -> n_property n < 0 -> decides nodes prop i i
| dec_left i n j : nth_error nodes i = Some n -> 0 <= n_property n -> n_value n < prop (n_property n) ->
    decides nodes prop (Z.to_nat (n_left n)) j -> decides nodes prop i j
| dec_right i n j : nth_error nodes i = Some n -> 0 <= n_property n -> prop (n_property n) <= n_value n ->
    decides nodes prop (Z.to_nat (n_right n)) j -> decides nodes prop i j.

(* Nodes of the subtree of a node *)
Inductive below (nodes : list Node) (i : nat) : nat -> Prop :=
| below_self : below nodes i i
| below_child j n : below nodes i j -> nth_error nodes j = Some n -> 0 <= n_property n -> forall k, Z.of_nat k = n_left n \/ Z.of_nat k = n_right n -> below nodes i k.
(* A node that asks for the error of the weighted predictor (property 15), or a
   leaf that predicts with it (predictor 6) *)
Definition weighted (n : Node) : Prop := n_property n = 15 \/ n_property n < 0 /\ n_predictor n = 6.
