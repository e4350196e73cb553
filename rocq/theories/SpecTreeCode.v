(* How a decision tree is sent: the symbols of its nodes, breadth first. *)
From Coq Require Import ZArith List Bool.
From Verif Require Import SpecCodes SpecToc SpecGrammar SpecStream SpecSymbols ModelMATree SpecMATree.
Import ListNotations.
Open Scope Z_scope.

(* Contexts and values of one node.  Inner nodes: property and value; leaves:
   predictor, offset and multiplier (b + 1) 2^k.  The fields a node does not
   use are zero, the predictor of inner nodes -1. *)
Definition node_sends (n : Node) (l : list (Z * Z)) : Prop :=
  (exists v, 0 <= n_property n < 2 ^ 31 - 1 /\ 0 <= v < 2 ^ 31 /\ n_value n = unzigzag v /\
     n_context n = 0 /\ n_predictor n = -1 /\ n_offset n = 0 /\ n_multiplier n = 0 /\ l = [(1, n_property n + 1); (0, v)]) \/
  (exists o k b, n_property n = -1 /\ n_value n = 0 /\ n_left n = 0 /\ n_right n = 0 /\
     0 <= n_predictor n <= 13 /\ 0 <= o < 2 ^ 31 /\ n_offset n = unzigzag o /\ 0 <= k <= 30 /\ 0 <= b <= 2 ^ (31 - k) - 2 /\
     n_multiplier n = (b + 1) * 2 ^ k /\ l = [(1, 0); (2, n_predictor n); (3, o); (4, k); (5, b)]).
Definition tree_sends (nodes : list Node) (l : list (Z * Z)) : Prop := exists ls, Forall2 node_sends nodes ls /\ l = concat ls.

(* Every node but the root is a child, and the leaves are numbered *)
Definition breadth_first (nodes : list Node) : Prop :=
  proper_tree nodes /\
  (forall i, (0 < i < length nodes)%nat -> exists j n, nth_error nodes j = Some n /\ 0 <= n_property n /\ (Z.of_nat i = n_left n \/ Z.of_nat i = n_right n)) /\
  map n_context (leaves nodes) = iota (Z.of_nat (length (leaves nodes))).

(* The bits of a tree: a stream of six contexts with its symbols, then the
   header h of the stream with a context for each leaf *)
Definition tree_code (nodes : list Node) (h : header) (c : list bool) : Prop :=
  exists l c1 c2, tree_sends nodes l /\ sent 6 0 l c1 /\
    header_code cluster_map proper_dist (Z.of_nat (length (leaves nodes))) true c2 h /\ c = c1 ++ c2.
