(* What a user of the two-dimensional pool may rely on. *)
From Coq Require Import ZArith List Bool Arith.
From Verif Require Import ModelPool2.
Import ListNotations.
Open Scope Z_scope.

Definition zero_matrix2 (h w : nat) (rows : nat -> list Z) (m : Matrix2) : Prop :=
  length m = h /\ Forall (fun r => rows r = repeat 0%Z w) m.
Definition separate2 (m : Matrix2) (others : list Matrix2) : Prop :=
  NoDup m /\ forall r o, In r m -> In o others -> ~ In r o.

(* A history of a well-behaved program, as for the three-dimensional pool (SpecPool.v);
   asked is the number of matrices with samples got so far, made the number of those that
   were new. *)
Inductive history2 : list Matrix2 -> Mem2 -> Z -> Z -> Prop :=
| h2_init : history2 [] mem2_init 0 0
| h2_get live s asked made h w new m t : history2 live s asked made -> pget2 h w s new m t ->
    history2 (m :: live) t (asked + if (h =? 0)%nat || (w =? 0)%nat then 0 else 1) (made + if (h =? 0)%nat || (w =? 0)%nat then 0 else if new then 1 else 0)
| h2_make live s asked made h w m t : history2 live s asked made -> makeMatrix2D h w s = (m, t) -> history2 (m :: live) t asked made
| h2_write live s asked made m r v : history2 live s asked made -> In m live -> In r m -> length v = length (m2_rows s r) ->
    history2 live (mkMem2 (m2_next s) (fun a => if (a =? r)%nat then v else m2_rows s a) (m2_pools s) (m2_hits s) (m2_misses s)) asked made
| h2_put l1 m l2 s asked made : history2 (l1 ++ m :: l2) s asked made -> history2 (l1 ++ l2) (pput2 m s) asked made
| h2_forget l1 m l2 s asked made : history2 (l1 ++ m :: l2) s asked made -> history2 (l1 ++ l2) s asked made.
