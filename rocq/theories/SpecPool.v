(* What a user of the pools may rely on. *)
From Coq Require Import ZArith List Bool Arith.
From Verif Require Import GoBase ModelPool.
Import ListNotations.

(* m has d channels of h rows of w samples, all zero *)
Definition zero_matrix (d h w : nat) (rows : nat -> list Z) (m : Matrix3) : Prop :=
  length m = d /\ Forall (fun c => length c = h) m /\ Forall (fun r => rows r = repeat 0%Z w) (concat m).
(* the rows of m are pairwise different and none of them belongs to another
   matrix of the list *)
Definition separate (m : Matrix3) (others : list Matrix3) : Prop :=
  NoDup (concat m) /\ forall r o, In r (concat m) -> In o others -> ~ In r (concat o).

(* A history of a well-behaved program: it gets matrices from the
   pools or makes them, writes samples into
   rows of the matrices it holds, and gives back matrices it holds, which it
   then forgets.  The program holds the matrices in the list. *)
Inductive history : list Matrix3 -> Mem -> Prop :=
| h_init : history [] mem_init
| h_get live s d h w m t : history live s -> pget d h w s m t -> history (m :: live) t
| h_make live s d h w m t : history live s -> makeMatrix3D d h w s = (m, t) -> history (m :: live) t
| h_write live s m r v : history live s -> In m live -> In r (concat m) -> length v = length (m_rows s r) ->
    history live (mkMem (m_next s) (fun a => if (a =? r)%nat then v else m_rows s a) (m_pools s))
| h_put l1 m l2 s : history (l1 ++ m :: l2) s -> history (l1 ++ l2) (pput m s)
| h_forget l1 m l2 s : history (l1 ++ m :: l2) s -> history (l1 ++ l2) s.
