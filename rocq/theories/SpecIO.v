(* What the helpers that read and skip bytes should do, in terms of the bytes of the
   reader. *)
From Coq Require Import ZArith List.
Import ListNotations.

(* n bytes from byte a on *)
Definition bytes_from (d : list Z) (a n : nat) : list Z := firstn n (skipn a d).

(* A buffer after the bytes v were copied to its start *)
Definition filled (buffer v : list Z) : list Z :=
  firstn (length buffer) v ++ skipn (length v) buffer.

(* A reader that gives all the bytes wanted that are there, as files and byte slices do *)
Definition whole_reads (pieces : nat -> nat -> nat) : Prop := forall i n, (n <= pieces i n)%nat.
