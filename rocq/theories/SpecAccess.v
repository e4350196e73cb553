(* What access to channels should do. *)
From Coq Require Import ZArith List.
From Verif Require Import ModelImage.
Import ListNotations.

(* The channels l and l' agree but for channel c *)
Definition agree_but (c : nat) (l l' : list ImageBuffer) : Prop :=
  length l = length l' /\ forall i d, i <> c -> nth i l d = nth i l' d.
