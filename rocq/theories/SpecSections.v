(* The sections of a frame and its modular streams, in the order in which the
   standard numbers them. *)
From Coq Require Import ZArith List.
Import ListNotations.
Open Scope Z_scope.

Inductive section := LfGlobal | LfGroup (id : Z) | HfGlobal | PassGroup (pass group : Z).
Inductive stream := GlobalModular | LfCoeff (id : Z) | LfModular (id : Z) | HfMetadata (id : Z) | QuantTable (k : Z)
  | PassModular (pass group : Z).

Definition upto (n : nat) : list Z := map Z.of_nat (seq 0 n).
Definition sections (groups lf_groups passes : nat) : list section :=
  [LfGlobal] ++ map LfGroup (upto lf_groups) ++ [HfGlobal] ++
  flat_map (fun p => map (PassGroup p) (upto groups)) (upto passes).
Definition streams (groups lf_groups passes : nat) : list stream :=
  [GlobalModular] ++ map LfCoeff (upto lf_groups) ++ map LfModular (upto lf_groups) ++ map HfMetadata (upto lf_groups) ++
  map QuantTable (upto 17) ++ flat_map (fun p => map (PassModular p) (upto groups)) (upto passes).
