(* Independent notions for the parallel parts: interleavings, runs, sequential
   results. *)
From Coq Require Import ZArith List Bool.
From Verif Require Import GoBase GoMatrix.
Import ListNotations.
Open Scope Z_scope.

(* l is an interleaving of the sequences ls: every step takes the first
   remaining element of one of them. *)
Inductive interleaving {A} : list (list A) -> list A -> Prop :=
| il_done ls : Forall (fun l => l = []) ls -> interleaving ls []
| il_step pre a t post l : interleaving (pre ++ t :: post) l -> interleaving (pre ++ (a :: t) :: post) (a :: l).

(* runs of a transition system *)
Inductive run {S} (step : S -> S -> Prop) : nat -> S -> S -> Prop :=
| run_0 s : run step 0 s s
| run_S n s t u : step s t -> run step n t u -> run step (Datatypes.S n) s u.

(* [a, b) ranges that cover 0..h-1 without overlap *)
Definition in_range (y : Z) (r : Z * Z) : Prop := fst r <= y < snd r.
Definition partition (h : Z) (rs : list (Z * Z)) : Prop :=
  Forall (fun r => 0 <= fst r < snd r /\ snd r <= h) rs /\
  forall y, 0 <= y < h -> exists i, (i < length rs)%nat /\ in_range y (nth i rs (0, 0)) /\
    forall j, (j < length rs)%nat -> in_range y (nth j rs (0, 0)) -> j = i.

(* The Gaborish filter: a 3x3 kernel on an image whose border is repeated. *)
Definition edge (n : nat) (i d : Z) : nat := Z.to_nat (Z.max 0 (Z.min (Z.of_nat n - 1) (i + d))).
Definition gab3x3 (fadd fmul : Z -> Z -> Z) (base adj diag : Z) (h w : nat) (A : list (list Z)) (y x : nat) : Z :=
  let p dy dx := px A (edge h (Z.of_nat y) dy) (edge w (Z.of_nat x) dx) in
  let a := fadd (fadd (fadd (p 0 (-1)) (p 0 1)) (p (-1) 0)) (p 1 0) in
  let d := fadd (fadd (fadd (p (-1) (-1)) (p (-1) 1)) (p 1 (-1))) (p 1 1) in
  fadd (fadd (fmul base (p 0 0)) (fmul adj a)) (fmul diag d).
