(* Independent specification of the alias tables of the standard (annex C):
   which of the 4096 values of the lower state bits stand for which symbol. *)
From Coq Require Import ZArith List Bool.
From Verif Require Import SpecEntropy.
Import ListNotations.
Open Scope Z_scope.

Definition set_at (f : Z -> Z) (i v : Z) : Z -> Z := fun k => if k =? i then v else f k.
(* Buckets with more than b slots in use give slots to those with fewer, the
   last ones of both kinds first.  cut: the slots of a bucket its own symbol
   uses; sym, off: the symbol of the other slots, and how much of it is left
   with its own bucket and those served later. *)
Inductive fills (b : Z) : list Z -> list Z -> (Z -> Z) -> (Z -> Z) -> (Z -> Z) -> (Z -> Z) -> (Z -> Z) -> (Z -> Z) -> Prop :=
| fills_end : forall under cut sym off, fills b [] under cut sym off cut sym off
| fills_next : forall o over u under cut sym off cut' sym' off',
    let left := cut o - (b - cut u) in
    fills b (if b <? left then o :: over else over) (if left <? b then o :: under else under)
      (set_at cut o left) (set_at sym u o) (set_at off u left) cut' sym' off' ->
    fills b (o :: over) (u :: under) cut sym off cut' sym' off'.
(* indices below n in descending order that satisfy p *)
Definition descending (n : nat) (p : Z -> bool) : list Z := rev (filter p (map Z.of_nat (seq 0 n))).
(* slot k of the table: bucket k / b, position k mod b *)
Definition placed (b : Z) (cut sym off : Z -> Z) (k : Z) : Z * Z :=
  let i := k / b in let pos := k mod b in
  if pos <? cut i then (i, pos) else (sym i, off i - cut i + pos).

(* 2^las buckets.  A symbol with all of the probability is in every slot. *)
Inductive alias_standard (las : Z) (fs : list Z) (slot : Z -> Z * Z) : Prop :=
| alias_single : forall u, nth_error fs u = Some 4096 -> (forall k, 0 <= k < 4096 -> slot k = (Z.of_nat u, k)) -> alias_standard las fs slot
| alias_several : ~ In 4096 fs -> forall cut sym off,
    let f i := nth (Z.to_nat i) fs 0 in let b := 2 ^ (12 - las) in let n := Z.to_nat (2 ^ las) in
    fills b (descending n (fun i => b <? f i)) (descending n (fun i => f i <? b)) f (fun _ => 0) (fun _ => 0) cut sym off ->
    (forall k, 0 <= k < 4096 -> slot k = placed b cut sym off k) -> alias_standard las fs slot.
