(* Independent specification of Lehmer codes and of frame sections. *)
From Coq Require Import ZArith List Bool.
From Verif Require Import Bits.
Import ListNotations.
Open Scope Z_scope.

(* Decoding a Lehmer code: each number picks (and removes) one of the
   remaining elements. *)
Fixpoint remove_at (i : nat) (l : list Z) : list Z :=
  match l, i with
  | [], _ => []
  | _ :: t, O => t
  | x :: t, S i' => x :: remove_at i' t
  end.
Fixpoint lehmer_decode (avail : list Z) (code : list Z) : list Z :=
  match code with
  | [] => []
  | c :: t => nth (Z.to_nat c) avail 0 :: lehmer_decode (remove_at (Z.to_nat c) avail) t
  end.
(* A legal code: number i is below the count of remaining elements. *)
Fixpoint lehmer_ok (n : Z) (code : list Z) : Prop :=
  match code with [] => True | c :: t => 0 <= c < n /\ lehmer_ok (n - 1) t end.
(* Encoding: the position among the remaining elements *)
Fixpoint index_of (x : Z) (l : list Z) : nat :=
  match l with [] => 0%nat | y :: t => if y =? x then 0%nat else S (index_of x t) end.
Fixpoint lehmer_encode (avail : list Z) (perm : list Z) : list Z :=
  match perm with
  | [] => []
  | x :: t => Z.of_nat (index_of x avail) :: lehmer_encode (remove_at (index_of x avail) avail) t
  end.

Definition iota (n : Z) : list Z := map Z.of_nat (seq 0 (Z.to_nat n)).

(* The complete code when the numbers cs are sent after a skipped prefix:
   numbers not sent are 0 *)
Definition full_code (size skip : Z) (cs : list Z) : list Z :=
  repeat 0 (Z.to_nat skip) ++ cs ++ repeat 0 (Z.to_nat (size - skip) - length cs).

(* The context of a number: its bit length, at most 7 *)
Definition toc_ctx (x : Z) : Z := Z.min 7 (Z.log2_up (x + 1)).

(* Byte range of physical section k of a frame whose data starts at byte
   start: the sections follow each other. *)
Definition section_start (start : Z) (lengths : list Z) (k : nat) : Z := start + fold_right Z.add 0 (firstn k lengths).
(* The physical section holding logical section i *)
Definition physical (perm : option (list Z)) (i : nat) : nat :=
  match perm with None => i | Some p => Z.to_nat (nth i p 0) end.

(* Code of a section length: a two-bit selector and an offset *)
Definition toc_code (len : Z) (bits : list bool) : Prop :=
  exists i x, 0 <= i < 4 /\
    let base := nth (Z.to_nat i) [0; 1024; 17408; 4211712] 0 in
    let width := nth (Z.to_nat i) [10; 14; 22; 30] 0 in
    0 <= x < 2 ^ width /\ len = base + x /\ bits = zbits 2 i ++ zbits (Z.to_nat width) x.
(* The next byte boundary, in bits *)
Definition byte_up (p : nat) : nat := (8 * ((p + 7) / 8))%nat.
(* The bytes of a range *)
Definition byte_range (d : list Z) (start len : Z) : list Z := firstn (Z.to_nat len) (skipn (Z.to_nat start) d).
