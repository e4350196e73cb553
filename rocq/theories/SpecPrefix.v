(* Grammar of the prefix code descriptions. *)
From Coq Require Import ZArith List Bool.
From Verif Require Import GoBase Bits SpecBitReader SpecGrammar SpecEntropy.
Import ListNotations.
Open Scope Z_scope.

Local Notation "x <== R ;;; S" := (c_seq R (fun x => S)) (at level 61, R at next level, right associativity).
Local Notation O := false.
Local Notation I := true.

(* A prefix code: its codewords, in the order the bits are sent, and their
   symbols. *)
Definition prefix_table := list (list bool * Z).

(* The canonical code of a list of code lengths, one per symbol, 0 for no
   codeword: symbols by length, then by value. *)
Definition by_length (lens : list Z) : list (Z * Z) :=
  flat_map (fun l => map (fun s => (Z.of_nat l, Z.of_nat s))
                      (filter (fun s => nth s lens 0 =? Z.of_nat l) (seq 0 (length lens)))) (seq 1 15).
Definition canon (lens : list Z) : prefix_table :=
  combine (codewords (map fst (by_length lens))) (map snd (by_length lens)).
(* Kraft sum of a list of lengths, in units of 2^-b *)
Definition kraft_all (b : Z) (lens : list Z) : Z := kraft b (filter (fun l => 0 <? l) lens).

(* ---- simple codes: up to four symbols ---- *)
Definition c_symbols (n : nat) (a : Z) : code (list Z) := c_list n (c_fixed (Z.to_nat (Z.log2_up a))).
Fixpoint insert_up (x : Z) (l : list Z) : list Z :=
  match l with [] => [x] | y :: t => if y <? x then y :: insert_up x t else x :: l end.
Definition simple_code (a : Z) : code prefix_table :=
  n <== c_fixed 2 ;;;
  if n =? 0 then ss <== c_symbols 1 a ;;; c_ret [([], nth 0 ss 0)]
  else if n =? 1 then
    ss <== c_symbols 2 a ;;; let x := nth 0 ss 0 in let y := nth 1 ss 0 in
    c_ret [([O], Z.min x y); ([I], Z.max x y)]
  else if n =? 2 then
    ss <== c_symbols 3 a ;;; let x := nth 0 ss 0 in let y := nth 1 ss 0 in let z := nth 2 ss 0 in
    c_ret [([O], x); ([I;O], Z.min y z); ([I;I], Z.max y z)]
  else
    ss <== c_symbols 4 a ;;; tree <== c_bool ;;;
    if tree : bool then
      let x := nth 0 ss 0 in let y := nth 1 ss 0 in let z := nth 2 ss 0 in let u := nth 3 ss 0 in
      c_ret [([O], x); ([I;O], y); ([I;I;O], Z.min z u); ([I;I;I], Z.max z u)]
    else c_ret (combine [[O;O]; [O;I]; [I;O]; [I;I]] (fold_right insert_up [] ss)).

(* ---- complex codes: the lengths are themselves coded ---- *)
(* The fixed code of the 18 first-level lengths *)
Definition c_len0 : code Z := fun c v =>
  In (c, v) [([O;O], 0); ([I;I;I;O], 1); ([I;I;O], 2); ([O;I], 3); ([I;O], 4); ([I;I;I;I], 5)].
(* They are sent in this order until their Kraft sum is reached; the first h
   ones and those not sent are 0. *)
Definition len_order : list Z := [1; 2; 3; 4; 0; 5; 17; 6; 16; 7; 8; 9; 10; 11; 12; 13; 14; 15].
Inductive c_lens1 : nat -> Z -> code (list Z) :=
| cl1_stop : forall n sum, n = 0%nat \/ 32 <= sum -> c_lens1 n sum [] []
| cl1_next : forall n sum c1 v c2 r, sum < 32 -> c_len0 c1 v ->
    c_lens1 n (sum + (if v =? 0 then 0 else 2 ^ (5 - v))) c2 r -> c_lens1 (S n) sum (c1 ++ c2) (v :: r).
Definition lens1 (h : nat) (vs : list Z) : list Z :=
  map (fun s => nth (position (Z.of_nat s) len_order) (repeat 0 h ++ vs) 0) (seq 0 18).
(* The code of the second-level items: canonical, or without any bits if only
   one item is used. *)
Definition items_of (lens : list Z) : list nat := filter (fun s => negb (nth s lens 0 =? 0)) (seq 0 18).
Definition code_of (used : list nat) (lens : list Z) : code Z := fun c v =>
  match used with
  | [s] => c = [] /\ v = Z.of_nat s
  | _ => kraft_all 5 lens = 32 /\ In (c, v) (canon lens)
  end.
Definition items_code (lens : list Z) : code Z := code_of (items_of lens) lens.
(* Second-level items for n symbols: a length, or 16 to repeat the last
   length other than 0, or 17 to repeat 0.  Consecutive repeats continue the
   same count, in base 4 or 8.  prev is the last length other than 0, rep and
   zero are the counts so far, sum is the Kraft sum in units of 2^-15. *)
Definition longer (base run e : Z) : Z := (if run =? 0 then 0 else base * (run - 2)) + 3 + e.
Inductive c_lens2 (D : code Z) : Z -> Z -> Z -> Z -> Z -> code (list Z) :=
| cl2_stop : forall n prev rep zero sum, 0 <= n -> n = 0 \/ 2 ^ 15 <= sum ->
    c_lens2 D n prev rep zero sum [] (repeat 0 (Z.to_nat n))
| cl2_len : forall n prev rep zero sum c1 v c2 r, 0 < n -> sum < 2 ^ 15 -> D c1 v -> v <= 15 ->
    c_lens2 D (n - 1) (if v =? 0 then prev else v) 0 0 (sum + (if v =? 0 then 0 else 2 ^ (15 - v))) c2 r ->
    c_lens2 D n prev rep zero sum (c1 ++ c2) (v :: r)
| cl2_rep : forall n prev rep zero sum c1 c2 e c3 r, 0 < n -> sum < 2 ^ 15 -> D c1 16 -> c_fixed 2 c2 e ->
    let k := longer 4 rep e - rep in
    k <= n -> c_lens2 D (n - k) prev (rep + k) 0 (sum + k * 2 ^ (15 - prev)) c3 r ->
    c_lens2 D n prev rep zero sum (c1 ++ c2 ++ c3) (repeat prev (Z.to_nat k) ++ r)
| cl2_zero : forall n prev rep zero sum c1 c2 e c3 r, 0 < n -> sum < 2 ^ 15 -> D c1 17 -> c_fixed 3 c2 e ->
    let k := longer 8 zero e - zero in
    k <= n -> c_lens2 D (n - k) prev 0 (zero + k) sum c3 r ->
    c_lens2 D n prev rep zero sum (c1 ++ c2 ++ c3) (repeat 0 (Z.to_nat k) ++ r).
Definition complex_code (a h : Z) : code prefix_table :=
  vs <== c_lens1 (18 - Z.to_nat h) 0 ;;;
  ls <== c_lens2 (items_code (lens1 (Z.to_nat h) vs)) a 8 0 0 0 ;;;
  c_guard (kraft_all 15 ls = 2 ^ 15) (c_ret (canon ls)).

(* Descriptions of prefix codes for the symbols 0 .. a-1 *)
Definition prefix_code (a : Z) : code prefix_table :=
  if a =? 1 then c_ret [([], 0)]
  else h <== c_fixed 2 ;;; if h =? 1 then simple_code a else complex_code a h.
