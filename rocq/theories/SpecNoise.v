(* Independent specification of the noise generator, after the JPEG XL
   standard (annex L): eight xorshift128+ generators side by side.  Words are
   vectors of 64 bits, as functions of the position, 0 first, so that shifts
   and exclusive or are bit by bit; sums and products are of numbers. *)
From Coq Require Import ZArith List Bool.
Import ListNotations.
Open Scope Z_scope.

(* word w has the bits f *)
Definition has_bits (w : Z) (f : nat -> bool) : Prop :=
  0 <= w < 2 ^ 64 /\ forall i, (i < 64)%nat -> Z.testbit w (Z.of_nat i) = f i.
Definition bit (w : Z) (i : nat) : bool := Z.testbit w (Z.of_nat i).
(* bit i of w >> k and of w << k *)
Definition shr_bit (w : Z) (k i : nat) : bool := if (i + k <? 64)%nat then bit w (i + k) else false.
Definition shl_bit (w : Z) (k i : nat) : bool := if (k <=? i)%nat then bit w (i - k) else false.

(* the finaliser of splitmix64 *)
Definition xor_shifted (w : Z) (k : nat) (v : Z) : Prop := has_bits v (fun i => xorb (bit w i) (shr_bit w k i)).
Definition splitmix (z r : Z) : Prop :=
  exists a b, xor_shifted z 30 a /\ xor_shifted ((a * 13787848793156543929) mod 2 ^ 64) 27 b /\
    xor_shifted ((b * 10723151780598845931) mod 2 ^ 64) 31 r.
(* the state of lane i: the finaliser applied i+1 times to the seed plus the
   golden ratio *)
Fixpoint lane_seed (seed : Z) (i : nat) (r : Z) : Prop :=
  match i with
  | O => splitmix ((seed + 11400714819323198485) mod 2 ^ 64) r
  | S j => exists q, lane_seed seed j q /\ splitmix q r
  end.

(* one step of xorshift128+: the output is the sum of both words *)
Definition shifted_left (w v : Z) : Prop := has_bits v (fun i => xorb (bit w i) (shl_bit w 23 i)).
Definition step (s t : Z * Z) : Prop :=
  fst t = snd s /\
  exists b, shifted_left (fst s) b /\
    has_bits (snd t) (fun i => xorb (xorb (bit b i) (bit (snd s) i)) (xorb (shr_bit b 18 i) (shr_bit (snd s) 5 i))).
Definition output (s : Z * Z) : Z := (fst s + snd s) mod 2 ^ 64.

(* st n i is the state of lane i after n steps *)
Definition generator (seed0 seed1 : Z) (st : nat -> nat -> Z * Z) : Prop :=
  (forall i, (i < 8)%nat -> lane_seed seed0 i (fst (st 0%nat i)) /\ lane_seed seed1 i (snd (st 0%nat i))) /\
  forall n i, (i < 8)%nat -> step (st n i) (st (S n) i).
(* the n-th 64-bit number, lanes in turn, and the n-th 32-bit number, low half
   first *)
Definition long (st : nat -> nat -> Z * Z) (n : nat) : Z := output (st (n / 8)%nat (n mod 8)%nat).
Definition half (st : nat -> nat -> Z * Z) (n : nat) : Z :=
  if Nat.even n then long st (n / 2) mod 2 ^ 32 else long st (n / 2) / 2 ^ 32.

(* a float32 in [1, 2) by its 32 bits: sign 0, exponent 127, and the fraction *)
Definition one_to_two (bits fraction : Z) : Prop := 0 <= fraction < 2 ^ 23 /\ bits = 127 * 2 ^ 23 + fraction.

(* The noise of a group of h rows and w columns: rows are drawn from left to
   right in runs of 16 numbers, one run after the other, the last one of a row
   cut off; the channels one after the other.  The fraction has the upper 23
   bits of a number. *)
Definition run_of (h w c y x : nat) : nat := ((c * h + y) * ((w + 15) / 16) + x / 16)%nat.
Definition noise_sample (st : nat -> nat -> Z * Z) (h w c y x : nat) (bits : Z) : Prop :=
  one_to_two bits (half st (16 * run_of h w c y x + x mod 16) / 2 ^ 9).
