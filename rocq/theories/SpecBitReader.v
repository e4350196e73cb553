(* Independent specification of bit-level positions in a byte stream. *)
From Coq Require Import ZArith List Bool.
From Verif Require Import ModelBitReader.
Import ListNotations.
Open Scope Z_scope.

(* Bit k of a byte string: bytes in order, least significant bit first. *)
Definition stream_bit (d : list Z) (k : nat) : bool :=
  Z.testbit (nth (k / 8) d 0) (Z.of_nat (k mod 8)).

Definition is_byte (b : Z) : Prop := 0 <= b < 256.

(* The reader s is positioned at bit p of the byte string d: the p-th bit is
   the next one to be delivered. *)
Definition reader_at (s : BR) (d : list Z) (p : nat) : Prop :=
  Forall is_byte d /\ br_data s = d /\ (p <= 8 * length d)%nat /\
  br_pos s = ((p + 7) / 8)%nat /\ br_index s = Z.of_nat (p mod 8) /\
  is_byte (br_cur s) /\ ((p mod 8 <> 0)%nat -> br_cur s = nth (p / 8) d 0) /\
  0 <= br_count s < 2 ^ 64.

(* v is the n-bit field found at bit p of d, first bit least significant. *)
Definition field_at (d : list Z) (p n : nat) (v : Z) : Prop :=
  0 <= v < 2 ^ Z.of_nat n /\
  forall i, (i < n)%nat -> Z.testbit v (Z.of_nat i) = stream_bit d (p + i).

(* The bits of d from bit p on start with the bits c. *)
Definition bits_at (d : list Z) (p : nat) (c : list bool) : Prop :=
  (p + length c <= 8 * length d)%nat /\
  forall i, (i < length c)%nat -> stream_bit d (p + i) = nth i c false.

(* m decodes the bit string c to v: wherever c stands in a stream, m run on a
   reader standing at its first bit returns v and stops right behind it. *)
Definition reads {A} (m : RM A) (c : list bool) (v : A) : Prop :=
  forall s d p, reader_at s d p -> bits_at d p c ->
  exists s', m s = (GoBase.Ok v, s') /\ reader_at s' d (p + length c).

(* Every success of m returns a value satisfying P; m never panics, and
   keeps the reader consistent. *)
Definition yields {A} (m : RM A) (P : A -> Prop) : Prop :=
  forall s d p, reader_at s d p ->
  match m s with
  | (GoBase.Ok v, s') => P v /\ exists q, (p <= q)%nat /\ reader_at s' d q
  | (GoBase.Err, _) => True
  | (GoBase.Panic, _) => False
  end.
