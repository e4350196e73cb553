(* Independent specification of the variable-length codes of the header
   syntax, of zig-zag coding, half floats, and of bit-writer sessions. *)
From Coq Require Import ZArith List Bool.
From Verif Require Import Bits ModelBitReader ModelBitWriter.
Import ListNotations.
Open Scope Z_scope.

(* A bit-writer session: fixed-width fields and U8 values. *)
Inductive wop := WField (v : Z) (n : nat) | WByte (v : Z).

Definition wop_ok (o : wop) : Prop :=
  match o with
  | WField v n => (n <= 64)%nat /\ 0 <= v < 2 ^ Z.of_nat n
  | WByte v => 0 <= v <= 255
  end.
Definition wop_value (o : wop) : Z := match o with WField v _ => v | WByte v => v end.

Fixpoint write_all (l : list wop) (w : BW) : BW :=
  match l with
  | [] => w
  | WField v n :: t => write_all t (WriteBits v n w)
  | WByte v :: t => write_all t (WriteU8 v w)
  end.

(* The reads that mirror a session. *)
Fixpoint read_all (l : list wop) : RM (list Z) :=
  match l with
  | [] => rret []
  | o :: t => rbind (match o with WField _ n => ReadBits (Z.of_nat n) | WByte _ => ReadU8 end)
                (fun v => rbind (read_all t) (fun vs => rret (v :: vs)))
  end.

(* U64: 2-bit selector; 0 | 1+4 bits | 17+8 bits | 12 bits followed by
   8-bit groups each preceded by a continuation bit, the group at bit 60
   having 4 bits. *)
Inductive u64_tail : nat -> list bool -> Z -> Prop :=
| u64t_stop sh : u64_tail sh [false] 0
| u64t_last x : 0 <= x < 16 -> u64_tail 60 (true :: zbits 4 x) (x * 2 ^ 60)
| u64t_more sh x c v : (sh < 60)%nat -> 0 <= x < 256 -> u64_tail (sh + 8) c v ->
    u64_tail sh (true :: zbits 8 x ++ c) (x * 2 ^ Z.of_nat sh + v).
Inductive u64_code : list bool -> Z -> Prop :=
| u64c_0 : u64_code (zbits 2 0) 0
| u64c_1 x : 0 <= x < 16 -> u64_code (zbits 2 1 ++ zbits 4 x) (1 + x)
| u64c_2 x : 0 <= x < 256 -> u64_code (zbits 2 2 ++ zbits 8 x) (17 + x)
| u64c_3 x c v : 0 <= x < 4096 -> u64_tail 12 c v ->
    u64_code (zbits 2 3 ++ zbits 12 x ++ c) (x + v).

(* U8: 0 | 1, 3-bit n, n bits: 2^n + x. *)
Inductive u8_code : list bool -> Z -> Prop :=
| u8c_0 : u8_code [false] 0
| u8c_n n x : (n < 8)%nat -> 0 <= x < 2 ^ Z.of_nat n ->
    u8_code (true :: zbits 3 (Z.of_nat n) ++ zbits n x) (2 ^ Z.of_nat n + x).

(* Little-endian base-128 bytes with continuation flag 128. *)
Inductive varint : list Z -> Z -> Prop :=
| vi_last v : 0 <= v < 128 -> varint [v] v
| vi_more b l v : 0 <= b < 128 -> 1 <= v -> varint l v -> varint (128 + b :: l) (b + 128 * v).

(* Zig-zag. *)
Definition unzigzag (u : Z) : Z := if Z.even u then u / 2 else - ((u + 1) / 2).

(* binary16: sign bit, 5 exponent bits, 10 fraction bits.  For patterns with
   exponent below 31 the value is (-1)^sign * mant * 2^exp with *)
Definition half_sign (h : Z) : bool := Z.testbit h 15.
Definition half_exp_field (h : Z) : Z := (h / 1024) mod 32.
Definition half_mant (h : Z) : Z :=
  if half_exp_field h =? 0 then h mod 1024 else 1024 + h mod 1024.
Definition half_exp (h : Z) : Z := if half_exp_field h =? 0 then -24 else half_exp_field h - 25.
(* m1 * 2^e1 = m2 * 2^e2 as rationals *)
Definition same_value (m1 e1 m2 e2 : Z) : Prop :=
  m1 * 2 ^ (e1 - Z.min e1 e2) = m2 * 2 ^ (e2 - Z.min e1 e2).
