(* Model of testcommon/bitwriter.go.  Definitions only. *)
From Coq Require Import ZArith List Bool.
From Verif Require Import GoBase.
Import ListNotations.
Open Scope Z_scope.

(* testcommon/bitwriter.go:7-11, type BitWriter *)
Record BW := mkBW { bw_data : list Z; bw_curr : Z; bw_bits : Z }.

(* testcommon/bitwriter.go:14-16, NewBitWriter *)
Definition NewBitWriter : BW := mkBW [] 0 0.

(* testcommon/bitwriter.go:21-31, WriteBit; curr is a byte, so the shift is
   done in uint8. *)
Definition WriteBit (bit : Z) (w : BW) : BW :=
  let curr := if bit =? 0 then bw_curr w
              else Z.lor (bw_curr w) (u8 (Z.shiftl 1 (bw_bits w))) in
  let bits := bw_bits w + 1 in
  if bits =? 8 then mkBW (bw_data w ++ [curr]) 0 0 else mkBW (bw_data w) curr bits.

(* testcommon/bitwriter.go:36-40, WriteBits: iterations i .. i+k-1 of the
   loop *)
Fixpoint writeBitsFrom (val : Z) (i k : nat) (w : BW) : BW :=
  match k with
  | O => w
  | S k' => writeBitsFrom val (S i) k'
              (WriteBit (u8 (Z.land (Z.shiftr val (Z.of_nat i)) 1)) w)
  end.
Definition WriteBits (val : Z) (numBits : nat) (w : BW) : BW := writeBitsFrom val 0 numBits w.

(* testcommon/bitwriter.go:52-55, loop computing n in WriteU8.
   Simplification: fuel 64 bounds it; Go would loop forever for
   val >= 2^62, the model stops. *)
Fixpoint u8Exp (fuel n : nat) (val : Z) : nat :=
  match fuel with
  | O => n
  | S f => if i64 (Z.shiftl 1 (Z.of_nat n + 1)) <=? val then u8Exp f (S n) val else n
  end.

(* testcommon/bitwriter.go:46-58, WriteU8 *)
Definition WriteU8 (val : Z) (w : BW) : BW :=
  if val =? 0 then WriteBit 0 w
  else
    let w1 := WriteBit 1 w in
    let n := u8Exp 64 0 val in
    let w2 := WriteBits (Z.of_nat n) 3 w1 in
    WriteBits (u64 (val - i64 (Z.shiftl 1 (Z.of_nat n)))) n w2.

(* testcommon/bitwriter.go:63-68, Bytes *)
Definition Bytes (w : BW) : list Z :=
  if 0 <? bw_bits w then bw_data w ++ [bw_curr w] else bw_data w.
