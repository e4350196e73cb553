(* Model of jxlio/bitreader.go (BitStreamReader over a bytes.Reader).
   Definitions only. *)
From Coq Require Import ZArith List Bool.
From Verif Require Import GoBase.
Import ListNotations.
Open Scope Z_scope.

(* jxlio/bitreader.go:39-47, type BitStreamReader.  The io.ReadSeeker is a
   bytes.Reader: its content br_data and its offset br_pos.  The one-byte
   scratch field `buffer` is not kept: it is always overwritten before use.
   tempIndex is never read. *)
Record BR := mkBR {
  br_data : list Z;   (* content of the stream, bytes 0..255 *)
  br_pos : nat;       (* offset of the next byte Read will return *)
  br_index : Z;       (* field index, 0..7 *)
  br_cur : Z;         (* field currentByte *)
  br_count : Z        (* field bitsRead, uint64 *)
}.

(* A reader method: result and reader afterwards (also after an error). *)
Definition RM (A : Type) : Type := BR -> Outcome A * BR.

Definition rret {A} (a : A) : RM A := fun s => (Ok a, s).
Definition rerr {A} : RM A := fun s => (Err, s).
Definition rpanic {A} : RM A := fun s => (Panic, s).
Definition rbind {A B} (m : RM A) (f : A -> RM B) : RM B :=
  fun s => match m s with
           | (Ok a, s') => f a s'
           | (Err, s') => (Err, s')
           | (Panic, s') => (Panic, s')
           end.
Notation "x <- m ;; k" := (rbind m (fun x => k)) (at level 61, m at next level, right associativity).

(* jxlio/bitreader.go:57-63, NewBitStreamReader *)
Definition NewBitStreamReader (data : list Z) : BR := mkBR data 0 0 0 0.

(* bytes.Reader.Read into a one-byte buffer (standard library): the next
   byte, or io.EOF. *)
Definition stream_read1 : RM Z := fun s =>
  match nth_error (br_data s) (br_pos s) with
  | Some b => (Ok b, mkBR (br_data s) (S (br_pos s)) (br_index s) (br_cur s) (br_count s))
  | None => (Err, s)
  end.

(* bytes.Reader.Read into a buffer of length n (standard library): io.EOF if
   nothing is left, otherwise min(n, remaining) bytes. *)
Definition stream_read (n : nat) : RM (list Z) := fun s =>
  if (length (br_data s) <=? br_pos s)%nat then (Err, s)
  else let got := firstn n (skipn (br_pos s) (br_data s)) in
       (Ok got, mkBR (br_data s) (br_pos s + length got) (br_index s) (br_cur s) (br_count s)).

Definition set_pos (p : nat) (s : BR) : BR := mkBR (br_data s) p (br_index s) (br_cur s) (br_count s).
Definition set_index (i : Z) (s : BR) : BR := mkBR (br_data s) (br_pos s) i (br_cur s) (br_count s).
Definition set_cur (c : Z) (s : BR) : BR := mkBR (br_data s) (br_pos s) (br_index s) c (br_count s).
Definition add_count (n : Z) (s : BR) : BR :=
  mkBR (br_data s) (br_pos s) (br_index s) (br_cur s) (u64 (br_count s + n)).

(* jxlio/bitreader.go:66-72 and 74-85, Seek with io.SeekStart and Reset.
   Simplification: only non-negative absolute offsets, the only ones used. *)
Definition SeekStart (p : nat) : RM unit := fun s => (Ok tt, set_pos p s).
Definition Reset : RM unit := fun s => (Ok tt, set_cur 0 (set_index 0 (set_pos 0 s))).

(* jxlio/bitreader.go:112-131, readBit *)
Definition readBit : RM Z := fun s =>
  match (if br_index s =? 0 then
           match stream_read1 s with
           | (Ok b, s') => (Ok tt, set_cur b s')
           | (_, s') => (Err, s')
           end
         else (Ok tt, s)) with
  | (Ok _, s1) =>
      let v := negb (Z.land (br_cur s1) (Z.shiftl 1 (br_index s1)) =? 0) in
      let s2 := add_count 1 (set_index (u8 (br_index s1 + 1) mod 8) s1) in
      (Ok (if v then 1 else 0), s2)
  | (_, s1) => (Err, s1)
  end.

(* jxlio/bitreader.go:164-172, loop of ReadBits over whole bytes.  fuel
   bounds the iterations (at most 8 since bits <= 64); running out is a
   Panic so that a wrong bound would be visible. *)
Fixpoint readFull (fuel : nat) (bits bitsRead result : Z) : RM (Z * Z) := fun s =>
  if bits - bitsRead <? 8 then (Ok (bitsRead, result), s)
  else match fuel with
       | O => (Panic, s)
       | S f =>
           match stream_read1 s with
           | (Ok b, s1) =>
               readFull f bits (bitsRead + 8) (Z.lor result (u64 (Z.shiftl b bitsRead)))
                        (add_count 8 s1)
           | (_, s1) => (Err, s1)
           end
       end.

(* jxlio/bitreader.go:147-161, the part of ReadBits that drains currentByte;
   returns (bitsRead, result). *)
Definition drainCur (bits : Z) (s : BR) : (Z * Z) * BR :=
  if br_index s =? 0 then ((0, 0), s)
  else
    let bitsAvailable := 8 - br_index s in
    let bitsToRead := if bitsAvailable <? bits then bitsAvailable else bits in
    let mask := u8 (u8 (Z.shiftl 1 bitsToRead) - 1) in
    let extracted := Z.land (Z.shiftr (br_cur s) (br_index s)) mask in
    ((bitsToRead, extracted),
     set_index (u8 (br_index s + bitsToRead) mod 8) (add_count bitsToRead s)).

(* jxlio/bitreader.go:174-188, the tail of ReadBits *)
Definition readTail (bits bitsRead result : Z) : RM Z := fun s =>
  let remaining := bits - bitsRead in
  if 0 <? remaining then
    match stream_read1 s with
    | (Ok b, s1) =>
        let s2 := set_cur b s1 in
        let mask := u8 (u8 (Z.shiftl 1 remaining) - 1) in
        let extracted := Z.land b mask in
        (Ok (Z.lor result (u64 (Z.shiftl extracted bitsRead))),
         add_count remaining (set_index remaining s2))
    | (_, s1) => (Err, s1)
    end
  else (Ok result, s).

(* jxlio/bitreader.go:133-191, ReadBits *)
Definition ReadBits (bits : Z) : RM Z := fun s =>
  if bits =? 0 then (Ok 0, s)
  else if 64 <? bits then (Err, s)
  else
    let '((bitsRead, result), s1) := drainCur bits s in
    match readFull 8 bits bitsRead result s1 with
    | (Ok (bitsRead2, result2), s2) => readTail bits bitsRead2 result2 s2
    | (Err, s2) => (Err, s2)
    | (Panic, s2) => (Panic, s2)
    end.

(* jxlio/bitreader.go:94-109, ReadBytesToBuffer; the model returns the bytes
   read.  buflen is len(buffer); buffer[:numBytes] panics beyond it
   (simplification: capacity = length). *)
Definition ReadBytesToBuffer (buflen numBytes : nat) : RM (list Z) := fun s =>
  if negb (br_index s =? 0) then (Err, s)
  else if (buflen <? numBytes)%nat then (Panic, s)
  else match stream_read numBytes s with
       | (Ok got, s1) => if (length got =? numBytes)%nat then (Ok got, s1) else (Err, s1)
       | (_, s1) => (Err, s1)
       end.

(* jxlio/bitreader.go:210-216, ReadByte *)
Definition ReadByte : RM Z := v <- ReadBits 8 ;; rret (u8 v).

(* jxlio/bitreader.go:284-290, ReadBool *)
Definition ReadBool : RM bool := v <- readBit ;; rret (v =? 1).

(* jxlio/bitreader.go:269-282, ReadU32; c and u are the Go ints (c0..c3),
   (u0..u3). *)
Definition ReadU32 (c0 n0 c1 n1 c2 n2 c3 n3 : Z) : RM Z :=
  choice <- ReadBits 2 ;;
  let c := nth (Z.to_nat choice) [c0; c1; c2; c3] 0 in
  let u := nth (Z.to_nat choice) [n0; n1; n2; n3] 0 in
  b <- ReadBits (u32 u) ;;
  rret (u32 (u32 c + u32 b)).

(* jxlio/bitreader.go:218-227, ReadEnum *)
Definition ReadEnum : RM Z :=
  constant <- ReadU32 0 0 1 0 2 4 18 6 ;;
  if 63 <? constant then rerr else rret (i32 constant).

(* float32 results: sign, integer mantissa, exponent of two; the value is
   (-1)^f_neg * f_mant * 2^f_exp.  Keeps the sign of zero. *)
Record F32 := mkF32 { f_neg : bool; f_mant : Z; f_exp : Z }.

(* math.Float32frombits (standard library), for patterns with exponent
   field < 255. *)
Definition Float32frombits (t : Z) : F32 :=
  let sgn := Z.odd (Z.shiftr t 31) in
  let e := Z.land (Z.shiftr t 23) 255 in
  let frac := Z.land t (2 ^ 23 - 1) in
  if e =? 0 then mkF32 sgn frac (-149) else mkF32 sgn (2 ^ 23 + frac) (e - 150).

(* jxlio/bitreader.go:229-252, ReadF16.  The subnormal branch computes
   (1-2*sign)*mantissa/2^24 in float32; all three operations are exact
   because mantissa < 1024, so the result is given as sign/mantissa/exponent. *)
Definition ReadF16 : RM F32 :=
  bits16 <- ReadBits 16 ;;
  let mantissa := Z.land bits16 1023 in
  let biased_exp := Z.land (Z.shiftr (u32 bits16) 10) 31 in
  let sign := Z.land (Z.shiftr bits16 15) 1 in
  if biased_exp =? 31 then rerr
  else if biased_exp =? 0 then rret (mkF32 (sign =? 1) mantissa (-24))
  else
    let biased_exp2 := u32 (biased_exp + 112) in
    let mantissa2 := u64 (Z.shiftl mantissa 13) in
    let sign2 := u64 (Z.shiftl sign 31) in
    let total := Z.lor (Z.lor (u32 sign2) (u32 (Z.shiftl biased_exp2 23))) (u32 mantissa2) in
    rret (Float32frombits total).

(* jxlio/bitreader.go:254-267, ReadICCVarint: shift = 0,7,..,56, then the
   loop ends. *)
Fixpoint iccLoop (n : nat) (shift value : Z) : RM Z :=
  match n with
  | O => rret value
  | S n' =>
      b <- ReadBits 8 ;;
      let value' := Z.lor value (i32 (Z.shiftl (Z.land (i32 b) 127) shift)) in
      if b <=? 127 then rret value' else iccLoop n' (shift + 7) value'
  end.
Definition ReadICCVarint : RM Z := iccLoop 9 0 0.

(* jxlio/bitreader.go:324-349, loop of ReadU64; at most 7 iterations *)
Fixpoint u64Loop (fuel : nat) (shift value : Z) : RM Z :=
  match fuel with
  | O => rpanic
  | S f =>
      boolCheck <- ReadBool ;;
      if negb boolCheck then rret value
      else if shift =? 60 then
        data <- ReadBits 4 ;;
        rret (Z.lor value (u64 (Z.shiftl data shift)))
      else
        data <- ReadBits 8 ;;
        u64Loop f (shift + 8) (Z.lor value (u64 (Z.shiftl data shift)))
  end.

(* jxlio/bitreader.go:292-350, ReadU64 *)
Definition ReadU64 : RM Z :=
  index <- ReadBits 2 ;;
  if index =? 0 then rret 0
  else if index =? 1 then b <- ReadBits 4 ;; rret (u64 (1 + b))
  else if index =? 2 then b <- ReadBits 8 ;; rret (u64 (17 + b))
  else value <- ReadBits 12 ;; u64Loop 7 12 value.

(* jxlio/bitreader.go:352-375, ReadU8 *)
Definition ReadU8 : RM Z :=
  b <- ReadBool ;;
  if negb b then rret 0
  else
    n <- ReadBits 3 ;;
    if n =? 0 then rret 1
    else nn <- ReadBits (u32 n) ;; rret (i64 (u64 (nn + u64 (Z.shiftl 1 n)))).

(* jxlio/bitreader.go:381-405, ShowBits; on error the reader is not
   restored. *)
Definition ShowBits (bits : Z) : RM Z := fun s =>
  let curPos := br_pos s in
  match ReadBits (u32 bits) s with
  | (Ok b, s1) => (Ok b, mkBR (br_data s1) curPos (br_index s) (br_cur s) (br_count s))
  | (Err, s1) => (Err, s1)
  | (Panic, s1) => (Panic, s1)
  end.

(* jxlio/bitreader.go:87-90, AtEnd *)
Definition AtEnd : BR -> bool * BR := fun s =>
  match ShowBits 1 s with (Ok _, s1) => (false, s1) | (_, s1) => (true, s1) end.

(* jxlio/bitreader.go:420-425, loop of SkipBits *)
Fixpoint skipTail (n : nat) : RM unit :=
  match n with O => rret tt | S n' => _ <- readBit ;; skipTail n' end.

(* jxlio/bitreader.go:407-427, SkipBits.  The number of bytes actually
   delivered by Read is ignored; the unread end of the buffer is zero. *)
Definition SkipBits (bits : Z) : RM unit := fun s =>
  let numBytes := bits / 8 in
  match (if 0 <? numBytes then
           match stream_read (Z.to_nat numBytes) s with
           | (Ok got, s1) => (Ok tt, set_cur (nth (Z.to_nat (numBytes - 1)) got 0) s1)
           | (_, s1) => (Err, s1)
           end
         else (Ok tt, s)) with
  | (Ok _, s1) => skipTail (Z.to_nat (bits - u32 (numBytes * 8))) s1
  | (o, s1) => (o, s1)
  end.

(* jxlio/bitreader.go:429-435, Skip: bytes<<3 is computed in uint32 *)
Definition Skip (bytes : Z) : RM Z :=
  _ <- SkipBits (u32 (Z.shiftl bytes 3)) ;; rret bytes.

(* encoding/binary.LittleEndian.Uint64 (standard library) of a zero padded
   8-byte buffer *)
Fixpoint leUint (l : list Z) : Z :=
  match l with [] => 0 | b :: t => b + 256 * leUint t end.

(* jxlio/bitreader.go:437-448, ReadBytesUint64 *)
Definition ReadBytesUint64 (noBytes : Z) : RM Z :=
  if (noBytes <? 1) || (8 <? noBytes) then rerr
  else ba <- ReadBytesToBuffer 8 (Z.to_nat noBytes) ;; rret (leUint ba).

(* jxlio/bitreader.go:450-463, ZeroPadToByte *)
Definition ZeroPadToByte : RM unit := fun s =>
  if br_index s =? 0 then (Ok tt, s)
  else let remaining := u8 (8 - br_index s) in
       if 0 <? remaining then
         match ReadBits remaining s with
         | (Ok _, s1) => (Ok tt, s1)
         | (Err, s1) => (Err, s1)
         | (Panic, s1) => (Panic, s1)
         end
       else (Ok tt, s).

(* jxlio/bitreader.go:471-477, UnpackSigned: value&1, int32 conversion,
   addition, negation and arithmetic shift in int32 *)
Definition UnpackSigned (value : Z) : Z :=
  if Z.land value 1 =? 0 then i32 (Z.shiftr value 1)
  else Z.shiftr (i32 (- i32 (i32 value + 1))) 1.

(* jxlio/bitreader.go:479-485, UnpackSigned64 *)
Definition UnpackSigned64 (value : Z) : Z :=
  if Z.land value 1 =? 0 then i64 (Z.shiftr value 1)
  else Z.shiftr (i64 (- i64 (i64 value + 1))) 1.
