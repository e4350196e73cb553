(* jxlio/IOHelper.go: reading and skipping bytes of a reader. *)
From Coq Require Import ZArith List Bool.
From Verif Require Import GoBase.
Import ListNotations.
Open Scope Z_scope.

(* An io.ReadSeeker over the bytes src_data: the position and the number of reads so far.
   What Read gives is described by a policy: pieces i n is the number of bytes it would
   like to give to read number i if n bytes are wanted and there.  Read gives at least one
   byte (readers are discouraged from giving none without an error; so the break of
   IOHelper.go 36-38 and 69-71 is not modelled) and no more than wanted. *)
Record Source := mkSource { src_data : list Z; src_pos : nat; src_calls : nat }.
Local Notation "x <o- m ;; k" := (obind m (fun x => k)) (at level 60, m at next level, right associativity).

Section Pieces.
  Variable pieces : nat -> nat -> nat.

  (* in.Read(buf), n = len(buf) >= 1: Err is io.EOF. *)
  Definition Read (n : nat) (s : Source) : Outcome (list Z * Source) :=
    let rest := skipn (src_pos s) (src_data s) in
    let want := Nat.min n (length rest) in
    if (length rest =? 0)%nat then Err
    else
      let k := Nat.max 1 (Nat.min (pieces (src_calls s) want) want) in
      Ok (firstn k rest, mkSource (src_data s) (src_pos s + k) (S (src_calls s))).

  (* in.Seek(offset, io.SeekStart): negative offsets are errors. *)
  Definition Seek (offset : Z) (s : Source) : Outcome Source :=
    if offset <? 0 then Err else Ok (mkSource (src_data s) (Z.to_nat offset) (src_calls s)).

  (* IOHelper.go 28-43: the loop of ReadFullyWithOffset.  Every read gives at least one
     byte, so fuel = remaining is enough. *)
  Fixpoint readLoop (fuel n : nat) (remaining : Z) (tempBuffer : list Z) (s : Source) : Outcome (Z * list Z * Source) :=
    if remaining >? 0 then
      match fuel with
      | O => Err
      | S fuel =>
          r <o- Read n s ;;
          readLoop fuel n (remaining - Z.of_nat (length (fst r))) (tempBuffer ++ fst r) (snd r)
      end
    else Ok (remaining, tempBuffer, s).

  (* IOHelper.go 13-46: ReadFullyWithOffset.  The result is the number of bytes that
     remain, the buffer and the reader.  make panics for a negative length. *)
  Definition ReadFullyWithOffset (buffer : list Z) (offset len : Z) (s : Source) : Outcome (Z * list Z * Source) :=
    s <o- Seek offset s ;;
    if len >? 2 * 1024 * 1024 * 1024 then Err
    else if len <? 0 then Panic
    else
      r <o- readLoop (Z.to_nat len) (Z.to_nat len) len [] s ;;
      let '(remaining, tempBuffer, s) := r in
      let from := firstn (Z.to_nat len) tempBuffer in
      let k := Nat.min (length buffer) (length from) in
      Ok (remaining, firstn k from ++ skipn k buffer, s).

  (* IOHelper.go 48-50: ReadFully *)
  Definition ReadFully (buffer : list Z) (s : Source) : Outcome (Z * list Z * Source) :=
    ReadFullyWithOffset buffer 0 (Z.of_nat (length buffer)) s.

  (* IOHelper.go 62-72: the first loop of SkipFully *)
  Fixpoint skipLoop (fuel sz : nat) (remaining : Z) (s : Source) : Outcome (Z * Source) :=
    if remaining >? 0 then
      match fuel with
      | O => Err
      | S fuel =>
          r <o- Read sz s ;;
          skipLoop fuel sz (remaining - Z.of_nat (length (fst r))) (snd r)
      end
    else Ok (remaining, s).

  (* IOHelper.go 76-87: the second loop of SkipFully.  The result is Some if the function
     returns within the loop. *)
  Fixpoint skipMore (fuel : nat) (buffer : list Z) (remaining : Z) (s : Source) : Outcome (option Z * Z * list Z * Source) :=
    if remaining >? Z.of_nat (length buffer) then
      match fuel with
      | O => Err
      | S fuel =>
          r <o- ReadFully buffer s ;;
          let '(k, buffer', s) := r in
          let remaining := remaining - Z.of_nat (length buffer) + k in
          if negb (k =? 0) then Ok (Some remaining, remaining, buffer', s) else skipMore fuel buffer' remaining s
      end
    else Ok (None, remaining, buffer, s).

  (* IOHelper.go 53-89: SkipFully *)
  Definition SkipFully (n : Z) (s : Source) : Outcome (Z * Source) :=
    let sz := if n <? 10000 then n else 10000 in
    if sz <? 0 then Panic
    else
      r <o- skipLoop (Z.to_nat n) (Z.to_nat sz) n s ;;
      let '(remaining, s) := r in
      if remaining =? 0 then Ok (0, s)
      else
        m <o- skipMore (Z.to_nat remaining) (repeat 0 4096) remaining s ;;
        let '(result, remaining, buffer, s) := m in
        match result with
        | Some k => Ok (k, s)
        | None =>
            r <o- ReadFullyWithOffset buffer 0 remaining s ;;
            let '(k, _, s) := r in Ok (k, s)
        end.
End Pieces.
