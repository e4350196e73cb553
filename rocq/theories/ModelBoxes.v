(* Model of core/read_jxl_boxes.go and of the entry of
   core/jxl_codestream_decoder.go.  Definitions only. *)
From Coq Require Import ZArith List Bool.
From Verif Require Import GoBase ModelBitReader.
Import ListNotations.
Open Scope Z_scope.

(* core/read_jxl_boxes.go:195-201, makeTag over the `length` bytes read
   (offset is 0 in every call) *)
Definition makeTag (bytes : list Z) : Z :=
  fold_left (fun tag b => Z.lor (u64 (Z.shiftl tag 8)) (Z.land b 255)) bytes 0.

(* core/read_jxl_boxes.go:11-17 *)
Definition JPEGXL_CONTAINER_HEADER : list Z :=
  [0x00; 0x00; 0x00; 0x0C; 0x4A; 0x58; 0x4C; 0x20; 0x0D; 0x0A; 0x87; 0x0A].
Definition JXLL : Z := makeTag [0x6A; 0x78; 0x6C; 0x6C].
Definition JXLP : Z := makeTag [0x6A; 0x78; 0x6C; 0x70].
Definition JXLC : Z := makeTag [0x6A; 0x78; 0x6C; 0x63].

(* core/read_jxl_boxes.go:19-25, ContainerBoxHeader; Processed is never
   read. *)
Record BoxHeader := mkBox { bh_type : Z; bh_size : Z; bh_isLast : bool; bh_offset : Z }.

(* core/read_jxl_boxes.go:190-193, SkipFully: the argument is an int64, the
   number handed to Skip is its uint32 conversion. *)
Definition SkipFully (i : Z) : RM Z := n <- Skip (u32 i) ;; rret (i64 (i - n)).

(* Position in the stream: reader.Seek(0, io.SeekCurrent). *)
Definition tell : RM Z := fun s => (Ok (Z.of_nat (br_pos s)), s).

(* core/read_jxl_boxes.go:88-186, one iteration of the loop of readAllBoxes
   after the four size bytes have been read; returns the level and the
   headers so far. *)
Definition boxBody (sizeBytes : list Z) (level : Z) (acc : list BoxHeader) : RM (Z * list BoxHeader) :=
  let boxSize := makeTag sizeBytes in
  boxSize <- (if boxSize =? 1 then
                b8 <- ReadBytesToBuffer 8 8 ;;
                let boxSize := makeTag b8 in
                rret (if 0 <? boxSize then u64 (boxSize - 8) else boxSize)
              else rret boxSize) ;;
  let boxSize := if 0 <? boxSize then u64 (boxSize - 8) else boxSize in
  boxTag <- ReadBytesToBuffer 4 4 ;;
  let tag := makeTag boxTag in
  if tag =? JXLP then
    _ <- ReadBytesToBuffer 4 4 ;;
    let boxSize := u64 (boxSize - 4) in
    pos <- tell ;;
    _ <- SkipFully (i64 boxSize) ;;
    rret (level, acc ++ [mkBox tag boxSize false pos])
  else if tag =? JXLL then
    if negb (boxSize =? 1) then rerr
    else l <- ReadByte ;;
         if negb (l =? 5) && negb (l =? 10) then rerr else rret (l, acc)
  else if tag =? JXLC then
    pos <- tell ;;
    _ <- SkipFully (i64 boxSize) ;;
    rret (level, acc ++ [mkBox tag boxSize false pos])
  else if 0 <? boxSize then
    s <- SkipFully (i64 boxSize) ;;
    if negb (s =? 0) then rerr else rret (level, acc)
  else rpanic.

(* core/read_jxl_boxes.go:78-87, the loop of readAllBoxes: io.EOF when
   reading the size field (aligned and nothing left) ends the scan.  None =
   the fuel did not suffice. *)
Fixpoint boxLoop (fuel : nat) (level : Z) (acc : list BoxHeader) (s : BR)
  : option (Outcome (Z * list BoxHeader) * BR) :=
  match fuel with
  | O => None
  | S f =>
      if (br_index s =? 0) && (length (br_data s) <=? br_pos s)%nat then Some (Ok (level, acc), s)
      else match ReadBytesToBuffer 8 4 s with
           | (Ok size4, s1) =>
               match boxBody size4 level acc s1 with
               | (Ok (level', acc'), s2) => boxLoop f level' acc' s2
               | (Err, s2) => Some (Err, s2)
               | (Panic, s2) => Some (Panic, s2)
               end
           | (Err, s1) => Some (Err, s1)
           | (Panic, s1) => Some (Panic, s1)
           end
  end.

Fixpoint bytes_eqb (a b : list Z) : bool :=
  match a, b with
  | [], [] => true
  | x :: a', y :: b' => (x =? y) && bytes_eqb a' b'
  | _, _ => false
  end.

(* core/read_jxl_boxes.go:39-70, ReadBoxHeader on a decoder-fresh reader
   (level 5, line 32-37), with jxlio/bitreader.go:193-208
   ReadByteArrayWithOffsetAndLength inlined. *)
Definition ReadBoxHeader (fuel : nat) (s : BR) : option (Outcome (Z * list BoxHeader) * BR) :=
  match ReadBytesToBuffer 12 12 (set_pos 0 s) with
  | (Ok buffer, s1) =>
      if bytes_eqb buffer JPEGXL_CONTAINER_HEADER then boxLoop fuel 5 [] s1
      else Some (Ok (5, [mkBox JXLC 0 true 0]), s1)
  | (Err, s1) => Some (Err, s1)
  | (Panic, s1) => Some (Panic, s1)
  end.

(* Result of the entry of decode (core/jxl_codestream_decoder.go:84-107) and
   of the magic check of ParseImageHeader (bundle/image_header.go:134-140).
   EntryNil is the early `return nil, nil` of line 98-100. *)
Inductive Entry := EntryNil | EntryCodestream (offset level : Z) (s : BR).

Definition decodeEntry (data : list Z) : option (Outcome Entry) :=
  match ReadBoxHeader (S (length data)) (NewBitStreamReader data) with
  | None => None
  | Some (Ok (level, boxes), s) =>
      match boxes with
      | [] => Some Panic                       (* boxHeaders[0] *)
      | box :: _ =>
          let s1 := set_pos (Z.to_nat (bh_offset box)) s in
          match AtEnd s1 with
          | (true, _) => Some (Ok EntryNil)
          | (false, s2) =>
              match ReadBits 16 s2 with
              | (Ok h, s3) => if u32 h =? 0x0AFF then Some (Ok (EntryCodestream (bh_offset box) level s3))
                              else Some Err
              | (Err, _) => Some Err
              | (Panic, _) => Some Panic
              end
          end
      end
  | Some (Err, _) => Some Err
  | Some (Panic, _) => Some Panic
  end.
