(* Transcription of the table of contents and permutation part of
   frame/Frame.go. *)
From Coq Require Import ZArith List Bool.
From Verif Require Import GoBase GoLoop ModelBitReader ModelUtil ModelEntropy.
Import ListNotations.
Open Scope Z_scope.

(* frame/Frame.go:199-201, ctxFunc *)
Definition ctxFunc (x : Z) : Z := Z.min 7 (CeilLog1p x).

(* :223-236, the loop reading the Lehmer code; cnt iterations from i on *)
Fixpoint lehmerLoop (cnt : nat) (i size skip : Z) (lehmer : list Z) : EM (list Z) :=
  match cnt with
  | O => eret lehmer
  | S c =>
      ctxVal <e- (if skip <? i then rd (rlift (slice_get lehmer (i - 1))) else eret 0) ;;
      ii <e- ReadSymbol (ctxFunc ctxVal) ;;
      lehmer <e- rd (rlift (slice_set lehmer i (u32 ii))) ;;
      if u32 (size - i) <=? u32 ii then eerr
      else lehmerLoop c (i + 1) size skip lehmer
  end.

(* :240-247, tree[i] = i & (-i); index 0 unused *)
Definition lowbit (i : Z) : Z := Z.land i (- i).
Definition fenwickInit (size : Z) : Outcome (list Z) :=
  if u32 (size + 1) =? 0 then (if size <? 1 then Ok [] else Panic)
  else Ok (map (fun i => if (i =? 0)%nat then 0 else lowbit (Z.of_nat i)) (seq 0 (S (Z.to_nat size)))).

(* :249-263, findKth.  The mask doubles at most 33 times. *)
Fixpoint growMask (fuel : nat) (mask size : Z) : Outcome Z :=
  match fuel with
  | O => Panic
  | S f => if mask <=? size then growMask f (Z.shiftl mask 1) size else Ok mask
  end.
Fixpoint findLoop (fuel : nat) (tree : list Z) (size mask pos k : Z) : Outcome Z :=
  match fuel with
  | O => Panic
  | S f =>
      if 0 <? mask then
        if pos + mask <=? size then
          obind (slice_get tree (pos + mask)) (fun c =>
          if c <? k then findLoop f tree size (Z.shiftr mask 1) (pos + mask) (k - c)
          else findLoop f tree size (Z.shiftr mask 1) pos k)
        else findLoop f tree size (Z.shiftr mask 1) pos k
      else Ok (pos + 1)
  end.
Definition findKth (tree : list Z) (size k : Z) : Outcome Z :=
  obind (growMask 64 1 size) (fun mask => findLoop 64 tree size (Z.shiftr mask 1) 0 k).

(* :265-271, markUsed *)
Fixpoint markUsed (fuel : nat) (tree : list Z) (size pos : Z) : Outcome (list Z) :=
  match fuel with
  | O => Panic
  | S f =>
      if pos <=? size then
        obind (slice_get tree pos) (fun c =>
        obind (slice_set tree pos (c - 1)) (fun tree =>
        markUsed f tree size (pos + lowbit pos)))
      else Ok tree
  end.

(* :273-278 *)
Fixpoint permLoop (lehmer : list Z) (tree : list Z) (size : Z) : Outcome (list Z) :=
  match lehmer with
  | [] => Ok []
  | l :: t =>
      obind (findKth tree size (l + 1)) (fun val =>
      obind (markUsed (S (Z.to_nat size)) tree size val) (fun tree =>
      omap (cons (u32 (val - 1))) (permLoop t tree size)))
  end.
(* :238-280: the permutation of a Lehmer code of length size *)
Definition lehmerToPermutation (size : Z) (lehmer : list Z) : Outcome (list Z) :=
  obind (fenwickInit size) (fun tree => permLoop lehmer tree size).

(* :212-281, readPermutation; size and skip are uint32 *)
Definition readPermutation (size skip : Z) : EM (list Z) :=
  end_ <e- ReadSymbol (ctxFunc size) ;;
  if u32 (size - skip) <? u32 end_ then eerr
  else
    lehmer <e- lehmerLoop (Z.to_nat (u32 (u32 end_ + skip) - skip)) skip size skip (repeat 0 (Z.to_nat size)) ;;
    rd (rlift (lehmerToPermutation size lehmer)).

(* :127-177, ReadTOC: the permutation, if one is sent, and the lengths.
   tocEntries is a uint32. *)
Definition tocEntries (numGroups numLFGroups numPasses : Z) : Z :=
  if (numGroups =? 1) && (numPasses =? 1) then 1
  else u32 (1 + numLFGroups + 1 + numGroups * numPasses).
Definition ReadTOC (entries : Z) : RM (option (list Z) * list Z) :=
  permuted <- ReadBool ;;
  perm <- (if permuted : bool then
             tocStream <- NewEntropyStreamWithReaderAndNumDists 8 ;;
             fun s =>
               match readPermutation entries 0 (tocStream, s) with
               | (Ok p, (es, s')) => if negb (ValidateFinalState es) then (Err, s') else (Ok (Some p), s')
               | (Err, (_, s')) => (Err, s')
               | (Panic, (_, s')) => (Panic, s')
               end
           else rret None) ;;
  _ <- ZeroPadToByte ;;
  lengths <- rrepeat (Z.to_nat entries) (ReadU32 0 10 1024 14 17408 22 4211712 30) ;;
  _ <- ZeroPadToByte ;;
  rret (perm, lengths).

(* :179-197, readBuffer for the length of an entry: the bytes and four
   zeros.  length+4 is a uint32. *)
Definition readBuffer (len : Z) : RM (list Z) :=
  b <- ReadBytesToBuffer (Z.to_nat (u32 (len + 4))) (Z.to_nat len) ;;
  rret (b ++ repeat 0 (Z.to_nat (u32 (len + 4) - len))).

(* :480-494, setupBitReaders.  A section is either the frame's own reader
   (single section) or a reader over a buffer. *)
Inductive Section_ := FrameReader | Buffer (bytes : list Z).
Definition setupBitReaders (tocLengths : list Z) : RM (list Section_) :=
  if negb (length tocLengths =? 1)%nat then rmapM (fun l => b <- readBuffer l ;; rret (Buffer b)) tocLengths
  else rret [FrameReader].

(* :304-314, getBitreader *)
Definition getBitreader (tocLengths : list Z) (bitreaders : list Section_) (index : Z) : Outcome Section_ :=
  slice_get bitreaders (if (length tocLengths <=? 1)%nat then 0 else u32 index).

(* :294-302, SkipFrameData *)
Fixpoint SkipFrameData (tocLengths : list Z) : RM unit :=
  match tocLengths with [] => rret tt | l :: t => _ <- Skip l ;; SkipFrameData t end.
