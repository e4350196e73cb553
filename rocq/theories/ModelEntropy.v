(* Model of entropy/: hybrid integers, prefix-code tables, prefix and ANS
   symbol distributions, cluster maps, entropy streams with LZ77.
   Definitions only. *)
From Coq Require Import ZArith List Bool.
From Verif Require Import GoBase GoLoop Bits ModelBitReader ModelUtil.
Import ListNotations.
Open Scope Z_scope.

Definition rlift {A} (o : Outcome A) : RM A := fun s => (o, s).

(* entropy/HybridIntegerConfig.go:10-14 *)
Record HIC := mkHIC { hic_split : Z; hic_msb : Z; hic_lsb : Z }.

(* entropy/HybridIntegerConfig.go:24-56, NewHybridIntegerConfigWithReader *)
Definition NewHybridIntegerConfigWithReader (logAlphabetSize : Z) : RM HIC :=
  splitExp <- ReadBits (u32 (CeilLog1p logAlphabetSize)) ;;
  let split := i32 splitExp in
  if split =? logAlphabetSize then rret (mkHIC split 0 0)
  else
    bits <- ReadBits (u32 (CeilLog1p split)) ;;
    let msb := i32 bits in
    if split <? msb then rerr
    else
      bits <- ReadBits (u32 (CeilLog1p (i32 (split - msb)))) ;;
      let lsb := i32 bits in
      if split <? i32 (msb + lsb) then rerr
      else rret (mkHIC split msb lsb).

(* Go shift of an int32 by a count: left shifts drop high bits. *)
Definition shl32 (a n : Z) : Z := if 32 <=? n then 0 else i32 (Z.shiftl a n).

(* entropy/EntropyStream.go:378-396, ReadHybridInteger.  Shift counts are
   never negative for configurations with msb + lsb <= split. *)
Definition ReadHybridInteger (config : HIC) (token : Z) : RM Z :=
  let split := Z.shiftl 1 (hic_split config) in
  if token <? i32 split then rret token
  else
    let n := i32 (hic_split config - hic_lsb config - hic_msb config
                  + Z.shiftr (i32 (token - i32 split)) (hic_msb config + hic_lsb config)) in
    if 32 <? n then rerr
    else
      let low := Z.land token (i32 (Z.shiftl 1 (hic_lsb config)) - 1) in
      let token := i32 (Z.shiftr (u32 token) (hic_lsb config)) in
      let token := Z.land token (i32 (Z.shiftl 1 (hic_msb config)) - 1) in
      let token := Z.lor token (i32 (Z.shiftl 1 (hic_msb config))) in
      data <- ReadBits (u32 n) ;;
      rret (Z.lor (shl32 (Z.lor (shl32 token n) (i32 data)) (hic_lsb config)) low).

(* ---- entropy/VLCTable.go ---- *)
Record VLC := mkVLC { vt_bits : Z; vt_table : list (Z * Z) }.   (* (symbol, length) *)

(* math/bits.Reverse32 (standard library) *)
Definition Reverse32 (z : Z) : Z := bz (rev (zbits 32 z)).

(* entropy/VLCTable.go:28-51, first loop: (length, symbol, code) of the
   positive lengths and the final code.  A length above 32 is a negative
   shift count. *)
Fixpoint vlcCodes (i : Z) (lengths symbols : list Z) (code : Z) : Outcome (list (Z * Z * Z) * Z) :=
  match lengths with
  | [] => Ok ([], code)
  | l :: rest =>
      if l =? 0 then vlcCodes (i + 1) rest symbols code
      else
        let len := if 0 <? l then l else - l in
        if 32 <? len then Panic
        else
          let code' := code + Z.shiftl 1 (32 - len) in
          obind (if 0 <? l then
                   obind (match symbols with [] => Ok i | _ => slice_get symbols i end) (fun sym => Ok [(l, sym, code)])
                 else Ok []) (fun here =>
          if Z.shiftl 1 32 <? code' then Err
          else obind (vlcCodes (i + 1) rest symbols code') (fun '(t, c) => Ok (here ++ t, c)))
  end.

(* entropy/VLCTable.go:55-73, filling the entries of one code *)
Definition vlcFill (bits : Z) (e : Z * Z * Z) (table : list (Z * Z)) : Outcome (list (Z * Z)) :=
  let '(len, sym, code) := e in
  if len <=? bits then
    let index := Reverse32 (u32 code) in
    let offset := Z.shiftl 1 len in
    oloop (Z.to_nat (Z.shiftl 1 (bits - len))) 0 (fun j table =>
      let idx := u32 (index + Z.of_nat j * u32 offset) in
      obind (slice_get table idx) (fun '(oldSymbol, oldLen) =>
      if ((0 <? oldLen) || (0 <? oldSymbol)) && (negb (oldLen =? len) || negb (oldSymbol =? sym)) then Err
      else slice_set table idx (sym, len))) table
  else Err.
Fixpoint vlcFillAll (bits : Z) (l : list (Z * Z * Z)) (table : list (Z * Z)) : Outcome (list (Z * Z)) :=
  match l with [] => Ok table | e :: r => obind (vlcFill bits e table) (vlcFillAll bits r) end.

(* entropy/VLCTable.go:22-81, NewVLCTableWithSymbols *)
Definition NewVLCTableWithSymbols (bits : Z) (lengths symbols : list Z) : Outcome VLC :=
  obind (vlcCodes 0 lengths symbols 0) (fun '(codes, code) =>
  if negb (code =? Z.shiftl 1 32) then Err
  else
    obind (vlcFillAll bits codes (repeat (0, 0) (Z.to_nat (Z.shiftl 1 bits)))) (fun table =>
    Ok (mkVLC bits (map (fun '(s, l) => if l =? 0 then (-1, l) else (s, l)) table)))).

(* entropy/VLCTable.go:82-96, GetVLC *)
Definition GetVLC (t : VLC) : RM Z :=
  index <- ShowBits (vt_bits t) ;;
  e <- rlift (slice_get (vt_table t) (i64 index)) ;;
  _ <- SkipBits (u32 (snd e)) ;;
  rret (fst e).

(* ---- entropy/PrefixSymbolDistribution.go ---- *)
(* :11 and :12 *)
Definition level0Table : VLC := mkVLC 4
  [(0, 2); (4, 2); (3, 2); (2, 3); (0, 2); (4, 2); (3, 2); (1, 4);
   (0, 2); (4, 2); (3, 2); (2, 3); (0, 2); (4, 2); (3, 2); (5, 4)].
Definition codelenMap : list Z := [1; 2; 3; 4; 0; 5; 17; 6; 16; 7; 8; 9; 10; 11; 12; 13; 14; 15].

(* :51-71, the level-1 code lengths.  State: lengths, counts, totalCode,
   numCodes. *)
Record L1 := mkL1 { l1_len : list Z; l1_cnt : list Z; l1_total : Z; l1_num : Z }.
Fixpoint level1Loop (n : nat) (i : Z) (st : L1) : RM L1 :=
  match n with
  | O => rret st
  | S n' =>
      code <- GetVLC level0Table ;;
      p <- rlift (slice_get codelenMap i) ;;
      lens <- rlift (slice_set (l1_len st) p code) ;;
      c <- rlift (slice_get (l1_cnt st) code) ;;
      cnt <- rlift (slice_set (l1_cnt st) code (c + 1)) ;;
      let total := if code =? 0 then l1_total st else l1_total st + Z.shiftr 32 code in
      let num := if code =? 0 then l1_num st else l1_num st + 1 in
      if 32 <=? total then
        c0 <- rlift (slice_get cnt 0) ;;
        cnt <- rlift (slice_set cnt 0 (c0 + (17 - i))) ;;
        rret (mkL1 lens cnt total num)
      else level1Loop n' (i + 1) (mkL1 lens cnt total num)
  end.

(* :75-77 and :160-162, running sums over counts[1..n-1] *)
Fixpoint sumsFrom (acc : Z) (l : list Z) : list Z :=
  match l with [] => [] | c :: t => let a := acc + c in a :: sumsFrom a t end.
(* :80-85 and :164-169, counting sort from the last symbol down: state is
   (counts, scrambled lengths, symbols) *)
Fixpoint scramble (n : nat) (lens : list Z) (st : list Z * list Z * list Z) : Outcome (list Z * list Z * list Z) :=
  match n with
  | O => Ok st
  | S i =>
      let '(cnt, sl, ss) := st in
      obind (slice_get lens (Z.of_nat i)) (fun l =>
      obind (slice_get cnt l) (fun c =>
      obind (slice_set cnt l (c - 1)) (fun cnt' =>
      obind (slice_set sl (c - 1) l) (fun sl' =>
      obind (slice_set ss (c - 1) (Z.of_nat i)) (fun ss' =>
      scramble i lens (cnt', sl', ss'))))))
  end.

(* :98-156, the level-2 code lengths.  State: lengths, counts, totalCode,
   prevRepeatCount, prevZeroCount, prev. *)
Record L2 := mkL2 { l2_len : list Z; l2_cnt : list Z; l2_total : Z; l2_rep : Z; l2_zero : Z; l2_prev : Z }.
Fixpoint setRange (n : nat) (i v : Z) (l : list Z) : Outcome (list Z) :=
  match n with O => Ok l | S n' => obind (slice_set l i v) (setRange n' (i + 1) v) end.
Definition bump (l : list Z) (i d : Z) : Outcome (list Z) := obind (slice_get l i) (fun c => slice_set l i (c + d)).
Fixpoint level2Loop (fuel : nat) (tbl : VLC) (alphabetSize i : Z) (st : L2) : RM L2 :=
  match fuel with
  | O => rpanic
  | S f =>
      if alphabetSize <=? i then rret st
      else
        code <- GetVLC tbl ;;
        r <- (if code =? 16 then
                e <- ReadBits 2 ;;
                let extra0 := 3 + i32 e in
                let extra := if 0 <? l2_rep st then 4 * (l2_rep st - 2) - l2_rep st + extra0 else extra0 in
                lens <- rlift (setRange (Z.to_nat extra) i (l2_prev st) (l2_len st)) ;;
                cnt <- rlift (bump (l2_cnt st) (l2_prev st) extra) ;;
                rret (i + (extra - 1), mkL2 lens cnt (l2_total st + Z.shiftr 32768 (l2_prev st) * extra)
                                         (l2_rep st + extra) 0 (l2_prev st))
              else if code =? 17 then
                e <- ReadBits 3 ;;
                let extra0 := 3 + i32 e in
                let extra := if 0 <? l2_zero st then 8 * (l2_zero st - 2) - l2_zero st + extra0 else extra0 in
                cnt <- rlift (bump (l2_cnt st) 0 extra) ;;
                rret (i + (extra - 1), mkL2 (l2_len st) cnt (l2_total st) 0 (l2_zero st + extra) (l2_prev st))
              else
                lens <- rlift (slice_set (l2_len st) i code) ;;
                cnt <- rlift (bump (l2_cnt st) code 1) ;;
                rret (i, mkL2 lens cnt (if code =? 0 then l2_total st else l2_total st + Z.shiftr 32768 code)
                           0 0 (if code =? 0 then l2_prev st else code))) ;;
        let '(i', st') := r in
        if 32768 <=? l2_total st' then
          cnt <- rlift (bump (l2_cnt st') 0 (alphabetSize - i' - 1)) ;;
          rret (mkL2 (l2_len st') cnt (l2_total st') (l2_rep st') (l2_zero st') (l2_prev st'))
        else level2Loop f tbl alphabetSize (i' + 1) st'
  end.

(* :49-175, populateComplexPrefix.  Go int32 arithmetic on the counts does
   not wrap: all quantities stay below 2^20. *)
Definition populateComplexPrefix (alphabetSize hskip : Z) : RM VLC :=
  st <- level1Loop (Z.to_nat (18 - hskip)) hskip
          (mkL1 (repeat 0 18) (hskip :: repeat 0 18) 0 0) ;;
  if (negb (l1_total st =? 32) && (2 <=? l1_num st)) || (l1_num st <? 1) then rerr
  else
    sc <- rlift (scramble 18 (l1_len st) (sumsFrom 0 (l1_cnt st), repeat 0 18, repeat 0 18)) ;;
    let '(_, sl, ss) := sc in
    level1Table <- (if l1_num st =? 1 then
                      s17 <- rlift (slice_get ss 17) ;; rret (mkVLC 0 [(s17, 0)])
                    else rlift (NewVLCTableWithSymbols 5 sl ss)) ;;
    let n := Z.to_nat alphabetSize in
    st2 <- level2Loop (S n) level1Table alphabetSize 0
             (mkL2 (repeat 0 n) (repeat 0 (S n)) 0 0 0 8) ;;
    c0 <- rlift (slice_get (l2_cnt st2) 0) ;;
    if negb (l2_total st2 =? 32768) && (c0 <? alphabetSize - 1) then rerr
    else
      sc2 <- rlift (scramble n (l2_len st2) (sumsFrom 0 (l2_cnt st2), repeat 0 n, repeat 0 n)) ;;
      let '(_, sl2, ss2) := sc2 in
      rlift (NewVLCTableWithSymbols 15 sl2 ss2).

(* A symbol distribution: the prefix one (table nil, or a VLC table) or the
   ANS one.  SetConfig stores the hybrid configuration. *)
Inductive SymDist :=
| PrefixDist (table : option VLC) (defaultSymbol : Z)
| AnsDist (logBucketSize : Z) (frequencies cutoffs symbols offsets : list Z).

(* slices.Sort (standard library) on four int32 *)
Fixpoint insertZ (x : Z) (l : list Z) : list Z :=
  match l with [] => [x] | y :: t => if x <=? y then x :: l else y :: insertZ x t end.
Fixpoint sortZ (l : list Z) : list Z := match l with [] => [] | x :: t => insertZ x (sortZ t) end.

Fixpoint readMany (n : nat) (bits : Z) : RM (list Z) :=
  match n with
  | O => rret []
  | S n' => v <- ReadBits bits ;; t <- readMany n' bits ;; rret (i32 v :: t)
  end.

(* :177-235, populateSimplePrefix *)
Definition populateSimplePrefix (logAlphabetSize : Z) : RM SymDist :=
  n <- ReadBits 2 ;;
  syms <- readMany (Z.to_nat (n + 1)) (u32 logAlphabetSize) ;;
  treeSelect <- (if n + 1 =? 4 then ReadBool else rret false) ;;
  match syms with
  | [a] => rret (PrefixDist None a)
  | [a; b] =>
      let s := if b <? a then [b; a; 0; 0] else [a; b; 0; 0] in
      t <- rlift (NewVLCTableWithSymbols 1 [1; 1; 0; 0] s) ;; rret (PrefixDist (Some t) 0)
  | [a; b; c] =>
      let s := if c <? b then [a; c; b; 0] else [a; b; c; 0] in
      t <- rlift (NewVLCTableWithSymbols 2 [1; 2; 2; 0] s) ;; rret (PrefixDist (Some t) 0)
  | [a; b; c; d] =>
      if treeSelect : bool then
        let s := if d <? c then [a; b; d; c] else [a; b; c; d] in
        t <- rlift (NewVLCTableWithSymbols 3 [1; 2; 3; 3] s) ;; rret (PrefixDist (Some t) 0)
      else
        t <- rlift (NewVLCTableWithSymbols 2 [2; 2; 2; 2] (sortZ syms)) ;; rret (PrefixDist (Some t) 0)
  | _ => rpanic
  end.

(* :20-48, NewPrefixSymbolDistributionWithReader *)
Definition NewPrefixSymbolDistributionWithReader (alphabetSize : Z) : RM SymDist :=
  let logAlphabetSize := CeilLog1p (alphabetSize - 1) in
  if alphabetSize =? 1 then rret (PrefixDist None 0)
  else
    hskip <- ReadBits 2 ;;
    if hskip =? 1 then populateSimplePrefix logAlphabetSize
    else t <- populateComplexPrefix alphabetSize hskip ;; rret (PrefixDist (Some t) 0).

(* ---- entropy/ANSSymbolDistribution.go ---- *)
(* :11 *)
Definition distPrefixTable : VLC := mkVLC 7
  [(10, 3); (12, 7); (7, 3); (3, 4); (6, 3); (8, 3); (9, 3); (5, 4);
   (10, 3); (4, 4); (7, 3); (1, 4); (6, 3); (8, 3); (9, 3); (2, 4);
   (10, 3); (0, 5); (7, 3); (3, 4); (6, 3); (8, 3); (9, 3); (5, 4);
   (10, 3); (4, 4); (7, 3); (1, 4); (6, 3); (8, 3); (9, 3); (2, 4);
   (10, 3); (11, 6); (7, 3); (3, 4); (6, 3); (8, 3); (9, 3); (5, 4);
   (10, 3); (4, 4); (7, 3); (1, 4); (6, 3); (8, 3); (9, 3); (2, 4);
   (10, 3); (0, 5); (7, 3); (3, 4); (6, 3); (8, 3); (9, 3); (5, 4);
   (10, 3); (4, 4); (7, 3); (1, 4); (6, 3); (8, 3); (9, 3); (2, 4);
   (10, 3); (13, 7); (7, 3); (3, 4); (6, 3); (8, 3); (9, 3); (5, 4);
   (10, 3); (4, 4); (7, 3); (1, 4); (6, 3); (8, 3); (9, 3); (2, 4);
   (10, 3); (0, 5); (7, 3); (3, 4); (6, 3); (8, 3); (9, 3); (5, 4);
   (10, 3); (4, 4); (7, 3); (1, 4); (6, 3); (8, 3); (9, 3); (2, 4);
   (10, 3); (11, 6); (7, 3); (3, 4); (6, 3); (8, 3); (9, 3); (5, 4);
   (10, 3); (4, 4); (7, 3); (1, 4); (6, 3); (8, 3); (9, 3); (2, 4);
   (10, 3); (0, 5); (7, 3); (3, 4); (6, 3); (8, 3); (9, 3); (5, 4);
   (10, 3); (4, 4); (7, 3); (1, 4); (6, 3); (8, 3); (9, 3); (2, 4)].

(* :205-257, generateAliasMapping.  The deques are used as stacks
   (AddFirst / RemoveFirst); RemoveFirst of an empty one returns nil, whose
   dereference panics.  Each round finishes one underfull bucket for good,
   so 2^logAlphabetSize rounds suffice. *)
Fixpoint aliasLoop (fuel : nat) (bucketSize : Z) (over under cutoffs symbols offsets : list Z)
  : Outcome (list Z * list Z * list Z) :=
  match over with
  | [] => Ok (cutoffs, symbols, offsets)
  | o :: over' =>
      match fuel, under with
      | S f, u :: under' =>
          obind (slice_get cutoffs u) (fun cu =>
          obind (slice_get cutoffs o) (fun co =>
          let co' := i32 (co - i32 (bucketSize - cu)) in
          obind (slice_set cutoffs o co') (fun cutoffs' =>
          obind (slice_set symbols u o) (fun symbols' =>
          obind (slice_set offsets u co') (fun offsets' =>
          if co' <? bucketSize then aliasLoop f bucketSize over' (o :: under') cutoffs' symbols' offsets'
          else if bucketSize <? co' then aliasLoop f bucketSize (o :: over') under' cutoffs' symbols' offsets'
          else aliasLoop f bucketSize over' under' cutoffs' symbols' offsets')))))
      | _, _ => Panic
      end
  end.
(* :224-231: indices in ascending order, each pushed to the front *)
Fixpoint aliasInit (i : Z) (bucketSize : Z) (freqs : list Z) (over under : list Z) : list Z * list Z :=
  match freqs with
  | [] => (over, under)
  | f :: t =>
      if bucketSize <? f then aliasInit (i + 1) bucketSize t (i :: over) under
      else if f <? bucketSize then aliasInit (i + 1) bucketSize t over (i :: under)
      else aliasInit (i + 1) bucketSize t over under
  end.
(* :248-256 *)
Definition aliasFinish (bucketSize : Z) (cutoffs symbols offsets : list Z) : list Z * list Z * list Z :=
  let idx := seq 0 (length cutoffs) in
  let full i := nth i cutoffs 0 =? bucketSize in
  (map (fun i => if full i then 0 else nth i cutoffs 0) idx,
   map (fun i => if full i then Z.of_nat i else nth i symbols 0) idx,
   map (fun i => if full i then 0 else i32 (nth i offsets 0 - nth i cutoffs 0)) idx).
Definition generateAliasMapping (logAlphabetSize alphabetSize uniqPos : Z) (frequencies : list Z) : Outcome SymDist :=
  let logBucketSize := 12 - logAlphabetSize in
  let bucketSize := Z.shiftl 1 logBucketSize in
  let tableSize := Z.to_nat (Z.shiftl 1 logAlphabetSize) in
  if 0 <=? uniqPos then
    Ok (AnsDist logBucketSize frequencies (repeat 0 tableSize) (repeat uniqPos tableSize)
          (map (fun i => Z.of_nat i * bucketSize) (seq 0 tableSize)))
  else if (tableSize <? length frequencies)%nat then Panic
  else
    let cutoffs := frequencies ++ repeat 0 (tableSize - length frequencies) in
    let '(over, under) := aliasInit 0 bucketSize frequencies [] [] in
    let under := rev (map Z.of_nat (seq (length frequencies) (tableSize - length frequencies))) ++ under in
    obind (aliasLoop tableSize bucketSize over under cutoffs (repeat 0 tableSize) (repeat 0 tableSize))
      (fun '(c, s, o) => let '(c, s, o) := aliasFinish bucketSize c s o in
                         Ok (AnsDist logBucketSize frequencies c s o)).

(* :102-112, up to three ones *)
Fixpoint countOnes (n : nat) : RM Z :=
  match n with
  | O => rret 0
  | S n' => b <- ReadBool ;; if b : bool then l <- countOnes n' ;; rret (l + 1) else rret 0
  end.
(* :132-154, log counts and runs.  State: logCounts, same, omitLog, omitPos *)
Fixpoint logCountLoop (fuel : nat) (alphabetSize i : Z) (lc same : list Z) (omitLog omitPos : Z)
  : RM (list Z * list Z * Z) :=
  match fuel with
  | O => rpanic
  | S f =>
      if alphabetSize <=? i then rret (lc, same, omitPos)
      else
        c <- GetVLC distPrefixTable ;;
        lc' <- rlift (slice_set lc i c) ;;
        if c =? 13 then
          rle <- ReadU8 ;;
          same' <- rlift (slice_set same i (rle + 5)) ;;
          logCountLoop f alphabetSize (i + (i32 rle + 3) + 1) lc' same' omitLog omitPos
        else if omitLog <? c then logCountLoop f alphabetSize (i + 1) lc' same c i
        else logCountLoop f alphabetSize (i + 1) lc' same omitLog omitPos
  end.
(* :159-197, the frequencies.  State: frequencies, totalCount, numSame, prev *)
Fixpoint freqLoop (n : nat) (i shift omitPos : Z) (lc same freqs : list Z) (total numSame prev : Z)
  : RM (list Z * Z) :=
  match n with
  | O => rret (freqs, total)
  | S n' =>
      s <- rlift (slice_get same i) ;;
      p <- (if s =? 0 then rret (numSame, prev)
            else if 0 <? i then f <- rlift (slice_get freqs (i - 1)) ;; rret (s - 1, f)
            else rret (s - 1, 0)) ;;
      let '(numSame, prev) := p in
      if negb (numSame =? 0) then
        freqs' <- rlift (slice_set freqs i prev) ;;
        freqLoop n' (i + 1) shift omitPos lc same freqs' (i32 (total + prev)) (numSame - 1) prev
      else
        c <- rlift (slice_get lc i) ;;
        if (i =? omitPos) || (c =? 0) then freqLoop n' (i + 1) shift omitPos lc same freqs total numSame prev
        else
          v <- (if c =? 1 then rret 1
                else
                  let bitcount := shift - Z.shiftr (12 - c + 1) 1 in
                  let bitcount := if bitcount <? 0 then 0 else bitcount in
                  let bitcount := if c - 1 <? bitcount then c - 1 else bitcount in
                  f <- ReadBits (u32 bitcount) ;;
                  rret (i32 (Z.shiftl 1 (c - 1) + i32 (Z.shiftl (i32 f) (c - 1 - bitcount))))) ;;
          freqs' <- rlift (slice_set freqs i v) ;;
          freqLoop n' (i + 1) shift omitPos lc same freqs' (i32 (total + v)) numSame prev
  end.

(* :21-200, NewANSSymbolDistribution up to the alias table: alphabetSize,
   uniqPos, frequencies *)
Definition readFrequencies (logAlphabetSize : Z) : RM (Z * Z * list Z) :=
  simple <- ReadBool ;;
  if simple : bool then
    dist1 <- ReadBool ;;
    if dist1 : bool then
      v1 <- ReadU8 ;;
      v2 <- ReadU8 ;;
      if v1 =? v2 then rerr
      else
        let alphabetSize := 1 + Z.max v1 v2 in
        if Z.shiftl 1 logAlphabetSize <? alphabetSize then rerr
        else
          freq <- ReadBits 12 ;;
          f1 <- rlift (slice_set (repeat 0 (Z.to_nat alphabetSize)) v1 (i32 freq)) ;;
          f2 <- rlift (slice_set f1 v2 (4096 - i32 freq)) ;;
          rret (alphabetSize, if i32 freq =? 0 then v2 else -1, f2)
    else
      x <- ReadU8 ;;
      f <- rlift (slice_set (repeat 0 (Z.to_nat (1 + x))) x 4096) ;;
      rret (1 + x, x, f)
  else
    flat <- ReadBool ;;
    if flat : bool then
      r <- ReadU8 ;;
      let alphabetSize := 1 + r in
      if Z.shiftl 1 logAlphabetSize <? alphabetSize then rerr
      else
        rret (alphabetSize, if alphabetSize =? 1 then 0 else -1,
              map (fun i => 4096 / alphabetSize + (if Z.of_nat i <? 4096 mod alphabetSize then 1 else 0))
                (seq 0 (Z.to_nat alphabetSize)))
    else
      l <- countOnes 3 ;;
      sh <- ReadBits (u32 l) ;;
      let shift := u64 (Z.lor sh (Z.shiftl 1 l) - 1) in
      if 13 <? shift then rerr
      else
        r <- ReadU8 ;;
        let alphabetSize := 3 + r in
        if Z.shiftl 1 logAlphabetSize <? alphabetSize then rerr
        else
          let n := Z.to_nat alphabetSize in
          t <- logCountLoop (S n) alphabetSize 0 (repeat 0 n) (repeat 0 n) (-1) (-1) ;;
          let '(lc, same, omitPos) := t in
          bad <- (if omitPos <? 0 then rret true
                  else if omitPos + 1 <? alphabetSize then
                    c <- rlift (slice_get lc (omitPos + 1)) ;; rret (c =? 13)
                  else rret false) ;;
          if bad : bool then rerr
          else
            ft <- freqLoop n 0 shift omitPos lc same (repeat 0 n) 0 0 0 ;;
            let '(freqs, total) := ft in
            freqs' <- rlift (slice_set freqs omitPos (i32 (4096 - total))) ;;
            rret (alphabetSize, -1, freqs').
Definition NewANSSymbolDistribution (logAlphabetSize : Z) : RM SymDist :=
  t <- readFrequencies logAlphabetSize ;;
  let '(alphabetSize, uniqPos, freqs) := t in
  rlift (generateAliasMapping logAlphabetSize alphabetSize uniqPos freqs).

(* entropy/ANSState.go:3-16 *)
Record ANSState := mkANS { ans_state : Z; ans_has : bool }.

(* entropy/ANSSymbolDistribution.go:259-296, ReadSymbol; on success the
   state object is updated *)
Definition ansReadSymbol (logBucketSize : Z) (frequencies cutoffs symbols offsets : list Z) (st : ANSState)
  : RM (Z * ANSState) :=
  state <- (if ans_has st then rret (ans_state st) else s <- ReadBits 32 ;; rret (i32 s)) ;;
  let index := Z.land state 4095 in
  let i := Z.shiftr (u32 index) logBucketSize in
  let pos := Z.land index (Z.shiftl 1 logBucketSize - 1) in
  c <- rlift (slice_get cutoffs i) ;;
  so <- (if c <=? pos then
           s <- rlift (slice_get symbols i) ;; o <- rlift (slice_get offsets i) ;; rret (s, i32 (o + pos))
         else rret (i, pos)) ;;
  let '(symbol, offset) := so in
  f <- rlift (slice_get frequencies symbol) ;;
  let state := i32 (i32 (f * i32 (Z.shiftr (u32 state) 12)) + offset) in
  state <- (if Z.land (u32 state) 4294901760 =? 0 then
              data <- ReadBits 16 ;; rret (Z.lor (i32 (Z.shiftl state 16)) (i32 data))
            else rret state) ;;
  rret (symbol, mkANS state true).

(* SymbolDistribution.ReadSymbol; entropy/PrefixSymbolDistribution.go:237-242 *)
Definition distReadSymbol (d : SymDist) (st : ANSState) : RM (Z * ANSState) :=
  match d with
  | PrefixDist None dflt => rret (dflt, st)
  | PrefixDist (Some t) _ => v <- GetVLC t ;; rret (v, st)
  | AnsDist lb f c s o => ansReadSymbol lb f c s o st
  end.

(* ---- entropy/EntropyStream.go ---- *)
(* :10-22 *)
Definition SPECIAL_DISTANCES : list (Z * Z) :=
  [(0, 1); (1, 0); (1, 1); (-1, 1); (0, 2); (2, 0); (1, 2); (-1, 2);
   (2, 1); (-2, 1); (2, 2); (-2, 2); (0, 3); (3, 0); (1, 3); (-1, 3);
   (3, 1); (-3, 1); (2, 3); (-2, 3); (3, 2); (-3, 2); (0, 4); (4, 0);
   (1, 4); (-1, 4); (4, 1); (-4, 1); (3, 3); (-3, 3); (2, 4); (-2, 4);
   (4, 2); (-4, 2); (0, 5); (3, 4); (-3, 4); (4, 3); (-4, 3); (5, 0);
   (1, 5); (-1, 5); (5, 1); (-5, 1); (2, 5); (-2, 5); (5, 2); (-5, 2);
   (4, 4); (-4, 4); (3, 5); (-3, 5); (5, 3); (-5, 3); (0, 6); (6, 0);
   (1, 6); (-1, 6); (6, 1); (-6, 1); (2, 6); (-2, 6); (6, 2); (-6, 2);
   (4, 5); (-4, 5); (5, 4); (-5, 4); (3, 6); (-3, 6); (6, 3); (-6, 3);
   (0, 7); (7, 0); (1, 7); (-1, 7); (5, 5); (-5, 5); (7, 1); (-7, 1);
   (4, 6); (-4, 6); (6, 4); (-6, 4); (2, 7); (-2, 7); (7, 2); (-7, 2);
   (3, 7); (-3, 7); (7, 3); (-7, 3); (5, 6); (-5, 6); (6, 5); (-6, 5);
   (8, 0); (4, 7); (-4, 7); (7, 4); (-7, 4); (8, 1); (8, 2); (6, 6);
   (-6, 6); (8, 3); (5, 7); (-5, 7); (7, 5); (-7, 5); (8, 4); (6, 7);
   (-6, 7); (7, 6); (-7, 6); (8, 5); (7, 7); (-7, 7); (8, 6); (8, 7)].

(* :25-39, EntropyStream.  The window of 2^20 int32 is a function from
   indices 0..2^20-1 (all accesses are masked). *)
Record ES := mkES {
  es_window : Z -> Z;
  es_clusterMap : list Z;
  es_dists : list (SymDist * HIC);
  es_lzLengthConfig : HIC;
  es_ans : ANSState;
  es_logAlphabetSize : Z;
  es_lz77MinSymbol : Z;
  es_lz77MinLength : Z;
  es_numToCopy77 : Z;
  es_copyPos77 : Z;
  es_numDecoded77 : Z;
  es_usesLZ77 : bool
}.
Definition winUpd (w : Z -> Z) (i v : Z) : Z -> Z := fun k => if k =? i then v else w k.
Definition set_ans (a : ANSState) (e : ES) : ES :=
  mkES (es_window e) (es_clusterMap e) (es_dists e) (es_lzLengthConfig e) a (es_logAlphabetSize e)
       (es_lz77MinSymbol e) (es_lz77MinLength e) (es_numToCopy77 e) (es_copyPos77 e) (es_numDecoded77 e) (es_usesLZ77 e).
Definition set_copy (n pos : Z) (e : ES) : ES :=
  mkES (es_window e) (es_clusterMap e) (es_dists e) (es_lzLengthConfig e) (es_ans e) (es_logAlphabetSize e)
       (es_lz77MinSymbol e) (es_lz77MinLength e) n pos (es_numDecoded77 e) (es_usesLZ77 e).
(* numDecoded77++; window[numDecoded77 & 0xFFFFF] = v *)
Definition record (v : Z) (e : ES) : ES :=
  let n := i32 (es_numDecoded77 e + 1) in
  mkES (winUpd (es_window e) (Z.land n 1048575) v) (es_clusterMap e) (es_dists e) (es_lzLengthConfig e) (es_ans e)
       (es_logAlphabetSize e) (es_lz77MinSymbol e) (es_lz77MinLength e) (es_numToCopy77 e) (es_copyPos77 e) n (es_usesLZ77 e).

(* Methods of EntropyStream: they change the stream and the reader. *)
Definition EM (A : Type) : Type := ES * BR -> Outcome A * (ES * BR).
Definition eret {A} (a : A) : EM A := fun s => (Ok a, s).
Definition eerr {A} : EM A := fun s => (Err, s).
Definition epanic {A} : EM A := fun s => (Panic, s).
Definition ebind {A B} (m : EM A) (f : A -> EM B) : EM B := fun s =>
  match m s with (Ok a, s') => f a s' | (Err, s') => (Err, s') | (Panic, s') => (Panic, s') end.
Notation "x <e- m ;; k" := (ebind m (fun x => k)) (at level 61, m at next level, right associativity).
Definition rd {A} (m : RM A) : EM A := fun '(e, s) => let '(r, s') := m s in (r, (e, s')).
Definition emod (f : ES -> ES) : EM unit := fun '(e, s) => (Ok tt, (f e, s)).
Definition eget {A} (f : ES -> A) : EM A := fun '(e, s) => (Ok (f e), (e, s)).
(* dist.ReadSymbol(reader, es.ansState) *)
Definition distRead (d : SymDist) : EM Z :=
  a <e- eget es_ans ;;
  r <e- rd (distReadSymbol d a) ;;
  _ <e- emod (set_ans (snd r)) ;;
  eret (fst r).

(* :313-320, one symbol out of a pending copy *)
Definition copyOne : EM Z :=
  e <e- eget (fun e => e) ;;
  let cp := i32 (es_copyPos77 e + 1) in
  let v := es_window e (Z.land cp 1048575) in
  _ <e- emod (fun e => record v (set_copy (i32 (es_numToCopy77 e - 1)) cp e)) ;;
  eret v.

(* :350-356: the distance of a copy *)
Definition lzDistance (distanceMultiplier distance : Z) : Outcome Z :=
  if distanceMultiplier =? 0 then Ok (i32 (distance + 1))
  else if distance <? 120 then
    obind (slice_get SPECIAL_DISTANCES distance) (fun '(a, b) => Ok (i32 (a + i32 (distanceMultiplier * b))))
  else Ok (i32 (distance - 119)).

(* :312-376, ReadSymbolWithMultiplier.  The tail call after a copy token
   repeats only when the copy length wrapped to a non-positive value; the
   fuel bounds the repetitions. *)
Fixpoint readSymbolFuel (fuel : nat) (context distanceMultiplier : Z) : EM Z :=
  match fuel with
  | O => epanic
  | S f =>
      n <e- eget es_numToCopy77 ;;
      if 0 <? n then copyOne
      else
        cm <e- eget es_clusterMap ;;
        dists <e- eget es_dists ;;
        if Z.of_nat (length cm) <=? context then eerr
        else
          cl <e- rd (rlift (slice_get cm context)) ;;
          if Z.of_nat (length dists) <=? cl then eerr
          else
            d <e- rd (rlift (slice_get dists cl)) ;;
            token <e- distRead (fst d) ;;
            lz <e- eget es_usesLZ77 ;;
            minSym <e- eget es_lz77MinSymbol ;;
            if lz && (minSym <=? token) then
              lcl <e- rd (rlift (slice_get cm (Z.of_nat (length cm) - 1))) ;;
              ld <e- rd (rlift (slice_get dists lcl)) ;;
              lc <e- eget es_lzLengthConfig ;;
              hi <e- rd (ReadHybridInteger lc (i32 (token - minSym))) ;;
              minLen <e- eget es_lz77MinLength ;;
              _ <e- emod (fun e => set_copy (i32 (minLen + hi)) (es_copyPos77 e) e) ;;
              token <e- distRead (fst ld) ;;
              distance <e- rd (ReadHybridInteger (snd ld) token) ;;
              distance <e- rd (rlift (lzDistance distanceMultiplier distance)) ;;
              let distance := if 1048576 <? distance then 1048576 else distance in
              nd <e- eget es_numDecoded77 ;;
              let distance := if nd <? distance then nd else distance in
              _ <e- emod (fun e => set_copy (es_numToCopy77 e) (i32 (nd - distance)) e) ;;
              readSymbolFuel f context distanceMultiplier
            else
              v <e- rd (ReadHybridInteger (snd d) token) ;;
              _ <e- (if lz : bool then emod (record v) else eret tt) ;;
              eret v
  end.
Definition ReadSymbolWithMultiplier (context distanceMultiplier : Z) : EM Z := fun st =>
  readSymbolFuel (S (S (8 * length (br_data (snd st))))) context distanceMultiplier st.
(* :300-302 *)
Definition ReadSymbol (context : Z) : EM Z := ReadSymbolWithMultiplier context 0.
(* :304-310, TryReadSymbol: an error panics *)
Definition TryReadSymbol (context : Z) : EM Z := fun st =>
  match ReadSymbol context st with (Ok v, st') => (Ok v, st') | (_, st') => (Panic, st') end.
(* :398-400 *)
Definition ValidateFinalState (e : ES) : bool := negb (ans_has (es_ans e)) || (ans_state (es_ans e) =? 1245184).

(* :133-149, inverse move-to-front *)
Fixpoint mtfShift (j : nat) (l : list Z) : list Z :=
  match j with O => l | S j' => mtfShift j' (list_set l j (nth j' l 0)) end.
Fixpoint invMTF (l mtf : list Z) : Outcome (list Z) :=
  match l with
  | [] => Ok []
  | index :: t =>
      obind (slice_get mtf index) (fun value =>
      let mtf' := if index =? 0 then mtf else list_set (mtfShift (Z.to_nat index) mtf) 0 value in
      obind (invMTF t mtf') (fun r => Ok (value :: r)))
  end.

Fixpoint readSymbols (n : nat) (e : ES) : RM (list Z * ES) := fun s =>
  match n with
  | O => (Ok ([], e), s)
  | S n' =>
      match ReadSymbol 0 (e, s) with
      | (Ok c, (e', s')) =>
          match readSymbols n' e' s' with
          | (Ok (t, e''), s'') => (Ok (c :: t, e''), s'')
          | (Err, s'') => (Err, s'')
          | (Panic, s'') => (Panic, s'')
          end
      | (Err, (_, s')) => (Err, s')
      | (Panic, (_, s')) => (Panic, s')
      end
  end.
Fixpoint readSimple (n : nat) (nbits : Z) : RM (list Z) :=
  match n with
  | O => rret []
  | S n' => v <- ReadBits (u32 nbits) ;; t <- readSimple n' nbits ;; rret (i64 v :: t)
  end.
(* :152-157 *)
Definition countClusters (cm : list Z) : Z := fold_left (fun n c => if n <=? c then c + 1 else n) cm 0.

(* :87-162, ReadClusterMap for numDists contexts; nested creates the nested
   stream.  Returns the map and the number of clusters. *)
Definition readClusterMapWith (nested : Z -> bool -> RM ES) (numDists : nat) (maxClusters : Z) : RM (list Z * Z) :=
  cm <- (if (numDists =? 1)%nat then rret [0]
         else
           simple <- ReadBool ;;
           if simple : bool then nbits <- ReadBits 2 ;; readSimple numDists nbits
           else
             useMtf <- ReadBool ;;
             es <- nested 1 (Z.of_nat numDists <=? 2) ;;
             r <- readSymbols numDists es ;;
             let '(cm, es') := r in
             if negb (ValidateFinalState es') then rerr
             else if useMtf : bool then rlift (invMTF cm (map Z.of_nat (seq 0 256)))
             else rret cm) ;;
  let n := countClusters cm in
  if maxClusters <? n then rerr else rret (cm, n).

Fixpoint rrepeat {A} (n : nat) (m : RM A) : RM (list A) :=
  match n with O => rret [] | S n' => a <- m ;; t <- rrepeat n' m ;; rret (a :: t) end.
Fixpoint rmapM {A B} (f : A -> RM B) (l : list A) : RM (list B) :=
  match l with [] => rret [] | a :: t => b <- f a ;; r <- rmapM f t ;; rret (b :: r) end.

(* :253-271 *)
Definition readAlphabetSize : RM Z :=
  b <- ReadBool ;;
  if b : bool then
    n <- ReadBits 4 ;;
    a <- ReadBits (u32 n) ;;
    rret (1 + i32 (Z.shiftl 1 n + a))
  else rret 1.

(* :187-294, LoadWithReader *)
Definition loadWith (rcm : nat -> Z -> RM (list Z * Z)) (numDists : Z) (disallowLZ77 : bool) : RM ES :=
  if numDists <=? 0 then rerr
  else
    usesLZ77 <- ReadBool ;;
    lz <- (if usesLZ77 : bool then
             if disallowLZ77 then rerr
             else
               minSymbol <- ReadU32 224 0 512 0 4096 0 8 15 ;;
               minLength <- ReadU32 3 0 4 0 5 2 9 8 ;;
               cfg <- NewHybridIntegerConfigWithReader 8 ;;
               rret (i32 minSymbol, i32 minLength, cfg, numDists + 1)
           else rret (0, 0, mkHIC 0 0 0, numDists)) ;;
    let '(minSymbol, minLength, lzcfg, numDists) := lz in
    cmn <- rcm (Z.to_nat numDists) numDists ;;
    let '(cm, numClusters) := cmn in
    prefixCodes <- ReadBool ;;
    las <- (if prefixCodes : bool then rret 15 else b <- ReadBits 2 ;; rret (5 + i32 b)) ;;
    let n := Z.to_nat numClusters in
    configs <- rrepeat n (NewHybridIntegerConfigWithReader las) ;;
    dists <- (if prefixCodes : bool then
                sizes <- rrepeat n readAlphabetSize ;;
                rmapM NewPrefixSymbolDistributionWithReader sizes
              else rrepeat n (NewANSSymbolDistribution las)) ;;
    rret (mkES (fun _ => 0) cm (combine dists configs) lzcfg (mkANS (-1) false) las minSymbol minLength 0 0 0 usesLZ77).

(* Streams nest at most three deep: the outermost; the one of its cluster
   map (one distribution, or two with LZ77); the one of that cluster map,
   which may not use LZ77 and has a single distribution.  Depth exhaustion
   would show as a Panic. *)
Fixpoint loadDepth (depth : nat) (numDists : Z) (disallowLZ77 : bool) : RM ES :=
  match depth with
  | O => rpanic
  | S d => loadWith (readClusterMapWith (loadDepth d)) numDists disallowLZ77
  end.
Definition NewEntropyStreamWithReader (numDists : Z) (disallowLZ77 : bool) : RM ES := loadDepth 3 numDists disallowLZ77.
Definition ReadClusterMap (numDists : nat) (maxClusters : Z) : RM (list Z * Z) :=
  readClusterMapWith (loadDepth 2) numDists maxClusters.
(* :65-72 and :183-185 *)
Definition NewEntropyStreamWithReaderAndNumDists (numDists : Z) : RM ES := NewEntropyStreamWithReader numDists false.
(* :74-78 and :168-181, LoadWithStream: same code, fresh state *)
Definition NewEntropyStreamWithStream (e : ES) : ES :=
  mkES (fun _ => 0) (es_clusterMap e) (es_dists e) (es_lzLengthConfig e) (mkANS (-1) false) (es_logAlphabetSize e)
       (es_lz77MinSymbol e) (es_lz77MinLength e) 0 0 0 (es_usesLZ77 e).
