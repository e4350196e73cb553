(* Model of the ICC profile reconstruction of bundle/image_header.go and of
   the upsampling weight tables.  Definitions only. *)
From Coq Require Import ZArith List Bool.
From Verif Require Import GoBase GoLoop ModelBitReader ModelUtil ModelHeader.
Import ListNotations.
Open Scope Z_scope.

(* bundle/image_header.go:677-685, shuffle.  len(buffer) < 2^31. *)
Definition shuffle (buffer : list Z) (width : Z) : Outcome (list Z) :=
  let n := Z.of_nat (length buffer) in
  obind (CeilDiv (u32 n) (u32 width)) (fun h =>
  let height := i32 h in
  oloop (length buffer) 0 (fun i result =>
    if height =? 0 then Panic
    else
      let i := Z.of_nat i in
      obind (slice_get buffer i) (fun v =>
      slice_set result (i32 (i32 (Z.rem i height * width) + Z.quot i height)) v))
    (repeat 0 (length buffer))).

(* bundle/image_header.go:687-721, GetICCContext *)
Definition isAlpha (b : Z) : bool := ((97 <=? b) && (b <=? 122)) || ((65 <=? b) && (b <=? 90)).
Definition isDigit (b : Z) : bool := ((48 <=? b) && (b <=? 57)) || (b =? 46) || (b =? 44).
Definition iccP1 (b1 : Z) : Z :=
  if isAlpha b1 then 0 else if isDigit b1 then 1
  else if b1 <=? 1 then 2 + b1
  else if (1 <? b1) && (b1 <? 16) then 4
  else if (240 <? b1) && (b1 <? 255) then 5
  else if b1 =? 255 then 6 else 7.
Definition iccP2 (b2 : Z) : Z :=
  if isAlpha b2 then 0 else if isDigit b2 then 1
  else if b2 <? 16 then 2 else if 240 <? b2 then 3 else 4.
Definition GetICCContext (buffer : list Z) (index : Z) : Outcome Z :=
  if index <=? 128 then Ok 0
  else
    obind (slice_get buffer (index - 1)) (fun b1 =>
    obind (slice_get buffer (index - 2)) (fun b2 =>
    Ok (1 + iccP1 (Z.land b1 255) + 8 * iccP2 (Z.land b2 255)))).

(* bundle/image_header.go:89-90 *)
Definition MNTRGB : list Z := [109; 110; 116; 114; 82; 71; 66; 32; 88; 89; 90; 32].
Definition ACSP : list Z := [97; 99; 115; 112].

(* bundle/image_header.go:920-985, GetICCPrediction *)
Definition GetICCPrediction (buffer : list Z) (i : Z) : Outcome Z :=
  let rest :=
    if i =? 70 then Ok 246 else if i =? 71 then Ok 214 else if i =? 73 then Ok 1
    else if i =? 78 then Ok 211 else if i =? 79 then Ok 45
    else if (80 <=? i) && (i <? 84) then slice_get buffer (i - 76)
    else Ok 0 in
  if i <=? 3 then Ok (Z.shiftr (i32 (Z.of_nat (length buffer))) (8 * (3 - i)))
  else if i =? 8 then Ok 4
  else if (12 <=? i) && (i <=? 23) then slice_get MNTRGB (i - 12)
  else if (36 <=? i) && (i <=? 39) then slice_get ACSP (i - 36)
  else
    obind (slice_get buffer 40) (fun b40 =>
    if b40 =? 65 then
      if (i =? 41) || (i =? 42) then Ok 80 else if i =? 43 then Ok 76 else rest
    else if b40 =? 77 then
      if i =? 41 then Ok 83 else if i =? 42 then Ok 70 else if i =? 43 then Ok 84 else rest
    else if b40 =? 83 then
      obind (slice_get buffer 41) (fun b41 =>
      if b41 =? 71 then
        if i =? 42 then Ok 73 else if i =? 43 then Ok 32 else rest
      else if b41 =? 85 then
        if i =? 42 then Ok 78 else if i =? 43 then Ok 87 else rest
      else rest)
    else rest).

(* State of GetDecodedICC: the command reader, the data reader, DecodedICC,
   resultPos. *)
Record ICS := mkICS { ic_c : BR; ic_d : BR; ic_buf : list Z; ic_pos : Z }.
Definition IM (A : Type) : Type := ICS -> Outcome A * ICS.
Definition iret {A} (a : A) : IM A := fun s => (Ok a, s).
Definition ierr {A} : IM A := fun s => (Err, s).
Definition ipanic {A} : IM A := fun s => (Panic, s).
Definition ibind {A B} (m : IM A) (f : A -> IM B) : IM B := fun s =>
  match m s with (Ok a, s') => f a s' | (Err, s') => (Err, s') | (Panic, s') => (Panic, s') end.
Notation "x <~ m ;; k" := (ibind m (fun x => k)) (at level 61, m at next level, right associativity).
Definition cmd {A} (m : RM A) : IM A := fun s =>
  let '(r, c) := m (ic_c s) in (r, mkICS c (ic_d s) (ic_buf s) (ic_pos s)).
Definition dat {A} (m : RM A) : IM A := fun s =>
  let '(r, d) := m (ic_d s) in (r, mkICS (ic_c s) d (ic_buf s) (ic_pos s)).
Definition ilift {A} (o : ICS -> Outcome A) : IM A := fun s => (o s, s).
(* h.DecodedICC[resultPos] = v; resultPos++ *)
Definition put (v : Z) : IM unit := fun s =>
  match slice_set (ic_buf s) (ic_pos s) (u8 v) with
  | Ok b => (Ok tt, mkICS (ic_c s) (ic_d s) b (i32 (ic_pos s + 1)))
  | Err => (Err, s)
  | Panic => (Panic, s)
  end.
Definition advance (n : Z) : IM unit := fun s =>
  (Ok tt, mkICS (ic_c s) (ic_d s) (ic_buf s) (i32 (ic_pos s + n))).
Fixpoint putAll (l : list Z) : IM unit :=
  match l with [] => iret tt | v :: t => _ <~ put v ;; putAll t end.
(* four bytes, most significant first *)
Definition put32 (v : Z) : IM unit := putAll [Z.shiftr v 24; Z.shiftr v 16; Z.shiftr v 8; v].
(* n data bytes *)
Fixpoint datBytes (n : nat) : IM (list Z) :=
  match n with
  | O => iret []
  | S n' => b <~ dat (ReadBits 8) ;; t <~ datBytes n' ;; iret (u8 b :: t)
  end.
Fixpoint copyData (n : nat) : IM unit :=
  match n with O => iret tt | S n' => b <~ dat (ReadBits 8) ;; _ <~ put b ;; copyData n' end.
(* make([]byte, num) of a negative size panics *)
Definition makeBytes (num : Z) : IM (list Z) := if num <? 0 then ipanic else datBytes (Z.to_nat num).
(* !commandReader.AtEnd() && GetBitsCount()>>3 < dataStart; br_count is
   GetBitsCount (jxlio/bitreader.go) *)
Definition moreCommands (dataStart : Z) : IM bool := fun s =>
  let '(e, c) := AtEnd (ic_c s) in
  (Ok (negb e && (Z.shiftr (br_count c) 3 <? u64 dataStart)), mkICS c (ic_d s) (ic_buf s) (ic_pos s)).

Definition t4 (a b c d : Z) : list Z := [a; b; c; d].
Definition rTRC := t4 114 84 82 67. Definition gTRC := t4 103 84 82 67. Definition bTRC := t4 98 84 82 67.
Definition rXYZ := t4 114 88 89 90. Definition gXYZ := t4 103 88 89 90. Definition bXYZ := t4 98 88 89 90.
Definition kXYZ := t4 107 88 89 90. Definition kTRC := t4 107 84 82 67.
Definition cprt := t4 99 112 114 116. Definition wtpt := t4 119 116 112 116. Definition bkpt := t4 98 107 112 116.
Definition chad := t4 99 104 97 100. Definition desc := t4 100 101 115 99. Definition chrm := t4 99 104 114 109.
Definition dmnd := t4 100 109 110 100. Definition dmdd := t4 100 109 100 100. Definition lumi := t4 108 117 109 105.
(* bundle/image_header.go:83-87 *)
Definition iccTags : list (list Z) :=
  [cprt; wtpt; bkpt; rXYZ; gXYZ; bXYZ; kXYZ; rTRC; gTRC; bTRC; kTRC; chad; desc; chrm; dmnd; dmdd; lumi].
Fixpoint bytesEq (a b : list Z) : bool :=
  match a, b with
  | [], [] => true
  | x :: s, y :: t => (x =? y) && bytesEq s t
  | _, _ => false
  end.

(* bundle/image_header.go:417-426: the first 128 bytes *)
Fixpoint iccHeader (n : nat) (i : Z) : IM unit :=
  match n with
  | O => iret tt
  | S n' =>
      e <~ dat (ReadBits 8) ;;
      p <~ ilift (fun s => GetICCPrediction (ic_buf s) i) ;;
      _ <~ put (i32 (i32 e + p)) ;;
      iccHeader n' (i + 1)
  end.

(* bundle/image_header.go:522-540, one tag table entry per name *)
Fixpoint putTags (three : bool) (tags : list (list Z)) (start size : Z) : IM unit :=
  match tags with
  | [] => iret tt
  | t :: r =>
      _ <~ putAll t ;; _ <~ put32 start ;; _ <~ put32 size ;;
      putTags three r (if three then i32 (start + size) else start) size
  end.
(* bundle/image_header.go:444-541, the tag list loop *)
Fixpoint tagLoop (fuel : nat) (dataStart prevStart prevSize : Z) : IM unit :=
  match fuel with
  | O => ipanic
  | S f =>
      more <~ moreCommands dataStart ;;
      if negb more then iret tt
      else
        command <~ cmd (ReadBits 8) ;;
        let tagCode := Z.land command 63 in
        if tagCode =? 0 then iret tt
        else
          tag <~ (if tagCode =? 1 then datBytes 4
                  else if tagCode =? 2 then iret rTRC
                  else if tagCode =? 3 then iret rXYZ
                  else if (4 <=? tagCode) && (tagCode <=? 21) then ilift (fun _ => slice_get iccTags (tagCode - 4))
                  else ierr) ;;
          tagStart <~ (if 0 <? Z.land command 64 then cmd ReadICCVarint else iret (i32 (prevStart + prevSize))) ;;
          tagSize <~ (if 0 <? Z.land command 128 then cmd ReadICCVarint
                      else if existsb (bytesEq tag) [rXYZ; gXYZ; bXYZ; kXYZ; wtpt; bkpt; lumi] then iret 20
                      else iret prevSize) ;;
          _ <~ putTags (tagCode =? 3)
                 (if tagCode =? 2 then [rTRC; gTRC; bTRC] else if tagCode =? 3 then [rXYZ; gXYZ; bXYZ] else [tag])
                 tagStart tagSize ;;
          tagLoop f dataStart tagStart tagSize
  end.

(* bundle/image_header.go:569-571 and 622-624: shuffled block written at
   resultPos; copy stops at the end of the buffer *)
Definition copyInto (b : list Z) : IM unit := fun s =>
  if (ic_pos s <? 0) || (Z.of_nat (length (ic_buf s)) <? ic_pos s) then (Panic, s)
  else
    let p := Z.to_nat (ic_pos s) in
    let n := Nat.min (length b) (length (ic_buf s) - p) in
    (Ok tt, mkICS (ic_c s) (ic_d s)
              (firstn p (ic_buf s) ++ firstn n b ++ skipn (p + n) (ic_buf s))
              (i32 (ic_pos s + i32 (Z.of_nat (length b))))).

(* bundle/image_header.go:626-651, command 4 *)
Fixpoint prevValue (width : nat) (k base acc : Z) (buf : list Z) : Outcome Z :=
  match width with
  | O => Ok acc
  | S w => obind (slice_get buf (i32 (base + k))) (fun v =>
             prevValue w (k + 1) base (Z.lor (i32 (Z.shiftl acc 8)) (Z.land v 255)) buf)
  end.
Definition prevAt (width stride j : Z) (s : ICS) : Outcome Z :=
  prevValue (Z.to_nat width) 0 (i32 (ic_pos s - i32 (stride * (j + 1)))) 0 (ic_buf s).
Fixpoint putPredicted (n : nat) (j i width p : Z) (b : list Z) : IM unit :=
  match n with
  | O => iret tt
  | S n' =>
      if Z.of_nat (length b) <=? i + j then iret tt
      else
        v <~ ilift (fun _ => slice_get b (i + j)) ;;
        _ <~ put (u8 (v + u8 (Z.shiftr p (8 * (width - 1 - j))))) ;;
        putPredicted n' (j + 1) i width p b
  end.
Fixpoint predictLoop (fuel : nat) (i width stride order : Z) (b : list Z) : IM unit :=
  match fuel with
  | O => ipanic
  | S f =>
      if Z.of_nat (length b) <=? i then iret tt
      else
        p0 <~ ilift (prevAt width stride 0) ;;
        p1 <~ (if 1 <=? order then ilift (prevAt width stride 1) else iret 0) ;;
        p2 <~ (if 2 <=? order then ilift (prevAt width stride 2) else iret 0) ;;
        let p := if order =? 0 then p0 else if order =? 1 then i32 (i32 (2 * p0) - p1)
                 else i32 (i32 (i32 (3 * p0) - i32 (3 * p1)) + p2) in
        _ <~ putPredicted (Z.to_nat width) 0 i width p b ;;
        predictLoop f (i32 (i + width)) width stride order b
  end.

(* bundle/image_header.go:543-670, the data commands *)
Definition XYZ_ := t4 88 89 90 32. Definition text := t4 116 101 120 116. Definition mluc := t4 109 108 117 99.
Definition para := t4 112 97 114 97. Definition curv := t4 99 117 114 118. Definition sf32 := t4 115 102 51 50.
Definition gbd_ := t4 103 98 100 32.
Fixpoint dataLoop (fuel : nat) (dataStart : Z) : IM unit :=
  match fuel with
  | O => ipanic
  | S f =>
      more <~ moreCommands dataStart ;;
      if negb more then iret tt
      else
        command <~ cmd (ReadBits 8) ;;
        _ <~ (if command =? 1 then
                num <~ cmd ReadICCVarint ;; copyData (Z.to_nat num)
              else if (command =? 2) || (command =? 3) then
                num <~ cmd ReadICCVarint ;;
                b <~ makeBytes num ;;
                b' <~ ilift (fun _ => shuffle b (if command =? 2 then 2 else 4)) ;;
                copyInto b'
              else if command =? 4 then
                flags <~ cmd (ReadBits 8) ;;
                let width := Z.land flags 3 + 1 in
                if width =? 3 then ierr
                else
                  let order := Z.shiftr (Z.land flags 12) 2 in
                  if order =? 3 then ierr
                  else
                    stride <~ (if 0 <? Z.land flags 16 then cmd ReadICCVarint else iret width) ;;
                    pos <~ ilift (fun s => Ok (ic_pos s)) ;;
                    if pos <=? i32 (stride * 4) then ierr
                    else if stride <? width then ierr
                    else
                      num <~ cmd ReadICCVarint ;;
                      b <~ makeBytes num ;;
                      b' <~ (if (width =? 2) || (width =? 4) then ilift (fun _ => shuffle b width) else iret b) ;;
                      predictLoop (S (length b)) 0 width stride order b'
              else if command =? 10 then
                _ <~ putAll XYZ_ ;; _ <~ advance 4 ;; copyData 12
              else if (16 <=? command) && (command <? 24) then
                tag <~ ilift (fun _ => slice_get [XYZ_; desc; text; mluc; para; curv; sf32; gbd_] (command - 16)) ;;
                _ <~ putAll tag ;; advance 4
              else ierr) ;;
        dataLoop f dataStart
  end.

(* bundle/image_header.go:396-675, GetDecodedICC on a freshly parsed header
   (DecodedICC empty, EncodedICC = enc).  The fuel of the command loops is
   the number of encoded bytes plus one: each round reads a command byte. *)
Definition GetDecodedICC (enc : list Z) : Outcome (list Z) :=
  match ReadICCVarint (NewBitStreamReader enc) with
  | (Ok outputSize, c1) =>
      match ReadICCVarint c1 with
      | (Ok commandSize, c2) =>
          let commandStart := i32 (Z.shiftr (br_count c2) 3) in
          let dataStart := i32 (commandStart + commandSize) in
          if (dataStart <? 0) || (Z.of_nat (length enc) <? dataStart) then Panic
          else if outputSize <? 0 then Panic
          else
            let s0 := mkICS c2 (NewBitStreamReader (skipn (Z.to_nat dataStart) enc)) (repeat 0 (Z.to_nat outputSize)) 0 in
            let fuel := S (length enc) in
            let body :=
              _ <~ iccHeader (Z.to_nat (Z.min 128 outputSize)) 0 ;;
              done <~ ilift (fun s => Ok (ic_pos s =? outputSize)) ;;
              if done : bool then iret tt
              else
                tc <~ cmd ReadICCVarint ;;
                let tagCount := i32 (tc - 1) in
                if 0 <=? tagCount then
                  _ <~ put32 tagCount ;;
                  _ <~ tagLoop fuel dataStart (i32 (128 + i32 (tagCount * 12))) 0 ;;
                  dataLoop fuel dataStart
                else iret tt in
            match body s0 with
            | (Ok _, s) => Ok (ic_buf s)
            | (Err, _) => Err
            | (Panic, _) => Panic
            end
      | (Err, _) => Err
      | (Panic, _) => Panic
      end
  | (Err, _) => Err
  | (Panic, _) => Panic
  end.

(* bundle/image_header.go:890-913, the table index used for position
   (ky,kx,iy,ix) of the k-fold upsampling kernels (all quantities are small
   non-negative ints, so / is floor division) *)
Definition upFold (k kk i : Z) : Z := if kk <? k / 2 then i + 5 * kk else (4 - i) + 5 * (k - 1 - kk).
Definition upIndex (k ky kx iy ix : Z) : Z :=
  let j := upFold k ky iy in
  let i := upFold k kx ix in
  let x := if i <? j then j else i in
  let y := Z.lxor (Z.lxor x j) i in
  5 * k * y / 2 - y * (y - 1) / 2 + x - y.
Definition upWeight {A} (tbl : list A) (k ky kx iy ix : Z) : Outcome A := slice_get tbl (upIndex k ky kx iy ix).
