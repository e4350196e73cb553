(* Properties of the frame layout: C16, C17, C31. *)
From Coq Require Import ZArith List Bool Lia Permutation ZifyBool ZifyNat.
From Verif Require Import GoBase GoLoop Bits ModelBitReader ModelUtil ModelEntropy ModelToc ModelGroups SpecBitReader SpecToc SpecGroups.
From Verif Require Import ProofBitReader ProofBitReader2 ProofReads ProofCodes ProofPerm ProofToc ProofGroups.
Import ListNotations.
Open Scope Z_scope.

(* ---- C16: permutations ---- *)
(* A permutation that is read is the one whose Lehmer code was sent, and it
   is a permutation that leaves the skipped prefix alone. *)
Theorem C16_read_is_permutation : forall size skip st p st', 0 <= skip <= size -> size < 2 ^ 32 - 1 ->
  readPermutation size skip st = (Ok p, st') ->
  Permutation (iota size) p /\ firstn (Z.to_nat skip) p = iota skip /\
  exists e st1 cs, ReadSymbol (toc_ctx size) st = (Ok e, st1) /\ u32 e <= size - skip /\
    code_seq (Z.to_nat (u32 e)) 0 st1 = (Ok cs, st') /\ length cs = Z.to_nat (u32 e) /\ lehmer_ok (size - skip) cs /\
    p = lehmer_decode (iota size) (full_code size skip cs).
Proof.
  intros size skip st p st' Hs Hm H. destruct (perm_bwd size skip st p st' Hs Hm H) as (e & st1 & cs & A & B & C & D & E & F).
  destruct (perm_result size skip cs Hs D ltac:(pose proof (u32_range e); lia)) as [P1 P2]. subst p.
  split; [exact P1|]. split; [exact P2|]. exists e, st1, cs. repeat split; assumption.
Qed.
Print Assumptions C16_read_is_permutation.

(* Conversely, whenever the symbols of a legal Lehmer code can be read, the
   permutation with that code is the result. *)
Theorem C16_code_is_read : forall size skip st e st1 cs st2, 0 <= skip <= size -> size < 2 ^ 32 - 1 ->
  ReadSymbol (toc_ctx size) st = (Ok e, st1) -> u32 e <= size - skip ->
  code_seq (Z.to_nat (u32 e)) 0 st1 = (Ok cs, st2) -> lehmer_ok (size - skip) cs -> length cs = Z.to_nat (u32 e) ->
  readPermutation size skip st = (Ok (lehmer_decode (iota size) (full_code size skip cs)), st2).
Proof. exact perm_fwd. Qed.
Print Assumptions C16_code_is_read.

(* Every permutation that leaves the prefix alone has exactly one code. *)
Theorem C16_every_permutation_has_a_code : forall size skip p, 0 <= skip <= size -> Permutation (iota size) p -> firstn (Z.to_nat skip) p = iota skip ->
  exists cs, lehmer_ok (size - skip) cs /\ Z.of_nat (length cs) = size - skip /\
    lehmer_decode (iota size) (full_code size skip cs) = p /\
    forall cs', lehmer_ok (size - skip) cs' -> length cs' = length cs -> lehmer_decode (iota size) (full_code size skip cs') = p -> cs' = cs.
Proof. exact perm_has_code. Qed.
Print Assumptions C16_every_permutation_has_a_code.

(* [3;1;0;2] is sent as [3;1;0;0]; with two positions skipped, [0;1;4;2;3] as [2] *)
Example C16_example :
  lehmer_ok 4 [3; 1] /\ lehmerToPermutation 4 (full_code 4 0 [3; 1]) = Ok [3; 1; 0; 2] /\
  lehmer_decode (iota 4) (full_code 4 0 [3; 1]) = [3; 1; 0; 2] /\
  lehmerToPermutation 5 (full_code 5 2 [2]) = Ok [0; 1; 4; 2; 3] /\ firstn 2 [0; 1; 4; 2; 3] = iota 2.
Proof. split; [cbn; lia|]. split; [vm_compute; reflexivity|]. split; [vm_compute; reflexivity|]. split; vm_compute; reflexivity. Qed.

(* ---- C17: sections ---- *)
(* A table without permutation is read as written: the flag, padding, the
   lengths, padding. *)
Theorem C17_plain_toc_partial : forall s d p lengths codes, reader_at s d p -> bits_at d p [false] ->
  Forall2 toc_code lengths codes -> bits_at d (byte_up (p + 1)) (concat codes) ->
  exists s', ReadTOC (Z.of_nat (length lengths)) s = (Ok (None, lengths), s') /\
    reader_at s' d (byte_up (byte_up (p + 1) + length (concat codes))).
Proof. exact toc_plain. Qed.
Print Assumptions C17_plain_toc_partial.

(* Without permutation and with every section starting inside the data,
   section i gets the declared bytes followed by four zero bytes, and the
   reader ends behind the last section.  Missing: permuted tables, and
   empty sections at the very end of the data (see below). *)
Theorem C17_sections_partial : forall s d start lengths codes, reader_at s d (8 * start) ->
  Forall2 toc_code lengths codes -> length lengths <> 1%nat ->
  (forall k, (k < length lengths)%nat -> section_start (Z.of_nat start) lengths k < Z.of_nat (length d) /\
     section_start (Z.of_nat start) lengths k + nth k lengths 0 <= Z.of_nat (length d)) ->
  exists readers s', setupBitReaders lengths s = (Ok readers, s') /\
    reader_at s' d (8 * Z.to_nat (section_start (Z.of_nat start) lengths (length lengths))) /\
    forall i, (i < length lengths)%nat -> Z.of_nat i < 2 ^ 32 ->
      getBitreader lengths readers (Z.of_nat i) =
        Ok (Buffer (byte_range d (section_start (Z.of_nat start) lengths (physical None i)) (nth (physical None i) lengths 0) ++ [0; 0; 0; 0])).
Proof.
  intros s d start lengths codes Hr HF H1 H. destruct (reader_al s d start Hr) as (Ha & Hd & Hp).
  assert (HL : Forall (fun l => 0 <= l < 2 ^ 32 - 4) lengths).
  { clear - HF. induction HF; constructor; auto. eapply toc_code_reads. eassumption. }
  destruct (sections_ok lengths s d (Z.of_nat start) Ha Hd ltac:(lia) HL H) as (bufs & s' & E & L & N & R).
  exists bufs, s'. split.
  { unfold setupBitReaders. destruct (Nat.eqb_spec (length lengths) 1); [contradiction|]. exact E. }
  split; [exact R|]. intros i Hi Hi2. unfold getBitreader, physical. destruct (Nat.leb_spec (length lengths) 1); [lia|].
  rewrite u32_small by lia. rewrite (slice_get_ok _ _ FrameReader) by lia. rewrite Nat2Z.id. f_equal.
  apply nth_error_nth. apply N. exact Hi.
Qed.
Print Assumptions C17_sections_partial.

Example C17_example :
  let d := [0; 0; 128; 0; 12; 0; 7; 8; 9; 5; 5] in
  let s := NewBitStreamReader d in
  exists s1 s2 rs, ReadTOC 3 s = (Ok (None, [0; 2; 3]), s1) /\ Forall2 toc_code [0; 2; 3] [repeat false 12; zbits 12 8; zbits 12 12] /\
    setupBitReaders [0; 2; 3] s1 = (Ok rs, s2) /\ getBitreader [0; 2; 3] rs 1 = Ok (Buffer [7; 8; 0; 0; 0; 0]) /\
    getBitreader [0; 2; 3] rs 2 = Ok (Buffer [9; 5; 5; 0; 0; 0; 0]).
Proof.
  cbv zeta. eexists _, _, _. split; [vm_compute; reflexivity|]. split.
  - repeat constructor.
    + exists 0, 0. split; [lia|]. cbv zeta. change (Z.to_nat 0) with 0%nat. cbn [nth]. split; [lia|]. split; reflexivity.
    + exists 0, 2. split; [lia|]. cbv zeta. change (Z.to_nat 0) with 0%nat. cbn [nth]. split; [lia|]. split; reflexivity.
    + exists 0, 3. split; [lia|]. cbv zeta. change (Z.to_nat 0) with 0%nat. cbn [nth]. split; [lia|]. split; reflexivity.
  - split; [vm_compute; reflexivity|]. split; vm_compute; reflexivity.
Qed.

(* A permuted table: the permutation [1;0;2;3;4] is read, but section 0 is
   still taken from the first range instead of the second. *)
Definition permuted_toc : list Z := toc_bytes_of
  ([true] ++ [false] ++ [true; false; false] ++ [true] ++ zbits 4 15 ++ [true] ++ zbits 4 0 ++ zbits 2 1 ++ zbits 2 0 ++ [true])
  [2; 1; 1; 1; 1] ++ [10; 11; 20; 30; 40; 50].
Theorem C17_permutation_ignored_refuted :
  exists s1 s2 rs, ReadTOC 5 (NewBitStreamReader permuted_toc) = (Ok (Some [1; 0; 2; 3; 4], [2; 1; 1; 1; 1]), s1) /\
    setupBitReaders [2; 1; 1; 1; 1] s1 = (Ok rs, s2) /\
    getBitreader [2; 1; 1; 1; 1] rs 0 <>
      Ok (Buffer (byte_range permuted_toc (section_start (Z.of_nat (br_pos s1)) [2; 1; 1; 1; 1] (physical (Some [1; 0; 2; 3; 4]) 0))
                    (nth (physical (Some [1; 0; 2; 3; 4]) 0) [2; 1; 1; 1; 1] 0) ++ [0; 0; 0; 0])).
Proof. eexists _, _, _. split; [vm_compute; reflexivity|]. split; [vm_compute; reflexivity|]. vm_compute. discriminate. Qed.
Print Assumptions C17_permutation_ignored_refuted.

(* An empty last section at the end of the data is an error. *)
Theorem C17_empty_last_section_refuted :
  exists s1 s2, ReadTOC 2 (NewBitStreamReader [0; 4; 0; 0; 99]) = (Ok (None, [1; 0]), s1) /\ br_pos s1 = 4%nat /\
    setupBitReaders [1; 0] s1 = (Err, s2).
Proof. eexists _, _. split; [vm_compute; reflexivity|]. split; [reflexivity|]. vm_compute. reflexivity. Qed.
Print Assumptions C17_empty_last_section_refuted.

(* ---- C31: groups ---- *)
(* Every pixel of the padded frame is in exactly one group and exactly one
   LF group; the padding is less than 16 pixels. *)
Theorem C31_groups_tile : forall g, geo_ok g ->
  exists n nl pw ph, numGroups g = Ok n /\ numLFGroups g = Ok nl /\ paddedWidth g = Ok pw /\ paddedHeight g = Ok ph /\
    pw = round_up (g_width g) (pad_unit g (g_fx g)) /\ ph = round_up (g_height g) (pad_unit g (g_fy g)) /\
    forall y x, 0 <= y < ph -> 0 <= x < pw ->
    (exists id, 0 <= id < n /\ (exists p s, getGroupLocation g id = Ok p /\ getGroupSize g id = Ok s /\ covers (g_dim g) p s y x) /\
      forall id' p s, 0 <= id' < n -> getGroupLocation g id' = Ok p -> getGroupSize g id' = Ok s -> covers (g_dim g) p s y x -> id' = id) /\
    (exists id, 0 <= id < nl /\ (exists p s, getLFGroupLocation g id = Ok p /\ getLFGroupSize g id = Ok s /\ covers (8 * g_dim g) p s y x) /\
      forall id' p s, 0 <= id' < nl -> getLFGroupLocation g id' = Ok p -> getLFGroupSize g id' = Ok s -> covers (8 * g_dim g) p s y x -> id' = id).
Proof.
  intros g Hg. destruct (counts g Hg) as (_ & _ & A & B & _). destruct (padded g Hg) as [C D].
  exists (nW g * nH g), (lW g * lH g), (pw g), (ph g). split; [exact A|]. split; [exact B|]. split; [exact C|]. split; [exact D|].
  split; [reflexivity|]. split; [reflexivity|]. exact (tiles g Hg).
Qed.
Print Assumptions C31_groups_tile.

(* The areas of the groups, and of the LF groups, add up to the frame. *)
Theorem C31_sizes_add_up : forall g, geo_ok g ->
  exists n nl pw ph, numGroups g = Ok n /\ numLFGroups g = Ok nl /\ paddedWidth g = Ok pw /\ paddedHeight g = Ok ph /\
    sum_to (Z.to_nat n) (fun id => gsize (getGroupSize g id)) = ph * pw /\
    sum_to (Z.to_nat nl) (fun id => gsize (getLFGroupSize g id)) = ph * pw.
Proof.
  intros g Hg. destruct (counts g Hg) as (_ & _ & A & B & _). destruct (padded g Hg) as [C D].
  exists (nW g * nH g), (lW g * lH g), (pw g), (ph g). split; [exact A|]. split; [exact B|]. split; [exact C|]. split; [exact D|].
  split; [exact (area g Hg _ _ _ _ (or_introl eq_refl) (grid_g g Hg))|exact (area g Hg _ _ _ _ (or_intror eq_refl) (grid_lf g Hg))].
Qed.
Print Assumptions C31_sizes_add_up.

(* Every group lies in its LF group, at a position inside 8 x 8. *)
Theorem C31_group_in_lf_group : forall g, geo_ok g ->
  exists n nl, numGroups g = Ok n /\ numLFGroups g = Ok nl /\
  forall id, 0 <= id < n ->
  exists k y x, lfGroupIndex g id = Ok k /\ 0 <= k < nl /\ groupPosInLFGroup g k id = Ok (y, x) /\ 0 <= y < 8 /\ 0 <= x < 8 /\
    exists pos size lpos lsize, getGroupLocation g id = Ok pos /\ getGroupSize g id = Ok size /\
      getLFGroupLocation g k = Ok lpos /\ getLFGroupSize g k = Ok lsize /\
      fst pos = 8 * fst lpos + y /\ snd pos = 8 * snd lpos + x /\
      forall a b, covers (g_dim g) pos size a b -> covers (8 * g_dim g) lpos lsize a b.
Proof.
  intros g Hg. destruct (counts g Hg) as (_ & _ & A & B & _). exists (nW g * nH g), (lW g * lH g).
  split; [exact A|]. split; [exact B|]. exact (in_lf g Hg).
Qed.
Print Assumptions C31_group_in_lf_group.

(* a 2500 x 1300 VarDCT frame with 4:2:0 subsampling and 256-pixel groups *)
Example C31_example : let g := mkGeo 2500 1300 256 1 1 true in
  geo_ok g /\ numGroups g = Ok 60 /\ numLFGroups g = Ok 2 /\ paddedWidth g = Ok 2512 /\ paddedHeight g = Ok 1312 /\
  getGroupSize g 59 = Ok (32, 208) /\ lfGroupIndex g 59 = Ok 1 /\ groupPosInLFGroup g 1 59 = Ok (5, 1).
Proof.
  cbv zeta. split.
  - constructor; cbn [g_width g_height g_dim g_fx g_fy]; try lia; [exists 1; cbn; lia|vm_compute; reflexivity].
  - repeat split; vm_compute; reflexivity.
Qed.
