(* Theorems about the image header. *)
From Coq Require Import ZArith List Bool Lia Arith ZifyBool.
From Verif Require Import GoBase Bits ModelBitReader SpecBitReader SpecCodes SpecGrammar ModelHeader SpecHeader
  ProofReads ProofGrammar ProofHeader.
Import ListNotations.
Open Scope Z_scope.

(* C13.  What the decoder does guarantee about accepted sizes: the per-side
   limits (2^18 at level 5; 2^28, stricter than required, at level 10), and
   the pixel limit as long as the product does not reach 2^32. *)
Theorem C13_size_limits_partial :
  forall level, level = 5 \/ level = 10 ->
  yields (readSizeHeader level) (fun d =>
    0 <= dim_w d <= (if level =? 5 then 2 ^ 18 else 2 ^ 28) /\
    1 <= dim_h d <= (if level =? 5 then 2 ^ 18 else 2 ^ 28) /\
    (level = 5 -> dim_w d * dim_h d < 2 ^ 32 -> dim_w d * dim_h d <= 2 ^ 30)).
Proof.
  intros level Hl. eapply exact_yields; [apply exact_size|]. intros c v H.
  pose proof (size_code_ok _ _ _ H Hl) as [H1 H2]. split; auto. split; auto.
  intros -> Hp.
  destruct H as (c1 & c2 & div8 & -> & _ & c3 & c4 & h & -> & Hh & c5 & c6 & r & -> & Hr & c7 & c8 & w & -> & Hw & Hok & -> & ->).
  cbn [dim_w dim_h] in *. destruct Hok as (_ & _ & Hm).
  rewrite Z.mod_small in Hm; nia.
Qed.
Print Assumptions C13_size_limits_partial.

Lemma square_size n x : x = 2 ^ Z.of_nat n - 1 -> (n = 18 \/ n = 28)%nat ->
  exists c, size_code wrapped_ratio_width code_size_ok (if (n =? 18)%nat then 5 else 10) c (mkDim (2 ^ Z.of_nat n) (2 ^ Z.of_nat n)).
Proof.
  intros -> Hn. destruct Hn as [->| ->].
  - exists ([false] ++ (zbits 2 (Z.of_nat 2) ++ zbits 18 (2 ^ 18 - 1)) ++ zbits 3 1 ++ [] ++ []).
    exists [false], ((zbits 2 (Z.of_nat 2) ++ zbits 18 (2 ^ 18 - 1)) ++ zbits 3 1 ++ [] ++ []), false.
    split; auto. split; [reflexivity|].
    exists (zbits 2 (Z.of_nat 2) ++ zbits 18 (2 ^ 18 - 1)), (zbits 3 1 ++ [] ++ []), (2 ^ 18). split; auto. split.
    { exists 2%nat, (2 ^ 18 - 1). split; [lia|]. cbv zeta. cbn [nth]. split; [|split; [reflexivity|lia]].
      change (2 ^ Z.of_nat 18) with (2 ^ 18). lia. }
    exists (zbits 3 1), ([] ++ []), 1. split; auto. split; [split; [reflexivity|change (2 ^ Z.of_nat 3) with 8; lia]|].
    exists [], [], (2 ^ 18). split; auto. split; [split; reflexivity|]. split; [|split; reflexivity].
    vm_compute. split; [discriminate|split; discriminate].
  - exists ([false] ++ (zbits 2 (Z.of_nat 3) ++ zbits 30 (2 ^ 28 - 1)) ++ zbits 3 1 ++ [] ++ []).
    exists [false], ((zbits 2 (Z.of_nat 3) ++ zbits 30 (2 ^ 28 - 1)) ++ zbits 3 1 ++ [] ++ []), false.
    split; auto. split; [reflexivity|].
    exists (zbits 2 (Z.of_nat 3) ++ zbits 30 (2 ^ 28 - 1)), (zbits 3 1 ++ [] ++ []), (2 ^ 28). split; auto. split.
    { exists 3%nat, (2 ^ 28 - 1). split; [lia|]. cbv zeta. cbn [nth]. split; [|split; [reflexivity|lia]].
      change (2 ^ Z.of_nat 30) with (2 ^ 30). lia. }
    exists (zbits 3 1), ([] ++ []), 1. split; auto. split; [split; [reflexivity|change (2 ^ Z.of_nat 3) with 8; lia]|].
    exists [], [], (2 ^ 28). split; auto. split; [split; reflexivity|]. split; [|split; reflexivity].
    vm_compute. split; discriminate.
Qed.

(* Finding: the pixel count is compared after wrapping to 32 bits, so a
   2^18 x 2^18 image (2^36 pixels) is accepted at level 5 and a 2^28 x 2^28
   image (2^56 pixels) at level 10. *)
Theorem C13_pixel_limit_refuted :
  (exists c, reads (readSizeHeader 5) c (mkDim (2 ^ 18) (2 ^ 18))) /\
  (exists c, reads (readSizeHeader 10) c (mkDim (2 ^ 28) (2 ^ 28))).
Proof.
  split.
  - destruct (square_size 18 (2 ^ 18 - 1) eq_refl (or_introl eq_refl)) as (c & H). exists c. apply (exact_size 5). exact H.
  - destruct (square_size 28 (2 ^ 28 - 1) eq_refl (or_intror eq_refl)) as (c & H). exists c. apply (exact_size 10). exact H.
Qed.
Print Assumptions C13_pixel_limit_refuted.
(* a 1024x1024 level 5 image: div8 = 0, 1+u(13) *)
Example C13_example :
  fst (readSizeHeader 5 (NewBitStreamReader [250; 31; 1])) = Ok (mkDim 1024 1024) /\
  fst (readSizeHeader 5 (NewBitStreamReader [254; 255; 255; 255; 255])) = Err.
Proof. split; reflexivity. Qed.

(* C14 *)
Theorem C14_ratio_partial :
  forall r h, 1 <= r <= 7 -> 0 <= h < 2 ^ 28 -> getWidthFromRatio r h = Ok (h * ratio_num r / ratio_den r).
Proof.
  intros r h Hr Hh.
  assert (E : getWidthFromRatio r h = Ok (wrapped_ratio_width r h)).
  { pose proof (exact_ratio r h ltac:(lia) ltac:(lia)) as [H _].
    specialize (H [] _ (conj eq_refl eq_refl) (NewBitStreamReader []) [] O).
    destruct H as (s' & H & _).
    - unfold reader_at, NewBitStreamReader, is_byte. cbn. repeat split; auto; try lia.
    - split; cbn [length]; [lia|intros i Hi; lia].
    - revert H. unfold lift, u32. rewrite (Z.mod_small r) by lia.
      destruct (getWidthFromRatio r h); try discriminate. intros H. congruence. }
  rewrite E, ratio_same; auto; try lia. pose proof (ratio_num_le r). nia.
Qed.
Print Assumptions C14_ratio_partial.
(* Finding: from 2^28 the product wraps; height 2^28 with ratio 16:9 gives
   width 0, and the level 10 size header accepts it. *)
Theorem C14_ratio_refuted :
  getWidthFromRatio 5 (2 ^ 28) = Ok 0 /\ 2 ^ 28 * ratio_num 5 / ratio_den 5 = 477218588 /\
  exists c, reads (readSizeHeader 10) c (mkDim 0 (2 ^ 28)).
Proof.
  split; [reflexivity|]. split; [reflexivity|].
  exists ([false] ++ (zbits 2 (Z.of_nat 3) ++ zbits 30 (2 ^ 28 - 1)) ++ zbits 3 5 ++ [] ++ []).
  apply (exact_size 10).
  exists [false], ((zbits 2 (Z.of_nat 3) ++ zbits 30 (2 ^ 28 - 1)) ++ zbits 3 5 ++ [] ++ []), false.
  split; auto. split; [reflexivity|].
  exists (zbits 2 (Z.of_nat 3) ++ zbits 30 (2 ^ 28 - 1)), (zbits 3 5 ++ [] ++ []), (2 ^ 28). split; auto. split.
  { exists 3%nat, (2 ^ 28 - 1). split; [lia|]. cbv zeta. cbn [nth]. split; [|split; [reflexivity|lia]].
    change (2 ^ Z.of_nat 30) with (2 ^ 30). lia. }
  exists (zbits 3 5), ([] ++ []), 5. split; auto. split; [split; [reflexivity|change (2 ^ Z.of_nat 3) with 8; lia]|].
  exists [], [], 0. split; auto. split; [split; reflexivity|]. split; [|split; reflexivity].
  vm_compute. split; discriminate.
Qed.
Print Assumptions C14_ratio_refuted.
Example C14_example : getWidthFromRatio 5 1080 = Ok 1920 /\ 1080 * ratio_num 5 / ratio_den 5 = 1920.
Proof. split; reflexivity. Qed.

(* C44 *)
Theorem C44_colour_encoding :
  yields readColourEncoding colour_ok /\ reads readColourEncoding [true] srgb /\
  exact readColourEncoding colour_code.
Proof.
  split; [|split].
  - eapply exact_yields; [apply exact_colour|]. apply colour_code_ok.
  - apply exact_colour. exists [true], [], true. split; auto. split; [reflexivity|]. split; reflexivity.
  - apply exact_colour.
Qed.
Print Assumptions C44_colour_encoding.
(* grey, D65, sRGB transfer, perceptual intent *)
Example C44_example :
  fst (readColourEncoding (NewBitStreamReader [20; 23; 0])) =
    Ok (mkCol false 1 1 (Some (mkXY 312700 329000)) 1 (prim_xy 1) (2 ^ 24 + 13) 0).
Proof. reflexivity. Qed.

(* C53.  For every ICC payload reader that does not panic, on every input. *)
Theorem C53_header_invariants :
  forall icc level, (forall n, 0 <= n < 2 ^ 32 -> exists R, exact (icc n) R) ->
  yields (ParseImageHeader icc level) (header_ok level).
Proof.
  intros icc level Hicc s d p Hr.
  set (R := fun n => fun c v => reads (icc n) c v).
  assert (Hy : yields (parseHeaderBody icc level) (header_ok level)).
  { apply (exact_yields _ (header_code implemented R level)).
    - apply exact_header. intros n Hn. destruct (Hicc n Hn) as (R' & H1 & H2). split; [auto|].
      intros s1 d1 p1 Hr1. specialize (H2 s1 d1 p1 Hr1). destruct (icc n s1) as [[v| |] s2]; auto.
      destruct H2 as (c & Hb & Hc & Hr2). exists c. split; auto. split; auto. unfold R. auto.
    - apply header_code_ok. }
  specialize (Hy s d p Hr). unfold ParseImageHeader, rbind. destruct (parseHeaderBody icc level s) as [[h| |] s1]; auto.
  destruct Hy as [Hok (q & Hq & Hr1)]. destruct (pad_ok s1 d q Hr1) as (s2 & -> & Hr2). cbn [rret]. split; auto.
  exists (8 * ((q + 7) / 8))%nat. split; auto.
  pose proof (Nat.div_mod (q + 7) 8 ltac:(lia)). pose proof (Nat.mod_upper_bound (q + 7) 8 ltac:(lia)). lia.
Qed.
Print Assumptions C53_header_invariants.
(* FF0A, 8x8 via ratio 1:1, all default *)
Definition ex_bytes : list Z := [255; 10; 65; 6].
Example C53_example :
  exists h s, ParseImageHeader (fun _ => rerr) 5 (NewBitStreamReader ex_bytes) = (Ok h, s) /\
    ih_size h = mkDim 8 8 /\ ih_orientation h = 1 /\ ih_colour h = srgb.
Proof. vm_compute. eexists. eexists. split; [reflexivity|]. repeat split. Qed.

(* C54.  The header parser accepts exactly the bit strings of the grammar
   of its dialect, returns their values, stops right behind, and then moves
   to the next byte boundary. *)
Theorem C54_header_language :
  forall icc icc_code level, (forall n, 0 <= n < 2 ^ 32 -> exact (icc n) (icc_code n)) ->
  exact (parseHeaderBody icc level) (header_code implemented icc_code level) /\
  (forall c h s d p, header_code implemented icc_code level c h -> reader_at s d p -> bits_at d p c ->
     exists s', ParseImageHeader icc level s = (Ok h, s') /\ reader_at s' d (8 * ((p + length c + 7) / 8))).
Proof.
  intros icc R level H. pose proof (exact_header icc R level H) as He. split; auto.
  intros c h s d p Hc Hr Hb. destruct (proj1 He c h Hc s d p Hr Hb) as (s1 & E & Hr1).
  unfold ParseImageHeader, rbind. rewrite E. destruct (pad_ok _ _ _ Hr1) as (s2 & -> & Hr2). exists s2. split; auto.
Qed.
Print Assumptions C54_header_language.

(* The dialect agrees with the standard on sizes up to 2^28, previews not in
   units of 8, no animation, empty extensions. *)
Theorem C54_header_standard_partial :
  forall icc icc_code level, (forall n, 0 <= n < 2 ^ 32 -> exact (icc n) (icc_code n)) ->
  forall c h, header_code iso_handled icc_code level c h ->
    header_code iso icc_code level c h /\ reads (parseHeaderBody icc level) c h.
Proof.
  intros icc R level H c h Hc. split.
  - exact (header_mono _ _ R level handled_iso c h Hc).
  - apply (exact_header icc R level H). exact (header_mono _ _ R level handled_implemented c h Hc).
Qed.
Print Assumptions C54_header_standard_partial.

(* Findings: a preview of 128 x 128 in units of 8 is read as 16 x 16; an
   extension of 8 bits is read as one of 8 bytes; a header with an animation
   is rejected. *)
Theorem C54_header_standard_refuted :
  (exists c, d_preview iso c (mkDim 128 128) /\ reads readPreviewHeader c (mkDim 16 16)) /\
  (exists c v d, ext_code iso c v /\ bits_at d 0 c /\ fst (readExtensions (NewBitStreamReader d)) = Err) /\
  (exists c v d, extra_fields_code iso 5 c v /\ bits_at d 0 c /\ fst (readExtraFields 5 (NewBitStreamReader d)) = Err).
Proof.
  split; [|split].
  - exists ([true] ++ (zbits 2 (Z.of_nat 0) ++ zbits 0 0) ++ zbits 3 1 ++ [] ++ []). split.
    + exists [true], ((zbits 2 (Z.of_nat 0) ++ zbits 0 0) ++ zbits 3 1 ++ [] ++ []), true. split; auto. split; [reflexivity|]. split; auto.
      exists (zbits 2 (Z.of_nat 0) ++ zbits 0 0), (zbits 3 1 ++ [] ++ []), 128. split; auto. split.
      { exists (zbits 2 (Z.of_nat 0) ++ zbits 0 0), [], 16. split; auto. split; [|split; reflexivity]. exists 0%nat, 0. cbn. repeat split; lia. }
      exists (zbits 3 1), ([] ++ []), 1. split; auto. split; [split; [reflexivity|change (2 ^ Z.of_nat 3) with 8; lia]|].
      exists [], [], 128. split; auto. split; [split; reflexivity|]. split; [lia|split; reflexivity].
    + apply exact_preview.
      exists [true], ((zbits 2 (Z.of_nat 0) ++ zbits 0 0) ++ zbits 3 1 ++ [] ++ []), true. split; auto. split; [reflexivity|]. split; auto.
      exists (zbits 2 (Z.of_nat 0) ++ zbits 0 0), (zbits 3 1 ++ [] ++ []), 16. split; auto. split.
      { exists (zbits 2 (Z.of_nat 0) ++ zbits 0 0), [], 16. split; auto. split; [|split; reflexivity]. exists 0%nat, 0. cbn. repeat split; lia. }
      exists (zbits 3 1), ([] ++ []), 1. split; auto. split; [split; [reflexivity|change (2 ^ Z.of_nat 3) with 8; lia]|].
      exists [], [], 16. split; auto. split; [split; reflexivity|]. split; [lia|split; reflexivity].
  - set (k := zbits 2 1 ++ zbits 4 0). set (l := zbits 2 1 ++ zbits 4 7). set (pl := zbits 8 0).
    exists (k ++ (l ++ []) ++ pl ++ []), (mkExt 1 ([0] :: repeat [] 63)), [65; 7; 0]. split; [|split].
    + exists k, ((l ++ []) ++ pl ++ []), 1. split; auto. split; [exact (u64c_1 0 ltac:(lia))|].
      exists (l ++ []), (pl ++ []), (8 :: repeat 0 63). split; auto. split.
      * cbn [ext_lengths]. exists l, [], 8. split; auto. split.
        { change (Z.testbit 1 (Z.of_nat 0)) with true. cbv iota. exists l, [], 8. split; auto.
          split; [exact (u64c_1 7 ltac:(lia))|]. split; [lia|split; reflexivity]. }
        exists [], [], (repeat 0 63). split; auto. split; [|split; reflexivity].
        assert (G : forall n i, (0 < i)%nat -> ext_lengths 1 i n [] (repeat 0 n)).
        { induction n as [|n IH]; intros i Hi; [split; reflexivity|]. cbn [ext_lengths repeat].
          exists [], [], 0. split; auto. split.
          - assert (E : Z.testbit 1 (Z.of_nat i) = false).
            { change 1 with (2 ^ 0). apply Z.pow2_bits_false. lia. }
            rewrite E. split; reflexivity.
          - exists [], [], (repeat 0 n). split; auto. split; [apply IH; lia|split; reflexivity]. }
        exact (G 63%nat 1%nat (le_n 1)).
      * exists pl, [], ([0] :: repeat [] 63). split; auto. split; [|split; reflexivity].
        cbn [ext_payloads_code repeat]. exists pl, [], [0]. split; [auto|]. split; [split; reflexivity|].
        exists [], [], (repeat [] 63). split; auto. split; [|split; reflexivity].
        assert (G : forall n, ext_payloads_code iso (repeat 0 n) [] (repeat [] n)).
        { induction n as [|n IH]; [split; reflexivity|]. cbn [ext_payloads_code repeat]. exists [], [], []. split; auto.
          split; [split; reflexivity|]. exists [], [], (repeat [] n). split; auto. split; [exact IH|split; reflexivity]. }
        exact (G 63%nat).
    + split; [vm_compute; lia|]. intros i Hi. change (length (k ++ (l ++ []) ++ pl ++ [])) with 20%nat in Hi.
      do 20 (destruct i as [|i]; [reflexivity|]). lia.
    + vm_compute. reflexivity.
  - set (a := (zbits 2 (Z.of_nat 0) ++ zbits 0 0) ++ (zbits 2 (Z.of_nat 0) ++ zbits 0 0) ++ (zbits 2 (Z.of_nat 0) ++ zbits 0 0) ++ [false] ++ []).
    exists (zbits 3 0 ++ [false] ++ [] ++ [false] ++ [] ++ [true] ++ a ++ []), (1, None, None), [32; 0]. split; [|split].
    + exists (zbits 3 0), ([false] ++ [] ++ [false] ++ [] ++ [true] ++ a ++ []), 0. split; auto.
      split; [split; [reflexivity|change (2 ^ Z.of_nat 3) with 8; lia]|].
      exists [false], ([] ++ [false] ++ [] ++ [true] ++ a ++ []), false. split; auto. split; [reflexivity|].
      exists [], ([false] ++ [] ++ [true] ++ a ++ []), None. split; auto. split; [split; reflexivity|].
      exists [false], ([] ++ [true] ++ a ++ []), false. split; auto. split; [reflexivity|].
      exists [], ([true] ++ a ++ []), None. split; auto. split; [split; reflexivity|].
      exists [true], (a ++ []), true. split; auto. split; [reflexivity|].
      exists a, [], tt. split; auto. split; [|split; reflexivity].
      cbn [d_animation iso]. unfold iso_animation.
      assert (U : forall c1 c2 n2 c3 n3 n1 c0, c_u32 c0 0 c1 n1 c2 n2 c3 n3 (zbits 2 (Z.of_nat 0) ++ zbits 0 0) c0).
      { intros. exists 0%nat, 0. cbv zeta. cbn [nth]. change (2 ^ Z.of_nat 0) with 1. split; [lia|]. split; [lia|]. split; [reflexivity|lia]. }
      eexists _, _, 100. split; [reflexivity|]. split; [apply U|].
      eexists _, _, 1. split; [reflexivity|]. split; [apply U|].
      eexists _, _, 0. split; [reflexivity|]. split; [apply U|].
      exists [false], [], false. split; auto. split; [reflexivity|split; reflexivity].
    + split; [vm_compute; lia|]. intros i Hi.
      change (length (zbits 3 0 ++ [false] ++ [] ++ [false] ++ [] ++ [true] ++ a ++ [])) with 13%nat in Hi.
      do 13 (destruct i as [|i]; [reflexivity|]). lia.
    + vm_compute. reflexivity.
Qed.
Print Assumptions C54_header_standard_refuted.
Example C54_example : forall icc_code, exists c h, header_code iso_handled icc_code 5 c h /\ ih_size h = mkDim 8 8.
Proof.
  intros R. do 2 eexists. split.
  - exists (zbits 16 0x0AFF), ([true] ++ zbits 5 0 ++ zbits 3 1 ++ [true; true]), 0x0AFF. split; [reflexivity|].
    split; [split; [reflexivity|vm_compute; split; [discriminate|reflexivity]]|]. split; [split; [reflexivity|left; reflexivity]|].
    exists ([true] ++ (zbits 5 0 ++ []) ++ zbits 3 1 ++ [] ++ []), ([true] ++ [] ++ [] ++ [] ++ [] ++ [] ++ [true] ++ [] ++ [] ++ [] ++ [] ++ [] ++ [] ++ []), (mkDim 8 8).
    split; [reflexivity|]. split.
    + exists [true], ((zbits 5 0 ++ []) ++ zbits 3 1 ++ [] ++ []), true. split; auto. split; [reflexivity|].
      exists (zbits 5 0 ++ []), (zbits 3 1 ++ [] ++ []), 8. split; auto. split.
      { exists (zbits 5 0), [], 0. split; auto. split; [split; [reflexivity|vm_compute; split; [discriminate|reflexivity]]|split; reflexivity]. }
      exists (zbits 3 1), ([] ++ []), 1. split; auto. split; [split; [reflexivity|vm_compute; split; [discriminate|reflexivity]]|].
      exists [], [], 8. split; auto. split; [split; reflexivity|]. split; [|split; reflexivity].
      split; [left; lia|lia].
    + exists [true], ([] ++ [] ++ [] ++ [] ++ [] ++ [true] ++ [] ++ [] ++ [] ++ [] ++ [] ++ [] ++ []), true. split; auto. split; [reflexivity|].
      exists [], ([] ++ [] ++ [] ++ [] ++ [true] ++ [] ++ [] ++ [] ++ [] ++ [] ++ [] ++ []), false. split; auto. split; [split; reflexivity|].
      exists [], ([] ++ [] ++ [] ++ [true] ++ [] ++ [] ++ [] ++ [] ++ [] ++ [] ++ []), (1, None, None). split; auto. split; [split; reflexivity|].
      exists [], ([] ++ [] ++ [true] ++ [] ++ [] ++ [] ++ [] ++ [] ++ [] ++ []), mid_default. split; auto. split; [split; reflexivity|].
      exists [], ([] ++ [true] ++ [] ++ [] ++ [] ++ [] ++ [] ++ [] ++ []), tone_default. split; auto. split; [split; reflexivity|].
      exists [], ([true] ++ [] ++ [] ++ [] ++ [] ++ [] ++ [] ++ []), (mkExt 0 (repeat [] 64)). split; auto. split; [split; reflexivity|].
      exists [true], ([] ++ [] ++ [] ++ [] ++ [] ++ [] ++ []), true. split; auto. split; [reflexivity|].
      exists [], [], None. split; auto. split; [split; reflexivity|].
      exists [], [], 0. split; auto. split; [split; reflexivity|].
      exists [], [], None. split; auto. split; [split; reflexivity|].
      exists [], [], None. split; auto. split; [split; reflexivity|].
      exists [], [], None. split; auto. split; [split; reflexivity|].
      exists [], [], None. split; auto. split; [split; reflexivity|]. split; reflexivity.
  - reflexivity.
Qed.
