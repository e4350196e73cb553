(* C109: the entry points for the image package of Go's standard library. *)
From Coq Require Import ZArith List Bool Lia Arith ZifyBool ZifyNat.
From Verif Require Import GoBase GoLoop GoMatrix GoFloat32 Bits ModelBitReader ModelUtil ModelHeader ModelFrameHeader ModelBoxes ModelICC ModelImage ModelWriters ModelToImage ModelDecode ModelFile ModelReader.
From Verif Require Import SpecBitReader SpecCodes SpecGrammar SpecBoxes SpecHeader SpecFrameHeader SpecToc SpecStream SpecModular SpecModStream SpecModDecode SpecModFrame SpecImage SpecToImage SpecDecode SpecFile SpecReader.
From Verif Require Import ProofReads ProofCodes ProofHeader ProofBoxes ProofImage ProofToImage ProofModFrame ProofDecode ProofFile PropHeader PropFrameHeader PropModFrame PropDecode PropToImage PropFile.
Import ListNotations.
Open Scope Z_scope.

Lemma header_at o icc level d base ih c s : (forall n, 0 <= n < 2 ^ 32 -> exact (o_icc o n) (icc n)) ->
  SpecHeader.header_code iso_handled icc level c ih -> bits_at d (8 * base) c -> (base < length d)%nat -> reader_at (set_pos base s) d (8 * base) ->
  match AtEnd (set_pos base s) with
  | (true, _) => Ok None
  | (false, s) => match ParseImageHeader (o_icc o) level s with (Ok ih, _) => Ok (Some ih) | (Err, _) => Err | (Panic, _) => Panic end
  end = Ok (Some ih).
Proof.
  intros HO HC HB Hs R0. rewrite (not_at_end _ _ _ R0) by lia.
  destruct (C54_header_language (o_icc o) icc level HO) as (_ & HL).
  assert (HC' : SpecHeader.header_code implemented icc level c ih) by (eapply header_mono; [apply handled_implemented|exact HC]).
  destruct (HL c ih _ d (8 * base)%nat HC' R0 HB) as (s1 & E1 & R1). rewrite E1. reflexivity.
Qed.
Lemma header_file one o icc d ih frames : (forall n, 0 <= n < 2 ^ 32 -> exact (o_icc o n) (icc n)) -> file_bytes icc d ih frames ->
  headerOfFile one (o_icc o) d = Ok (Some ih).
Proof.
  intros HO (Hl & Hd & c & start & HC & HB & Es & Hs & HF). unfold headerOfFile.
  pose proof (header_ok d (S (length d)) Hd) as E. replace (length d <? 12)%nat with false in E by lia. rewrite (no_container _ _ _ _ HC HB Hl) in E. rewrite E.
  cbn [length Nat.ltb Nat.leb]. rewrite andb_false_r. cbn [bh_offset]. change (Z.to_nat 0) with 0%nat.
  assert (R0 : reader_at (set_pos 0 (mkBR d 12 0 0 0)) d 0).
  { change 0%nat with (8 * br_pos (set_pos 0 (mkBR d 12 0 0 0)))%nat at 2. apply ProofBoxes.al_reader; [|reflexivity]. apply al_set_pos; [apply al_12; assumption|cbn; lia]. }
  apply (header_at o icc 5 d 0 ih c _ HO HC HB); [lia|exact R0].
Qed.
Lemma header_container one o icc before after d ih frames : (forall n, 0 <= n < 2 ^ 32 -> exact (o_icc o n) (icc n)) ->
  Forall wf_box (before ++ BCode d :: after) -> Forall not_code before -> Forall not_code after -> codestream icc (last_level 5 (before ++ BCode d :: after)) d ih frames ->
  headerOfFile one (o_icc o) (container before after d) = Ok (Some ih).
Proof.
  intros HO Hw N1 N2 (Hd & c & start & HC & HB & Es & Hs & HF). set (D := container before after d).
  set (bs := before ++ BCode d :: after) in *. set (A := signature ++ concat (map enc_box before) ++ be4 (8 + Z.of_nat (length d)) ++ t_jxlc).
  assert (ED : D = A ++ d ++ concat (map enc_box after)).
  { unfold D, A, container. rewrite map_app, concat_app. cbn [map concat]. unfold enc_box at 2. cbn [enc_body]. rewrite <- !app_assoc. reflexivity. }
  assert (LA : length A = (12 + length (concat (map enc_box before)) + 8)%nat) by (unfold A; rewrite !app_length; cbn [signature be4 t_jxlc length]; lia).
  assert (HD : Forall is_byte D).
  { unfold D, container. fold bs. apply Forall_app. split; [unfold is_byte; repeat constructor; lia|]. clear - Hw. induction Hw as [|x l Hx _ IH]; cbn [map concat]; [constructor|]. apply Forall_app. split; [apply Hx|exact IH]. }
  assert (H12 : (12 <= length D)%nat) by (rewrite ED, app_length; lia).
  assert (EL : length D = (length A + length d + length (concat (map enc_box after)))%nat) by (rewrite ED, !app_length; lia).
  unfold headerOfFile. rewrite (header_ok D _ HD). replace (length D <? 12)%nat with false by lia.
  rewrite (proj2 (bytes_eqb_eq (sub D 0 12) JPEGXL_CONTAINER_HEADER) eq_refl).
  destruct (boxLoop_wf D bs (S (length D)) 5 [] _ (al_12 D HD H12) eq_refl Hw) as (s & E & Al & Ds).
  - reflexivity.
  - assert (Hbs : (length bs <= length (concat (map enc_box bs)))%nat).
    { clear - Hw. induction Hw as [|x l Hx _ IH]; cbn [map concat length]; [lia|]. rewrite app_length. pose proof (enc_box_length x Hx). lia. }
    unfold D, container. fold bs. rewrite app_length. lia.
  - rewrite E. cbn [app br_pos]. unfold bs at 1 2. rewrite code_boxes_app, (no_code_boxes before _ N1). cbn [app code_boxes]. rewrite (no_code_boxes after _ N2). cbn [app bh_offset length Nat.ltb Nat.leb].
    rewrite andb_false_r. rewrite Nat2Z.id. replace (12 + length (concat (map enc_box before)) + 8)%nat with (length A) by exact LA.
    assert (R0 : reader_at (set_pos (length A) s) D (8 * length A)).
    { change (length A) with (br_pos (set_pos (length A) s)) at 2. apply ProofBoxes.al_reader; [|exact Ds]. apply al_set_pos; [exact Al|rewrite Ds; lia]. }
    apply (header_at o icc (last_level 5 bs) D (length A) ih c s HO HC); [|lia|exact R0].
    rewrite ED. replace (8 * length A)%nat with (8 * length A + 0)%nat by lia. apply bits_inside. exact HB.
Qed.

Lemma depths_all D ih : bd_bits (ih_bd ih) = D -> Forall (fun e => bd_bits (ec_bd e) = D) (ih_extra ih) -> forall n c, 0 <= c -> c + Z.of_nat n <= Z.of_nat (channel_count ih) ->
  bitDepths n c ih = Ok (repeat D n).
Proof.
  intros B HE. assert (EC : ihColours ih = Z.of_nat (image_colours ih)) by (unfold ihColours, image_colours; change ModelHeader.CE_GRAY with 1; destruct (col_space (ih_colour ih) =? 1); reflexivity).
  induction n as [|n IH]; intros c C0 Cn; [reflexivity|]. cbn [bitDepths repeat]. unfold channel_count in *.
  destruct (Z.ltb_spec c (ihColours ih)) as [L|L].
  - cbn [obind]. rewrite IH by lia. rewrite B. reflexivity.
  - destruct (nth_error (ih_extra ih) (Z.to_nat (c - ihColours ih))) as [e|] eqn:EN; [|apply nth_error_None in EN; lia].
    assert (EG : slice_get (ih_extra ih) (c - ihColours ih) = Ok e) by (unfold slice_get; destruct (Z.ltb_spec (c - ihColours ih) 0); [lia|]; rewrite EN; reflexivity).
    rewrite EG. cbn [obind]. rewrite IH by lia. cbn [obind]. apply nth_error_In in EN. rewrite Forall_forall in HE. rewrite (HE _ EN). reflexivity.
Qed.
(* the image of the decoder, for samples of D bits *)
Definition srgb_img D ih l ai := mkJI l [] (repeat D (length l)) 0 0
  (mkHd D (ihHasAlpha ih) (ihColours ih) (col_intent (ih_colour ih)) true false) (ih_ow ih) (ih_oh ih) (col_space (ih_colour ih)) ai (col_prim (ih_colour ih)) (col_wp (ih_colour ih)) (2 ^ 24 + 13) (2 ^ 24 + 13) false.
Lemma decoded_img o fl d D ih H W out : lossless_image ih -> srgb_bits D ih -> 1 <= ih_orientation ih <= 8 ->
  headerOfFile false (o_icc o) d = Ok (Some ih) -> shows (decodeFile o false false d) ih H W out ->
  let k := ih_orientation ih in let h := fst (seen_size k H W) in let w := snd (seen_size k H W) in
  exists l ai, (forall peek, Decode o fl (mkRd d true peek) = obind (ToImage fl true (srgb_img D ih l ai)) (fun g => Ok (fst g))) /\
    in_target true (srgb_img D ih l ai) /\ length l = channel_count ih /\ Forall (int_channel h w) l /\
    (forall c y x, (c < channel_count ih)%nat -> (y < H)%nat -> (x < W)%nat -> int_at l c (fst (seen_at k H W y x)) (snd (seen_at k H W y x)) = out c y x) /\
    (forall y x, (y < H)%nat -> (x < W)%nat -> (fst (seen_at k H W y x) < h)%nat /\ (snd (seen_at k H W y x) < w)%nat) /\
    (col_space (ih_colour ih) = 1 -> (1 <= channel_count ih)%nat /\ ihColours ih = 1) /\
    (col_space (ih_colour ih) <> 1 -> ((if ihHasAlpha ih then 4 else 3) <= channel_count ih)%nat /\ ihColours ih = 3).
Proof.
  intros (X & _) (B & HE & IC & TF & PX & WX & AL) Or EH (l & ED & L & V) k h w.
  assert (HI : Forall (int_channel h w) l).
  { apply Forall_forall. intros ib Hib. destruct (In_nth _ _ ZERO_IB Hib) as (c & Hc & <-). apply V. lia. }
  assert (EJ : exists ai, NewJXLImageWithBuffer l ih = Ok (srgb_img D ih l ai)).
  { unfold NewJXLImageWithBuffer, srgb_img. rewrite X, IC, PX, B, TF, (depths_all D ih B HE) by lia.
    destruct AL as [AN|(e & t & EE & EA & ES)].
    - unfold ihHasAlpha. rewrite AN. exists (-1). reflexivity.
    - unfold ihHasAlpha. destruct (ih_alpha ih) as [|a r]; [exists (-1); reflexivity|]. cbn [hd] in EA. subst a. rewrite EE. exists 0. cbn. rewrite ES. reflexivity. }
  destruct EJ as (ai & EJ). exists l, ai.
  split; [|split; [right; split; reflexivity|]].
  - intros peek. unfold Decode. cbn [rd_seek rd_bytes negb]. unfold decodeImage. rewrite ED. cbn [obind]. rewrite EH. cbn [obind]. rewrite EJ. cbn [obind].
    assert (MT : matchesTarget (srgb_img D ih l ai) ih = true) by (unfold matchesTarget; rewrite PX, WX; reflexivity). rewrite MT. reflexivity.
  - split; [exact L|]. split; [exact HI|]. split; [|split; [|split]].
    + intros c y x Hc Hy Hx. unfold int_at. rewrite (nth_indep _ _ ZERO_IB) by lia. apply V; assumption.
    + intros y x Hy Hx. apply seen_in; [unfold orientation_of; lia|exact Hy|exact Hx].
    + intros G. unfold channel_count, image_colours, ihColours. rewrite G. cbn. lia.
    + intros G. assert (CC : (image_colours ih = 3)%nat) by (unfold image_colours; destruct (Z.eqb_spec (col_space (ih_colour ih)) 1); [contradiction|reflexivity]).
      split; [|unfold ihColours; change ModelHeader.CE_GRAY with 1; destruct (Z.eqb_spec (col_space (ih_colour ih)) 1); [contradiction|reflexivity]].
      unfold channel_count. rewrite CC. unfold ihHasAlpha. destruct AL as [->|(e & t & -> & _)]; cbn [length Nat.eqb negb]; [lia|]. destruct (length (ih_alpha ih) =? 0)%nat; cbn [negb]; lia.
Qed.
Lemma decoded o fl d ih H W out : lossless_image ih -> eight_bit ih -> 1 <= ih_orientation ih <= 8 ->
  headerOfFile false (o_icc o) d = Ok (Some ih) -> shows (decodeFile o false false d) ih H W out ->
  forall peek, exists g, Decode o fl (mkRd d true peek) = Ok g /\ go_shows g ih H W out.
Proof.
  intros HI H8 Or EH S peek. destruct (decoded_img o fl d 8 ih H W out HI H8 Or EH S) as (l & ai & E & IT & L & HL & AT & IN & GC & CC).
  rewrite E. set (k := ih_orientation ih) in *. set (h := fst (seen_size k H W)) in *. set (w := snd (seen_size k H W)) in *. set (j := srgb_img 8 ih l ai) in *.
  unfold go_shows. fold k h w. cbv zeta.
  destruct (Z.eqb_spec (col_space (ih_colour ih)) 1) as [G|G].
  - destruct (GC G) as (C1 & EC). destruct (C88_gray_partial h w fl true j IT eq_refl) as (pix & img' & E2 & P1 & P2); [cbn; lia|exact EC|exact HL|reflexivity|cbn; intros ->; cbn in L; lia|].
    rewrite E2. cbn [obind fst]. eexists. split; [reflexivity|]. exists pix. split; [reflexivity|]. split; [exact P1|].
    intros y x c Hy Hx Hc. destruct (IN y x Hy Hx) as (I1 & I2). rewrite P2 by assumption. replace c with 0%nat by lia. cbn [Nat.eqb andb]. cbn [im_buffer j srgb_img]. rewrite AT by (assumption || lia). reflexivity.
  - destruct (CC G) as (C4 & EC). destruct (C88_rgb_partial h w fl true j IT eq_refl) as (pix & img' & E2 & P1 & P2); [cbn; lia|exact EC|exact HL|reflexivity|cbn [j srgb_img im_header im_buffer hd_hasAlpha]; lia|].
    rewrite E2. cbn [obind fst]. eexists. split; [reflexivity|]. exists pix. split; [reflexivity|]. split; [exact P1|].
    intros y x c Hy Hx Hc. destruct (IN y x Hy Hx) as (I1 & I2). rewrite P2 by assumption. cbn [im_buffer im_header hd_hasAlpha j srgb_img]. unfold ihHasAlpha in *. rewrite negb_involutive.
    destruct ((c =? 3)%nat && (length (ih_alpha ih) =? 0)%nat) eqn:EA; [reflexivity|]. rewrite AT by (assumption || (destruct (length (ih_alpha ih) =? 0)%nat; cbn [negb] in C4; lia)). reflexivity.
Qed.

(* C109.  Decode turns the bytes of a lossless file with samples of 8 bits into
   the Go image with these samples. *)
Theorem C109_file_partial : forall o fl icc d ih frames H W out peek,
  (forall n, 0 <= n < 2 ^ 32 -> exact (o_icc o n) (icc n)) ->
  lossless_image ih -> eight_bit ih -> dim_w (ih_size ih) = Z.of_nat W -> dim_h (ih_size ih) = Z.of_nat H -> (1 <= W)%nat ->
  file_bytes icc d ih frames ->
  picture true ih fst (fun f _ P => P = snd f) plane_layer (drawable ih H W) frames (fun _ => None) (fun _ => None) (fun _ _ _ => 0) out ->
  exists g, Decode o fl (mkRd d true peek) = Ok g /\ go_shows g ih H W out.
Proof.
  intros o fl icc d ih frames H W out peek HO HI H8 EW EH W1 HF HP.
  destruct (codestream_size icc 5 d ih frames H W (proj2 HF) EW EH W1) as (HS & Or).
  apply (decoded o fl d ih H W out HI H8 Or (header_file false o icc d ih frames HO HF)).
  exact (C100_file_partial o icc d ih frames H W out HO HI EW EH W1 HF HP).
Qed.
Print Assumptions C109_file_partial.
(* In a container it is also found by the image package, if the reader can
   both peek and seek. *)
Theorem C109_container_partial : forall o fl icc before after d ih frames H W out peek,
  (forall n, 0 <= n < 2 ^ 32 -> exact (o_icc o n) (icc n)) ->
  lossless_image ih -> eight_bit ih -> dim_w (ih_size ih) = Z.of_nat W -> dim_h (ih_size ih) = Z.of_nat H -> (1 <= W)%nat ->
  Forall wf_box (before ++ BCode d :: after) -> Forall not_code before -> Forall not_code after ->
  codestream icc (last_level 5 (before ++ BCode d :: after)) d ih frames ->
  picture true ih fst (fun f _ P => P = snd f) plane_layer (drawable ih H W) frames (fun _ => None) (fun _ => None) (fun _ _ _ => 0) out ->
  exists g, Decode o fl (mkRd (container before after d) true peek) = Ok g /\ go_shows g ih H W out /\
    (peek = true -> imageDecode o fl (mkRd (container before after d) true peek) = Ok g).
Proof.
  intros o fl icc before after d ih frames H W out peek HO HI H8 EW EH W1 Hw N1 N2 HF HP.
  destruct (codestream_size icc _ d ih frames H W HF EW EH W1) as (HS & Or).
  destruct (decoded o fl (container before after d) ih H W out HI H8 Or (header_container false o icc before after d ih frames HO Hw N1 N2 HF)) with (peek := peek) as (g & E & S).
  - exact (C100_container_partial o icc before after d ih frames H W out HO HI EW EH W1 Hw N1 N2 HF HP).
  - exists g. split; [exact E|]. split; [exact S|]. intros ->. exact E.
Qed.
Print Assumptions C109_container_partial.

(* Colour images of 3 to 7 bits are scaled to 8 bits. *)
Theorem C109_scaled_partial : forall o fl icc d ih frames H W out peek D,
  (forall n, 0 <= n < 2 ^ 32 -> exact (o_icc o n) (icc n)) ->
  lossless_image ih -> D <= 7 -> srgb_bits D ih -> col_space (ih_colour ih) <> 1 -> dim_w (ih_size ih) = Z.of_nat W -> dim_h (ih_size ih) = Z.of_nat H -> (1 <= W)%nat ->
  file_bytes icc d ih frames ->
  picture true ih fst (fun f _ P => P = snd f) plane_layer (drawable ih H W) frames (fun _ => None) (fun _ => None) (fun _ _ _ => 0) out ->
  (forall c y x, (c < channel_count ih)%nat -> (y < H)%nat -> (x < W)%nat -> 0 <= out c y x <= 2 ^ D - 1) ->
  exists g, Decode o fl (mkRd d true peek) = Ok g /\ go_shows_scaled D g ih H W out.
Proof.
  intros o fl icc d ih frames H W out peek D HO HI HD HS G EW EH W1 HF HP HR.
  destruct (codestream_size icc 5 d ih frames H W (proj2 HF) EW EH W1) as (_ & Or).
  assert (D3 : 3 <= D) by (destruct HI as (_ & _ & _ & HI & _); destruct HS as (HS & _); lia).
  destruct (decoded_img o fl d D ih H W out HI HS Or (header_file false o icc d ih frames HO HF)) as (l & ai & E & IT & L & HL & AT & IN & _ & CC).
  { exact (C100_file_partial o icc d ih frames H W out HO HI EW EH W1 HF HP). }
  rewrite E. set (k := ih_orientation ih) in *. set (h := fst (seen_size k H W)) in *. set (w := snd (seen_size k H W)) in *. set (j := srgb_img D ih l ai) in *.
  destruct (CC G) as (C4 & EC).
  destruct (C88_scaled_partial h w D fl true j IT eq_refl) as (pix & img' & E2 & P1 & P2); [cbn; lia|exact EC|lia|exact HL|reflexivity|cbn [j srgb_img im_header im_buffer hd_hasAlpha]; lia| |].
  - intros c y x Hc Hy Hx. cbn [j srgb_img im_buffer] in *. rewrite L in Hc. destruct (seen_surj k H W y x) as (y0 & x0 & Hy0 & Hx0 & EYX); [unfold orientation_of; lia|exact Hy|exact Hx|]. specialize (AT c y0 x0 Hc Hy0 Hx0). rewrite EYX in AT. cbn [fst snd] in AT. rewrite AT. apply HR; assumption.
  - rewrite E2. cbn [obind fst]. eexists. split; [reflexivity|]. unfold go_shows_scaled. fold k h w. cbv zeta. exists pix. split; [reflexivity|]. split; [exact P1|].
    intros y x c Hy Hx Hc. destruct (IN y x Hy Hx) as (I1 & I2). specialize (P2 _ _ c I1 I2 Hc). cbn [im_buffer im_header hd_hasAlpha j srgb_img] in P2. unfold ihHasAlpha in *. rewrite negb_involutive in P2.
    destruct ((c =? 3)%nat && (length (ih_alpha ih) =? 0)%nat) eqn:EA; [exact P2|]. rewrite AT in P2 by (assumption || (destruct (length (ih_alpha ih) =? 0)%nat; cbn [negb] in C4; lia)). exact P2.
Qed.
Print Assumptions C109_scaled_partial.
(* Finding: of 16-bit samples the low byte is kept; so a sample of 256 is as dark as one of 0. *)
Theorem C109_sixteen_bits_refuted : forall o fl icc d ih frames H W out peek,
  (forall n, 0 <= n < 2 ^ 32 -> exact (o_icc o n) (icc n)) ->
  lossless_image ih -> srgb_bits 16 ih -> col_space (ih_colour ih) = 1 -> dim_w (ih_size ih) = Z.of_nat W -> dim_h (ih_size ih) = Z.of_nat H -> (1 <= W)%nat ->
  file_bytes icc d ih frames ->
  picture true ih fst (fun f _ P => P = snd f) plane_layer (drawable ih H W) frames (fun _ => None) (fun _ => None) (fun _ _ _ => 0) out ->
  let k := ih_orientation ih in let size := seen_size k H W in
  exists pix, Decode o fl (mkRd d true peek) = Ok (Gray (Z.of_nat (snd size)) (Z.of_nat (fst size)) pix) /\
    forall y x, (y < H)%nat -> (x < W)%nat ->
      pix_byte 1 (snd size) pix (fst (seen_at k H W y x)) (snd (seen_at k H W y x)) 0 = clamped 65535 (out 0%nat y x) mod 256.
Proof.
  intros o fl icc d ih frames H W out peek HO HI HS G EW EH W1 HF HP k size.
  destruct (codestream_size icc 5 d ih frames H W (proj2 HF) EW EH W1) as (_ & Or).
  destruct (decoded_img o fl d 16 ih H W out HI HS Or (header_file false o icc d ih frames HO HF)) as (l & ai & E & IT & L & HL & AT & IN & GC & _).
  { exact (C100_file_partial o icc d ih frames H W out HO HI EW EH W1 HF HP). }
  destruct (GC G) as (C1 & EC). rewrite E.
  destruct (proj1 C88_sixteen_bits_refuted (fst size) (snd size) fl true (srgb_img 16 ih l ai) IT eq_refl) as (pix & img' & E2 & P1 & P2); [cbn; lia|exact EC|exact HL|reflexivity|cbn; intros ->; cbn in L; lia|].
  rewrite E2. cbn [obind fst]. exists pix. split; [reflexivity|]. intros y x Hy Hx. destruct (IN y x Hy Hx) as (I1 & I2). unfold size, k. rewrite P2 by (assumption || lia). cbn [srgb_img im_buffer]. rewrite AT by (assumption || lia). reflexivity.
Qed.
Print Assumptions C109_sixteen_bits_refuted.

(* DecodeConfig tells the size and the colour space of the header. *)
Definition told (ih : ImageHeader) : Config :=
  mkCfg (if (col_space (ih_colour ih) =? 1) || (col_space (ih_colour ih) =? 2) then GrayModel else RGBAModel) (dim_w (ih_size ih)) (dim_h (ih_size ih)).
Lemma config_told o d ih peek : headerOfFile true (o_icc o) d = Ok (Some ih) -> DecodeConfig o (mkRd d true peek) = Ok (told ih).
Proof.
  intros E. unfold DecodeConfig, GetImageHeader. cbn [rd_seek rd_bytes negb]. rewrite E. cbn [obind]. unfold told. change CE_RGB with 0. change CE_XYB with 2. change ModelHeader.CE_GRAY with 1.
  destruct (Z.eqb_spec (col_space (ih_colour ih)) 0), (Z.eqb_spec (col_space (ih_colour ih)) 1), (Z.eqb_spec (col_space (ih_colour ih)) 2); try lia; reflexivity.
Qed.
Lemma shown_config g ih H W out : go_shows g ih H W out ->
  config_of g = mkCfg (if col_space (ih_colour ih) =? 1 then GrayModel else NRGBAModel) (Z.of_nat (snd (seen_size (ih_orientation ih) H W))) (Z.of_nat (fst (seen_size (ih_orientation ih) H W))).
Proof. intros (pix & -> & _). destruct (col_space (ih_colour ih) =? 1); reflexivity. Qed.
(* The two entry points agree on gray images that are not turned. *)
Theorem C109_config_partial : forall o fl icc d ih frames H W out peek,
  (forall n, 0 <= n < 2 ^ 32 -> exact (o_icc o n) (icc n)) ->
  lossless_image ih -> eight_bit ih -> dim_w (ih_size ih) = Z.of_nat W -> dim_h (ih_size ih) = Z.of_nat H -> (1 <= W)%nat ->
  file_bytes icc d ih frames ->
  picture true ih fst (fun f _ P => P = snd f) plane_layer (drawable ih H W) frames (fun _ => None) (fun _ => None) (fun _ _ _ => 0) out ->
  exists g cfg, Decode o fl (mkRd d true peek) = Ok g /\ go_shows g ih H W out /\ DecodeConfig o (mkRd d true peek) = Ok cfg /\
    (ih_orientation ih <= 4 \/ H = W -> cfg_w cfg = cfg_w (config_of g) /\ cfg_h cfg = cfg_h (config_of g)) /\
    (col_space (ih_colour ih) = 1 -> cfg_model cfg = cfg_model (config_of g)).
Proof.
  intros o fl icc d ih frames H W out peek HO HI H8 EW EH W1 HF HP.
  destruct (codestream_size icc 5 d ih frames H W (proj2 HF) EW EH W1) as (HS & Or).
  destruct (C109_file_partial o fl icc d ih frames H W out peek HO HI H8 EW EH W1 HF HP) as (g & E & S).
  exists g, (told ih). split; [exact E|]. split; [exact S|]. split; [apply config_told, (header_file true o icc d ih frames HO HF)|].
  rewrite (shown_config _ _ _ _ _ S). unfold told. cbn [cfg_model cfg_w cfg_h]. rewrite EW, EH. split.
  - intros K. assert (KS : seen_size (ih_orientation ih) H W = (H, W)); [|rewrite KS; split; reflexivity].
    unfold seen_size. assert (KO : ih_orientation ih = 1 \/ ih_orientation ih = 2 \/ ih_orientation ih = 3 \/ ih_orientation ih = 4 \/ H = W) by lia.
    destruct KO as [->|[->|[->|[->| ->]]]]; try reflexivity. destruct (vertical _); reflexivity.
  - intros ->. reflexivity.
Qed.
Print Assumptions C109_config_partial.

(* Finding: for an image that is shown turned by a quarter, DecodeConfig tells the
   size before it is turned. *)
Theorem C109_config_orientation_refuted : forall o fl icc d ih frames H W out peek,
  (forall n, 0 <= n < 2 ^ 32 -> exact (o_icc o n) (icc n)) ->
  lossless_image ih -> eight_bit ih -> dim_w (ih_size ih) = Z.of_nat W -> dim_h (ih_size ih) = Z.of_nat H -> (1 <= W)%nat ->
  file_bytes icc d ih frames ->
  picture true ih fst (fun f _ P => P = snd f) plane_layer (drawable ih H W) frames (fun _ => None) (fun _ => None) (fun _ _ _ => 0) out ->
  4 < ih_orientation ih -> H <> W ->
  exists g cfg, Decode o fl (mkRd d true peek) = Ok g /\ go_shows g ih H W out /\ DecodeConfig o (mkRd d true peek) = Ok cfg /\
    cfg_w cfg = cfg_h (config_of g) /\ cfg_h cfg = cfg_w (config_of g) /\ cfg_w cfg <> cfg_w (config_of g).
Proof.
  intros o fl icc d ih frames H W out peek HO HI H8 EW EH W1 HF HP K NE.
  destruct (codestream_size icc 5 d ih frames H W (proj2 HF) EW EH W1) as (HS & Or).
  destruct (C109_file_partial o fl icc d ih frames H W out peek HO HI H8 EW EH W1 HF HP) as (g & E & S).
  exists g, (told ih). split; [exact E|]. split; [exact S|]. split; [apply config_told, (header_file true o icc d ih frames HO HF)|].
  rewrite (shown_config _ _ _ _ _ S). unfold told. cbn [cfg_model cfg_w cfg_h]. rewrite EW, EH.
  assert (KS : seen_size (ih_orientation ih) H W = (W, H)); [|rewrite KS; cbn [fst snd]; lia].
  unfold seen_size. assert (KO : ih_orientation ih = 5 \/ ih_orientation ih = 6 \/ ih_orientation ih = 7 \/ ih_orientation ih = 8) by lia.
  destruct KO as [->|[->|[->| ->]]]; reflexivity.
Qed.
Print Assumptions C109_config_orientation_refuted.
(* Finding: the colour model told for a colour image is not that of the image. *)
Theorem C109_config_model_refuted : forall o fl icc d ih frames H W out peek,
  (forall n, 0 <= n < 2 ^ 32 -> exact (o_icc o n) (icc n)) ->
  lossless_image ih -> eight_bit ih -> dim_w (ih_size ih) = Z.of_nat W -> dim_h (ih_size ih) = Z.of_nat H -> (1 <= W)%nat ->
  file_bytes icc d ih frames ->
  picture true ih fst (fun f _ P => P = snd f) plane_layer (drawable ih H W) frames (fun _ => None) (fun _ => None) (fun _ _ _ => 0) out ->
  col_space (ih_colour ih) = 0 ->
  exists g cfg, Decode o fl (mkRd d true peek) = Ok g /\ DecodeConfig o (mkRd d true peek) = Ok cfg /\
    cfg_model cfg = RGBAModel /\ cfg_model (config_of g) = NRGBAModel.
Proof.
  intros o fl icc d ih frames H W out peek HO HI H8 EW EH W1 HF HP K.
  destruct (C109_file_partial o fl icc d ih frames H W out peek HO HI H8 EW EH W1 HF HP) as (g & E & S).
  exists g, (told ih). split; [exact E|]. split; [apply config_told, (header_file true o icc d ih frames HO HF)|].
  rewrite (shown_config _ _ _ _ _ S). unfold told. rewrite K. split; reflexivity.
Qed.
Print Assumptions C109_config_model_refuted.

(* Finding: the image package never recognises a file without container. *)
Theorem C109_bare_refuted : forall o fl icc d ih frames seek peek,
  file_bytes icc d ih frames ->
  imageDecode o fl (mkRd d seek peek) = Err /\ imageDecodeConfig o (mkRd d seek peek) = Err.
Proof.
  intros o fl icc d ih frames seek peek (Hl & Hd & c & start & HC & HB & _). pose proof (no_container _ _ _ _ HC HB Hl) as N.
  assert (SN : bytesEq jxlHeader (firstn 12 d) = false).
  { destruct (bytesEq jxlHeader (firstn 12 d)) eqn:E; [|reflexivity]. exfalso.
    assert (BE : forall a b, bytesEq a b = true -> a = b).
    { induction a as [|x a IH]; intros [|y b]; cbn [bytesEq]; try discriminate; [reflexivity|]. intros K. apply andb_prop in K. destruct K as (K1 & K2). f_equal; [lia|exact (IH b K2)]. }
    apply BE in E. assert (E2 : bytes_eqb (sub d 0 12) JPEGXL_CONTAINER_HEADER = true) by (apply bytes_eqb_eq; unfold sub; cbn [skipn]; rewrite <- E; reflexivity). congruence. }
  unfold imageDecode, imageDecodeConfig, sniff, asReader. destruct peek; cbn [rd_peek rd_bytes]; change (length jxlHeader) with 12%nat; rewrite SN; split; reflexivity.
Qed.
Print Assumptions C109_bare_refuted.
(* Finding: through the image package nothing can be decoded from a reader
   that cannot peek, as files and byte buffers cannot. *)
Theorem C109_reader_refuted : forall o fl d seek,
  imageDecode o fl (mkRd d seek false) = Err /\ imageDecodeConfig o (mkRd d seek false) = Err.
Proof. intros o fl d seek. unfold imageDecode, imageDecodeConfig, asReader. cbn [rd_peek rd_bytes]. destruct (sniff _); split; reflexivity. Qed.
Print Assumptions C109_reader_refuted.
(* Finding: for a container whose codestream box is empty and ends the file, both
   entry points panic. *)
Theorem C109_empty_refuted : forall o fl peek, let d := signature ++ enc_box (BCode []) in
  Decode o fl (mkRd d true peek) = Panic /\ DecodeConfig o (mkRd d true peek) = Panic /\ (peek = true -> imageDecode o fl (mkRd d true peek) = Panic).
Proof. intros o fl peek d. split; [|split; [|intros ->]]; vm_compute; reflexivity. Qed.
Print Assumptions C109_empty_refuted.

(* Finding: an image sent in two boxes can be decoded, but DecodeConfig rejects
   it. *)
Theorem C109_config_parts_refuted : forall o fl peek,
  let d := signature ++ enc_box (BPart [0; 0; 0; 0] [255; 10; 8; 0; 4; 88; 32; 40; 110; 9]) ++ enc_box (BPart [128; 0; 0; 1] [8; 2; 1; 0; 36; 0; 137; 124; 18; 112; 222; 66; 134; 176; 19; 0; 0]) in
  Decode o fl (mkRd d true peek) = Ok (Gray 2 3 [4; 1; 3; 2; 2; 3]) /\ DecodeConfig o (mkRd d true peek) = Err.
Proof. intros o fl peek d. split; vm_compute; reflexivity. Qed.
Print Assumptions C109_config_parts_refuted.

(* Every gray or RGB image of 8 bits has a file from which Decode makes it, in
   every orientation, and a container from which the image package does. *)
Lemma every_file icc gray h w D orientation P :
  (1 <= h)%nat -> (1 <= w)%nat -> Z.of_nat h <= 2 ^ 18 -> Z.of_nat w <= 2 ^ 18 -> Z.of_nat (length P * (h * w)) < 2 ^ 27 ->
  3 <= D <= 16 -> 1 <= orientation <= 8 -> samples_of h w P -> length P = (if gray : bool then 1 else 3)%nat ->
  let ih := image_of gray (Z.of_nat h) (Z.of_nat w) D orientation in let fh := frame_of (Z.of_nat h) (Z.of_nat w) 1 in
  lossless_image ih /\ srgb_bits D ih /\ channel_count ih = length P /\ covers fh h w /\ drawable ih h w (fh, P) P (fun _ => None) /\ exists d, file_bytes icc d ih [(fh, P)].
Proof.
  intros H1 W1 Hh Hw Hn HDp Hor HP LP ih fh.
  change (2 ^ 27) with 134217728 in Hn. change (2 ^ 18) with 262144 in *.
  assert (LPn : (1 <= length P)%nat) by (destruct gray; lia).
  assert (Hhw : (h * w <= length P * (h * w))%nat) by (rewrite <- (Nat.mul_1_l (h * w)) at 1; apply Nat.mul_le_mono_r; exact LPn).
  assert (HI : lossless_image ih) by (repeat split; try reflexivity; cbn; try lia; constructor).
  assert (H8 : srgb_bits D ih).
  { unfold srgb_bits, ih, image_of. cbn [ih_bd bd_bits ih_extra ih_icc ih_colour ih_alpha]. split; [reflexivity|]. split; [constructor|]. split; [reflexivity|]. destruct gray; repeat (split; [reflexivity|]); left; reflexivity. }
  assert (CC : channel_count ih = length P) by (rewrite LP; unfold channel_count, ih; destruct gray; reflexivity).
  assert (Hp : plain_frame fh h w 256 1 []).
  { assert (C1 : forall a, (1 <= a)%nat -> Z.of_nat a <= 262144 -> Z.of_nat (count a 256) <= 1024 /\ Z.of_nat (count a (8 * 256)) <= 1024).
    { intros a Ha Hb. unfold count. pose proof (Nat.div_mod (a - 1) 256 ltac:(lia)). pose proof (Nat.div_mod (a - 1) (8 * 256) ltac:(lia)). lia. }
    destruct (C1 h H1 Hh) as (K1 & K2). destruct (C1 w W1 Hw) as (K3 & K4).
    unfold plain_frame, fh, frame_of. cbn [fh_enc fh_ycbcr fh_jx fh_jy fh_up fh_ecup fh_rf rf_gab rf_iters fh_flags fh_bh fh_bw fh_gdim fh_passes].
    repeat (split; [first [reflexivity | lia | solve [repeat constructor]]|]). split; [exists 1; split; [lia|reflexivity]|]. split; [exists [0]; reflexivity|]. split; [split; [lia|constructor]|].
    generalize dependent (count h 256). generalize dependent (count h (8 * 256)). generalize dependent (count w 256). generalize dependent (count w (8 * 256)). clear. intros a Ha b Hb c Hc e He. nia. }
  destruct (image_sent icc gray (Z.of_nat h) (Z.of_nat w) D orientation) as (hc & HH); [change (2 ^ 18) with 262144; lia|change (2 ^ 18) with 262144; lia|change (2 ^ 28) with 268435456; rewrite <- Nat2Z.inj_mul; lia|lia|lia|].
  destruct (frame_header_sent gray (Z.of_nat h) (Z.of_nat w) D orientation 1) as (fc & HF); try lia.
  destruct (C100_sendable icc ih hc fh fc h w 256 1 [] P HH HI HF Hp HP (eq_sym CC)) as (d & HB); [exact Hn|].
  split; [exact HI|]. split; [exact H8|]. split; [exact CC|]. split; [repeat split|]. split; [|exists d; exact HB].
  unfold drawable. cbn [fst fh frame_of fh_saveref fh_type fh_savect fh_bh fh_bw fh_ox fh_oy fh_ecblend fh_last]. split; [lia|]. split; [discriminate|]. split; [discriminate|]. intros _. change (2 ^ 30) with 1073741824.
  repeat (split; [first [lia|reflexivity]|]). intros c Hc. unfold blending_of. cbn [fh frame_of fh_blend fh_ecblend].
  assert (EB : (if (c <? image_colours ih)%nat then mkBl 0 0 false 0 else nth (c - image_colours ih) [] (mkBl 0 0 false 0)) = mkBl 0 0 false 0) by (destruct (c <? image_colours ih)%nat; [reflexivity|destruct (c - image_colours ih)%nat; reflexivity]).
  rewrite EB. cbn [bl_mode bl_source bl_alpha]. repeat split; try lia; discriminate.
Qed.
Theorem C109_every_image : forall o fl icc gray h w orientation P,
  (forall n, 0 <= n < 2 ^ 32 -> exact (o_icc o n) (icc n)) ->
  (1 <= h)%nat -> (1 <= w)%nat -> Z.of_nat h <= 2 ^ 18 -> Z.of_nat w <= 2 ^ 18 -> Z.of_nat (length P * (h * w)) < 2 ^ 27 ->
  1 <= orientation <= 8 -> samples_of h w P -> length P = (if gray : bool then 1 else 3)%nat ->
  let size := seen_size orientation h w in let n := if gray then 1%nat else 4%nat in
  exists d pix, Forall is_byte d /\
    Decode o fl (mkRd d true false) = Ok ((if gray then Gray else NRGBA) (Z.of_nat (snd size)) (Z.of_nat (fst size)) pix) /\
    length pix = (n * (fst size * snd size))%nat /\
    forall y x c, (y < h)%nat -> (x < w)%nat -> (c < n)%nat ->
      pix_byte n (snd size) pix (fst (seen_at orientation h w y x)) (snd (seen_at orientation h w y x)) c =
      if (c =? 3)%nat then 255 else clamped 255 (px (p_px (nth c P empty_plane)) y x).
Proof.
  intros o fl icc gray h w orientation P HO H1 W1 Hh Hw Hn Hor HP LP size n.
  destruct (every_file icc gray h w 8 orientation P H1 W1 Hh Hw Hn ltac:(lia) Hor HP LP) as (HI & H8 & CC & HC & HD & d & HB).
  set (ih := image_of gray (Z.of_nat h) (Z.of_nat w) 8 orientation) in *. set (fh := frame_of (Z.of_nat h) (Z.of_nat w) 1) in *.
  pose proof (C100_image_partial o icc d ih fh P h w HO HI eq_refl eq_refl W1 HB HC HD) as S.
  destruct (decoded o fl d ih h w (fun c y x => px (p_px (nth c P empty_plane)) y x) HI H8 Hor (header_file false o icc d ih _ HO HB) S false) as (g & E & pix & EG & L & V).
  assert (G : (col_space (ih_colour ih) =? 1) = gray) by (unfold ih, image_of; destruct gray; reflexivity). rewrite G in EG, L, V.
  exists d, pix. split; [apply HB|]. split; [rewrite E, EG; reflexivity|]. split; [exact L|].
  intros y x c Hy Hx Hc. specialize (V y x c Hy Hx Hc). cbv zeta in V. cbn [ih image_of ih_alpha length Nat.eqb] in V. rewrite andb_true_r in V. exact V.
Qed.
Print Assumptions C109_every_image.

(* The image of C100_example turned to the right: the Go image has 2 columns and 3
   rows, DecodeConfig tells 3 columns and 2 rows. *)
Definition ex_file := [255; 10; 8; 0; 4; 88; 32; 40; 110; 9; 8; 2; 1; 0; 36; 0; 137; 124; 18; 112; 222; 66; 134; 176; 19; 0; 0].
Example C109_example : forall o fl,
  Decode o fl (mkRd ex_file true false) = Ok (Gray 2 3 [4; 1; 3; 2; 2; 3]) /\
  DecodeConfig o (mkRd ex_file true false) = Ok (mkCfg GrayModel 3 2) /\
  imageDecode o fl (mkRd (container [BLevel 5] [] ex_file) true true) = Ok (Gray 2 3 [4; 1; 3; 2; 2; 3]).
Proof. intros o fl. repeat split; vm_compute; reflexivity. Qed.
(* Files of one pixel meet the hypotheses of the theorems on other depths: 31, 16 and 0 of
   5 bits are shown as 255, 132 and 0; 32768 of 16 bits as 0. *)
Lemma pixel_sent icc (gray : bool) D v : 3 <= D <= 16 -> length v = (if gray then 1 else 3)%nat -> Forall (fun a => 0 <= a <= 2 ^ 16) v ->
  let ih := image_of gray 1 1 D 1 in let P := map (fun a => mkPl 1 1 0 0 [[a]]) v in let fr := [(frame_of 1 1 1, P)] in
  lossless_image ih /\ srgb_bits D ih /\ (exists d, file_bytes icc d ih fr) /\
  exists out, picture true ih fst (fun f _ P => P = snd f) plane_layer (drawable ih 1 1) fr (fun _ => None) (fun _ => None) (fun _ _ _ => 0) out /\
    forall c, (c < length v)%nat -> out c 0%nat 0%nat = nth c v 0.
Proof.
  intros HD L HV ih P fr.
  destruct (every_file icc gray 1 1 D 1 P) as (HI & HS & CC & HC & HDr & HB); try (unfold P; rewrite ?map_length; lia); try lia.
  { unfold P. rewrite map_length. destruct gray; rewrite L; reflexivity. }
  { unfold P, samples_of. apply Forall_map. eapply Forall_impl; [|exact HV]. intros a Ha. cbv beta in Ha. cbn [p_h p_w p_vs p_hs p_px]. repeat (split; [reflexivity|]).
    split; [split; [reflexivity|repeat constructor]|]. unfold samples_within. change (2 ^ 16) with 65536 in Ha. change (2 ^ 24) with 16777216. constructor; [constructor; [lia|constructor]|constructor]. }
  split; [exact HI|]. split; [exact HS|]. split; [exact HB|]. destruct HC as (T & La & Lv & _).
  eexists. split; [exact (pic_last true ih fst (fun f _ P => P = snd f) plane_layer (drawable ih 1 1) (frame_of 1 1 1, P) [] _ _ _ P (or_introl T) La Lv eq_refl HDr)|].
  intros c Hc. assert (C3 : (c < 3)%nat) by (destruct gray; lia). unfold P.
  destruct c as [|[|[|c]]]; [| | |lia]; (destruct v as [|a [|b [|e [|]]]]; destruct gray; cbn in L, Hc; try lia; reflexivity).
Qed.
Example C109_scaled_example : forall o fl icc, (forall n, 0 <= n < 2 ^ 32 -> exact (o_icc o n) (icc n)) ->
  exists d, Decode o fl (mkRd d true false) = Ok (NRGBA 1 1 [255; 132; 0; 255]).
Proof.
  intros o fl icc HO. destruct (pixel_sent icc false 5 [31; 16; 0]) as (HI & HS & (d & HB) & out & HP & V); [lia|reflexivity|repeat constructor; lia|].
  exists d. destruct (C109_scaled_partial o fl icc d _ _ 1 1 out false 5 HO HI ltac:(lia) HS ltac:(discriminate) eq_refl eq_refl (le_n 1) HB HP) as (g & E & pix & EG & LP & B).
  - intros c y x Hc Hy Hx. replace y with 0%nat by lia. replace x with 0%nat by lia. rewrite V by exact Hc. cbn in Hc. destruct c as [|[|[|c]]]; cbn; lia.
  - rewrite E, EG. cbn in LP. destruct pix as [|b0 [|b1 [|b2 [|b3 [|]]]]]; try discriminate.
    pose proof (B 0 0 0)%nat as B0. pose proof (B 0 0 1)%nat as B1. pose proof (B 0 0 2)%nat as B2. pose proof (B 0 0 3)%nat as B3. cbn [Nat.eqb andb] in B0, B1, B2. rewrite V in B0, B1, B2 by (cbn; lia). cbn -[Z.mul Z.abs Z.sub Z.le] in B0, B1, B2, B3.
    specialize (B0 ltac:(lia) ltac:(lia) ltac:(lia)). specialize (B1 ltac:(lia) ltac:(lia) ltac:(lia)). specialize (B2 ltac:(lia) ltac:(lia) ltac:(lia)). specialize (B3 ltac:(lia) ltac:(lia) ltac:(lia)). clear - B0 B1 B2 B3. assert (b0 = 255 /\ b1 = 132 /\ b2 = 0 /\ b3 = 255) as (-> & -> & -> & ->) by lia. reflexivity.
Qed.
Example C109_sixteen_bits_example : forall o fl icc, (forall n, 0 <= n < 2 ^ 32 -> exact (o_icc o n) (icc n)) ->
  exists d pix, Decode o fl (mkRd d true false) = Ok (Gray 1 1 pix) /\ pix_byte 1 1 pix 0 0 0 = 0.
Proof.
  intros o fl icc HO. destruct (pixel_sent icc true 16 [32768]) as (HI & HS & (d & HB) & out & HP & V); [lia|reflexivity|repeat constructor; lia|].
  exists d. destruct (C109_sixteen_bits_refuted o fl icc d _ _ 1 1 out false HO HI HS eq_refl eq_refl eq_refl (le_n 1) HB HP) as (pix & E & B).
  exists pix. split; [exact E|]. specialize (B 0 0)%nat. rewrite V in B by (cbn; lia). apply B; lia.
Qed.
