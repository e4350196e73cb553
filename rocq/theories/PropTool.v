(* C110: the program that converts files to PNG. *)
From Coq Require Import ZArith List Bool Lia Arith ZifyBool ZifyNat.
From Verif Require Import GoBase GoLoop GoMatrix GoFloat32 Bits ModelBitReader ModelUtil ModelHeader ModelFrameHeader ModelBoxes ModelICC ModelImage ModelWriters ModelToImage ModelDecode ModelFile ModelReader ModelTool.
From Verif Require Import SpecBitReader SpecCodes SpecGrammar SpecBoxes SpecHeader SpecFrameHeader SpecToc SpecStream SpecModular SpecModStream SpecModDecode SpecModFrame SpecImage SpecToImage SpecDecode SpecFile SpecReader SpecICC SpecICCTags SpecTool.
From Verif Require Import ProofReads ProofCodes ProofHeader ProofBoxes ProofImage ProofWriters ProofToImage ProofModFrame ProofDecode ProofFile PropHeader PropFrameHeader PropModFrame PropDecode PropImage PropToImage PropFile PropICCTags PropReader.
Import ListNotations.
Open Scope Z_scope.

(* an ICC profile leaves no other description of the colours *)
Lemma icc_colour icc level c v : SpecHeader.header_code implemented icc level c v -> ih_icc v <> None ->
  exists s, ih_colour v = mkCol true s 1 (white_xy 1) 1 (prim_xy 1) (2 ^ 24 + 13) 1.
Proof.
  intros (c1 & c2 & sig & -> & _ & (Hsig & Hlev) & c3 & c4 & size & -> & Hsize & c5 & c6 & def & -> & _ &
    c7 & c8 & xfb & -> & Hxfb & c9 & c10 & xf & -> & Hxf & c11 & c12 & mid & -> & Hmid & c13 & c14 & tone & -> & Htone &
    c15 & c16 & ext & -> & Hext & c17 & c18 & dm & -> & _ & c19 & c20 & opsin & -> & Hop & c21 & c22 & mask & -> & _ &
    c23 & c24 & u2 & -> & Hu2 & c25 & c26 & u4 & -> & Hu4 & c27 & c28 & u8 & -> & Hu8 & c29 & c30 & iccd & -> & Hicc & H).
  destruct xf as [[orient intr] prev]. destruct mid as [[[[bd m16] ecs] xyb] col]. destruct H as [_ ->]. cbn [ih_icc ih_colour]. intros NN. cbn [snd] in Hicc.
  destruct (col_icc col) eqn:CI; [|destruct Hicc as [_ ->]; congruence]. destruct def.
  - destruct Hmid as [_ E]. unfold mid_default in E. assert (col = srgb) as -> by congruence. discriminate.
  - destruct Hmid as (d1 & d2 & bd' & _ & Hbd & d3 & d4 & m & _ & _ & d5 & d6 & n & _ & Hn & d7 & d8 & ecs' & _ & Hecs & d9 & d10 & x & _ & _ & d11 & d12 & col' & _ & Hcol & _ & E).
    assert (col = col') as -> by congruence. destruct Hcol as (e1 & e2 & b & _ & _ & Hcol). destruct b; [destruct Hcol as [_ ->]; discriminate|].
    destruct Hcol as (e3 & e4 & i & _ & _ & e5 & e6 & s & _ & _ & _ & Hcol). destruct i; [destruct Hcol as [_ ->]; exists s; reflexivity|].
    destruct Hcol as (f1 & f2 & w & _ & _ & f3 & f4 & p & _ & _ & f5 & f6 & tf & _ & _ & f7 & f8 & ri & _ & _ & _ & _ & ->). discriminate.
Qed.

(* the image of the decoder, for a file with a profile *)
Definition profiled_img D P ih l s assoc := mkJI l P (repeat D (length l)) 0 0
     (mkHd D (ihHasAlpha ih) (ihColours ih) 1 true false) (ih_ow ih) (ih_oh ih) s (if ihHasAlpha ih then hd 0 (ih_alpha ih) else -1) 1 1 (2 ^ 24 + 13) (2 ^ 24 + 13) assoc.
Lemma profiled_image D P ih l s : lossless_image ih -> profiled D P ih -> ih_colour ih = mkCol true s 1 (white_xy 1) 1 (prim_xy 1) (2 ^ 24 + 13) 1 -> (length l <= channel_count ih)%nat ->
  ih_alpha ih = alpha_positions (ih_extra ih) ->
  exists assoc, NewJXLImageWithBuffer l ih = Ok (profiled_img D P ih l s assoc) /\
    (ih_alpha ih = [] /\ assoc = false \/ ih_alpha ih <> [] /\ exists e, slice_get (ih_extra ih) (hd 0 (ih_alpha ih)) = Ok e /\ assoc = ec_assoc e).
Proof.
  intros (X & _) (B & HE & (P1 & P2 & P3 & P4) & enc & IC & PS & EB & EL) EC L AP.
  unfold NewJXLImageWithBuffer. rewrite X, IC, B, EC, (depths_all D ih B HE) by lia. cbn [col_intent col_primXY col_space col_prim col_wp col_tf].
  rewrite (C108_profile_partial P enc P1 P2 P3 P4 PS EB EL). change (primMatches (prim_xy 1) (GetPrimaries 1)) with true. change (primMatches (prim_xy 1) (GetPrimaries 11)) with false.
  unfold profiled_img, ihHasAlpha. destruct (ih_alpha ih) as [|a r] eqn:EA; [exists false; split; [reflexivity|left; split; reflexivity]|].
  assert (RA : 0 <= a < Z.of_nat (length (ih_extra ih))).
  { assert (IA : In a (alpha_positions (ih_extra ih))) by (rewrite <- AP; left; reflexivity). unfold alpha_positions in IA. apply in_map_iff in IA. destruct IA as (i & <- & IA). apply filter_In in IA. destruct IA as (IA & _). apply in_seq in IA. lia. }
  assert (EN : exists e, slice_get (ih_extra ih) a = Ok e).
  { unfold slice_get. destruct (Z.ltb_spec a 0); [lia|]. destruct (nth_error (ih_extra ih) (Z.to_nat a)) as [e|] eqn:EN; [exists e; reflexivity|]. apply nth_error_None in EN. lia. }
  destruct EN as (e & EN). exists (ec_assoc e). cbn [length Nat.eqb negb hd]. change (slice_get (a :: r) 0) with (Ok a). cbn [obind]. rewrite EN. cbn [obind]. split; [reflexivity|right]. split; [discriminate|exists e; split; reflexivity].
Qed.
Lemma bytes4_be32 v : 0 <= v < 2 ^ 32 -> bytes4 v (ModelWriters.be32 v).
Proof. intros Hv. split; [reflexivity|]. split; [apply be32_bytes|apply be32_value; exact Hv]. Qed.

Lemma written o fl deflate deflate1 encode d ih H W out D P s : D = 8 \/ D = 16 -> lossless_image ih -> profiled D P ih -> usual_alpha ih -> ih_alpha ih = alpha_positions (ih_extra ih) -> 1 <= ih_orientation ih <= 8 ->
  ih_colour ih = mkCol true s 1 (white_xy 1) 1 (prim_xy 1) (2 ^ 24 + 13) 1 ->
  let k := ih_orientation ih in ih_ow ih = Z.of_nat (snd (seen_size k H W)) -> ih_oh ih = Z.of_nat (fst (seen_size k H W)) -> ih_ow ih < 2 ^ 32 -> ih_oh ih < 2 ^ 32 ->
  headerOfFile false (o_icc o) d = Ok (Some ih) -> shows (decodeFile o false false d) ih H W out ->
  exists bytes, jxltopng o fl deflate deflate1 encode d = Ok (Some bytes) /\ png_shows crc32 deflate deflate1 D P ih H W out bytes.
Proof.
  intros HD HI HP AL AP Or EC k EOW EOH BW BH EH (l & ED & L & V).
  assert (PB : (132 <= length P)%nat) by apply HP.
  unfold jxltopng, decodeImage. rewrite ED. cbn [obind]. rewrite EH. cbn [obind].
  destruct (profiled_image D P ih l s HI HP EC) as (assoc & EJ & HAs); [lia|exact AP|]. rewrite EJ. cbn [obind].
  assert (AF : assoc = false).
  { destruct HAs as [(_ & ->)|(NA & e & EE & ->)]; [reflexivity|]. destruct AL as [AN|(_ & e0 & t & EX & E0 & ES)]; [contradiction|].
    rewrite E0, EX in EE. injection EE as <-. exact ES. }
  subst assoc.
  set (h := fst (seen_size k H W)) in *. set (w := snd (seen_size k H W)) in *.
  assert (HL : Forall (int_channel h w) l).
  { apply Forall_forall. intros ib Hib. destruct (In_nth _ _ ZERO_IB Hib) as (c & Hc & <-). apply V. lia. }
  assert (AT : forall c y x, (c < channel_count ih)%nat -> (y < H)%nat -> (x < W)%nat -> sample l ib_int c (fst (seen_at k H W y x)) (snd (seen_at k H W y x)) = out c y x).
  { intros c y x Hc Hy Hx. unfold sample. rewrite (nth_indep _ _ ZERO_IB) by lia. apply V; assumption. }
  set (j := profiled_img D P ih l s false).
  unfold HasICCProfile. cbn [j profiled_img im_icc]. replace (0 <? length P)%nat with true by lia.
  unfold WritePNGFile, toTarget. cbn [j profiled_img im_icc]. replace (length P =? 0)%nat with false by lia. cbn [obind]. fold j.
  destruct HP as (B & HE & _).
  assert (EG : (col_space (ih_colour ih) =? 1) = (s =? 1)) by (rewrite EC; reflexivity).
  assert (CN : ihColours ih = if s =? 1 then 1 else 3) by (unfold ihColours; change ModelHeader.CE_GRAY with 1; rewrite EG; reflexivity).
  assert (CC : channel_count ih = ((if (s =? 1)%Z then 1 else 3) + length (ih_extra ih))%nat) by (unfold channel_count, image_colours; rewrite EG; reflexivity).
  assert (HA : ihHasAlpha ih = negb (length (ih_alpha ih) =? 0)%nat) by reflexivity.
  assert (PD : pngBitDepth j = D) by (unfold pngBitDepth; cbn; destruct HD as [->| ->]; reflexivity).
  assert (AE : (length (ih_alpha ih) =? 0)%nat = false -> s <> 1 /\ (1 <= length (ih_extra ih))%nat).
  { destruct AL as [->|(GS & e & t & -> & _)]; [discriminate|]. intros _. rewrite EC in GS. split; [exact GS|cbn; lia]. }
  set (n := if s =? 1 then 1%nat else if (length (ih_alpha ih) =? 0)%nat then 3%nat else 4%nat).
  assert (EN : Z.to_nat (ihColours ih + (if ihHasAlpha ih then 1 else 0)) = n).
  { rewrite CN, HA. unfold n. destruct (length (ih_alpha ih) =? 0)%nat eqn:EA, (Z.eqb_spec s 1) as [E|E]; try reflexivity. destruct (AE eq_refl); contradiction. }
  assert (NC : (n <= channel_count ih)%nat).
  { rewrite CC. unfold n. destruct (Z.eqb_spec s 1) as [E|E]; [lia|]. destruct (length (ih_alpha ih) =? 0)%nat eqn:EA; [lia|]. destruct (AE eq_refl). lia. }
  destruct (C47_image_data deflate deflate1 false j h w D HD EOW EOH) as (bytes & pre & E & _ & F); [reflexivity|exact PD|reflexivity|exact HL|reflexivity| | |].
  - cbn [j profiled_img im_header hd_colours hd_hasAlpha]. rewrite CN. destruct (Z.eqb_spec s 1) as [ES|ES]; [left|right; reflexivity]. split; [reflexivity|]. rewrite HA. destruct (length (ih_alpha ih) =? 0)%nat; [reflexivity|destruct (AE eq_refl); contradiction].
  - cbn [j profiled_img im_header im_buffer hd_colours hd_hasAlpha]. rewrite L. destruct (ihHasAlpha ih); lia.
  - rewrite E. cbn [obind]. exists bytes. split; [reflexivity|]. cbn [j profiled_img im_header im_buffer im_icc hd_colours hd_hasAlpha] in F. rewrite EN in F.
    unfold png_shows. fold k. rewrite EG. fold n. fold h w. cbv zeta.
    exists (ModelWriters.be32 (ih_ow ih)), (ModelWriters.be32 (ih_oh ih)), [106; 120; 108; 97; 116; 116; 101], (fun c y x => clamped (2 ^ D - 1) (sample l ib_int c y x)).
    split; [rewrite <- EOW; apply bytes4_be32; lia|]. split; [rewrite <- EOH; apply bytes4_be32; lia|]. split; [cbn; lia|]. split; [repeat constructor; lia|].
    split; [intros y x c Hy Hx Hc; rewrite AT by (assumption || lia); reflexivity|].
    intros (B1 & B2) L1 L2. specialize (F (conj B1 L1) (fun _ => conj B2 L2)).
    assert (EI : ihdr_chunk j = mkCh [73; 72; 68; 82] (ModelWriters.be32 (ih_ow ih) ++ ModelWriters.be32 (ih_oh ih) ++ [D; if s =? 1 then 0 else if (length (ih_alpha ih) =? 0)%nat then 2 else 6; 0; 0; 0])).
    { unfold ihdr_chunk. rewrite PD. cbn [j profiled_img im_w im_h]. unfold colour_type. cbn [j profiled_img im_encoding im_alphaIndex]. change CE_GRAY with 1. do 5 f_equal. rewrite HA.
      destruct (Z.eqb_spec s 1) as [ES|ES].
      - destruct (length (ih_alpha ih) =? 0)%nat eqn:EA; [reflexivity|]. destruct (AE eq_refl); contradiction.
      - destruct AL as [->|(_ & _ & _ & _ & -> & _)]; [reflexivity|]. destruct (length (ih_alpha ih) =? 0)%nat; reflexivity. }
    assert (EK : colour_chunk deflate1 false j = mkCh [105; 67; 67; 80] ([106; 120; 108; 97; 116; 116; 101] ++ [0; 0] ++ deflate1 P)).
    { unfold colour_chunk, with_profile. cbn [j profiled_img im_icc]. replace (length P =? 0)%nat with false by lia. rewrite orb_true_r. reflexivity. }
    rewrite EI, EK in F. exact F.
Qed.

(* what the header tells about such files *)
Lemma profiled_header icc level d ih frames H W D P : codestream icc level d ih frames -> profiled D P ih -> dim_w (ih_size ih) = Z.of_nat W -> dim_h (ih_size ih) = Z.of_nat H -> (1 <= W)%nat ->
  ih_alpha ih = alpha_positions (ih_extra ih) /\ 1 <= ih_orientation ih <= 8 /\ (exists s, ih_colour ih = mkCol true s 1 (white_xy 1) 1 (prim_xy 1) (2 ^ 24 + 13) 1) /\
  ih_ow ih = Z.of_nat (snd (seen_size (ih_orientation ih) H W)) /\ ih_oh ih = Z.of_nat (fst (seen_size (ih_orientation ih) H W)) /\ ih_ow ih < 2 ^ 32 /\ ih_oh ih < 2 ^ 32.
Proof.
  intros (_ & c & start & HC & _) HP EW EH W1.
  assert (HC' : SpecHeader.header_code implemented icc level c ih) by (eapply header_mono; [apply handled_implemented|exact HC]).
  pose proof (header_code_ok icc level c ih HC') as (_ & _ & Bw & Bh & Or & O1 & O2 & _ & _ & _ & _ & AP & _).
  destruct HP as (_ & _ & _ & enc & IC & _).
  destruct (icc_colour icc level c ih HC') as (s & EC); [rewrite IC; discriminate|].
  split; [exact AP|]. split; [exact Or|]. split; [exists s; exact EC|]. rewrite EW in *. rewrite EH in *.
  assert (BB : Z.of_nat W <= 2 ^ 28 /\ Z.of_nat H <= 2 ^ 28) by (destruct (level =? 5); lia).
  assert (KO : ih_orientation ih = 1 \/ ih_orientation ih = 2 \/ ih_orientation ih = 3 \/ ih_orientation ih = 4 \/ ih_orientation ih = 5 \/ ih_orientation ih = 6 \/ ih_orientation ih = 7 \/ ih_orientation ih = 8) by lia.
  destruct (Z.leb_spec (ih_orientation ih) 4) as [K|K].
  - destruct (O1 K) as (E1 & E2). rewrite E1, E2. assert (KS : seen_size (ih_orientation ih) H W = (H, W)) by (destruct KO as [->|[->|[->|[->|KO]]]]; try reflexivity; lia). rewrite KS. cbn [fst snd]. lia.
  - destruct (O2 K) as (E1 & E2). rewrite E1, E2. assert (KS : seen_size (ih_orientation ih) H W = (W, H)) by (destruct KO as [KO|[KO|[KO|[KO|[->|[->|[->| ->]]]]]]]; try reflexivity; lia). rewrite KS. cbn [fst snd]. lia.
Qed.

(* C110.  A lossless file of 8 or 16 bits with an ICC profile becomes a PNG file with
   the same samples and the same profile. *)
Theorem C110_profile_partial : forall o fl deflate deflate1 encode icc d ih frames H W out D P,
  (forall n, 0 <= n < 2 ^ 32 -> exact (o_icc o n) (icc n)) ->
  lossless_image ih -> D = 8 \/ D = 16 -> profiled D P ih -> usual_alpha ih -> dim_w (ih_size ih) = Z.of_nat W -> dim_h (ih_size ih) = Z.of_nat H -> (1 <= W)%nat ->
  file_bytes icc d ih frames ->
  picture true ih fst (fun f _ P => P = snd f) plane_layer (drawable ih H W) frames (fun _ => None) (fun _ => None) (fun _ _ _ => 0) out ->
  exists bytes, jxltopng o fl deflate deflate1 encode d = Ok (Some bytes) /\ png_shows crc32 deflate deflate1 D P ih H W out bytes.
Proof.
  intros o fl df df1 en icc d ih frames H W out D P HO HI HD HP HA EW EH W1 HF HPic.
  destruct (profiled_header icc 5 d ih frames H W D P (proj2 HF) HP EW EH W1) as (AP & Or & (s & EC) & E1 & E2 & B1 & B2).
  apply (written o fl df df1 en d ih H W out D P s HD HI HP HA AP Or EC E1 E2 B1 B2 (header_file false o icc d ih frames HO HF)).
  exact (C100_file_partial o icc d ih frames H W out HO HI EW EH W1 HF HPic).
Qed.
Print Assumptions C110_profile_partial.
Theorem C110_container_partial : forall o fl deflate deflate1 encode icc before after d ih frames H W out D P,
  (forall n, 0 <= n < 2 ^ 32 -> exact (o_icc o n) (icc n)) ->
  lossless_image ih -> D = 8 \/ D = 16 -> profiled D P ih -> usual_alpha ih -> dim_w (ih_size ih) = Z.of_nat W -> dim_h (ih_size ih) = Z.of_nat H -> (1 <= W)%nat ->
  Forall wf_box (before ++ BCode d :: after) -> Forall not_code before -> Forall not_code after ->
  codestream icc (last_level 5 (before ++ BCode d :: after)) d ih frames ->
  picture true ih fst (fun f _ P => P = snd f) plane_layer (drawable ih H W) frames (fun _ => None) (fun _ => None) (fun _ _ _ => 0) out ->
  exists bytes, jxltopng o fl deflate deflate1 encode (container before after d) = Ok (Some bytes) /\ png_shows crc32 deflate deflate1 D P ih H W out bytes.
Proof.
  intros o fl df df1 en icc before after d ih frames H W out D P HO HI HD HP HA EW EH W1 Hw N1 N2 HF HPic.
  destruct (profiled_header icc _ d ih frames H W D P HF HP EW EH W1) as (AP & Or & (s & EC) & E1 & E2 & B1 & B2).
  apply (written o fl df df1 en (container before after d) ih H W out D P s HD HI HP HA AP Or EC E1 E2 B1 B2 (header_container false o icc before after d ih frames HO Hw N1 N2 HF)).
  exact (C100_container_partial o icc before after d ih frames H W out HO HI EW EH W1 Hw N1 N2 HF HPic).
Qed.
Print Assumptions C110_container_partial.

(* Without profile the encoder of the standard library gets the Go image of C109. *)
Theorem C110_plain_partial : forall o fl deflate deflate1 encode icc d ih frames H W out,
  (forall n, 0 <= n < 2 ^ 32 -> exact (o_icc o n) (icc n)) ->
  lossless_image ih -> eight_bit ih -> dim_w (ih_size ih) = Z.of_nat W -> dim_h (ih_size ih) = Z.of_nat H -> (1 <= W)%nat ->
  file_bytes icc d ih frames ->
  picture true ih fst (fun f _ P => P = snd f) plane_layer (drawable ih H W) frames (fun _ => None) (fun _ => None) (fun _ _ _ => 0) out ->
  exists g, jxltopng o fl deflate deflate1 encode d = Ok (Some (encode g)) /\ go_shows g ih H W out.
Proof.
  intros o fl df df1 en icc d ih frames H W out HO HI H8 EW EH W1 HF HP.
  destruct (C109_file_partial o fl icc d ih frames H W out false HO HI H8 EW EH W1 HF HP) as (g & E & S). exists g. split; [|exact S].
  unfold Decode in E. cbn [rd_seek rd_bytes negb] in E. unfold jxltopng.
  destruct (decodeImage o d) as [[[j ih']|]| |] eqn:ED; cbn [obind] in E; try discriminate.
  assert (NI : HasICCProfile j = false).
  { unfold decodeImage in ED. destruct (decodeFile o false false d) as [[b|]| |]; cbn [obind] in ED; try discriminate.
    rewrite (header_file false o icc d ih frames HO HF) in ED. cbn [obind] in ED. destruct (NewJXLImageWithBuffer b ih) as [j'| |] eqn:EJ; cbn [obind] in ED; try discriminate. injection ED as <- <-.
    unfold NewJXLImageWithBuffer in EJ. destruct HI as (X & _). destruct H8 as (_ & _ & IC & _). rewrite X, IC in EJ.
    destruct (if ihHasAlpha ih then _ else Ok (-1)); cbn [obind] in EJ; try discriminate. destruct (if ihHasAlpha ih then _ else Ok false); cbn [obind] in EJ; try discriminate.
    destruct (bitDepths _ _ _); cbn [obind] in EJ; try discriminate. injection EJ as <-. reflexivity. }
  rewrite NI. destruct (ToImage _ _ _) as [[g' j']| |]; cbn [obind fst] in E; try discriminate. injection E as ->. reflexivity.
Qed.
Print Assumptions C110_plain_partial.

(* Finding: a gray image with alpha and a profile makes the program panic, since
   alpha is looked for in channel 3. *)
Theorem C110_gray_alpha_refuted : forall o fl deflate deflate1 encode icc d ih frames H W out D P,
  (forall n, 0 <= n < 2 ^ 32 -> exact (o_icc o n) (icc n)) ->
  lossless_image ih -> D = 8 \/ D = 16 -> profiled D P ih -> dim_w (ih_size ih) = Z.of_nat W -> dim_h (ih_size ih) = Z.of_nat H -> (1 <= W)%nat ->
  file_bytes icc d ih frames ->
  picture true ih fst (fun f _ P => P = snd f) plane_layer (drawable ih H W) frames (fun _ => None) (fun _ => None) (fun _ _ _ => 0) out ->
  col_space (ih_colour ih) = 1 -> ih_alpha ih <> [] -> (length (ih_extra ih) <= 2)%nat ->
  jxltopng o fl deflate deflate1 encode d = Panic.
Proof.
  intros o fl df df1 en icc d ih frames H W out D P HO HI HD HP EW EH W1 HF HPic G NA LE.
  destruct (profiled_header icc 5 d ih frames H W D P (proj2 HF) HP EW EH W1) as (AP & Or & (s & EC) & E1 & E2 & B1 & B2).
  destruct (C100_file_partial o icc d ih frames H W out HO HI EW EH W1 HF HPic) as (l & ED & L & V).
  assert (PB : (132 <= length P)%nat) by apply HP.
  unfold jxltopng, decodeImage. rewrite ED. cbn [obind]. rewrite (header_file false o icc d ih frames HO HF). cbn [obind].
  destruct (profiled_image D P ih l s HI HP EC) as (assoc & EJ & _); [lia|exact AP|]. rewrite EJ. cbn [obind].
  set (h := fst (seen_size (ih_orientation ih) H W)) in *. set (w := snd (seen_size (ih_orientation ih) H W)) in *.
  assert (HL : Forall (int_channel h w) l).
  { apply Forall_forall. intros ib Hib. destruct (In_nth _ _ ZERO_IB Hib) as (c & Hc & <-). apply V. lia. }
  set (j := profiled_img D P ih l s assoc).
  unfold HasICCProfile. cbn [j profiled_img im_icc]. replace (0 <? length P)%nat with true by lia.
  unfold WritePNGFile, toTarget. cbn [j profiled_img im_icc]. replace (length P =? 0)%nat with false by lia. cbn [obind]. fold j.
  assert (HAl : ihHasAlpha ih = true) by (unfold ihHasAlpha; destruct (ih_alpha ih); [contradiction|reflexivity]).
  assert (CC : (1 <= channel_count ih <= 3)%nat) by (unfold channel_count, image_colours; rewrite G; cbn; lia).
  assert (PD : pngBitDepth j = D) by (unfold pngBitDepth; cbn; destruct HD as [->| ->]; reflexivity).
  unfold WritePNG. rewrite PD. destruct assoc.
  - assert (GM : forall l, Forall (int_channel h w) l -> forall n c, c + Z.of_nat (length l) <= Z.of_nat n -> 0 <= c -> exists r, mapBuffers (fun d ib => CastToFloatIfMax ib (depthMax d)) c (repeat D n) l = Ok r).
    { clear - HD. induction 1 as [|ib t Hib _ IH]; intros n c Hc C0; cbn [mapBuffers]; [eexists; reflexivity|]. cbn [length] in Hc. rewrite (slice_get_ok _ _ D) by (rewrite repeat_length; lia). cbn [obind].
      rewrite nth_repeat. rewrite (castFloat_ok h w) by (exact Hib || (destruct HD as [->| ->]; cbn; lia)). cbn [obind]. destruct (IH n (c + 1)) as (r & ->); [lia|lia|]. eexists. reflexivity. }
    destruct (GM l HL (length l) 0) as (r & ER); [lia|lia|].
    unfold pngPrepare. cbn [j profiled_img im_premult im_depths im_buffer obind]. rewrite ER. reflexivity.
  - rewrite (pngPrepare_int h w) by (try assumption; try reflexivity). cbn [obind].
    unfold writeIDAT. cbn [set_buffer j profiled_img im_header im_buffer im_depths hd_bits hd_hasAlpha]. rewrite HAl.
    replace (if 8 <? D then 16 else 8) with D by (destruct HD as [->| ->]; reflexivity).
    set (b := map (clampIB h w (depthMax D)) l).
    assert (HB : Forall (int_channel h w) b) by (apply clampIB_all, HL).
    assert (LB : (1 <= length b <= 3)%nat) by (unfold b; rewrite map_length; lia).
    rewrite (castAt_int h w) by (assumption || lia). cbn [obind].
    replace (if 1 <? Z.of_nat (length b) then castAt (depthMax D) 1 b else Ok b) with (Ok b) by (destruct (Z.ltb_spec 1 (Z.of_nat (length b))); [rewrite (castAt_int h w) by (assumption || lia); reflexivity|reflexivity]). cbn [obind].
    replace (if 2 <? Z.of_nat (length b) then castAt (depthMax D) 2 b else Ok b) with (Ok b) by (destruct (Z.ltb_spec 2 (Z.of_nat (length b))); [rewrite (castAt_int h w) by (assumption || lia); reflexivity|reflexivity]). cbn [obind].
    unfold castAt. rewrite slice_get_panic by lia. reflexivity.
Qed.
Print Assumptions C110_gray_alpha_refuted.
(* Finding: for samples of fewer than 8 bits two bytes are written for each sample,
   where the header announces one. *)
Theorem C110_low_depth_refuted : forall o fl deflate deflate1 encode icc d ih frames H W out D P bytes,
  (forall n, 0 <= n < 2 ^ 32 -> exact (o_icc o n) (icc n)) ->
  lossless_image ih -> D < 8 -> profiled D P ih -> dim_w (ih_size ih) = Z.of_nat W -> dim_h (ih_size ih) = Z.of_nat H -> (1 <= W)%nat ->
  file_bytes icc d ih frames ->
  picture true ih fst (fun f _ P => P = snd f) plane_layer (drawable ih H W) frames (fun _ => None) (fun _ => None) (fun _ _ _ => 0) out ->
  jxltopng o fl deflate deflate1 encode d = Ok (Some bytes) ->
  exists img raw colour n, let size := seen_size (ih_orientation ih) H W in 1 <= n /\
    (good_bytes (deflate raw) -> good_bytes (deflate1 P) ->
     png_file crc32 [ihdr_chunk img; colour; mkCh [73; 68; 65; 84] (deflate raw); mkCh [73; 69; 78; 68] []] bytes) /\
    png_announced (im_w img) (im_h img) (pngBitDepth img) (colour_type img) = Z.of_nat (fst size) * (1 + Z.of_nat (snd size) * n) /\
    Z.of_nat (length raw) = Z.of_nat (fst size) * (1 + Z.of_nat (snd size) * (2 * n)).
Proof.
  intros o fl df df1 en icc d ih frames H W out D P bytes HO HI HD HP EW EH W1 HF HPic E.
  destruct (profiled_header icc 5 d ih frames H W D P (proj2 HF) HP EW EH W1) as (AP & Or & (s & EC) & E1 & E2 & B1 & B2).
  destruct (C100_file_partial o icc d ih frames H W out HO HI EW EH W1 HF HPic) as (l & ED & L & V).
  assert (PB : (132 <= length P)%nat) by apply HP.
  unfold jxltopng, decodeImage in E. rewrite ED in E. cbn [obind] in E. rewrite (header_file false o icc d ih frames HO HF) in E. cbn [obind] in E.
  destruct (profiled_image D P ih l s HI HP EC) as (assoc & EJ & HAs); [lia|exact AP|]. rewrite EJ in E. cbn [obind] in E.
  set (j := profiled_img D P ih l s assoc) in *.
  assert (NI : HasICCProfile j = true) by (unfold HasICCProfile; cbn [j profiled_img im_icc]; lia). rewrite NI in E.
  unfold WritePNGFile, toTarget in E. replace (length (im_icc j) =? 0)%nat with false in E by (cbn [j profiled_img im_icc]; lia). cbn [obind] in E.
  destruct (WritePNG df df1 false j) as [b| |] eqn:EP; try discriminate. injection E as ->.
  destruct (C47_framing df df1 false j bytes EP) as (raw & bufs & ER & F).
  assert (PD : pngBitDepth j = 8) by (unfold pngBitDepth; cbn; destruct (Z.ltb_spec 8 D); [lia|reflexivity]).
  assert (WP : with_profile false j = true) by (unfold with_profile; cbn [j profiled_img im_icc]; replace (length P =? 0)%nat with false by lia; rewrite orb_true_r; reflexivity).
  assert (CN : ihColours ih = if s =? 1 then 1 else 3) by (unfold ihColours; change ModelHeader.CE_GRAY with 1; rewrite EC; reflexivity).
  set (n := ihColours ih + (if ihHasAlpha ih then 1 else 0)).
  exists j, raw, (colour_chunk df1 false j), n. cbv zeta. split; [unfold n; rewrite CN; destruct (s =? 1), (ihHasAlpha ih); lia|].
  split; [intros G1 G2; apply F; [exact G1|intros _; exact G2]|].
  cbn [j profiled_img im_w im_h]. rewrite <- E1, <- E2. split.
  - rewrite PD. unfold png_announced. f_equal. f_equal. rewrite <- Z.mul_assoc.
    assert (PS : png_samples (colour_type j) = n).
    { unfold colour_type, n. rewrite CN. cbn [j profiled_img im_encoding im_alphaIndex]. change CE_GRAY with 1. unfold ihHasAlpha in *.
      destruct HAs as [(AN & _)|(AN & e & EE & _)].
      - rewrite AN. destruct (s =? 1); reflexivity.
      - assert (A0 : 0 <= hd 0 (ih_alpha ih)) by (unfold slice_get in EE; destruct (Z.ltb_spec (hd 0 (ih_alpha ih)) 0); [discriminate|lia]).
        destruct (ih_alpha ih) as [|a r]; [contradiction|]. cbn [hd length Nat.eqb negb] in *. replace (0 <=? a) with true by lia. destruct (s =? 1); reflexivity. }
    rewrite PS. replace (ih_ow ih * (n * 8) + 7) with (ih_ow ih * n * 8 + 7) by ring. rewrite Z.div_add_l by lia. change (7 / 8) with 0. lia.
  - rewrite (fun a b c d => pngRaw_length (set_buffer j bufs) raw 2 a b c d ER).
    + cbn [set_buffer j profiled_img im_w im_h im_header hd_colours hd_hasAlpha]. fold n. ring.
    + cbn [set_buffer j profiled_img im_w]. lia.
    + cbn [set_buffer j profiled_img im_h]. lia.
    + cbn [set_buffer j profiled_img im_header hd_colours]. rewrite CN. destruct (s =? 1); lia.
    + assert (SG : forall c x, slice_get (repeat D (length l)) c = Ok x -> bytes_of x = 2).
      { intros c x EX. unfold slice_get in EX. destruct (c <? 0); [discriminate|]. destruct (nth_error _ _) as [y|] eqn:EN; [|discriminate]. injection EX as ->. apply nth_error_In, repeat_spec in EN. subst x. unfold bytes_of. destruct (Z.eqb_spec D 8); [lia|reflexivity]. }
      split; [intros c x _ EX|intros _ x EX]; cbn [set_buffer j profiled_img im_depths] in EX; exact (SG _ _ EX).
Qed.
Print Assumptions C110_low_depth_refuted.

(* For a file that the decoder rejects the program ends without output, not with a panic. *)
Theorem C110_rejected : forall o fl deflate deflate1 encode d, decodeFile o false false d = Err -> jxltopng o fl deflate deflate1 encode d = Ok None.
Proof. intros o fl df df1 en d E. unfold jxltopng, decodeImage. rewrite E. reflexivity. Qed.
Print Assumptions C110_rejected.
Example C110_rejected_example : forall o, decodeFile o false false [137; 80; 78; 71; 13; 10; 26; 10; 0; 0; 0; 13; 73; 72; 68; 82] = Err.
Proof. intros o. vm_compute. reflexivity. Qed.

(* Finding: a container with an empty codestream box makes the program panic. *)
Theorem C110_empty_refuted : forall o fl deflate deflate1 encode, jxltopng o fl deflate deflate1 encode (signature ++ enc_box (BCode [])) = Panic.
Proof. intros. vm_compute. reflexivity. Qed.
Print Assumptions C110_empty_refuted.

(* The image of C109_example with the profile of C108_example. *)
Definition profile_enc := [220; 1] ++ [19] ++ ([5] ++ tagged_cmds) ++ residuals tagged_out 128 ++ tagged_data.
Definition ex_profiled := [255; 10; 8; 0; 4; 88; 32; 44; 1; 8; 2; 1; 0; 36; 0; 137; 124; 18; 112; 222; 66; 134; 176; 19; 0; 0].
Example C110_example : forall dec up ct mat fl encode,
  let o := mkRest dec up ct mat (fun _ => rret profile_enc) in
  (exists ih, headerOfFile false (o_icc o) ex_profiled = Ok (Some ih) /\ profiled 8 tagged_out ih /\ usual_alpha ih) /\
  jxltopng o fl id_deflate id_deflate encode ex_profiled =
  Ok (Some ([137;80;78;71;13;10;26;10] ++ pngChunk [73;72;68;82; 0;0;0;2; 0;0;0;3; 8;0;0;0;0]
      ++ pngChunk ([105;67;67;80; 106;120;108;97;116;116;101;0;0] ++ tagged_out) ++ pngChunk [73;68;65;84; 0;4;1; 0;3;2; 0;2;3] ++ [0;0;0;0;73;69;78;68;174;66;96;130])).
Proof.
  intros dec up ct mat fl en o. split; [|vm_compute; reflexivity].
  eexists. split; [vm_compute; reflexivity|]. split; [|left; reflexivity].
  split; [reflexivity|]. split; [constructor|]. split.
  - split; [vm_compute; repeat constructor; discriminate|]. split; [vm_compute; lia|]. split; vm_compute; reflexivity.
  - exists profile_enc. split; [vm_compute; reflexivity|]. split; [apply C108_example|]. split; [vm_compute; repeat constructor; discriminate|vm_compute; reflexivity].
Qed.
