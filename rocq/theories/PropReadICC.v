(* C109: files with an ICC profile. *)
From Coq Require Import ZArith List Bool Lia Arith ZifyBool ZifyNat.
From Verif Require Import GoBase GoLoop GoMatrix GoFloat32 Bits ModelBitReader ModelUtil ModelHeader ModelFrameHeader ModelBoxes ModelICC ModelImage ModelWriters ModelToImage ModelDecode ModelFile ModelReader ModelTool.
From Verif Require Import SpecBitReader SpecCodes SpecGrammar SpecBoxes SpecHeader SpecFrameHeader SpecToc SpecStream SpecModular SpecModStream SpecModDecode SpecModFrame SpecImage SpecToImage SpecDecode SpecFile SpecReader SpecICC SpecICCTags SpecTool.
From Verif Require Import ProofReads ProofCodes ProofGrammar ProofHeader ProofBoxes ProofImage ProofWriters ProofToImage ProofModFrame ProofDecode ProofFile PropHeader PropFrameHeader PropModFrame PropDecode PropImage PropToImage PropFile PropICCTags PropReader PropTool.
Import ListNotations.
Open Scope Z_scope.

Lemma profiled_decoded o fl d ih H W out P s : lossless_image ih -> profiled 8 P ih -> usual_alpha ih -> ih_alpha ih = alpha_positions (ih_extra ih) -> 1 <= ih_orientation ih <= 8 ->
  ih_colour ih = mkCol true s 1 (white_xy 1) 1 (prim_xy 1) (2 ^ 24 + 13) 1 ->
  headerOfFile false (o_icc o) d = Ok (Some ih) -> shows (decodeFile o false false d) ih H W out ->
  forall peek, exists g, Decode o fl (mkRd d true peek) = Ok g /\ go_shows g ih H W out.
Proof.
  intros HI HP AL AP Or EC EH (l & ED & L & V) peek.
  assert (PB : (132 <= length P)%nat) by apply HP.
  unfold Decode. cbn [rd_seek rd_bytes negb]. unfold decodeImage. rewrite ED. cbn [obind]. rewrite EH. cbn [obind].
  destruct (profiled_image 8 P ih l s HI HP EC) as (assoc & EJ & HAs); [lia|exact AP|]. rewrite EJ. cbn [obind].
  assert (AF : assoc = false).
  { destruct HAs as [(_ & ->)|(NA & e & EE & ->)]; [reflexivity|]. destruct AL as [AN|(_ & e0 & t & EX & E0 & ES)]; [contradiction|].
    rewrite E0, EX in EE. injection EE as <-. exact ES. }
  subst assoc. set (j := profiled_img 8 P ih l s false).
  set (k := ih_orientation ih) in *. set (h := fst (seen_size k H W)) in *. set (w := snd (seen_size k H W)) in *.
  assert (HL : Forall (int_channel h w) l).
  { apply Forall_forall. intros ib Hib. destruct (In_nth _ _ ZERO_IB Hib) as (c & Hc & <-). apply V. lia. }
  assert (AT : forall c y x, (c < channel_count ih)%nat -> (y < H)%nat -> (x < W)%nat -> int_at l c (fst (seen_at k H W y x)) (snd (seen_at k H W y x)) = out c y x).
  { intros c y x Hc Hy Hx. unfold int_at. rewrite (nth_indep _ _ ZERO_IB) by lia. apply V; assumption. }
  assert (IN : forall y x, (y < H)%nat -> (x < W)%nat -> (fst (seen_at k H W y x) < h)%nat /\ (snd (seen_at k H W y x) < w)%nat).
  { intros y x Hy Hx. apply seen_in; [unfold orientation_of; lia|exact Hy|exact Hx]. }
  assert (IT : in_target (matchesTarget j ih) j) by (left; cbn [j profiled_img im_icc]; intros ->; cbn in PB; lia).
  unfold go_shows. fold k h w. cbv zeta.
  destruct (Z.eqb_spec (col_space (ih_colour ih)) 1) as [G|G].
  - assert (C1 : (1 <= channel_count ih)%nat) by (unfold channel_count, image_colours; rewrite G; cbn; lia).
    assert (CN : ihColours ih = 1) by (unfold ihColours; rewrite G; reflexivity).
    destruct (C88_gray_partial h w fl (matchesTarget j ih) j IT eq_refl) as (pix & img' & E2 & P1 & P2); [cbn; lia|exact CN|exact HL|reflexivity|cbn; intros ->; cbn in L; lia|].
    rewrite E2. cbn [obind fst]. eexists. split; [reflexivity|]. exists pix. split; [reflexivity|]. split; [exact P1|].
    intros y x c Hy Hx Hc. destruct (IN y x Hy Hx) as (I1 & I2). rewrite P2 by assumption. replace c with 0%nat by lia. cbn [Nat.eqb andb]. cbn [im_buffer j profiled_img]. rewrite AT by (assumption || lia). reflexivity.
  - assert (CN : ihColours ih = 3) by (unfold ihColours; change ModelHeader.CE_GRAY with 1; destruct (Z.eqb_spec (col_space (ih_colour ih)) 1); [contradiction|reflexivity]).
    assert (C4 : ((if ihHasAlpha ih then 4 else 3) <= channel_count ih)%nat).
    { assert (CC : (image_colours ih = 3)%nat) by (unfold image_colours; destruct (Z.eqb_spec (col_space (ih_colour ih)) 1); [contradiction|reflexivity]).
      unfold channel_count. rewrite CC. unfold ihHasAlpha. destruct AL as [->|(_ & e & t & -> & _)]; cbn [length Nat.eqb negb]; [lia|]. destruct (length (ih_alpha ih) =? 0)%nat; cbn [negb]; lia. }
    destruct (C88_rgb_partial h w fl (matchesTarget j ih) j IT eq_refl) as (pix & img' & E2 & P1 & P2); [cbn; lia|exact CN|exact HL|reflexivity|cbn [j profiled_img im_header im_buffer hd_hasAlpha]; lia|].
    rewrite E2. cbn [obind fst]. eexists. split; [reflexivity|]. exists pix. split; [reflexivity|]. split; [exact P1|].
    intros y x c Hy Hx Hc. destruct (IN y x Hy Hx) as (I1 & I2). rewrite P2 by assumption. cbn [im_buffer im_header hd_hasAlpha j profiled_img]. unfold ihHasAlpha in *. rewrite negb_involutive.
    destruct ((c =? 3)%nat && (length (ih_alpha ih) =? 0)%nat) eqn:EA; [reflexivity|]. rewrite AT by (assumption || (destruct (length (ih_alpha ih) =? 0)%nat; cbn [negb] in C4; lia)). reflexivity.
Qed.

(* C109.  Decode turns the bytes of a lossless file with samples of 8 bits and an ICC
   profile into the Go image with these samples.  The profile has no influence on the
   image: go_shows does not depend on it. *)
Theorem C109_profile_partial : forall o fl icc d ih frames H W out P peek,
  (forall n, 0 <= n < 2 ^ 32 -> exact (o_icc o n) (icc n)) ->
  lossless_image ih -> profiled 8 P ih -> usual_alpha ih -> dim_w (ih_size ih) = Z.of_nat W -> dim_h (ih_size ih) = Z.of_nat H -> (1 <= W)%nat ->
  file_bytes icc d ih frames ->
  picture true ih fst (fun f _ P => P = snd f) plane_layer (drawable ih H W) frames (fun _ => None) (fun _ => None) (fun _ _ _ => 0) out ->
  exists g, Decode o fl (mkRd d true peek) = Ok g /\ go_shows g ih H W out.
Proof.
  intros o fl icc d ih frames H W out P peek HO HI HP HA EW EH W1 HF HPic.
  destruct (profiled_header icc 5 d ih frames H W 8 P (proj2 HF) HP EW EH W1) as (AP & Or & (s & EC) & _).
  apply (profiled_decoded o fl d ih H W out P s HI HP HA AP Or EC (header_file false o icc d ih frames HO HF)).
  exact (C100_file_partial o icc d ih frames H W out HO HI EW EH W1 HF HPic).
Qed.
Print Assumptions C109_profile_partial.
Theorem C109_profile_container_partial : forall o fl icc before after d ih frames H W out P peek,
  (forall n, 0 <= n < 2 ^ 32 -> exact (o_icc o n) (icc n)) ->
  lossless_image ih -> profiled 8 P ih -> usual_alpha ih -> dim_w (ih_size ih) = Z.of_nat W -> dim_h (ih_size ih) = Z.of_nat H -> (1 <= W)%nat ->
  Forall wf_box (before ++ BCode d :: after) -> Forall not_code before -> Forall not_code after ->
  codestream icc (last_level 5 (before ++ BCode d :: after)) d ih frames ->
  picture true ih fst (fun f _ P => P = snd f) plane_layer (drawable ih H W) frames (fun _ => None) (fun _ => None) (fun _ _ _ => 0) out ->
  exists g, Decode o fl (mkRd (container before after d) true peek) = Ok g /\ go_shows g ih H W out /\
    (peek = true -> imageDecode o fl (mkRd (container before after d) true peek) = Ok g).
Proof.
  intros o fl icc before after d ih frames H W out P peek HO HI HP HA EW EH W1 Hw N1 N2 HF HPic.
  destruct (profiled_header icc _ d ih frames H W 8 P HF HP EW EH W1) as (AP & Or & (s & EC) & _).
  destruct (profiled_decoded o fl (container before after d) ih H W out P s HI HP HA AP Or EC (header_container false o icc before after d ih frames HO Hw N1 N2 HF)) with (peek := peek) as (g & E & S).
  - exact (C100_container_partial o icc before after d ih frames H W out HO HI EW EH W1 Hw N1 N2 HF HPic).
  - exists g. split; [exact E|]. split; [exact S|]. intros ->. exact E.
Qed.
Print Assumptions C109_profile_container_partial.

(* Colour images of 3 to 7 bits with a profile are scaled to 8 bits. *)
Theorem C109_profile_scaled_partial : forall o fl icc d ih frames H W out D P peek,
  (forall n, 0 <= n < 2 ^ 32 -> exact (o_icc o n) (icc n)) ->
  lossless_image ih -> D <= 7 -> profiled D P ih -> usual_alpha ih -> col_space (ih_colour ih) <> 1 -> dim_w (ih_size ih) = Z.of_nat W -> dim_h (ih_size ih) = Z.of_nat H -> (1 <= W)%nat ->
  file_bytes icc d ih frames ->
  picture true ih fst (fun f _ P => P = snd f) plane_layer (drawable ih H W) frames (fun _ => None) (fun _ => None) (fun _ _ _ => 0) out ->
  (forall c y x, (c < channel_count ih)%nat -> (y < H)%nat -> (x < W)%nat -> 0 <= out c y x <= 2 ^ D - 1) ->
  exists g, Decode o fl (mkRd d true peek) = Ok g /\ go_shows_scaled D g ih H W out.
Proof.
  intros o fl icc d ih frames H W out D P peek HO HI HD HP AL G EW EH W1 HF HPic HR.
  destruct (profiled_header icc 5 d ih frames H W D P (proj2 HF) HP EW EH W1) as (AP & Or & (s & EC) & _).
  assert (D3 : 3 <= D) by (destruct HI as (_ & _ & _ & HI & _); destruct HP as (HP & _); lia).
  destruct (C100_file_partial o icc d ih frames H W out HO HI EW EH W1 HF HPic) as (l & ED & L & V).
  assert (PB : (132 <= length P)%nat) by apply HP.
  unfold Decode. cbn [rd_seek rd_bytes negb]. unfold decodeImage. rewrite ED. cbn [obind]. rewrite (header_file false o icc d ih frames HO HF). cbn [obind].
  destruct (profiled_image D P ih l s HI HP EC) as (assoc & EJ & HAs); [lia|exact AP|]. rewrite EJ. cbn [obind].
  assert (AF : assoc = false).
  { destruct HAs as [(_ & ->)|(NA & e & EE & ->)]; [reflexivity|]. destruct AL as [AN|(_ & e0 & t & EX & E0 & ES)]; [contradiction|].
    rewrite E0, EX in EE. injection EE as <-. exact ES. }
  subst assoc. set (j := profiled_img D P ih l s false).
  set (k := ih_orientation ih) in *. set (h := fst (seen_size k H W)) in *. set (w := snd (seen_size k H W)) in *.
  assert (HL : Forall (int_channel h w) l).
  { apply Forall_forall. intros ib Hib. destruct (In_nth _ _ ZERO_IB Hib) as (c & Hc & <-). apply V. lia. }
  assert (AT : forall c y x, (c < channel_count ih)%nat -> (y < H)%nat -> (x < W)%nat -> int_at l c (fst (seen_at k H W y x)) (snd (seen_at k H W y x)) = out c y x).
  { intros c y x Hc Hy Hx. unfold int_at. rewrite (nth_indep _ _ ZERO_IB) by lia. apply V; assumption. }
  assert (IN : forall y x, (y < H)%nat -> (x < W)%nat -> (fst (seen_at k H W y x) < h)%nat /\ (snd (seen_at k H W y x) < w)%nat).
  { intros y x Hy Hx. apply seen_in; [unfold orientation_of; lia|exact Hy|exact Hx]. }
  assert (IT : in_target (matchesTarget j ih) j) by (left; cbn [j profiled_img im_icc]; intros ->; cbn in PB; lia).
  assert (CN : ihColours ih = 3) by (unfold ihColours; change ModelHeader.CE_GRAY with 1; destruct (Z.eqb_spec (col_space (ih_colour ih)) 1); [contradiction|reflexivity]).
  assert (C4 : ((if ihHasAlpha ih then 4 else 3) <= channel_count ih)%nat).
  { assert (CC : (image_colours ih = 3)%nat) by (unfold image_colours; destruct (Z.eqb_spec (col_space (ih_colour ih)) 1); [contradiction|reflexivity]).
    unfold channel_count. rewrite CC. unfold ihHasAlpha. destruct AL as [->|(_ & e & t & -> & _)]; cbn [length Nat.eqb negb]; [lia|]. destruct (length (ih_alpha ih) =? 0)%nat; cbn [negb]; lia. }
  destruct (C88_scaled_partial h w D fl (matchesTarget j ih) j IT eq_refl) as (pix & img' & E2 & P1 & P2); [cbn; lia|exact CN|lia|exact HL|reflexivity|cbn [j profiled_img im_header im_buffer hd_hasAlpha]; lia| |].
  - intros c y x Hc Hy Hx. cbn [j profiled_img im_buffer] in *. rewrite L in Hc. destruct (seen_surj k H W y x) as (y0 & x0 & Hy0 & Hx0 & EYX); [unfold orientation_of; lia|exact Hy|exact Hx|].
    specialize (AT c y0 x0 Hc Hy0 Hx0). rewrite EYX in AT. cbn [fst snd] in AT. rewrite AT. apply HR; assumption.
  - rewrite E2. cbn [obind fst]. eexists. split; [reflexivity|]. unfold go_shows_scaled. fold k h w. cbv zeta. exists pix. split; [reflexivity|]. split; [exact P1|].
    intros y x c Hy Hx Hc. destruct (IN y x Hy Hx) as (I1 & I2). specialize (P2 _ _ c I1 I2 Hc). cbn [im_buffer im_header hd_hasAlpha j profiled_img] in P2. unfold ihHasAlpha in *. rewrite negb_involutive in P2.
    destruct ((c =? 3)%nat && (length (ih_alpha ih) =? 0)%nat) eqn:EA; [exact P2|]. rewrite AT in P2 by (assumption || (destruct (length (ih_alpha ih) =? 0)%nat; cbn [negb] in C4; lia)). exact P2.
Qed.
Print Assumptions C109_profile_scaled_partial.

(* Every gray or RGB image of 3 to 16 bits has a file with any profile that can be sent. *)
Definition image_with (gray : bool) (h w depth orientation : Z) (enc : list Z) : ImageHeader :=
  mkIH 5 (mkDim w h) orientation (if 4 <? orientation then h else w) (if 4 <? orientation then w else h) None None (mkBD depth 0 false) true [] [] false
    (mkCol true (if gray then 1 else 0) 1 (white_xy 1) 1 (prim_xy 1) (2 ^ 24 + 13) 1) tone_default no_extensions None None None None (Some enc).
Lemma image_with_sent (icc : Z -> code (list Z)) gray h w depth orientation n ci enc : 1 <= h <= 2 ^ 18 -> 1 <= w <= 2 ^ 18 -> h * w <= 2 ^ 28 -> 1 <= depth <= 64 -> 1 <= orientation <= 8 ->
  0 <= n < 2 ^ 32 -> icc n ci enc ->
  exists c, SpecHeader.header_code iso_handled icc 5 c (image_with gray h w depth orientation enc).
Proof.
  intros Hh Hw Hhw Hd Ho Hn Hi. destruct (u64_code_exists n) as (nc & Hnc); [change (2 ^ 64) with 18446744073709551616; change (2 ^ 32) with 4294967296 in Hn; lia|].
  assert (Hcc : exists c, colour_code c (mkCol true (if gray then 1 else 0) 1 (white_xy 1) 1 (prim_xy 1) (2 ^ 24 + 13) 1)).
  { assert (E : forall i x v, (i < 4)%nat -> 0 <= x < 2 ^ Z.of_nat (nth i [0; 0; 4; 6]%nat O) -> nth i [0; 1; 2; 18] 0 + x = v -> v <= 63 -> c_enum (zbits 2 (Z.of_nat i) ++ zbits (nth i [0; 0; 4; 6]%nat O) x) v).
    { intros i x v A1 A2 <- A3. split; [apply u32_i; assumption|exact A3]. }
    destruct gray; eexists; unfold colour_code; B false; B true.
    - eapply seq_i; [apply (E 1%nat 0 1); cbn; lia|]. cbv beta. split; [unfold space_kind; lia|]. cbv iota. apply ret_i.
    - eapply seq_i; [apply (E 0%nat 0 0); cbn; lia|]. cbv beta. split; [unfold space_kind; lia|]. cbv iota. apply ret_i. }
  destruct Hcc as (cc & Hcc). destruct (size_sent h w Hh Hw Hhw) as (sc & Hsc). eexists. unfold SpecHeader.header_code.
  eapply seq_i; [apply (fixed_i 16 0x0AFF); vm_compute; split; [discriminate|reflexivity]|]. split; [split; [reflexivity|left; reflexivity]|].
  eapply seq_i; [exact Hsc|]. cbv beta. B false. B true.
  eapply seq_i.
  { unfold extra_fields_code. eapply seq_i; [apply (fixed_i 3 (orientation - 1)); change (Z.of_nat 3) with 3; lia|]. cbv beta. B false. N. B false. N. B false. N. replace (1 + (orientation - 1)) with orientation by lia. apply ret_i. }
  cbv beta. eapply seq_i.
  { unfold mid_code. eapply seq_i. { unfold bitdepth_code. B false. eapply seq_i; [apply (u32_i _ _ _ _ _ _ _ _ 3%nat (depth - 1)); [lia|cbn [nth]; change (Z.of_nat 6) with 6; lia]|]. cbv beta. cbn [nth]. replace (1 + (depth - 1)) with depth by lia. apply ret_i. }
    cbv beta. B true. U 0%nat 0. N. B false. eapply seq_i; [exact Hcc|apply ret_i]. }
  cbv beta. eapply seq_i. { unfold tone_code. B true. apply ret_i. }
  cbv beta. EH0. B true. N. N. N. N. N.
  eapply seq_i; [cbn [snd col_icc]; eapply seq_i; [exact Hnc|]; cbv beta; split; [lia|]; eapply seq_i; [exact Hi|apply ret_i]|]. cbv beta iota. apply ret_i.
Qed.
Lemma every_profiled (icc : Z -> code (list Z)) gray h w D orientation P prof n ci enc :
  (1 <= h)%nat -> (1 <= w)%nat -> Z.of_nat h <= 2 ^ 18 -> Z.of_nat w <= 2 ^ 18 -> Z.of_nat (length P * (h * w)) < 2 ^ 27 ->
  3 <= D <= 16 -> 1 <= orientation <= 8 -> samples_of h w P -> length P = (if gray : bool then 1 else 3)%nat ->
  Forall is_byte prof -> (132 <= length prof)%nat -> Z.of_nat (length prof) < 2 ^ 29 -> nth 128 prof 0 < 127 ->
  profile_sent prof enc -> Forall is_byte enc -> Z.of_nat (length enc) < 2 ^ 31 -> 0 <= n < 2 ^ 32 -> icc n ci enc ->
  let ih := image_with gray (Z.of_nat h) (Z.of_nat w) D orientation enc in let fh := frame_of (Z.of_nat h) (Z.of_nat w) 1 in
  lossless_image ih /\ profiled D prof ih /\ usual_alpha ih /\ channel_count ih = length P /\ covers fh h w /\ drawable ih h w (fh, P) P (fun _ => None) /\ exists d, file_bytes icc d ih [(fh, P)].
Proof.
  intros H1 W1 Hh Hw Hn HDp Hor HP LP Q1 Q2 Q3 Q4 QS QB QL Nn Hi ih fh.
  destruct (every_file icc gray h w D orientation P H1 W1 Hh Hw Hn HDp Hor HP LP) as (_ & _ & _ & HC & HDr & _).
  change (2 ^ 27) with 134217728 in Hn. change (2 ^ 18) with 262144 in *.
  assert (LPn : (1 <= length P)%nat) by (destruct gray; lia).
  assert (Hhw : (h * w <= length P * (h * w))%nat) by (rewrite <- (Nat.mul_1_l (h * w)) at 1; apply Nat.mul_le_mono_r; exact LPn).
  assert (HI : lossless_image ih) by (repeat split; try reflexivity; cbn; try lia; constructor).
  assert (CC : channel_count ih = length P) by (rewrite LP; unfold channel_count, ih; destruct gray; reflexivity).
  assert (Hp : plain_frame fh h w 256 1 []).
  { assert (C1 : forall a, (1 <= a)%nat -> Z.of_nat a <= 262144 -> Z.of_nat (count a 256) <= 1024 /\ Z.of_nat (count a (8 * 256)) <= 1024).
    { intros a Ha Hb. unfold count. pose proof (Nat.div_mod (a - 1) 256 ltac:(lia)). pose proof (Nat.div_mod (a - 1) (8 * 256) ltac:(lia)). lia. }
    destruct (C1 h H1 Hh) as (K1 & K2). destruct (C1 w W1 Hw) as (K3 & K4).
    unfold plain_frame, fh, frame_of. cbn [fh_enc fh_ycbcr fh_jx fh_jy fh_up fh_ecup fh_rf rf_gab rf_iters fh_flags fh_bh fh_bw fh_gdim fh_passes].
    repeat (split; [first [reflexivity | lia | solve [repeat constructor]]|]). split; [exists 1; split; [lia|reflexivity]|]. split; [exists [0]; reflexivity|]. split; [split; [lia|constructor]|].
    generalize dependent (count h 256). generalize dependent (count h (8 * 256)). generalize dependent (count w 256). generalize dependent (count w (8 * 256)). clear. intros a Ha b Hb c Hc e He. nia. }
  destruct (image_with_sent icc gray (Z.of_nat h) (Z.of_nat w) D orientation n ci enc) as (hc & HH); [change (2 ^ 18) with 262144; lia|change (2 ^ 18) with 262144; lia|change (2 ^ 28) with 268435456; rewrite <- Nat2Z.inj_mul; lia|lia|lia|exact Nn|exact Hi|].
  destruct (frame_header_sent gray (Z.of_nat h) (Z.of_nat w) D orientation 1) as (fc & HF); try lia.
  destruct (C100_sendable icc ih hc fh fc h w 256 1 [] P HH HI HF Hp HP (eq_sym CC)) as (d & HB); [exact Hn|].
  split; [exact HI|]. split; [|split; [left; reflexivity|]].
  - split; [reflexivity|]. split; [constructor|]. split; [repeat split; assumption|]. exists enc. split; [reflexivity|]. split; [exact QS|]. split; assumption.
  - split; [exact CC|]. split; [exact HC|]. split; [|exists d; exact HB].
    destruct gray; exact HDr.
Qed.
Theorem C109_every_profile : forall o fl (icc : Z -> code (list Z)) gray h w orientation P prof n ci enc,
  (forall n, 0 <= n < 2 ^ 32 -> exact (o_icc o n) (icc n)) ->
  (1 <= h)%nat -> (1 <= w)%nat -> Z.of_nat h <= 2 ^ 18 -> Z.of_nat w <= 2 ^ 18 -> Z.of_nat (length P * (h * w)) < 2 ^ 27 ->
  1 <= orientation <= 8 -> samples_of h w P -> length P = (if gray : bool then 1 else 3)%nat ->
  Forall is_byte prof -> (132 <= length prof)%nat -> Z.of_nat (length prof) < 2 ^ 29 -> nth 128 prof 0 < 127 ->
  profile_sent prof enc -> Forall is_byte enc -> Z.of_nat (length enc) < 2 ^ 31 -> 0 <= n < 2 ^ 32 -> icc n ci enc ->
  let size := seen_size orientation h w in let m := if gray then 1%nat else 4%nat in
  exists d pix, Forall is_byte d /\
    Decode o fl (mkRd d true false) = Ok ((if gray then Gray else NRGBA) (Z.of_nat (snd size)) (Z.of_nat (fst size)) pix) /\
    length pix = (m * (fst size * snd size))%nat /\
    forall y x c, (y < h)%nat -> (x < w)%nat -> (c < m)%nat ->
      pix_byte m (snd size) pix (fst (seen_at orientation h w y x)) (snd (seen_at orientation h w y x)) c =
      if (c =? 3)%nat then 255 else clamped 255 (px (p_px (nth c P empty_plane)) y x).
Proof.
  intros o fl icc gray h w orientation P prof n ci enc HO H1 W1 Hh Hw Hn Hor HP LP Q1 Q2 Q3 Q4 QS QB QL Nn Hi size m.
  destruct (every_profiled icc gray h w 8 orientation P prof n ci enc H1 W1 Hh Hw Hn ltac:(lia) Hor HP LP Q1 Q2 Q3 Q4 QS QB QL Nn Hi) as (HI & H8 & HA & CC & HC & HD & d & HB).
  set (ih := image_with gray (Z.of_nat h) (Z.of_nat w) 8 orientation enc) in *. set (fh := frame_of (Z.of_nat h) (Z.of_nat w) 1) in *.
  pose proof (C100_image_partial o icc d ih fh P h w HO HI eq_refl eq_refl W1 HB HC HD) as S.
  destruct (profiled_decoded o fl d ih h w (fun c y x => px (p_px (nth c P empty_plane)) y x) prof (if gray then 1 else 0) HI H8 HA eq_refl Hor eq_refl (header_file false o icc d ih _ HO HB) S false) as (g & E & pix & EG & L & V).
  assert (G : (col_space (ih_colour ih) =? 1) = gray) by (unfold ih, image_with; destruct gray; reflexivity). rewrite G in EG, L, V.
  exists d, pix. split; [apply HB|]. split; [rewrite E, EG; reflexivity|]. split; [exact L|].
  intros y x c Hy Hx Hc. specialize (V y x c Hy Hx Hc). cbv zeta in V. cbn [ih image_with ih_alpha length Nat.eqb] in V. rewrite andb_true_r in V. exact V.
Qed.
Print Assumptions C109_every_profile.

(* The file of C110_example, whose header has the profile, as a Go image. *)
Example C109_profile_example : forall dec up ct mat fl,
  let o := mkRest dec up ct mat (fun _ => rret profile_enc) in
  (exists ih, headerOfFile false (o_icc o) ex_profiled = Ok (Some ih) /\ profiled 8 tagged_out ih /\ usual_alpha ih) /\
  Decode o fl (mkRd ex_profiled true true) = Ok (Gray 2 3 [4; 1; 3; 2; 2; 3]).
Proof.
  intros dec up ct mat fl o. split; [apply (C110_example dec up ct mat fl (fun _ => []))|vm_compute; reflexivity].
Qed.
(* With this profile a file of one pixel meets the hypotheses for other depths: 31, 16 and
   0 of 5 bits are shown as 255, 132 and 0. *)
Lemma profile_enc_sent : Forall is_byte tagged_out /\ (132 <= length tagged_out)%nat /\ Z.of_nat (length tagged_out) < 2 ^ 29 /\ nth 128 tagged_out 0 < 127 /\
  profile_sent tagged_out profile_enc /\ Forall is_byte profile_enc /\ Z.of_nat (length profile_enc) < 2 ^ 31.
Proof.
  split; [vm_compute; repeat constructor; discriminate|]. split; [vm_compute; lia|]. split; [vm_compute; reflexivity|]. split; [vm_compute; reflexivity|].
  split; [apply C108_example|]. split; [vm_compute; repeat constructor; discriminate|vm_compute; reflexivity].
Qed.
Example C109_profile_scaled_example : forall dec up ct mat fl, let o := mkRest dec up ct mat (fun _ => rret profile_enc) in
  exists d, Decode o fl (mkRd d true false) = Ok (NRGBA 1 1 [255; 132; 0; 255]).
Proof.
  intros dec up ct mat fl o. set (icc := fun _ : Z => c_ret profile_enc).
  assert (HO : forall n, 0 <= n < 2 ^ 32 -> exact (o_icc o n) (icc n)) by (intros n _; apply ProofGrammar.exact_ret).
  destruct profile_enc_sent as (Q1 & Q2 & Q3 & Q4 & QS & QB & QL).
  set (v := [31; 16; 0]). set (P := map (fun a => mkPl 1 1 0 0 [[a]]) v). set (ih := image_with false 1 1 5 1 profile_enc). set (fh := frame_of 1 1 1).
  destruct (every_profiled icc false 1 1 5 1 P tagged_out 0 [] profile_enc) as (HI & HS & HA & CC & HC & HDr & d & HB); try assumption; try (unfold P; rewrite ?map_length; cbn; lia); try lia.
  { unfold P, samples_of. apply Forall_map. unfold v. repeat constructor; cbn; lia. }
  { apply ret_i. }
  exists d. destruct HC as (T & La & Lv & _).
  assert (HP : exists out, picture true ih fst (fun f _ P => P = snd f) plane_layer (drawable ih 1 1) [(fh, P)] (fun _ => None) (fun _ => None) (fun _ _ _ => 0) out /\
    forall c, (c < 3)%nat -> out c 0%nat 0%nat = nth c v 0).
  { eexists. split; [exact (pic_last true ih fst (fun f _ P => P = snd f) plane_layer (drawable ih 1 1) (fh, P) [] _ _ _ P (or_introl T) La Lv eq_refl HDr)|].
    intros c Hc. destruct c as [|[|[|c]]]; [reflexivity|reflexivity|reflexivity|lia]. }
  destruct HP as (out & HP & V).
  destruct (C109_profile_scaled_partial o fl icc d ih [(fh, P)] 1 1 out 5 tagged_out false HO HI ltac:(lia) HS HA ltac:(discriminate) eq_refl eq_refl (le_n 1) HB HP) as (g & E & pix & EG & LP & B).
  - intros c y x Hc Hy Hx. replace y with 0%nat by lia. replace x with 0%nat by lia. assert (C3 : (c < 3)%nat) by (cbn in Hc; exact Hc). rewrite V by exact C3. destruct c as [|[|[|c]]]; cbn; lia.
  - rewrite E, EG. cbn in LP. destruct pix as [|b0 [|b1 [|b2 [|b3 [|]]]]]; try discriminate.
    pose proof (B 0 0 0)%nat as B0. pose proof (B 0 0 1)%nat as B1. pose proof (B 0 0 2)%nat as B2. pose proof (B 0 0 3)%nat as B3. cbn [Nat.eqb andb] in B0, B1, B2. rewrite V in B0, B1, B2 by lia. cbn -[Z.mul Z.abs Z.sub Z.le] in B0, B1, B2, B3.
    specialize (B0 ltac:(lia) ltac:(lia) ltac:(lia)). specialize (B1 ltac:(lia) ltac:(lia) ltac:(lia)). specialize (B2 ltac:(lia) ltac:(lia) ltac:(lia)). specialize (B3 ltac:(lia) ltac:(lia) ltac:(lia)). clear - B0 B1 B2 B3.
    assert (b0 = 255 /\ b1 = 132 /\ b2 = 0 /\ b3 = 255) as (-> & -> & -> & ->) by lia. reflexivity.
Qed.
