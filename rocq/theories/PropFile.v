(* C100: lossless files, from the bytes to the oriented image. *)
From Coq Require Import ZArith List Bool Lia Arith ZifyBool ZifyNat.
From Verif Require Import GoBase GoLoop GoMatrix Bits ModelBitReader ModelUtil ModelHeader ModelFrameHeader ModelBoxes ModelEntropy ModelMATree ModelModular ModelModStream ModelModDecode ModelGroups ModelToc ModelImage ModelModFrame ModelDecode ModelFile.
From Verif Require Import SpecBitReader SpecCodes SpecGrammar SpecBoxes SpecHeader SpecFrameHeader SpecToc SpecGroups SpecStream SpecModular SpecModStream SpecModDecode SpecModFrame SpecImage SpecDecode SpecFile.
From Verif Require Import ProofReads ProofCodes ProofHeader ProofImage ProofModFrame ProofDecode PropFrameHeader PropModFrame PropDecode ProofFile.
Import ListNotations.
Open Scope Z_scope.

(* The outcome r is the image out, of H rows and W columns, seen in the
   orientation of the header. *)
Definition shows (r : Outcome (option (list ImageBuffer))) (ih : ImageHeader) (H W : nat) (out : nat -> nat -> nat -> Z) : Prop :=
  exists l, r = Ok (Some l) /\ length l = channel_count ih /\
    forall c, (c < channel_count ih)%nat ->
      int_channel (fst (seen_size (ih_orientation ih) H W)) (snd (seen_size (ih_orientation ih) H W)) (nth c l ZERO_IB) /\
      forall y x, (y < H)%nat -> (x < W)%nat ->
        px (ib_int (nth c l ZERO_IB)) (fst (seen_at (ih_orientation ih) H W y x)) (snd (seen_at (ih_orientation ih) H W y x)) = out c y x.
Lemma box_shows o d ih frames H W out start s : lossless_image ih -> ProofDecode.size_ok ih H W -> (1 <= W)%nat -> (dim_w (ih_size ih) = Z.of_nat W) -> (dim_h (ih_size ih) = Z.of_nat H) -> 1 <= ih_orientation ih <= 8 ->
  (8 * start <= 8 * length d)%nat -> frames_bytes ih d start frames -> reader_at s d (8 * start) ->
  picture true ih fst (fun f _ P => P = snd f) plane_layer (drawable ih H W) frames (fun _ => None) (fun _ => None) (fun _ _ _ => 0) out ->
  shows (decodeBox o false false ih (S (8 * length d)) s) ih H W out.
Proof.
  intros HI HS W1 EW EH Or Hs FB Hr HP. pose proof HS as HS'. unfold ProofDecode.size_ok in HS'.
  destruct (picture_buffers o ih H W frames _ _ _ _ HI HS (frames_fine _ _ _ _ FB) HP (fun _ => None) (fun _ => None) (fun _ _ _ => 0)) as (out' & HP' & SO).
  { intros i. exact I. } { intros c y x. reflexivity. }
  destruct (C90_composition_partial true ih H W _ out' HS Or HP') as (l & E & L & V).
  unfold decodeBoxes in E. change (1 <? Z.of_nat (length [mkBx false (map (frame_in o ih) frames) (Ok tt)])) with false in E. cbv iota in E. cbn [bx_atEnd bx_frames bx_pad] in E.
  destruct (frameLoop false false ih (map (frame_in o ih) frames) (initState ih)) as [st| |] eqn:EL; try discriminate. cbn [obind] in E.
  destruct (orientAll (ih_orientation ih) (ModelDecode.rd (d_mem st) (d_canvas st))) as [b| |] eqn:EO; try discriminate. cbn [obind] in E. injection E as ->.
  assert (NE : frames <> []) by (intros ->; discriminate EL).
  destruct (frames_fit ih d frames start FB) as [K|Hfit]; [contradiction|]. assert (1 <= length frames)%nat by (destruct frames; [contradiction|cbn; lia]).
  destruct (file_loop o ih d HI ltac:(lia) ltac:(lia) frames start FB s (8 * start)%nat (initState ih) st (S (8 * length d)) Hr (byte_up_8 start) ltac:(lia) EL) as (s1 & p1 & E1 & R1).
  exists l. split; [|split; [exact L|]].
  - unfold decodeBox. rewrite (not_at_end _ _ _ Hr) by lia. rewrite (rbind_eq _ _ _ _ _ E1). destruct (pad_ok s1 d p1 R1) as (s2 & E2 & _). rewrite (rbind_eq _ _ _ _ _ E2). rewrite EO. reflexivity.
  - intros c Hc. destruct (V c Hc) as (V1 & V2). split; [exact V1|]. intros y x Hy Hx. rewrite SO. exact (V2 y x Hy Hx).
Qed.
Lemma codestream_size icc level d ih frames H W : codestream icc level d ih frames -> dim_w (ih_size ih) = Z.of_nat W -> dim_h (ih_size ih) = Z.of_nat H -> (1 <= W)%nat ->
  ProofDecode.size_ok ih H W /\ 1 <= ih_orientation ih <= 8.
Proof.
  intros (_ & c & start & HC & _) EW EH W1.
  assert (OK : header_ok level ih) by (apply (header_code_ok icc level c); eapply header_mono; [apply handled_implemented|exact HC]).
  destruct OK as (_ & _ & Bw & Bh & Or & _). rewrite EW in Bw. rewrite EH in Bh. split; [|lia]. unfold ProofDecode.size_ok. destruct (level =? 5); lia.
Qed.

(* C100.  The bytes of a lossless file, with frames that replace or add,
   decode to the picture of C90, seen in the orientation of the header.  o is
   whatever the parts of the decoder that such a file does not reach do. *)
Theorem C100_file_partial : forall o icc d ih frames H W out,
  (forall n, 0 <= n < 2 ^ 32 -> exact (o_icc o n) (icc n)) ->
  lossless_image ih -> dim_w (ih_size ih) = Z.of_nat W -> dim_h (ih_size ih) = Z.of_nat H -> (1 <= W)%nat ->
  file_bytes icc d ih frames ->
  picture true ih fst (fun f _ P => P = snd f) plane_layer (drawable ih H W) frames (fun _ => None) (fun _ => None) (fun _ _ _ => 0) out ->
  shows (decodeFile o false false d) ih H W out.
Proof.
  intros o icc d ih frames H W out HO HI EW EH W1 HF HP.
  destruct (codestream_size icc 5 d ih frames H W (proj2 HF) EW EH W1) as (HS & Or).
  destruct (file_start o icc d ih frames HO HI HF) as (start & s & Hs & FB & Hr & ->). apply (box_shows o d ih frames H W out start s); assumption.
Qed.
Print Assumptions C100_file_partial.
(* The same codestream in a container, in one box, with boxes of other kinds
   before and after it.  The last level box tells the level. *)
Theorem C100_container_partial : forall o icc before after d ih frames H W out,
  (forall n, 0 <= n < 2 ^ 32 -> exact (o_icc o n) (icc n)) ->
  lossless_image ih -> dim_w (ih_size ih) = Z.of_nat W -> dim_h (ih_size ih) = Z.of_nat H -> (1 <= W)%nat ->
  Forall wf_box (before ++ BCode d :: after) -> Forall not_code before -> Forall not_code after ->
  codestream icc (last_level 5 (before ++ BCode d :: after)) d ih frames ->
  picture true ih fst (fun f _ P => P = snd f) plane_layer (drawable ih H W) frames (fun _ => None) (fun _ => None) (fun _ _ _ => 0) out ->
  shows (decodeFile o false false (container before after d)) ih H W out.
Proof.
  intros o icc before after d ih frames H W out HO HI EW EH W1 Hw N1 N2 HF HP.
  destruct (codestream_size icc _ d ih frames H W HF EW EH W1) as (HS & Or).
  destruct (container_start o icc before after d ih frames HO HI Hw N1 N2 HF) as (start & s & Hs & FB & Hr & ->). apply (box_shows o _ ih frames H W out start s); assumption.
Qed.
Print Assumptions C100_container_partial.

(* One frame that covers the image: the decoder gives the samples that were
   sent. *)
Definition covers (fh : FrameHeader) (H W : nat) : Prop :=
  fh_type fh = 0 /\ fh_last fh = true /\ fh_lflevel fh = 0 /\ fh_ox fh = 0 /\ fh_oy fh = 0 /\ fh_bh fh = Z.of_nat H /\ fh_bw fh = Z.of_nat W.
Theorem C100_image_partial : forall o icc d ih fh P H W,
  (forall n, 0 <= n < 2 ^ 32 -> exact (o_icc o n) (icc n)) ->
  lossless_image ih -> dim_w (ih_size ih) = Z.of_nat W -> dim_h (ih_size ih) = Z.of_nat H -> (1 <= W)%nat ->
  file_bytes icc d ih [(fh, P)] -> covers fh H W -> drawable ih H W (fh, P) P (fun _ => None) ->
  exists l, decodeFile o false false d = Ok (Some l) /\ length l = channel_count ih /\
    forall c, (c < channel_count ih)%nat ->
      int_channel (fst (seen_size (ih_orientation ih) H W)) (snd (seen_size (ih_orientation ih) H W)) (nth c l ZERO_IB) /\
      forall y x, (y < H)%nat -> (x < W)%nat ->
        px (ib_int (nth c l ZERO_IB)) (fst (seen_at (ih_orientation ih) H W y x)) (snd (seen_at (ih_orientation ih) H W y x)) =
        px (p_px (nth c P empty_plane)) y x.
Proof.
  intros o icc d ih fh P H W HO HI EW EH W1 HF (T & La & Lv & Ox & Oy & Bh & Bw) HD.
  destruct (C100_file_partial o icc d ih [(fh, P)] H W _ HO HI EW EH W1 HF
    (pic_last true ih fst (fun f _ P => P = snd f) plane_layer (drawable ih H W) (fh, P) [] _ _ _ P (or_introl T) La Lv eq_refl HD)) as (l & E & L & V).
  exists l. split; [exact E|]. split; [exact L|]. intros c Hc. destruct (V c Hc) as (V1 & V2). split; [exact V1|]. intros y x Hy Hx. rewrite (V2 y x Hy Hx).
  destruct HF as (_ & _ & c0 & start & _ & _ & _ & _ & FB). apply frames_fine in FB. inversion FB as [|? ? (h & w & dim & num & ds & Hp & _) _]. subst.
  destruct Hp as (F1 & _ & _ & _ & Up & _). destruct HI as (X & _). cbn [fst] in F1, Up.
  unfold drawn. cbn [fst]. rewrite Ox, Oy, Bh, Bw, Up. unfold coveredb. replace ((0 <=? Z.of_nat y) && (Z.of_nat y <? 0 + Z.of_nat H * 1) && (0 <=? Z.of_nat x) && (Z.of_nat x <? 0 + Z.of_nat W * 1)) with true by lia.
  cbv zeta iota. rewrite !Z.sub_0_r, !Nat2Z.id. unfold plane_layer. f_equal. f_equal. f_equal.
  unfold source_channel, frame_colours. rewrite X, F1. change (1 =? 0) with false. cbv iota. rewrite Nat.eqb_refl. destruct (Nat.ltb_spec c (image_colours ih)); lia.
Qed.
Print Assumptions C100_image_partial.

(* Finding: an image with a preview is rejected, whatever follows its header. *)
Theorem C100_preview_refuted : forall o icc d ih c dim,
  (forall n, 0 <= n < 2 ^ 32 -> exact (o_icc o n) (icc n)) -> (12 <= length d)%nat -> Forall is_byte d ->
  SpecHeader.header_code iso_handled icc 5 c ih -> ih_preview ih = Some dim -> bits_at d 0 c ->
  forall parseOnly renderVarblocks, decodeFile o parseOnly renderVarblocks d = Err.
Proof.
  intros o icc d ih c dim HO Hl Hd HC PV HB parseOnly renderVarblocks.
  unfold decodeFile. pose proof (ProofBoxes.header_ok d (S (length d)) Hd) as E. replace (length d <? 12)%nat with false in E by lia. rewrite (no_container _ _ _ _ HC HB Hl) in E. rewrite E.
  cbn [bh_offset]. change (Z.to_nat 0) with 0%nat.
  assert (R0 : reader_at (set_pos 0 (mkBR d 12 0 0 0)) d 0).
  { change 0%nat with (8 * br_pos (set_pos 0 (mkBR d 12 0 0 0)))%nat at 2. apply ProofBoxes.al_reader; [|reflexivity]. apply ProofBoxes.al_set_pos; [apply ProofBoxes.al_12; assumption|cbn; lia]. }
  rewrite (not_at_end _ _ _ R0) by lia.
  destruct (PropHeader.C54_header_language (o_icc o) icc 5 HO) as (_ & HL).
  assert (HC' : SpecHeader.header_code implemented icc 5 c ih) by (eapply header_mono; [apply handled_implemented|exact HC]).
  destruct (HL c ih _ d 0%nat HC' R0 HB) as (s1 & E1 & R1). rewrite E1, PV. reflexivity.
Qed.
Print Assumptions C100_preview_refuted.
Example C100_preview_example : forall o, exists ih s, let d := [255; 10; 65; 132; 9; 196; 4; 0; 0; 0; 0; 0; 0; 0; 0; 0] in
  ParseImageHeader (o_icc o) 5 (set_pos 0 (mkBR d 12 0 0 0)) = (Ok ih, s) /\ ih_preview ih <> None /\ decodeFile o false false d = Err.
Proof. intros o. eexists. eexists. cbv zeta. split; [vm_compute; reflexivity|]. split; [discriminate|vm_compute; reflexivity]. Qed.

(* Every image of less than 2^27 samples can be sent with any image header and
   any header of a plain frame. *)
Theorem C100_sendable : forall icc ih hc fh fc h w dim num ds P,
  SpecHeader.header_code iso_handled icc 5 hc ih -> lossless_image ih -> frame_code fhandled ih fc fh -> plain_frame fh h w dim num ds ->
  samples_of h w P -> length P = channel_count ih -> Z.of_nat (length P * (h * w)) < 2 ^ 27 ->
  exists d, file_bytes icc d ih [(fh, P)].
Proof.
  intros icc ih hc fh fc h w dim num ds P HH HI HF Hp HP LP Hn.
  destruct (plain_geo _ _ _ _ _ _ Hp) as (G & D1).
  pose proof Hp as (F1 & F2 & F3 & F4 & F5 & F6 & F7 & F8 & F9 & F10 & F11 & F12 & F13 & F14 & F15 & F16 & F17 & (shift & F18) & F19 & F20).
  inversion F9 as [|? ? G0 F9']. inversion F9' as [|? ? G1 F9'']. inversion F9'' as [|? ? G4 _]. subst.
  destruct (image_channels ih HI fh F2) as (C1 & C2 & C3).
  pose proof HI as (_ & _ & _ & I4 & _). change (2 ^ 27) with 134217728 in Hn.
  destruct (sections_sent (mfOf ih fh) h w dim num shift ds P) as (sections & HS & HL); try assumption.
  - cbn [mfOf mf_geo geoOf g_fx]. rewrite F3. reflexivity.
  - cbn [mfOf mf_geo geoOf g_fy]. rewrite F4. reflexivity.
  - cbn [mfOf mf_geo geoOf g_vardct]. rewrite F1. reflexivity.
  - congruence.
  - rewrite C3, LP. reflexivity.
  - change (2 ^ 28) with 268435456. lia.
  - apply (file_built icc ih hc fh fc h w dim num ds P sections); try assumption. revert HL. apply Forall_impl. intros c Hc. change (2 ^ 33) with 8589934592. lia.
Qed.
Print Assumptions C100_sendable.

(* ---- the header of an image of h rows and w columns, gray or RGB, with
   samples of depth bits, and of the frame that covers it ---- *)
Definition image_of (gray : bool) (h w depth orientation : Z) : ImageHeader :=
  mkIH 5 (mkDim w h) orientation (if 4 <? orientation then h else w) (if 4 <? orientation then w else h) None None (mkBD depth 0 false) true [] [] false
    (if gray then mkCol false 1 1 (white_xy 1) 1 (prim_xy 1) (2 ^ 24 + 13) 1 else srgb) tone_default no_extensions None None None None None.
Definition frame_of (h w shift : Z) : FrameHeader :=
  mkFH 0 1 0 false [0; 0; 0] [0; 0; 0] 1 [] shift (128 * 2 ^ shift) (1024 * 2 ^ shift) (7 + shift) (10 + shift) 2 2 (passes_of 1 [0] []) 0 false 0 0 0 0
    w h (mkBl 0 0 false 0) [] true 0 false [] (mkRf false None 0 None None None None None no_extensions) no_extensions.
Lemma handled_payload0 : d_ext_payload iso_handled 0 [] [].
Proof. split; [reflexivity|apply ret_i]. Qed.
Ltac EH0 := eapply seq_i; [apply ext0, handled_payload0|]; cbv beta.
Definition colour_of (gray : bool) : Colour := if gray then mkCol false 1 1 (white_xy 1) 1 (prim_xy 1) (2 ^ 24 + 13) 1 else srgb.
Lemma colour_sent gray : exists c, colour_code c (colour_of gray).
Proof.
  destruct gray; eexists; unfold colour_code, colour_of; [|B true; apply ret_i].
  assert (E : forall i x v, (i < 4)%nat -> 0 <= x < 2 ^ Z.of_nat (nth i [0; 0; 4; 6]%nat O) -> nth i [0; 1; 2; 18] 0 + x = v -> v <= 63 -> c_enum (zbits 2 (Z.of_nat i) ++ zbits (nth i [0; 0; 4; 6]%nat O) x) v).
  { intros i x v H1 H2 <- H3. split; [apply u32_i; assumption|exact H3]. }
  B false. B false. eapply seq_i; [apply (E 1%nat 0 1); cbn; lia|]. cbv beta. split; [right; left; reflexivity|]. cbv iota. change (1 =? 2) with false. change (1 =? 1) with true. cbv iota. cbn [orb].
  eapply seq_i. { unfold white_code. eapply seq_i; [apply (E 1%nat 0 1); cbn; lia|]. cbv beta. split; [left; reflexivity|]. change (1 =? 2) with false. cbv iota. apply ret_i. }
  cbv beta. N. eapply seq_i. { unfold tf_code. B false. eapply seq_i; [apply (E 2%nat 11 13); cbn; lia|]. cbv beta. split; [right; right; right; left; reflexivity|]. apply ret_i. }
  cbv beta. eapply seq_i; [apply (E 1%nat 0 1); cbn; lia|]. cbv beta. split; [unfold intent_kind; lia|]. apply ret_i.
Qed.
Lemma size_sent h w : 1 <= h <= 2 ^ 18 -> 1 <= w <= 2 ^ 18 -> h * w <= 2 ^ 28 -> exists c, d_size iso_handled 5 c (mkDim w h).
Proof.
  intros Hh Hw Hhw. eexists. unfold d_size, iso_handled, size_code. B false. unfold size_field. cbv iota.
  eapply seq_i; [apply (u32_i _ _ _ _ _ _ _ _ 3%nat (h - 1)); [lia|cbn [nth]; change (Z.of_nat 30) with 30; lia]|]. cbv beta. F 0. change (0 =? 0) with true. cbv iota.
  eapply seq_i; [apply (u32_i _ _ _ _ _ _ _ _ 3%nat (w - 1)); [lia|cbn [nth]; change (Z.of_nat 30) with 30; lia]|]. cbv beta. cbn [nth]. replace (1 + (w - 1)) with w by lia. replace (1 + (h - 1)) with h by lia.
  split; [|apply ret_i]. unfold iso_size_ok. change (2 ^ 18) with 262144 in *. change (2 ^ 28) with 268435456 in *. split; [left|]; lia.
Qed.
Lemma image_sent icc gray h w depth orientation : 1 <= h <= 2 ^ 18 -> 1 <= w <= 2 ^ 18 -> h * w <= 2 ^ 28 -> 1 <= depth <= 64 -> 1 <= orientation <= 8 ->
  exists c, SpecHeader.header_code iso_handled icc 5 c (image_of gray h w depth orientation).
Proof.
  intros Hh Hw Hhw Hd Ho. destruct (colour_sent gray) as (cc & Hcc). destruct (size_sent h w Hh Hw Hhw) as (sc & Hsc). eexists. unfold SpecHeader.header_code.
  eapply seq_i; [apply (fixed_i 16 0x0AFF); vm_compute; split; [discriminate|reflexivity]|]. split; [split; [reflexivity|left; reflexivity]|].
  eapply seq_i; [exact Hsc|]. cbv beta. B false. B true.
  eapply seq_i.
  { unfold extra_fields_code. eapply seq_i; [apply (fixed_i 3 (orientation - 1)); change (Z.of_nat 3) with 3; lia|]. cbv beta. B false. N. B false. N. B false. N. replace (1 + (orientation - 1)) with orientation by lia. apply ret_i. }
  cbv beta. eapply seq_i.
  { unfold mid_code. eapply seq_i. { unfold bitdepth_code. B false. eapply seq_i; [apply (u32_i _ _ _ _ _ _ _ _ 3%nat (depth - 1)); [lia|cbn [nth]; change (Z.of_nat 6) with 6; lia]|]. cbv beta. cbn [nth]. replace (1 + (depth - 1)) with depth by lia. apply ret_i. }
    cbv beta. B true. U 0%nat 0. N. B false. eapply seq_i; [exact Hcc|apply ret_i]. }
  cbv beta. eapply seq_i. { unfold tone_code. B true. apply ret_i. }
  cbv beta. EH0. B true. N. N. N. N. N. replace (col_icc (colour_of gray)) with false by (destruct gray; reflexivity). 
  eapply seq_i; [cbn [snd]; replace (col_icc (colour_of gray)) with false by (destruct gray; reflexivity); apply ret_i|]. cbv beta iota. apply ret_i.
Qed.
Lemma whole_side v : iso_side v 1 0 0 = v.
Proof. unfold iso_side, ceil_div. change (8 ^ 0) with 1. change (2 ^ 0) with 1. rewrite !Z.div_1_r. lia. Qed.
Lemma frame_header_sent gray h w depth orientation shift : 1 <= h -> 1 <= w -> 0 <= shift <= 3 ->
  exists c, frame_code fhandled (image_of gray h w depth orientation) c (frame_of h w shift).
Proof.
  intros Hh Hw Hs. eexists. unfold frame_code. cbv zeta. cbn [image_of ih_extra ih_xyb ih_size length dim_w dim_h]. B false. F 0. F 1. X0. change (Z.testbit 0 5) with false. cbn [c_when negb andb]. B false. N.
  eapply seq_i; [eapply seq_i; [apply (fixed_i 2 0); side|apply ret_i]|]; cbv beta. N. change (1 =? 1) with true. cbn [c_when]. eapply seq_i; [apply (fixed_i 2 shift); change (Z.of_nat 2) with 2; lia|]. cbv beta. N. N.
  eapply seq_i; [unfold passes_code; cbn [c_when negb andb Z.eqb]; U 0%nat 0; N; N; N; N; apply ret_i|]; cbv beta.
  N. B false. N. N. N. N. split; [discriminate|]. cbv iota. change (unzigzag 0) with 0. replace ((0 <=? 0) && (0 <=? 0) && (w <=? 0 + w) && (h <=? 0 + h)) with true by lia.
  eapply seq_i; [unfold blending_code; cbn [c_when negb andb Z.eqb orb]; U 0%nat 0; split; [intros _; discriminate|]; N; N; N; apply ret_i|]; cbv beta.
  eapply seq_i; [apply ret_i|]. B true. N. N.
  eapply seq_i; [cbn [c_when negb]; U 0%nat 0; apply ret_i|]; cbv beta.
  eapply seq_i; [unfold restoration_code; cbn [c_when negb]; B false; B false; N; N; F 0; split; [reflexivity|]; N; N; N; N; N; N; N; N; EH0; apply ret_i|]; cbv beta.
  EH0. unfold frame_of. change (fd_size fhandled) with iso_side. change (2 ^ 0) with 1. change (largest (map sub_x [0; 0; 0])) with 0. change (largest (map sub_y [0; 0; 0])) with 0. rewrite !whole_side. apply ret_i.
Qed.

(* Every gray or RGB image of 3 to 24 bits, up to 2^18 rows and columns, 2^27
   samples, in every orientation, has a file from which it is decoded. *)
Theorem C100_every_image : forall o icc gray h w depth orientation P,
  (forall n, 0 <= n < 2 ^ 32 -> exact (o_icc o n) (icc n)) ->
  (1 <= h)%nat -> (1 <= w)%nat -> Z.of_nat h <= 2 ^ 18 -> Z.of_nat w <= 2 ^ 18 -> Z.of_nat (length P * (h * w)) < 2 ^ 27 ->
  3 <= depth <= 24 -> 1 <= orientation <= 8 -> samples_of h w P -> length P = (if gray : bool then 1 else 3)%nat ->
  exists d l, Forall is_byte d /\ decodeFile o false false d = Ok (Some l) /\ length l = length P /\
    forall c, (c < length P)%nat ->
      int_channel (fst (seen_size orientation h w)) (snd (seen_size orientation h w)) (nth c l ZERO_IB) /\
      forall y x, (y < h)%nat -> (x < w)%nat ->
        px (ib_int (nth c l ZERO_IB)) (fst (seen_at orientation h w y x)) (snd (seen_at orientation h w y x)) = px (p_px (nth c P empty_plane)) y x.
Proof.
  intros o icc gray h w depth orientation P HO H1 W1 Hh Hw Hn Hd Hor HP LP.
  set (ih := image_of gray (Z.of_nat h) (Z.of_nat w) depth orientation). set (fh := frame_of (Z.of_nat h) (Z.of_nat w) 1).
  change (2 ^ 27) with 134217728 in Hn. change (2 ^ 18) with 262144 in *.
  assert (LPn : (1 <= length P)%nat) by (destruct gray; lia).
  assert (Hhw : (h * w <= length P * (h * w))%nat) by (rewrite <- (Nat.mul_1_l (h * w)) at 1; apply Nat.mul_le_mono_r; exact LPn).
  assert (HI : lossless_image ih) by (repeat split; try reflexivity; cbn; try lia; constructor).
  assert (CC : channel_count ih = length P) by (rewrite LP; unfold channel_count, ih; destruct gray; reflexivity).
  assert (Hp : plain_frame fh h w 256 1 []).
  { assert (C1 : forall a, (1 <= a)%nat -> Z.of_nat a <= 262144 -> Z.of_nat (count a 256) <= 1024 /\ Z.of_nat (count a (8 * 256)) <= 1024).
    { intros a Ha Hb. unfold count. pose proof (Nat.div_mod (a - 1) 256 ltac:(lia)). pose proof (Nat.div_mod (a - 1) (8 * 256) ltac:(lia)). lia. }
    destruct (C1 h H1 Hh) as (K1 & K2). destruct (C1 w W1 Hw) as (K3 & K4).
    unfold plain_frame, fh, frame_of. cbn [fh_enc fh_ycbcr fh_jx fh_jy fh_up fh_ecup fh_rf rf_gab rf_iters fh_flags fh_bh fh_bw fh_gdim fh_passes].
    repeat (split; [first [reflexivity | lia | solve [repeat constructor]]|]). split; [exists 1; split; [lia|reflexivity]|]. split; [exists [0]; reflexivity|]. split; [split; [lia|constructor]|].
    generalize dependent (count h 256). generalize dependent (count h (8 * 256)). generalize dependent (count w 256). generalize dependent (count w (8 * 256)). clear. intros a Ha b Hb c Hc e He. nia. }
  destruct (image_sent icc gray (Z.of_nat h) (Z.of_nat w) depth orientation) as (hc & HH); [change (2 ^ 18) with 262144; lia|change (2 ^ 18) with 262144; lia|change (2 ^ 28) with 268435456; rewrite <- Nat2Z.inj_mul; lia|lia|lia|].
  destruct (frame_header_sent gray (Z.of_nat h) (Z.of_nat w) depth orientation 1) as (fc & HF); try lia.
  destruct (C100_sendable icc ih hc fh fc h w 256 1 [] P HH HI HF Hp HP (eq_sym CC)) as (d & HB); [exact Hn|].
  destruct (C100_image_partial o icc d ih fh P h w HO HI eq_refl eq_refl W1 HB) as (l & E & L & V).
  { repeat split. }
  { unfold drawable. cbn [fst fh frame_of fh_saveref fh_type fh_savect fh_bh fh_bw fh_ox fh_oy fh_ecblend fh_last]. split; [lia|]. split; [discriminate|]. split; [discriminate|]. intros _. change (2 ^ 30) with 1073741824.
    repeat (split; [first [lia|reflexivity]|]). intros c Hc. unfold blending_of. cbn [fh frame_of fh_blend fh_ecblend].
    assert (EB : (if (c <? image_colours ih)%nat then mkBl 0 0 false 0 else nth (c - image_colours ih) [] (mkBl 0 0 false 0)) = mkBl 0 0 false 0) by (destruct (c <? image_colours ih)%nat; [reflexivity|destruct (c - image_colours ih)%nat; reflexivity]).
    rewrite EB. cbn [bl_mode bl_source bl_alpha]. repeat split; try lia; discriminate. }
  exists d, l. split; [apply HB|]. split; [exact E|]. rewrite <- CC. split; [exact L|]. exact V.
Qed.
Print Assumptions C100_every_image.

(* A file of 27 bytes with the image 1 2 3 / 4 3 2, to be turned to the right *)
Example C100_example : forall o,
  decodeFile o false false [255; 10; 8; 0; 4; 88; 32; 40; 110; 9; 8; 2; 1; 0; 36; 0; 137; 124; 18; 112; 222; 66; 134; 176; 19; 0; 0] =
  Ok (Some [mkIB 2 3 TYPE_INT [] [[4; 1]; [3; 2]; [2; 3]]]).
Proof. intros o. vm_compute. reflexivity. Qed.
(* The codestream of C100_example in a container, with a level box before it and
   another box after it *)
Example C100_example_container : forall o,
  let d := [255; 10; 8; 0; 4; 88; 32; 40; 110; 9; 8; 2; 1; 0; 36; 0; 137; 124; 18; 112; 222; 66; 134; 176; 19; 0; 0] in
  Forall wf_box ([BLevel 5] ++ BCode d :: [BOther [102; 114; 101; 101] [1; 2; 3]]) /\ Forall not_code [BLevel 5] /\ Forall not_code [BOther [102; 114; 101; 101] [1; 2; 3]] /\
  last_level 5 ([BLevel 5] ++ BCode d :: [BOther [102; 114; 101; 101] [1; 2; 3]]) = 5 /\
  decodeFile o false false (container [BLevel 5] [BOther [102; 114; 101; 101] [1; 2; 3]] d) = Ok (Some [mkIB 2 3 TYPE_INT [] [[4; 1]; [3; 2]; [2; 3]]]).
Proof.
  intros o d. split; [|split; [repeat constructor|split; [repeat constructor|split; [reflexivity|vm_compute; reflexivity]]]].
  repeat (apply Forall_cons; [unfold wf_box, d, enc_box, is_byte; cbn; repeat split; try (repeat (constructor; [lia|]); constructor); try lia; try discriminate|]). constructor.
Qed.
(* The hypotheses of C100_every_image for that image *)
Example C100_example_hypotheses : let P := [mkPl 2 3 0 0 [[1; 2; 3]; [4; 3; 2]]] in
  samples_of 2 3 P /\ length P = 1%nat /\ exists d, file_bytes (fun _ _ _ => False) d (image_of true 2 3 8 6) [(frame_of 2 3 1, P)].
Proof.
  cbv zeta. set (P := [_]).
  assert (S : samples_of 2 3 P).
  { constructor; [|constructor]. cbn [p_h p_w p_vs p_hs p_px]. do 4 (split; [reflexivity|]). split; [split; [reflexivity|repeat constructor]|].
    unfold samples_within. change (2 ^ 24) with 16777216. repeat constructor; lia. }
  split; [exact S|]. split; [reflexivity|].
  destruct (image_sent (fun _ _ _ => False) true 2 3 8 6) as (hc & HH); try lia.
  destruct (frame_header_sent true 2 3 8 6 1) as (fc & HF); try lia.
  apply (C100_sendable _ _ hc _ fc 2 3 256 1 [] P HH); [|exact HF| |exact S|reflexivity|reflexivity].
  - repeat split; try reflexivity; cbn; try lia; constructor.
  - unfold plain_frame, frame_of. cbn [fh_enc fh_ycbcr fh_jx fh_jy fh_up fh_ecup fh_rf rf_gab rf_iters fh_flags fh_bh fh_bw fh_gdim fh_passes].
    repeat (split; [first [reflexivity | lia | solve [repeat constructor]]|]). split; [exists 1; split; [lia|reflexivity]|]. split; [exists [0]; reflexivity|]. split; [split; [lia|constructor]|]. reflexivity.
Qed.

(* Finding: the length of a single section is not used, the next frame is
   looked for behind its last bit.  The first frame ends with 14 bytes that no
   stream needs; a frame that stands in them is decoded and shown instead of
   the one that follows. *)
Definition ex_head := [255; 10; 0; 0; 4; 8; 32; 40; 110; 9].
Definition ex_first := [8; 2; 0; 0; 88; 0; 137; 124; 18; 112; 222; 66; 134; 0].
Definition ex_one := [8; 2; 1; 0; 32; 0; 137; 124; 18; 112; 222; 66; 134; 0].
Definition ex_two := [8; 2; 1; 0; 32; 0; 137; 124; 18; 112; 222; 66; 134; 84].
Definition ex_three := [8; 2; 1; 0; 32; 0; 137; 124; 18; 112; 222; 66; 134; 42].
Theorem C100_section_length_refuted : forall o,
  decodeFile o false false (ex_head ++ ex_three ++ [0; 0]) = Ok (Some [mkIB 3 1 TYPE_INT [] [[3; 3; 3]]]) /\
  decodeFile o false false (ex_head ++ ex_first ++ ex_one ++ ex_three ++ [0; 0]) = Ok (Some [mkIB 3 1 TYPE_INT [] [[1; 1; 1]]]) /\
  decodeFile o false false (ex_head ++ ex_first ++ ex_two ++ ex_three ++ [0; 0]) = Ok (Some [mkIB 3 1 TYPE_INT [] [[2; 2; 2]]]) /\
  toc_code 22 (zbits 2 0 ++ zbits 10 22) /\ bits_at ex_first 32 (zbits 2 0 ++ zbits 10 22) /\ (6 + 22 = length ex_first + length ex_one)%nat.
Proof.
  intros o. split; [vm_compute; reflexivity|]. split; [vm_compute; reflexivity|]. split; [vm_compute; reflexivity|].
  split; [|split; [split; [cbn; lia|]; intros i Hi; do 12 (destruct i as [|i]; [reflexivity|]); cbn in Hi; lia|reflexivity]]. exists 0, 22. cbn. repeat split; lia.
Qed.
Print Assumptions C100_section_length_refuted.
(* Finding: a symbol with a short prefix code in the last bits of a file is not
   read, because as many bits as the longest code has are asked for (C19): the
   file is rejected unless something follows it. *)
Definition ex_tight := [255; 10; 0; 0; 12; 8; 32; 40; 110; 9; 8; 2; 1; 0; 32; 0; 137; 124; 18; 112; 222; 66; 134; 1].
Theorem C100_end_of_file_refuted : forall o,
  decodeFile o false false ex_tight = Err /\ decodeFile o false false (ex_tight ++ [0]) = Ok (Some [mkIB 7 1 TYPE_INT [] [[1; 1; 1; 1; 1; 1; 1]]]).
Proof. intros o. split; vm_compute; reflexivity. Qed.
Print Assumptions C100_end_of_file_refuted.
