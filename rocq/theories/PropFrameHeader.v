(* Theorems about the frame header. *)
From Coq Require Import ZArith List Bool Lia Arith.
From Verif Require Import GoBase Bits ModelBitReader SpecBitReader SpecCodes SpecGrammar ModelUtil ModelHeader SpecHeader
  ModelFrameHeader SpecFrameHeader ProofGrammar ProofFrameHeader.
Import ListNotations.
Open Scope Z_scope.

(* C63.  The frame header parser accepts exactly the bit strings of the
   grammar, in the dialect of the decoder, for every image header with sides
   below 2^31; in particular it never panics. *)
Theorem C63_frame_header_partial :
  forall img, 0 <= dim_w (ih_size img) < 2 ^ 31 -> 0 <= dim_h (ih_size img) < 2 ^ 31 ->
  exact (readFrameHeader img) (frame_code fimplemented img).
Proof. exact exact_frame. Qed.
Print Assumptions C63_frame_header_partial.

(* Every frame header of the standard without multiply blending of an image
   without extra channels, with either the default filter or no EPF
   iterations, and with empty extensions, is decoded to its value. *)
Theorem C63_handled_frames_partial :
  forall img, 1 <= dim_w (ih_size img) < 2 ^ 31 -> 1 <= dim_h (ih_size img) < 2 ^ 31 ->
  forall c f, frame_code fhandled img c f -> frame_code fiso img c f /\ reads (readFrameHeader img) c f.
Proof.
  intros img Hw Hh c f H. split.
  - exact (frame_mono _ _ _ handled_le_iso Hw Hh _ _ H).
  - apply exact_frame; [lia|lia|]. exact (frame_mono _ _ _ handled_le_implemented Hw Hh _ _ H).
Qed.
Print Assumptions C63_handled_frames_partial.

Definition ex_img : ImageHeader :=
  mkIH 5 (mkDim 8 8) 1 8 8 None None (mkBD 8 0 false) true [] [] true srgb tone_default no_extensions None None None None None.
Lemma seq_i {A B} (R : code A) (S : A -> code B) c1 c2 v w : R c1 v -> S v c2 w -> c_seq R S (c1 ++ c2) w.
Proof. intros H1 H2. exists c1, c2, v. auto. Qed.
Lemma u32_i c0 n0 c1 n1 c2 n2 c3 n3 i x : (i < 4)%nat -> 0 <= x < 2 ^ Z.of_nat (nth i [n0; n1; n2; n3] O) ->
  c_u32 c0 n0 c1 n1 c2 n2 c3 n3 (zbits 2 (Z.of_nat i) ++ zbits (nth i [n0; n1; n2; n3] O) x) (nth i [c0; c1; c2; c3] 0 + x).
Proof. intros H1 H2. exists i, x. cbv zeta. auto. Qed.
Lemma fixed_i n v : 0 <= v < 2 ^ Z.of_nat n -> c_fixed n (zbits n v) v.
Proof. split; auto. Qed.
Lemma ret_i {A} (v : A) : c_ret v [] v.
Proof. split; reflexivity. Qed.
Ltac side := vm_compute; first [reflexivity | split; [discriminate|reflexivity] | lia].
Ltac B b := eapply seq_i; [apply (eq_refl : c_bool [b] b)|]; cbv beta.
Ltac F v := eapply seq_i; [apply (fixed_i _ v); side|]; cbv beta.
Ltac U i x := eapply seq_i; [apply (u32_i _ _ _ _ _ _ _ _ i x); [lia|side]|]; cbv beta.
Ltac N := eapply seq_i; [apply ret_i|]; cbv beta.
Ltac X0 := eapply seq_i; [apply u64c_0|]; cbv beta.
Lemma lengths0 n : forall i, ext_lengths 0 i n [] (repeat 0 n).
Proof.
  induction n as [|n IH]; intros i; [apply ret_i|]. cbn [ext_lengths repeat]. rewrite Z.bits_0.
  exists [], [], 0. split; [reflexivity|]. split; [apply ret_i|]. exists [], [], (repeat 0 n). split; [reflexivity|]. split; [apply IH|apply ret_i].
Qed.
Lemma payloads0 D n : d_ext_payload D 0 [] [] -> ext_payloads_code D (repeat 0 n) [] (repeat [] n).
Proof.
  intros H. induction n as [|n IH]; [apply ret_i|]. cbn [ext_payloads_code repeat].
  exists [], [], []. split; [reflexivity|]. split; [apply H|]. exists [], [], (repeat [] n). split; [reflexivity|]. split; [apply IH|apply ret_i].
Qed.
Lemma ext0 D : d_ext_payload D 0 [] [] -> ext_code D (zbits 2 0) no_extensions.
Proof.
  intros H. unfold ext_code. exists (zbits 2 0), [], 0. split; [reflexivity|]. split; [apply u64c_0|].
  exists [], [], (repeat 0 64). split; [reflexivity|]. split; [apply lengths0|].
  exists [], [], (repeat [] 64). split; [reflexivity|]. split; [apply payloads0, H|apply ret_i].
Qed.
Lemma iso_payload0 : d_ext_payload iso 0 [] [].
Proof. split; reflexivity. Qed.
Ltac E0 := eapply seq_i; [apply ext0, iso_payload0|]; cbv beta.

Definition epf_bits : list bool := firstn 33 (flat_map (fun b => zbits 8 b) [0; 19; 8; 1; 0]).
Lemma epf_frame : exists f, frame_code fiso ex_img epf_bits f /\ rf_iters (fh_rf f) = 1.
Proof.
  assert (H : exists c f, frame_code fiso ex_img c f /\ c = epf_bits /\ rf_iters (fh_rf f) = 1).
  { do 2 eexists. split.
    - unfold frame_code. cbv zeta. B false. F 0. F 0. X0. N. N.
      eapply seq_i; [eapply seq_i; [apply (fixed_i 2 0); side|apply ret_i]|]; cbv beta.
      eapply seq_i; [apply ret_i|]. N. F 3. F 2.
      eapply seq_i; [unfold passes_code; cbn [c_when negb andb Z.eqb]; U 0%nat 0; N; N; N; N; apply ret_i|]; cbv beta.
      N. B false. N. N. N. N. split; [discriminate|].
      eapply seq_i; [unfold blending_code; cbn [c_when negb andb Z.eqb orb]; U 0%nat 0; split; [exact I|]; N; N; N; apply ret_i|]; cbv beta.
      N. B true. N. N.
      eapply seq_i; [cbn [c_when negb]; U 0%nat 0; apply ret_i|]; cbv beta.
      eapply seq_i; [unfold restoration_code; cbn [c_when negb]; B false; B false; N; N; F 1; split; [exact I|]; B false; N; B false; N; B false; N; N; N; E0; apply ret_i|]; cbv beta.
      E0. apply ret_i.
    - split; reflexivity. }
  destruct H as (c & f & H1 & -> & H2). eauto.
Qed.
Definition mul_bits : list bool := firstn 30 (flat_map (fun b => zbits 8 b) [0; 19; 110; 9]).
Lemma mul_frame : exists f, frame_code fiso ex_img mul_bits f /\ bl_mode (fh_blend f) = 4 /\ bl_clamp (fh_blend f) = true.
Proof.
  assert (H : exists c f, frame_code fiso ex_img c f /\ c = mul_bits /\ bl_mode (fh_blend f) = 4 /\ bl_clamp (fh_blend f) = true).
  { do 2 eexists. split.
    - unfold frame_code. cbv zeta. B false. F 0. F 0. X0. N. N.
      eapply seq_i; [eapply seq_i; [apply (fixed_i 2 0); side|apply ret_i]|]; cbv beta.
      eapply seq_i; [apply ret_i|]. N. F 3. F 2.
      eapply seq_i; [unfold passes_code; cbn [c_when negb andb Z.eqb]; U 0%nat 0; N; N; N; N; apply ret_i|]; cbv beta.
      N. B false. N. N. N. N. split; [discriminate|].
      eapply seq_i; [unfold blending_code; cbn [c_when negb andb Z.eqb orb]; U 3%nat 1; split; [exact I|]; N; B true; F 1; apply ret_i|]; cbv beta.
      N. B true. N. N.
      eapply seq_i; [cbn [c_when negb]; U 0%nat 0; apply ret_i|]; cbv beta.
      eapply seq_i; [unfold restoration_code; cbn [c_when negb]; B true; apply ret_i|]; cbv beta.
      E0. apply ret_i.
    - repeat split. }
  destruct H as (c & f & H1 & -> & H2). eauto.
Qed.

Lemma start_at d : Forall is_byte d -> reader_at (NewBitStreamReader d) d 0.
Proof. intros H. unfold reader_at, NewBitStreamReader, is_byte. cbn. repeat split; auto; try lia. Qed.
(* Finding: the flag for custom EPF weights is read only for more than 9
   iterations, i.e. never.  A frame header of the standard with one EPF
   iteration is not decoded: the decoder takes the weight flag for the sigma
   flag and everything behind it is read from the wrong position. *)
Theorem C63_epf_weights_refuted :
  exists f, frame_code fiso ex_img epf_bits f /\ rf_iters (fh_rf f) = 1 /\ ~ reads (readFrameHeader ex_img) epf_bits f.
Proof.
  destruct epf_frame as (f & H1 & H2). exists f. split; [auto|]. split; [auto|]. intros H.
  destruct (H (NewBitStreamReader [0; 19; 8; 1; 0]) [0; 19; 8; 1; 0] O) as (s' & E & R).
  - apply start_at. repeat constructor; unfold is_byte; lia.
  - split; [vm_compute; lia|]. change (length epf_bits) with 33%nat. intros i Hi.
    do 33 (destruct i as [|i]; [reflexivity|]). lia.
  - destruct R as (_ & _ & _ & _ & R & _). apply (f_equal (fun x => br_index (snd x))) in E. cbn [snd] in E. rewrite R in E.
    vm_compute in E. discriminate.
Qed.
Print Assumptions C63_epf_weights_refuted.

(* Finding: for the multiply blend mode the clamp flag is read only when the
   image has extra channels. *)
Theorem C63_multiply_clamp_refuted :
  exists f, frame_code fiso ex_img mul_bits f /\ bl_mode (fh_blend f) = 4 /\ bl_clamp (fh_blend f) = true /\
    ~ reads (readFrameHeader ex_img) mul_bits f.
Proof.
  destruct mul_frame as (f & H1 & H2 & H3). exists f. split; [auto|]. split; [auto|]. split; [auto|]. intros H.
  destruct (H (NewBitStreamReader [0; 19; 110; 9]) [0; 19; 110; 9] O) as (s' & E & R).
  - apply start_at. repeat constructor; unfold is_byte; lia.
  - split; [vm_compute; lia|]. change (length mul_bits) with 30%nat. intros i Hi.
    do 30 (destruct i as [|i]; [reflexivity|]). lia.
  - apply (f_equal (fun x => match fst x with Ok g => bl_clamp (fh_blend g) | _ => false end)) in E. cbn [fst] in E. rewrite H3 in E.
    vm_compute in E. discriminate.
Qed.
Print Assumptions C63_multiply_clamp_refuted.

(* a modular frame header, cropped to 100x50 at (-4, 3), with group size 512 *)
Example C63_example :
  exists f s, readFrameHeader ex_img (NewBitStreamReader [8; 146; 3; 12; 32; 67; 134; 72; 0]) = (Ok f, s) /\
    fh_enc f = 1 /\ fh_gdim f = 512 /\ fh_crop f = true /\ (fh_ox f, fh_oy f, fh_bw f, fh_bh f) = (-4, 3, 100, 50) /\
    bl_source (fh_blend f) = 1 /\ fh_last f = false /\ fh_saveref f = 2.
Proof. vm_compute. do 2 eexists. split; [reflexivity|]. repeat split. Qed.

(* C64.  Every accepted frame header has the geometry invariants, and unless
   a zero-sized crop was coded its size is the requested size divided by the
   upsampling and by 8 per LF level, rounded up each time, then rounded up to
   the chroma subsampling. *)
Theorem C64_frame_geometry_partial :
  forall img, 1 <= dim_w (ih_size img) < 2 ^ 31 -> 1 <= dim_h (ih_size img) < 2 ^ 31 ->
  yields (readFrameHeader img) (fun f => geometry_ok img f /\
    ((fh_crop f = true -> 1 <= fh_w f /\ 1 <= fh_h f) -> size_ok img f)).
Proof.
  intros img Hw Hh. eapply exact_yields; [apply exact_frame; lia|]. intros c f H. split.
  - exact (frame_geometry _ _ _ _ H).
  - apply (frame_size_ok fimplemented img c f); auto. intros. now apply wrapped_side_iso.
Qed.
Print Assumptions C64_frame_geometry_partial.

(* Finding: a cropped frame of width and height 0 with 2x upsampling is
   accepted and becomes 2^31 pixels wide and high. *)
Theorem C64_empty_crop_refuted :
  exists f s, readFrameHeader ex_img (NewBitStreamReader [64; 19; 1; 0; 0; 0; 0; 32; 1]) = (Ok f, s) /\
    fh_crop f = true /\ fh_w f = 0 /\ fh_h f = 0 /\ fh_bw f = 2 ^ 31 /\ fh_bh f = 2 ^ 31 /\ ~ size_ok ex_img f.
Proof.
  assert (H : exists f s, readFrameHeader ex_img (NewBitStreamReader [64; 19; 1; 0; 0; 0; 0; 32; 1]) = (Ok f, s) /\
    fh_crop f = true /\ fh_w f = 0 /\ fh_h f = 0 /\ fh_bw f = 2 ^ 31 /\ fh_bh f = 2 ^ 31 /\ fh_up f = 2 /\ fh_lflevel f = 0).
  { vm_compute. do 2 eexists. split; [reflexivity|]. repeat split. }
  destruct H as (f & s & H & H1 & H2 & H3 & H4 & H5 & H6 & H7). exists f, s. repeat (split; [assumption|]).
  intros [(k & Hk & _ & a & b & Ha & Hb & _ & Hq) _]. rewrite H1, H2, H6 in Ha. rewrite H7 in Hb. rewrite H4 in Hq.
  change (8 ^ 0) with 1 in Hb. assert (a = 0) by lia. assert (b = 0) by lia.
  assert (k = 0 \/ k = 1) as [->| ->] by lia; [change (2 ^ 0) with 1 in Hq|change (2 ^ 1) with 2 in Hq]; lia.
Qed.
Print Assumptions C64_empty_crop_refuted.
Example C64_example :
  is_side 100 2 1 1 8 /\ ~ is_side 100 2 1 1 7.
Proof.
  split.
  - exists 50, 7. split; [lia|]. split; [change (8 ^ 1) with 8; lia|]. split; [exists 4; lia|change (2 ^ 1) with 2; lia].
  - intros (a & b & Ha & Hb & [k Hk] & _). change (2 ^ 1) with 2 in Hk. lia.
Qed.
