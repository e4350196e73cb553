(* C88 and C89: conversion of a decoded image to a Go image. *)
From Coq Require Import ZArith List Bool Lia Arith ZifyBool ZifyNat.
From Verif Require Import GoBase GoLoop GoMatrix GoFloat32 ModelImage ModelWriters ModelToImage SpecImage SpecToImage ProofImage ProofWriters ProofToImage.
Import ListNotations.
Open Scope Z_scope.

Lemma depthMax8' : depthMax 8 = 255. Proof. reflexivity. Qed.
Lemma nth_map_ib (g : ImageBuffer -> ImageBuffer) l c : (c < length l)%nat -> nth c (map g l) ib0 = g (nth c l ib0).
Proof. intros H. rewrite (nth_indep _ ib0 (g ib0)) by (rewrite map_length; exact H). apply map_nth. Qed.
Lemma finish_rgb h w img (a : bool) (v : nat -> nat -> nat -> Z) : hd_colours (im_header img) = 3 -> hd_hasAlpha (im_header img) = a ->
  Forall (int_channel h w) (im_buffer img) -> ((if a then 4 else 3) <= length (im_buffer img))%nat ->
  (forall k y x, (k < (if a then 4 else 3))%nat -> (y < h)%nat -> (x < w)%nat -> u8 (int_at (im_buffer img) k y x) = v k y x) ->
  exists pix, obind (if hd_colours (im_header img) =? 1 then createGrayScaleImage (im_buffer img)
         else create24BitImage (hd_hasAlpha (im_header img)) (im_buffer img)) (fun g => Ok (g, img)) = Ok (NRGBA (Z.of_nat w) (Z.of_nat h) pix, img) /\
    holds 4 h w (fun k y x => if (k =? 3)%nat && negb a then 255 else v k y x) pix.
Proof.
  intros Hc Ha Hl Hn Hv. rewrite Hc, Ha. cbn [Z.eqb Pos.eqb]. destruct (rgb_ok h w (im_buffer img) a Hl Hn) as (pix & E & P). rewrite E. exists pix. split; [reflexivity|].
  revert P. apply holds_ext. intros k y x Hk Hy Hx. destruct (Nat.eqb_spec k 3), a; cbn [andb negb]; try reflexivity; apply Hv; lia.
Qed.
Lemma finish_gray h w img (v : nat -> nat -> nat -> Z) : hd_colours (im_header img) = 1 ->
  Forall (int_channel h w) (im_buffer img) -> (1 <= length (im_buffer img))%nat ->
  (forall y x, (y < h)%nat -> (x < w)%nat -> u8 (int_at (im_buffer img) 0 y x) = v 0%nat y x) ->
  exists pix, obind (if hd_colours (im_header img) =? 1 then createGrayScaleImage (im_buffer img)
         else create24BitImage (hd_hasAlpha (im_header img)) (im_buffer img)) (fun g => Ok (g, img)) = Ok (Gray (Z.of_nat w) (Z.of_nat h) pix, img) /\
    holds 1 h w v pix.
Proof.
  intros Hc Hl Hn Hv. rewrite Hc. cbn [Z.eqb Pos.eqb]. destruct (gray_ok h w (im_buffer img) 0 Hl ltac:(lia)) as (pix & E & P). change (Z.of_nat 0) with 0 in E.
  unfold createGrayScaleImage. rewrite E. exists pix. split; [reflexivity|]. revert P. apply holds_ext. intros k y x Hk Hy Hx. replace k with 0%nat by lia. apply Hv; assumption.
Qed.
Lemma clampIB_all h w mx l : Forall (int_channel h w) l -> Forall (int_channel h w) (map (clampIB h w mx) l).
Proof. intros H. rewrite Forall_map. eapply Forall_impl; [|exact H]. intros ib. apply clampIB_channel. Qed.
Lemma clampIB_at h w mx l c y x : (c < length l)%nat -> (y < h)%nat -> (x < w)%nat -> int_at (map (clampIB h w mx) l) c y x = clampv mx (int_at l c y x).
Proof. intros Hc Hy Hx. unfold int_at. rewrite nth_map_ib by exact Hc. unfold clampIB. cbn [ib_int]. rewrite px_mat by assumption. reflexivity. Qed.

(* an 8-bit integer image which needs no colour transform: the samples, cut to
   0..255; alpha is the first extra channel, or 255 *)
Theorem C88_rgb_partial : forall h w fromLinear matches img (a := hd_hasAlpha (im_header img)),
  in_target matches img -> im_premult img = false -> hd_bits (im_header img) <= 8 -> hd_colours (im_header img) = 3 ->
  Forall (int_channel h w) (im_buffer img) -> im_depths img = repeat 8 (length (im_buffer img)) -> ((if a then 4 else 3) <= length (im_buffer img))%nat ->
  exists pix img', ToImage fromLinear matches img = Ok (NRGBA (Z.of_nat w) (Z.of_nat h) pix, img') /\
    holds 4 h w (fun k y x => if (k =? 3)%nat && negb a then 255 else clamped 255 (int_at (im_buffer img) k y x)) pix.
Proof.
  intros h w fl matches img a Ht Hp Hb Hc Hl Hd Hn. unfold ToImage, imageDepth. rewrite toTarget_same by exact Ht. destruct (Z.ltb_spec 8 (hd_bits (im_header img))); [lia|].
  cbn [obind]. rewrite (pngPrepare_int h w) by assumption. cbn [obind].
  set (img' := set_buffer img _). edestruct (finish_rgb h w img' a (fun k y x => clamped 255 (int_at (im_buffer img) k y x))) as (pix & E & P); [exact Hc|reflexivity| | | |].
  - apply clampIB_all, Hl.
  - cbn [img' set_buffer im_buffer]. rewrite map_length. exact Hn.
  - intros k y x Hk Hy Hx. cbn [img' set_buffer im_buffer]. rewrite clampIB_at by (assumption || lia). rewrite depthMax8', clampv_clamped by lia. apply u8_small. unfold clamped. lia.
  - rewrite E. exists pix, img'. split; [reflexivity|exact P].
Qed.
Print Assumptions C88_rgb_partial.
Theorem C88_gray_partial : forall h w fromLinear matches img,
  in_target matches img -> im_premult img = false -> hd_bits (im_header img) <= 8 -> hd_colours (im_header img) = 1 ->
  Forall (int_channel h w) (im_buffer img) -> im_depths img = repeat 8 (length (im_buffer img)) -> im_buffer img <> [] ->
  exists pix img', ToImage fromLinear matches img = Ok (Gray (Z.of_nat w) (Z.of_nat h) pix, img') /\
    holds 1 h w (fun _ y x => clamped 255 (int_at (im_buffer img) 0 y x)) pix.
Proof.
  intros h w fl matches img Ht Hp Hb Hc Hl Hd Hn. unfold ToImage, imageDepth. rewrite toTarget_same by exact Ht. destruct (Z.ltb_spec 8 (hd_bits (im_header img))); [lia|].
  assert (Hn1 : (1 <= length (im_buffer img))%nat) by (destruct (im_buffer img); [congruence|cbn [length]; lia]).
  cbn [obind]. rewrite (pngPrepare_int h w) by assumption. cbn [obind].
  set (img' := set_buffer img _). edestruct (finish_gray h w img' (fun _ y x => clamped 255 (int_at (im_buffer img) 0 y x))) as (pix & E & P); [exact Hc| | | |].
  - apply clampIB_all, Hl.
  - cbn [img' set_buffer im_buffer]. rewrite map_length. exact Hn1.
  - intros y x Hy Hx. cbn [img' set_buffer im_buffer]. rewrite clampIB_at by (assumption || lia). rewrite depthMax8', clampv_clamped by lia. apply u8_small. unfold clamped. lia.
  - rewrite E. exists pix, img'. split; [reflexivity|exact P].
Qed.
Print Assumptions C88_gray_partial.

(* samples of d < 8 bits: 255 v / (2^d - 1), to the nearest integer *)
Theorem C88_scaled_partial : forall h w d fromLinear matches img (a := hd_hasAlpha (im_header img)),
  in_target matches img -> im_premult img = false -> hd_bits (im_header img) <= 8 -> hd_colours (im_header img) = 3 -> 1 <= d <= 7 ->
  Forall (int_channel h w) (im_buffer img) -> im_depths img = repeat d (length (im_buffer img)) -> ((if a then 4 else 3) <= length (im_buffer img))%nat ->
  (forall c y x, (c < length (im_buffer img))%nat -> (y < h)%nat -> (x < w)%nat -> 0 <= int_at (im_buffer img) c y x <= 2 ^ d - 1) ->
  exists pix img', ToImage fromLinear matches img = Ok (NRGBA (Z.of_nat w) (Z.of_nat h) pix, img') /\ length pix = (4 * (h * w))%nat /\
    forall y x k, (y < h)%nat -> (x < w)%nat -> (k < 4)%nat ->
      if (k =? 3)%nat && negb a then pix_byte 4 w pix y x k = 255
      else 2 * Z.abs (pix_byte 4 w pix y x k * (2 ^ d - 1) - 255 * int_at (im_buffer img) k y x) <= 2 ^ d - 1.
Proof.
  intros h w d fl matches img a Ht Hp Hb Hc Hd7 Hl Hd Hn Hr. unfold ToImage, imageDepth. rewrite toTarget_same by exact Ht. destruct (Z.ltb_spec 8 (hd_bits (im_header img))); [lia|].
  assert (DM : depthMax d = 2 ^ d - 1 /\ 1 <= 2 ^ d - 1 <= 127).
  { assert (D : d = 1 \/ d = 2 \/ d = 3 \/ d = 4 \/ d = 5 \/ d = 6 \/ d = 7) by lia. destruct D as [->|[->|[->|[->|[->|[->| ->]]]]]]; (split; [reflexivity|lia]). }
  destruct DM as [DM DB].
  cbn [obind]. rewrite (pngPrepare_rescale h w 8 d) by (try assumption; try lia; try (rewrite ?DM, ?depthMax8'; lia); intros E; rewrite E in Hn; destruct a; cbn in Hn; lia). cbn [obind].
  set (s := fun v => toInt 255 (f_mul (f_of_int v) (f_div F_ONE (f_of_int (2 ^ d - 1))))).
  set (img' := set_buffer img _). edestruct (finish_rgb h w img' a (fun k y x => s (int_at (im_buffer img) k y x))) as (pix & E & P); [exact Hc|reflexivity| | | |].
  - cbn [img' set_buffer im_buffer]. rewrite Forall_map. eapply Forall_impl; [|exact Hl]. intros ib (H1 & H2 & H3 & H4). split; [reflexivity|]. split; [exact H2|]. split; [exact H3|]. apply rect_mat.
  - cbn [img' set_buffer im_buffer]. rewrite map_length. exact Hn.
  - intros k y x Hk Hy Hx. cbn [img' set_buffer im_buffer]. unfold int_at. rewrite nth_map_ib by lia. unfold rescaleIB. cbn [ib_int]. rewrite px_mat by assumption.
    rewrite DM, depthMax8'. apply u8_small, toInt_range. lia.
  - rewrite E. exists pix, img'. split; [reflexivity|]. destruct P as [L P]. split; [exact L|]. intros y x k Hy Hx Hk. rewrite P by assumption.
    destruct (Nat.eqb_spec k 3), a; cbn [andb negb]; try reflexivity; apply rescale_byte; try exact DB; apply Hr; lia.
Qed.
Print Assumptions C88_scaled_partial.

(* a float image, linear (as after the XYB transform), of any tag, without ICC profile: the
   target's transfer function is applied to the colours only, then each sample
   is scaled to 0..255 and rounded *)
Theorem C88_float_partial : forall h w fromLinear f matches img (a := hd_hasAlpha (im_header img)),
  im_icc img = [] -> im_transfer img = TF_LINEAR -> fromLinear (target img) = Some f ->
  im_premult img = false -> hd_bits (im_header img) <= 8 -> hd_colours (im_header img) = 3 -> im_encoding img <> CE_GRAY ->
  Forall (float_channel h w) (im_buffer img) -> (length (im_buffer img) <= length (im_depths img))%nat -> ((if a then 4 else 3) <= length (im_buffer img))%nat ->
  im_h img = Z.of_nat h -> im_w img = Z.of_nat w ->
  exists pix img', ToImage fromLinear matches img = Ok (NRGBA (Z.of_nat w) (Z.of_nat h) pix, img') /\ length pix = (4 * (h * w))%nat /\
    forall y x k, (y < h)%nat -> (x < w)%nat -> (k < 4)%nat ->
      if (k =? 3)%nat then (if a then near_byte F_ONE (float_at (im_buffer img) 3 y x) (pix_byte 4 w pix y x 3) else pix_byte 4 w pix y x 3 = 255)
      else near_byte F_ONE (f (float_at (im_buffer img) k y x)) (pix_byte 4 w pix y x k).
Proof.
  intros h w fl f matches img a Hi Ht Hf Hp Hb Hc He Hl Hd Hn Hh Hw. unfold ToImage, imageDepth. rewrite (toTarget_linear fl matches img f) by assumption. destruct (Z.ltb_spec 8 (hd_bits (im_header img))); [lia|].
  rewrite (transferInPlace_float h w) by (try assumption; destruct (im_encoding img =? CE_GRAY); destruct a; lia).
  destruct (Z.eqb_spec (im_encoding img) CE_GRAY); [congruence|]. cbn [obind].
  set (l1 := onFirst 3 (fIB h w f) (im_buffer img)). assert (L1 : length l1 = length (im_buffer img)) by apply onFirst_length.
  assert (H1 : Forall (float_channel h w) l1).
  { apply onFirst_forall; [exact Hl|]. intros ib (F1 & F2 & F3 & F4). split; [exact F1|]. split; [exact F2|]. split; [exact F3|]. apply rect_mat. }
  rewrite (pngPrepare_float h w) by (try assumption; cbn [set_buffer im_buffer im_depths]; try (rewrite L1; assumption); rewrite depthMax8'; lia). cbn [obind].
  set (img' := set_buffer _ _). edestruct (finish_rgb h w img' a (fun k y x => toInt 255 (float_at l1 k y x))) as (pix & E & P); [exact Hc|reflexivity| | | |].
  - cbn [img' set_buffer im_buffer]. rewrite Forall_map. eapply Forall_impl; [|exact H1]. intros ib. apply toIntIB_channel.
  - cbn [img' set_buffer im_buffer]. rewrite map_length, L1. exact Hn.
  - intros k y x Hk Hy Hx. cbn [img' set_buffer im_buffer]. unfold int_at. rewrite nth_map_ib by lia. unfold toIntIB. cbn [ib_int]. rewrite px_mat by assumption.
    rewrite depthMax8'. apply u8_small, toInt_range. lia.
  - rewrite E. exists pix, img'. split; [reflexivity|]. destruct P as [L P]. split; [exact L|]. intros y x k Hy Hx Hk. destruct (Nat.eqb_spec k 3) as [->|N].
    + specialize (P y x 3%nat Hy Hx ltac:(lia)). rewrite P. destruct a; cbn [Nat.eqb andb negb]; [|reflexivity].
      unfold float_at, l1. rewrite onFirst_nth by lia. cbn [Nat.ltb Nat.leb]. apply toInt_near.
    + rewrite P by assumption. destruct (Nat.eqb_spec k 3); [lia|]. cbn [andb]. unfold float_at, l1. rewrite onFirst_nth by (destruct a; lia).
      destruct (Nat.ltb_spec k 3); [|lia]. unfold fIB. cbn [ib_float]. rewrite px_mat by assumption. apply toInt_near.
Qed.
Print Assumptions C88_float_partial.
(* also if it is tagged PQ: the target is PQ then, and the samples are not scaled by
   their peak; half of the brightness stays half *)
Example C88_pq_example : let img := mkJI (map (fun v => mkIB 1 1 TYPE_FLOAT [[v]] []) [F_ONE / 2; F_ONE / 4; 0]) [] [8; 8; 8] 0 0 (mkHd 8 false 3 1 true true) 1 1 0 (-1) 0 0 TF_LINEAR TF_PQ false in
  target img = TF_PQ /\ Forall (float_channel 1 1) (im_buffer img) /\
  exists img', ToImage (fun _ => Some (fun v => v)) true img = Ok (NRGBA 1 1 [128; 64; 0; 255], img').
Proof. intros img. split; [reflexivity|]. split; [repeat constructor|]. eexists. vm_compute. reflexivity. Qed.

(* after a conversion all channels are integer channels, so the branches for
   float channels of createGrayScaleImage and create24BitImage (one of which
   ignores alpha) are never taken *)
Lemma prepared_int bitDepth mx : forall l c depths r, mapBuffers (clampOrCast bitDepth mx) c depths l = Ok r -> Forall (fun ib => ib_type ib = TYPE_INT) r.
Proof.
  induction l as [|ib l IH]; intros c depths r E; cbn [mapBuffers] in E; [inversion E; constructor|].
  destruct (slice_get depths c) as [d| |]; try discriminate. cbn [obind] in E. destruct (clampOrCast bitDepth mx d ib) as [ib'| |] eqn:C; try discriminate. cbn [obind] in E.
  destruct (mapBuffers _ _ _ _) as [t| |] eqn:M; try discriminate. inversion E; subst. constructor; [|apply (IH _ _ _ M)].
  unfold clampOrCast, Clamp, CastToIntIfMax, castToIntBuffer, IsInt, IsFloat in C. destruct (Z.eqb_spec (ib_type ib) TYPE_INT) as [T|T].
  - destruct (d =? bitDepth); cbn [andb] in C; [|inversion C; subst; exact T]. destruct (ib_type ib =? TYPE_FLOAT); [discriminate|].
    destruct (MakeMatrix2D _ _); try discriminate. cbn [obind] in C. destruct (loop2 _ _ _ _); try discriminate. inversion C; subst. exact T.
  - cbn [andb] in C. destruct (mx <? 1); [discriminate|]. destruct (MakeMatrix2D _ _); try discriminate. cbn [obind] in C. destruct (loop2 _ _ _ _); try discriminate. inversion C; subst. reflexivity.
Qed.
Theorem C88_integers : forall fromLinear matches img g img', ToImage fromLinear matches img = Ok (g, img') ->
  Forall (fun ib => ib_type ib = TYPE_INT) (im_buffer img') /\
  (if hd_colours (im_header img') =? 1 then createGrayScaleImage (im_buffer img') else create24BitImage (hd_hasAlpha (im_header img')) (im_buffer img')) = Ok g.
Proof.
  intros fl matches img g img' E. unfold ToImage in E. destruct (toTarget _ _ _) as [i1| |]; try discriminate. cbn [obind] in E.
  destruct (pngPrepare _ i1) as [i2| |] eqn:P; try discriminate. cbn [obind] in E.
  assert (H : Forall (fun ib => ib_type ib = TYPE_INT) (im_buffer i2)).
  { unfold pngPrepare in P. destruct (if im_premult i1 then _ else _) as [co| |]; try discriminate. cbn [obind] in P.
    destruct (if co : bool then _ else _) as [b| |]; try discriminate. cbn [obind] in P. destruct (im_premult i1); [discriminate|].
    destruct (mapBuffers _ _ _ b) as [b2| |] eqn:M; try discriminate. inversion P; subst. exact (prepared_int _ _ _ _ _ _ M). }
  set (r := if hd_colours (im_header i2) =? 1 then _ else _) in E. destruct r as [g0| |] eqn:Er; try discriminate. cbn [obind] in E. inversion E; subst. split; [exact H|].
  exact Er.
Qed.
Print Assumptions C88_integers.

(* samples of more than 8 bits are cut to their low byte: the conversion does
   not keep 16-bit images.  For all samples of all such images. *)
Theorem C88_sixteen_bits_refuted :
  (forall h w fromLinear matches img, in_target matches img -> im_premult img = false -> 8 < hd_bits (im_header img) -> hd_colours (im_header img) = 1 ->
    Forall (int_channel h w) (im_buffer img) -> im_depths img = repeat 16 (length (im_buffer img)) -> im_buffer img <> [] ->
    exists pix img', ToImage fromLinear matches img = Ok (Gray (Z.of_nat w) (Z.of_nat h) pix, img') /\
      holds 1 h w (fun _ y x => clamped 65535 (int_at (im_buffer img) 0 y x) mod 256) pix) /\
  (* a darker pixel (255 of 65535) becomes white, a brighter one black *)
  clamped 65535 255 mod 256 = 255 /\ clamped 65535 32768 mod 256 = 0.
Proof.
  split; [|split; reflexivity].
  intros h w fl matches img Ht Hp Hb Hc Hl Hd Hn. unfold ToImage, imageDepth. rewrite toTarget_same by exact Ht. destruct (Z.ltb_spec 8 (hd_bits (im_header img))); [|lia].
  assert (Hn1 : (1 <= length (im_buffer img))%nat) by (destruct (im_buffer img); [congruence|cbn [length]; lia]).
  cbn [obind]. rewrite (pngPrepare_int h w) by assumption. cbn [obind].
  set (img' := set_buffer img _). edestruct (finish_gray h w img' (fun _ y x => clamped 65535 (int_at (im_buffer img) 0 y x) mod 256)) as (pix & E & P); [exact Hc| | | |].
  - apply clampIB_all, Hl.
  - cbn [img' set_buffer im_buffer]. rewrite map_length. exact Hn1.
  - intros y x Hy Hx. cbn [img' set_buffer im_buffer]. rewrite clampIB_at by (assumption || lia). change (depthMax 16) with 65535. rewrite clampv_clamped by lia. reflexivity.
  - rewrite E. exists pix, img'. split; [reflexivity|exact P].
Qed.
Print Assumptions C88_sixteen_bits_refuted.

(* alpha is taken from the first extra channel even if that is not the alpha
   channel (here the depth, 10, instead of alpha, 200), and the alpha channel of
   a gray image is lost *)
Definition ex_header (bits : Z) (a : bool) (c : Z) : Header := mkHd bits a c 1 true true.
Definition ex_chan (t v : Z) : ImageBuffer := if t =? TYPE_INT then mkIB 1 1 TYPE_INT [] [[v]] else mkIB 1 1 TYPE_FLOAT [[v]] [].
Definition ex_img (t : Z) (samples depths : list Z) (hd : Header) (enc alphaIndex transfer : Z) (icc : list Z) : JXLImage :=
  mkJI (map (ex_chan t) samples) icc depths 0 0 hd 1 1 enc alphaIndex 0 0 transfer TF_SRGB false.
Definition idTF (_ : Z) : option (Z -> Z) := Some (fun v => v).
Theorem C88_alpha_refuted :
  (exists i img', ToImage idTF true (ex_img TYPE_INT [1;2;3;10;200] [8;8;8;8;8] (ex_header 8 true 3) 0 1 TF_SRGB []) = Ok (NRGBA 1 1 i, img') /\ i = [1;2;3;10]) /\
  (exists i img', ToImage idTF true (ex_img TYPE_INT [7;100] [8;8] (ex_header 8 true 1) CE_GRAY 0 TF_SRGB []) = Ok (Gray 1 1 i, img') /\ i = [7]).
Proof. split; eexists; eexists; (split; [vm_compute; reflexivity|reflexivity]). Qed.
Print Assumptions C88_alpha_refuted.

(* one channel: the samples modulo 256; no channel of that number is an error *)
Theorem C88_channel_partial : forall h w img c, Z.of_nat h <= 2 ^ 30 -> Z.of_nat w <= 2 ^ 30 -> Forall (int_channel h w) (im_buffer img) ->
  (0 <= c < Z.of_nat (length (im_buffer img)) -> exists pix, ChannelToImage img c = Ok (Gray (Z.of_nat w) (Z.of_nat h) pix) /\
    holds 1 h w (fun _ y x => int_at (im_buffer img) (Z.to_nat c) y x mod 256) pix) /\
  (c < 0 \/ Z.of_nat (length (im_buffer img)) <= c -> ChannelToImage img c = Err).
Proof.
  intros h w img c Bh Bw Hl. unfold ChannelToImage. 
  rewrite (copyBuffers_ok h w Bh Bw); [|revert Hl; apply Forall_impl; intros ib Hi; left; exact Hi]. cbn [obind].
  rewrite map_length. split.
  - intros Hc. replace ((c <? 0) || (Z.of_nat (length (im_buffer img)) <=? c)) with false by lia.
    assert (Hl' : Forall (int_channel h w) (map copyIB (im_buffer img))).
    { rewrite Forall_map. eapply Forall_impl; [|exact Hl]. intros ib (H1 & H2 & H3 & H4). unfold copyIB, IsInt. rewrite H1. cbn [TYPE_INT Z.eqb]. repeat split; try assumption; apply H4. }
    destruct (gray_ok h w (map copyIB (im_buffer img)) (Z.to_nat c) Hl') as (pix & E & P); [rewrite map_length; lia|]. rewrite Z2Nat.id in E by lia. exists pix. split; [exact E|].
    revert P. apply holds_ext. intros k y x _ Hy Hx. unfold u8. f_equal. unfold int_at. rewrite nth_map_ib by lia.
    assert (Hi : int_channel h w (nth (Z.to_nat c) (im_buffer img) ib0)) by (rewrite Forall_forall in Hl; apply Hl, nth_In; lia).
    destruct Hi as (H1 & _). unfold copyIB, IsInt. rewrite H1. reflexivity.
  - intros Hc. replace ((c <? 0) || (Z.of_nat (length (im_buffer img)) <=? c)) with true by lia. reflexivity.
Qed.
Print Assumptions C88_channel_partial.
(* float samples are cut, not rounded (254.9 gives 254), and wrap around above
   1 (2.0 gives 254); the type of channel 0 decides for all channels *)
Theorem C88_channel_float_refuted :
  (exists v, 2549 * F_ONE <= 2550 * v /\ v < F_ONE /\ ChannelToImage (ex_img TYPE_FLOAT [v] [8] (ex_header 8 false 1) CE_GRAY (-1) TF_SRGB []) 0 = Ok (Gray 1 1 [254])) /\
  ChannelToImage (ex_img TYPE_FLOAT [2 * F_ONE] [8] (ex_header 8 false 1) CE_GRAY (-1) TF_SRGB []) 0 = Ok (Gray 1 1 [254]) /\
  ChannelToImage (set_buffer (ex_img TYPE_INT [] [8;8] (ex_header 8 false 1) CE_GRAY (-1) TF_SRGB []) [ex_chan TYPE_INT 5; ex_chan TYPE_FLOAT F_ONE]) 1 = Panic.
Proof. split; [|split; vm_compute; reflexivity]. exists (16770637 * 2 ^ 125). repeat split; vm_compute; congruence || reflexivity. Qed.
Print Assumptions C88_channel_float_refuted.

Example C88_ex : exists i img', ToImage idTF true (ex_img TYPE_INT [0;-7;300;77] [8;8;8;8] (ex_header 8 true 3) 0 0 TF_SRGB []) = Ok (NRGBA 1 1 i, img') /\ i = [0;0;255;77].
Proof. eexists. eexists. split; [vm_compute; reflexivity|reflexivity]. Qed.
Example C88_ex_scaled : exists i img', ToImage idTF true (ex_img TYPE_INT [0;1;3] [2;2;2] (ex_header 2 false 3) 0 (-1) TF_SRGB []) = Ok (NRGBA 1 1 i, img') /\ i = [0;85;255;255].
Proof. eexists. eexists. split; [vm_compute; reflexivity|reflexivity]. Qed.
Example C88_ex_float : exists i img', ToImage idTF false (ex_img TYPE_FLOAT [F_HALF; - F_ONE; 2 * F_ONE] [8;8;8] (ex_header 8 false 3) 0 (-1) TF_LINEAR []) = Ok (NRGBA 1 1 i, img') /\ i = [128;0;255;255].
Proof. eexists. eexists. split; [vm_compute; reflexivity|reflexivity]. Qed.
Example C88_ex_hyp : in_target true (ex_img TYPE_INT [0;-7;300;77] [8;8;8;8] (ex_header 8 true 3) 0 0 TF_SRGB []) /\
  Forall (int_channel 1 1) (im_buffer (ex_img TYPE_INT [0;-7;300;77] [8;8;8;8] (ex_header 8 true 3) 0 0 TF_SRGB [])).
Proof. split; [right; split; reflexivity|]. repeat constructor. Qed.

(* C89.  A second conversion gives the same image when no transform and no
   change of depth is needed. *)
Theorem C89_twice_partial : forall h w fromLinear matches img g img',
  in_target matches img -> im_premult img = false -> hd_bits (im_header img) <= 8 ->
  Forall (int_channel h w) (im_buffer img) -> im_depths img = repeat 8 (length (im_buffer img)) ->
  ToImage fromLinear matches img = Ok (g, img') -> ToImage fromLinear matches img' = Ok (g, img').
Proof.
  intros h w fl matches img g img' Ht Hp Hb Hl Hd E. unfold ToImage, imageDepth in E. rewrite toTarget_same in E by exact Ht. destruct (Z.ltb_spec 8 (hd_bits (im_header img))); [lia|].
  cbn [obind] in E. rewrite (pngPrepare_int h w) in E by assumption. cbn [obind] in E.
  set (i1 := set_buffer img _) in E.
  assert (I : img' = i1) by (destruct (if hd_colours (im_header i1) =? 1 then _ else _); try discriminate; inversion E; reflexivity). subst img'.
  unfold ToImage, imageDepth. rewrite toTarget_same by exact Ht. change (hd_bits (im_header i1)) with (hd_bits (im_header img)). destruct (Z.ltb_spec 8 (hd_bits (im_header img))); [lia|].
  cbn [obind]. rewrite (pngPrepare_int h w); [|exact Hp|apply clampIB_all, Hl|cbn [i1 set_buffer im_buffer im_depths]; rewrite map_length; exact Hd]. cbn [obind].
  assert (S : set_buffer i1 (map (clampIB h w (depthMax 8)) (im_buffer i1)) = i1).
  { unfold i1. cbn [set_buffer im_buffer]. unfold set_buffer. cbn. f_equal. rewrite map_map. apply map_ext. intros ib. unfold clampIB. cbn [ib_w ib_h ib_type ib_float ib_int]. f_equal.
    apply (rect_ext h w); [apply rect_mat|apply rect_mat|]. intros y x Hy Hx. rewrite !px_mat by assumption. rewrite !clampv_clamped by (vm_compute; congruence). unfold clamped. change (depthMax 8) with 255. lia. }
  rewrite S. exact E.
Qed.
Print Assumptions C89_twice_partial.
(* Otherwise it does not: the channels are changed in place, the depths and the
   transfer function of the image stay.  4-bit sample 1: 17, then 255.  A linear
   float image: 1/4 gives 64, then 255 *)
Theorem C89_twice_refuted :
  (exists i1 i2, ToImage idTF true (ex_img TYPE_INT [1] [4] (ex_header 4 false 1) CE_GRAY (-1) TF_SRGB []) = Ok (Gray 1 1 [17], i1) /\
     ToImage idTF true i1 = Ok (Gray 1 1 [255], i2)) /\
  (exists i1 i2, ToImage idTF false (ex_img TYPE_FLOAT [2 ^ 147] [8] (ex_header 8 false 1) CE_GRAY (-1) TF_LINEAR []) = Ok (Gray 1 1 [64], i1) /\
     ToImage idTF false i1 = Ok (Gray 1 1 [255], i2)).
Proof. split; eexists; eexists; (split; [vm_compute; reflexivity|vm_compute; reflexivity]). Qed.
Print Assumptions C89_twice_refuted.
(* an image without ICC profile whose transfer function is neither linear nor
   that of the target (or whose primaries differ and which is not linear) makes
   the conversion panic: for every such image *)
Theorem C89_transfer_refuted : forall fromLinear matches img, im_icc img = [] -> im_transfer img <> TF_LINEAR ->
  matches = false \/ im_transfer img <> target img -> ToImage fromLinear matches img = Panic.
Proof.
  intros fl matches img Hi Ht Hn. unfold ToImage. rewrite toTarget_panic; [reflexivity|exact Hi|exact Ht|]. intros [H1 H2]. destruct Hn; congruence.
Qed.
Print Assumptions C89_transfer_refuted.
Theorem C89_premultiplied_refuted : forall fromLinear matches img, in_target matches img -> im_premult img = true -> forall r, ToImage fromLinear matches img <> Ok r.
Proof.
  intros fl matches img Ht Hp r. unfold ToImage. rewrite toTarget_same by exact Ht. cbn [obind]. unfold pngPrepare. rewrite Hp. cbn [obind].
  destruct (mapBuffers _ _ _ _); cbn [obind]; discriminate.
Qed.
Print Assumptions C89_premultiplied_refuted.
(* an integer image with linear transfer: the samples are divided by the number
   of bits, 8, not by 255, so every sample from 8 up becomes white *)
Theorem C89_linear_refuted : forall v, 0 <= v <= 255 ->
  exists img', transferInPlace (fun v => v) (ex_img TYPE_INT [v] [8] (ex_header 8 false 1) CE_GRAY (-1) TF_LINEAR []) = Ok img' /\
    float_at (im_buffer img') 0 0 0 * 8 = v * F_ONE.
Proof.
  intros v Hv. set (img := ex_img _ _ _ _ _ _ _ _).
  set (ib := mkIB 1 1 TYPE_FLOAT (mat 1 1 (fun y x => f_mul (f_of_int (px [[v]] y x)) (f_div F_ONE (f_of_int 8)))) [[v]]).
  assert (C : castDepth 0 img = Ok (set_buffer img [ib])).
  { unfold castDepth. change (im_buffer img) with ([] ++ ex_chan TYPE_INT v :: []). rewrite slice_at by reflexivity. cbn [obind].
    change (slice_get (im_depths img) 0) with (Ok 8). cbn [obind]. change (i32 8) with 8.
    rewrite (castFloat_ok 1 1) by (repeat constructor || lia). cbn [obind]. rewrite slice_set_at by reflexivity. reflexivity. }
  assert (T : transferChannel (fun v => v) 0 (set_buffer img [ib]) = Ok (set_buffer img [fIB 1 1 (fun v => v) ib])).
  { apply (transferChannel_ok 1 1 _ 0 (set_buffer img [ib]) [] ib []); try reflexivity. repeat split; try reflexivity; apply rect_mat. }
  exists (set_buffer img [fIB 1 1 (fun v => v) ib]). split.
  - unfold transferInPlace. change (im_encoding img =? CE_GRAY) with true. cbn [oloop]. change (Z.of_nat 0) with 0. rewrite C. cbn [obind]. rewrite T. reflexivity.
  - unfold float_at. cbn [set_buffer im_buffer nth]. unfold fIB, ib. cbn [ib_float]. rewrite !px_mat by lia. change (px [[v]] 0 0) with v.
    rewrite (f_of_int_exact v) by (change (2 ^ 24) with 16777216; lia).
    assert (D : f_div F_ONE (f_of_int 8) = 2 ^ 146) by (vm_compute; reflexivity). rewrite D. unfold f_mul.
  assert (E : f_round (v * F_ONE * 2 ^ 146) F_ONE = v * 2 ^ 146).
  { replace (v * F_ONE * 2 ^ 146) with (v * 2 ^ 146 * F_ONE) by ring. apply f_round_exact; [reflexivity|]. exists v, 146. repeat split; [lia|]. change (2 ^ 24) with 16777216. lia. }
    rewrite E. assert (F8 : F_ONE = 2 ^ 146 * 8) by (vm_compute; reflexivity). rewrite F8. ring.
Qed.
Print Assumptions C89_linear_refuted.
Example C89_ex : exists i1, ToImage idTF true (ex_img TYPE_INT [9] [8] (ex_header 8 false 1) CE_GRAY (-1) TF_SRGB []) = Ok (Gray 1 1 [9], i1) /\ ToImage idTF true i1 = Ok (Gray 1 1 [9], i1).
Proof. eexists. split; [vm_compute; reflexivity|vm_compute; reflexivity]. Qed.
Example C89_ex_transfer : im_icc (ex_img TYPE_INT [9] [8] (ex_header 8 false 1) CE_GRAY (-1) (1 + 2 ^ 24) []) = [] /\ 1 + 2 ^ 24 <> TF_LINEAR /\ 1 + 2 ^ 24 <> TF_SRGB.
Proof. repeat split; vm_compute; discriminate. Qed.

(* Peak detection: the largest sample of the grey or green channel, scaled to
   the depth of integers; never below 0. *)
Definition channel_largest (samples : list (list Z)) (m : Z) : Prop :=
  0 <= m /\ (forall row v, In row samples -> In v row -> v <= m) /\ (m = 0 \/ exists row, In row samples /\ In m row).
Lemma row_largest r : forall a, let m := fold_left (fun a v => if a <? v then v else a) r a in
  a <= m /\ (forall v, In v r -> v <= m) /\ (m = a \/ In m r).
Proof.
  induction r as [|x r IH]; intros a; cbn [fold_left]; cbv zeta.
  - split; [lia|]. split; [intros v []|left; reflexivity].
  - destruct (IH (if a <? x then x else a)) as (H1 & H2 & H3). cbv zeta in *. destruct (Z.ltb_spec a x) as [L|L].
    + split; [lia|]. split; [intros v [<-|Hv]; [exact H1|apply H2; exact Hv]|]. destruct H3 as [->|H3]; [right; left; reflexivity|right; right; exact H3].
    + split; [exact H1|]. split; [intros v [<-|Hv]; [lia|apply H2; exact Hv]|]. destruct H3 as [->|H3]; [left; reflexivity|right; right; exact H3].
Qed.
Lemma maxOf_largest m : channel_largest m (maxOf m).
Proof.
  unfold channel_largest, maxOf. assert (G : forall m a, let r := fold_left (fun a r => fold_left (fun a v => if a <? v then v else a) r a) m a in
    a <= r /\ (forall row v, In row m -> In v row -> v <= r) /\ (r = a \/ exists row, In row m /\ In r row)).
  { clear m. induction m as [|row m IH]; intros a; cbn [fold_left]; cbv zeta.
    - split; [lia|]. split; [intros row v []|left; reflexivity].
    - destruct (row_largest row a) as (R1 & R2 & R3). cbv zeta in *. destruct (IH (fold_left (fun a v => if a <? v then v else a) row a)) as (H1 & H2 & H3). cbv zeta in *.
      split; [lia|]. split.
      + intros r v [<-|Hr] Hv; [pose proof (R2 v Hv); lia|eapply H2; eauto].
      + destruct H3 as [->|(r & Hr & Hv)]; [|right; exists r; split; [right; exact Hr|exact Hv]].
        destruct R3 as [->|R3]; [left; reflexivity|right; exists row; split; [left; reflexivity|exact R3]]. }
  exact (G m 0).
Qed.
Theorem C88_peak : forall img, im_transfer img = TF_LINEAR ->
  let c := if im_encoding img =? CE_GRAY then 0%nat else 1%nat in
  (c < length (im_buffer img))%nat -> (c < length (im_depths img))%nat ->
  (ib_type (nth c (im_buffer img) ib0) = TYPE_FLOAT ->
     exists m, determinePeak img = Ok m /\ channel_largest (ib_float (nth c (im_buffer img) ib0)) m) /\
  (ib_type (nth c (im_buffer img) ib0) = TYPE_INT -> 0 <= nth c (im_depths img) 0 <= 32 ->
     exists m, determinePeak img = Ok (f_div (f_of_int m) (f_of_int (2 ^ nth c (im_depths img) 0 - 1))) /\
       channel_largest (ib_int (nth c (im_buffer img) ib0)) m).
Proof.
  intros img Ht c Hb Hd. unfold determinePeak. rewrite Ht, Z.eqb_refl. cbn [obind].
  replace (if im_encoding img =? CE_GRAY then 0 else 1) with (Z.of_nat c) by (unfold c; destruct (im_encoding img =? CE_GRAY); reflexivity).
  rewrite (slice_get_ok _ _ ib0) by lia. rewrite Nat2Z.id. cbn [obind]. split.
  - intros T. unfold IsInt. rewrite T. cbn. eexists. split; [reflexivity|apply maxOf_largest].
  - intros T D. unfold IsInt. rewrite T. change (TYPE_INT =? TYPE_INT) with true. cbv iota.
    rewrite (slice_get_ok _ _ 0) by lia. rewrite Nat2Z.id. cbn [obind]. eexists. split; [|apply maxOf_largest].
    do 3 f_equal. set (d := nth c (im_depths img) 0) in *. rewrite Z.shiftl_mul_pow2 by lia.
    assert (P : 0 < 2 ^ d <= 2 ^ 32) by (split; [apply Z.pow_pos_nonneg; lia|apply Z.pow_le_mono_r; lia]).
    unfold i64. rewrite Z.mod_small by lia. unfold Z.lnot. lia.
Qed.
Print Assumptions C88_peak.
Example C88_peak_ex : let img := ex_img TYPE_INT [5;200;9] [8;8;8] (ex_header 8 false 3) 0 (-1) TF_LINEAR [] in
  im_transfer img = TF_LINEAR /\ determinePeak img = Ok (f_div (f_of_int 200) (f_of_int 255)).
Proof. split; vm_compute; reflexivity. Qed.
