(* Properties of the image layer: orientation, copies, options, sample
   conversions, blending, PFM and PNG output. *)
From Coq Require Import ZArith List Bool Lia Arith ZifyBool ZifyNat.
From Verif Require Import GoBase GoLoop GoMatrix GoFloat32 ProofCodes SpecBitReader.
From Verif Require Import ModelImage ModelWriters SpecImage ProofImage ProofWriters.
Import ListNotations.
Open Scope Z_scope.

(* A channel of h rows and w columns, integer or float, and its samples *)
Definition channel (h w : nat) (ib : ImageBuffer) : Prop := int_channel h w ib \/ float_channel h w ib.
Definition content (ib : ImageBuffer) : list (list Z) := if ib_type ib =? TYPE_INT then ib_int ib else ib_float ib.

Lemma transposeBuffer_ok k h w src : 1 <= k <= 8 -> channel h w src -> (0 < h)%nat -> (0 < w)%nat -> Z.of_nat h < 2 ^ 31 -> Z.of_nat w < 2 ^ 31 ->
  exists m dst, transposeMatrix (content src) k = Ok m /\ transposeBuffer src k = Ok dst /\ ib_type dst = ib_type src /\ content dst = m /\
    channel (fst (seen_size k h w)) (snd (seen_size k h w)) dst.
Proof.
  intros Hk Hs Hh Hw Bh Bw. unfold transposeBuffer, IsInt, content.
  assert (Hd : (0 < fst (seen_size k h w))%nat /\ Z.of_nat (fst (seen_size k h w)) < 2 ^ 31 /\ Z.of_nat (snd (seen_size k h w)) < 2 ^ 31)
    by (unfold seen_size; destruct (vertical _); cbn; lia).
  destruct Hs as [(Ht & _ & _ & Hr)|(Ht & _ & _ & Hr)]; rewrite Ht; cbn [TYPE_INT TYPE_FLOAT Z.eqb].
  - destruct (transposeMatrix_ok k h w _ Hk Hr Hh) as (m & E & R & _). rewrite E. cbn [obind].
    unfold NewImageBufferFromInts. destruct (R) as [L _]. pose proof (rect_row _ _ _ 0%nat R ltac:(lia)) as L0.
    rewrite (slice_get_ok m 0 []) by lia. cbn [obind]. change (Z.to_nat 0) with 0%nat. rewrite L0, L.
    exists m. eexists. split; [reflexivity|]. split; [reflexivity|]. split; [reflexivity|]. split; [reflexivity|]. left.
    repeat split; cbn [ib_type ib_h ib_w ib_int]; try (apply i32_small; lia); apply R.
  - destruct (transposeMatrix_ok k h w _ Hk Hr Hh) as (m & E & R & _). rewrite E. cbn [obind].
    unfold NewImageBufferFromFloats. destruct (R) as [L _]. pose proof (rect_row _ _ _ 0%nat R ltac:(lia)) as L0.
    rewrite (slice_get_ok m 0 []) by lia. cbn [obind]. change (Z.to_nat 0) with 0%nat. rewrite L0, L.
    exists m. eexists. split; [reflexivity|]. split; [reflexivity|]. split; [reflexivity|]. split; [reflexivity|]. right.
    repeat split; cbn [ib_type ib_h ib_w ib_float]; try (apply i32_small; lia); apply R.
Qed.
Lemma channel_rect h w ib : channel h w ib -> rect h w (content ib).
Proof. intros [(Ht & _ & _ & R)|(Ht & _ & _ & R)]; unfold content; rewrite Ht; exact R. Qed.

(* C15: every stored pixel is found where the EXIF table puts it; the size is
   the seen size (swapped for orientations above 4, as the header says); seen
   pixels and stored pixels correspond one to one. *)
Theorem C15_orientation : forall k h w src, 1 <= k <= 8 -> channel h w src -> (0 < h)%nat -> (0 < w)%nat ->
  Z.of_nat h < 2 ^ 31 -> Z.of_nat w < 2 ^ 31 ->
  exists dst, transposeBuffer src k = Ok dst /\ ib_type dst = ib_type src /\
    channel (fst (seen_size k h w)) (snd (seen_size k h w)) dst /\
    (forall r c, (r < h)%nat -> (c < w)%nat ->
       px (content dst) (fst (seen_at k h w r c)) (snd (seen_at k h w r c)) = px (content src) r c) /\
    (forall y x, (y < fst (seen_size k h w))%nat -> (x < snd (seen_size k h w))%nat ->
       exists! rc, (fst rc < h)%nat /\ (snd rc < w)%nat /\ seen_at k h w (fst rc) (snd rc) = (y, x)) /\
    seen_size k h w = (if 4 <? k then (w, h) else (h, w)).
Proof.
  intros k h w src Hk Hs Hh Hw Bh Bw. destruct (transposeBuffer_ok k h w src Hk Hs Hh Hw Bh Bw) as (m & dst & E1 & E2 & Ht & Ec & Hc).
  exists dst. split; [exact E2|]. split; [exact Ht|]. split; [exact Hc|].
  destruct (transposeMatrix_ok k h w (content src) Hk (channel_rect _ _ _ Hs) Hh) as (m' & E3 & _ & A).
  rewrite E1 in E3. injection E3 as <-. rewrite Ec. split; [exact A|]. split.
  - intros y x Hy Hx. destruct (seen_surj k h w y x Hk Hy Hx) as (r & c & Hr & Hcc & E). exists (r, c). split; [auto|].
    intros [r' c'] (Hr' & Hc' & E'). cbn [fst snd] in *. rewrite <- E' in E.
    destruct (seen_inj k h w r c r' c' Hk Hr Hcc Hr' Hc' E) as [-> ->]. reflexivity.
  - assert (D : k = 1 \/ k = 2 \/ k = 3 \/ k = 4 \/ k = 5 \/ k = 6 \/ k = 7 \/ k = 8) by lia.
    destruct D as [->|[->|[->|[->|[->|[->|[->| ->]]]]]]]; reflexivity.
Qed.
Print Assumptions C15_orientation.
(* an orientation followed by its inverse gives the channel back *)
Theorem C15_inverse : forall k h w src, 1 <= k <= 8 -> channel h w src -> (0 < h)%nat -> (0 < w)%nat ->
  Z.of_nat h < 2 ^ 31 -> Z.of_nat w < 2 ^ 31 ->
  exists dst back, transposeBuffer src k = Ok dst /\ transposeBuffer dst (exif_inverse k) = Ok back /\
    channel h w back /\ ib_type back = ib_type src /\ content back = content src.
Proof.
  intros k h w src Hk Hs Hh Hw Bh Bw. destruct (transposeBuffer_ok k h w src Hk Hs Hh Hw Bh Bw) as (m & dst & E1 & E2 & Ht & Ec & Hc).
  destruct (transposeMatrix_ok k h w (content src) Hk (channel_rect _ _ _ Hs) Hh) as (m' & E3 & _ & A).
  rewrite E1 in E3. injection E3 as <-.
  assert (Hk' : 1 <= exif_inverse k <= 8) by (unfold exif_inverse; destruct (k =? 6); [lia|]; destruct (k =? 8); lia).
  pose proof (seen_inverse k h w) as Inv.
  destruct (seen_size k h w) as [H W] eqn:Es. cbn [fst snd] in *.
  assert (Hd : (0 < H)%nat /\ (0 < W)%nat /\ Z.of_nat H < 2 ^ 31 /\ Z.of_nat W < 2 ^ 31).
  { unfold seen_size in Es. destruct (vertical _); injection Es as <- <-; lia. }
  destruct (transposeBuffer_ok (exif_inverse k) H W dst Hk' Hc) as (m2 & back & F1 & F2 & Ft & Fc & Fch); try tauto.
  destruct (transposeMatrix_ok (exif_inverse k) H W (content dst) Hk' (channel_rect _ _ _ Hc)) as (m3 & F3 & _ & B); try tauto.
  rewrite F1 in F3. injection F3 as <-.
  assert (Sz : seen_size (exif_inverse k) H W = (h, w)).
  { specialize (Inv 0%nat 0%nat Hk Hh Hw). destruct (seen_at k h w 0 0). tauto. }
  rewrite Sz in *. cbn [fst snd] in *.
  exists dst, back. split; [exact E2|]. split; [exact F2|]. split; [exact Fch|]. split; [congruence|].
  apply (rect_ext h w); [apply channel_rect; exact Fch|apply channel_rect; exact Hs|]. intros r c Hr Hcc.
  specialize (Inv r c Hk Hr Hcc). specialize (A r c Hr Hcc). pose proof (seen_in k h w r c Hk Hr Hcc) as In. rewrite Es in In. cbn [fst snd] in In.
  destruct (seen_at k h w r c) as [y x]. destruct Inv as [_ Inv]. cbn [fst snd] in *.
  specialize (B y x ltac:(tauto) ltac:(tauto)). rewrite Inv in B. cbn [fst snd] in B. rewrite Fc, B, Ec. exact A.
Qed.
Print Assumptions C15_inverse.
Example C15_ex : channel 2 3 (mkIB 3 2 TYPE_INT [] [[1;2;3];[4;5;6]]) /\
  transposeBuffer (mkIB 3 2 TYPE_INT [] [[1;2;3];[4;5;6]]) 6 = Ok (mkIB 2 3 TYPE_INT [] [[4;1];[5;2];[6;3]]).
Proof. split; [left; repeat split; repeat constructor|vm_compute; reflexivity]. Qed.

(* C45: the copy of an image keeps everything but the channels... *)
Theorem C45_metadata_partial : forall img b, NewJXLImageFromJXLImage img b = Ok (set_buffer img []).
Proof. intros img b. unfold NewJXLImageFromJXLImage, set_buffer. cbn [fold_left obind]. rewrite gocopy_zero. reflexivity. Qed.
Print Assumptions C45_metadata_partial.
Theorem C45_channel_copy_partial : forall ib, NewImageBufferFromImageBuffer ib true = Ok ib.
Proof. intros [w h t f i]. unfold NewImageBufferFromImageBuffer. cbn. rewrite !copyMatrix_id. reflexivity. Qed.
Print Assumptions C45_channel_copy_partial.
(* ...which are all lost: the copy of an image with channels differs from it *)
Theorem C45_copy_loses_channels_refuted : forall img b, im_buffer img <> [] ->
  exists copy, NewJXLImageFromJXLImage img b = Ok copy /\ im_buffer copy = [] /\ copy <> img.
Proof.
  intros img b H. rewrite C45_metadata_partial. eexists. split; [reflexivity|]. split; [reflexivity|]. intros E. apply H. rewrite <- E. reflexivity.
Qed.
Print Assumptions C45_copy_loses_channels_refuted.
(* therefore scaling an image (peak detection) never succeeds *)
Theorem C45_transfer_refuted : forall f img, match transferWithOp f img with Ok _ => False | _ => True end.
Proof.
  intros f img. unfold transferWithOp. destruct (castAll _ _ _ _) as [bufs| |]; cbn [obind]; auto.
  rewrite C45_metadata_partial. cbn [obind]. destruct (im_encoding img =? CE_GRAY).
  - change (Z.to_nat 1) with 1%nat. cbn [oloop set_buffer im_buffer]. destruct (slice_get bufs _); cbn; auto.
  - change (Z.to_nat 3) with 3%nat. cbn [oloop set_buffer im_buffer]. destruct (slice_get bufs _); cbn; auto.
Qed.
Print Assumptions C45_transfer_refuted.
Definition ex_image : JXLImage :=
  mkJI [mkIB 2 1 TYPE_INT [] [[5;300]]] [] [8] 0 0 (mkHd 8 false 1 1 true true) 2 1 CE_GRAY (-1) 0 0 0 (13 + 2 ^ 24) false.
Example C45_ex : im_buffer ex_image <> [] /\ exists c, NewJXLImageFromJXLImage ex_image true = Ok c /\ im_w c = 2.
Proof. split; [discriminate|]. eexists. split; [reflexivity|reflexivity]. Qed.

(* C46: parse-only, debug and more than one goroutine are honoured *)
Theorem C46_options_partial : forall g o, let r := NewJXLOptions g (Some o) in
  o_debug r = o_debug o /\ o_parseOnly r = o_parseOnly o /\ (1 < o_maxGoroutines o -> o_maxGoroutines r = o_maxGoroutines o) /\
  (o_maxGoroutines o <= 1 -> o_maxGoroutines r = g) /\ NewJXLOptions g None = mkOpt false false false g.
Proof. intros g o. cbn. repeat split; try reflexivity; intros; destruct (1 <? o_maxGoroutines o) eqn:E; lia. Qed.
Print Assumptions C46_options_partial.
(* a request for varblock rendering is dropped *)
Theorem C46_render_varblocks_refuted : forall g o, o_renderVarblocks (NewJXLOptions g (Some o)) = false.
Proof. reflexivity. Qed.
Print Assumptions C46_render_varblocks_refuted.
(* a request for a single goroutine is ignored *)
Theorem C46_single_goroutine_refuted : forall g o, o_maxGoroutines o = 1 -> g <> 1 ->
  o_maxGoroutines (NewJXLOptions g (Some o)) <> o_maxGoroutines o.
Proof. intros g o H Hg. cbn. rewrite H. exact Hg. Qed.
Print Assumptions C46_single_goroutine_refuted.
Example C46_ex : NewJXLOptions 8 (Some (mkOpt true true true 1)) = mkOpt true true false 8.
Proof. reflexivity. Qed.

(* C49: clamping *)
Theorem C49_clamp : forall h w ib mx, int_channel h w ib -> 0 <= mx ->
  exists r, Clamp ib mx = Ok r /\ int_channel h w r /\
    forall y x, (y < h)%nat -> (x < w)%nat ->
      px (ib_int r) y x = clamped mx (px (ib_int ib) y x) /\
      0 <= px (ib_int r) y x <= mx /\
      (0 <= px (ib_int ib) y x <= mx -> px (ib_int r) y x = px (ib_int ib) y x).
Proof.
  intros h w ib mx Hi Hm. rewrite (Clamp_ok h w) by exact Hi. eexists. split; [reflexivity|]. split; [apply (clampIB_channel h w mx ib Hi)|].
  intros y x Hy Hx. cbn [ib_int]. rewrite px_mat by assumption. rewrite clampv_clamped by exact Hm. unfold clamped. lia.
Qed.
Print Assumptions C49_clamp.
(* integers up to 20 bits survive the conversion to float and back *)
Theorem C49_round_trip_partial : forall h w ib mx, int_channel h w ib -> 1 <= mx <= 2 ^ 20 ->
  (forall y x, (y < h)%nat -> (x < w)%nat -> 0 <= px (ib_int ib) y x <= mx) ->
  exists f r, CastToFloatIfMax ib mx = Ok f /\ float_channel h w f /\ CastToIntIfMax f mx = Ok r /\
    int_channel h w r /\ ib_int r = ib_int ib.
Proof.
  intros h w ib mx Hi Hm Hr. rewrite (castFloat_ok h w) by (exact Hi || lia). eexists. 
  match goal with |- exists r, Ok ?f = _ /\ _ => set (fb := f) end.
  assert (Hf : float_channel h w fb). { destruct Hi as (_ & H1 & H2 & _). repeat split; try assumption; apply rect_mat. }
  eexists. split; [reflexivity|]. split; [exact Hf|]. rewrite (castInt_ok h w) by (exact Hf || lia). split; [reflexivity|].
  split; [destruct Hi as (_ & H1 & H2 & _); repeat split; try assumption; apply rect_mat|]. cbn [ib_int].
  destruct Hi as (_ & _ & _ & R). apply (rect_ext h w); [apply rect_mat|exact R|]. intros y x Hy Hx. rewrite px_mat by assumption.
  unfold fb. cbn [ib_float]. rewrite px_mat by assumption. apply toInt_roundtrip; [apply Hr; assumption|exact Hm].
Qed.
Print Assumptions C49_round_trip_partial.
(* float to integer always lands in 0..max, whatever the float *)
Theorem C49_to_int_range : forall h w ib mx, float_channel h w ib -> 1 <= mx ->
  exists r, CastToIntIfMax ib mx = Ok r /\ int_channel h w r /\
    forall y x, (y < h)%nat -> (x < w)%nat -> 0 <= px (ib_int r) y x <= mx.
Proof.
  intros h w ib mx Hf Hm. rewrite (castInt_ok h w) by assumption. eexists. split; [reflexivity|].
  split; [destruct Hf as (_ & H1 & H2 & _); repeat split; try assumption; apply rect_mat|].
  intros y x Hy Hx. cbn [ib_int]. rewrite px_mat by assumption. apply toInt_range. lia.
Qed.
Print Assumptions C49_to_int_range.
(* 24-bit samples do not survive *)
Definition ex24 : ImageBuffer := mkIB 1 1 TYPE_INT [] [[8388609]].
Theorem C49_round_trip_24_bits_refuted : exists ib mx f r, int_channel 1 1 ib /\ mx = 2 ^ 24 - 1 /\ 0 <= px (ib_int ib) 0 0 <= mx /\
  CastToFloatIfMax ib mx = Ok f /\ CastToIntIfMax f mx = Ok r /\ ib_int r <> ib_int ib.
Proof.
  exists ex24, (2 ^ 24 - 1). eexists. eexists. split; [repeat split; repeat constructor|]. split; [reflexivity|]. split; [cbn; lia|].
  split; [vm_compute; reflexivity|]. split; [vm_compute; reflexivity|]. vm_compute. discriminate.
Qed.
Print Assumptions C49_round_trip_24_bits_refuted.
(* for depth 32 the maximum is computed as -1, and clamping makes every
   non-negative sample negative *)
Theorem C49_clamp_32_bits_refuted : depthMax 32 = -1 /\
  exists ib r, int_channel 1 1 ib /\ px (ib_int ib) 0 0 = 5 /\ Clamp ib (depthMax 32) = Ok r /\ px (ib_int r) 0 0 = -1.
Proof.
  split; [reflexivity|]. exists (mkIB 1 1 TYPE_INT [] [[5]]). eexists. split; [repeat split; repeat constructor|].
  split; [reflexivity|]. split; vm_compute; reflexivity.
Qed.
Print Assumptions C49_clamp_32_bits_refuted.
Example C49_ex : int_channel 1 3 (mkIB 3 1 TYPE_INT [] [[-4;200;300]]) /\
  Clamp (mkIB 3 1 TYPE_INT [] [[-4;200;300]]) 255 = Ok (mkIB 3 1 TYPE_INT [] [[0;200;255]]).
Proof. split; [repeat split; repeat constructor|vm_compute; reflexivity]. Qed.
Example C49_ex2 : exists f r, CastToFloatIfMax (mkIB 3 1 TYPE_INT [] [[0;1;1023]]) 1023 = Ok f /\ CastToIntIfMax f 1023 = Ok r /\ ib_int r = [[0;1;1023]].
Proof. eexists. eexists. split; [vm_compute; reflexivity|]. split; vm_compute; reflexivity. Qed.

(* C50: blending with every mode.  The frame has at least its declared size;
   the reference and its alpha have the size of the canvas. *)
Definition to_unit (c : bool) (v : Z) : Z := if c then Z.max 0 (Z.min F_ONE v) else v.
Lemma clamp01_unit c v : clamp01 c v = to_unit c v.
Proof.
  unfold clamp01, to_unit. destruct c; [|reflexivity]. assert (0 < F_ONE) by reflexivity.
  destruct (Z.ltb_spec v 0); [lia|]. destruct (Z.ltb_spec F_ONE v); lia.
Qed.
Definition blend_value (a : BlendArgs) (y x fy fx : nat) : Z :=
  let old := px (ba_ref a) y x in
  let new := px (ba_frame a) fy fx in
  let oldA := if ba_hasAlpha a then px (ba_oldA a) y x else F_ONE in
  let newA := to_unit (ba_clamp a) (if ba_hasAlpha a then px (ba_newA a) fy fx else F_ONE) in
  let outA := f_add oldA (f_mul newA (f_sub F_ONE oldA)) in
  if ba_mode a =? BLEND_ADD then (if ba_isInt a then i32 (old + new) else f_add old new)
  else if ba_mode a =? BLEND_MULT then f_mul (to_unit (ba_clamp a) new) old
  else if ba_mode a =? BLEND_MULADD then (if ba_isAlpha a then oldA else f_add old (f_mul newA new))
  else if ba_isAlpha a then outA
  else if negb (ba_hasAlpha a) || ba_premult a then f_add new (f_mul old (f_sub F_ONE newA))
  else f_div (f_add (f_mul new newA) (f_mul (f_mul old oldA) (f_sub F_ONE newA))) outA.
Theorem C50_blend_partial : forall a ox oy fw fh iw ih FH FW canvas,
  blend_sizes ox oy fw fh (Z.of_nat iw) (Z.of_nat ih) -> good_origin ox oy -> rect ih iw canvas ->
  rect FH FW (ba_frame a) -> fh <= Z.of_nat FH -> fw <= Z.of_nat FW -> rect ih iw (ba_ref a) ->
  (ba_hasAlpha a = true -> ba_mode a = 2 \/ ba_mode a = 3 -> rect ih iw (ba_oldA a) /\ rect FH FW (ba_newA a)) ->
  1 <= ba_mode a <= 4 ->
  exists r, blendChannel a true (blendRegion ox oy fw fh (Z.of_nat iw) (Z.of_nat ih)) canvas = Ok r /\ rect ih iw r /\
    forall y x, (y < ih)%nat -> (x < iw)%nat ->
      (covered oy ox fh fw y x -> px r y x = blend_value a y x (Z.to_nat (Z.of_nat y - oy)) (Z.to_nat (Z.of_nat x - ox))) /\
      (~ covered oy ox fh fw y x -> px r y x = px canvas y x).
Proof.
  intros a ox oy fw fh iw ih FH FW canvas Hs Hg Hc Hf HFH HFW Href Ha Hm.
  assert (M : forall V r, r = mat ih iw (fun y x => if coveredb oy ox fh fw y x then V y x else px canvas y x) ->
     (forall y x, V y x = blend_value a y x (Z.to_nat (Z.of_nat y - oy)) (Z.to_nat (Z.of_nat x - ox))) ->
     rect ih iw r /\ forall y x, (y < ih)%nat -> (x < iw)%nat ->
      (covered oy ox fh fw y x -> px r y x = blend_value a y x (Z.to_nat (Z.of_nat y - oy)) (Z.to_nat (Z.of_nat x - ox))) /\
      (~ covered oy ox fh fw y x -> px r y x = px canvas y x)).
  { intros V r -> HV. split; [apply rect_mat|]. intros y x Hy Hx. rewrite px_mat by assumption.
    pose proof (coveredb_spec oy ox fh fw y x) as Cs. destruct (coveredb oy ox fh fw y x); [|split; [intros C; apply Cs in C; discriminate|reflexivity]].
    split; [intros _; apply HV|intros C; exfalso; apply C, Cs; reflexivity]. }
  assert (G1 : forall m y x, rect ih iw m -> (y < ih)%nat -> (x < iw)%nat -> get2 m (Z.of_nat y) (Z.of_nat x) = Ok (px m y x))
    by (intros; apply (get_px ih iw); assumption).
  assert (G2 : forall m y x, rect FH FW m -> covered oy ox fh fw y x -> get2 m (Z.of_nat y - oy) (Z.of_nat x - ox) = Ok (px m (Z.to_nat (Z.of_nat y - oy)) (Z.to_nat (Z.of_nat x - ox)))).
  { intros m y x R (C1 & C2). apply (get2_ok FH FW); [exact R| |]; lia. }
  unfold blendChannel, performBlending.
  set (V := fun y x => blend_value a y x (Z.to_nat (Z.of_nat y - oy)) (Z.to_nat (Z.of_nat x - ox))).
  assert (D : ba_mode a = 1 \/ ba_mode a = 2 \/ ba_mode a = 3 \/ ba_mode a = 4) by lia.
  destruct D as [D|[D|[D|D]]]; rewrite D; cbn [BLEND_REPLACE BLEND_ADD BLEND_MULT BLEND_BLEND BLEND_MULADD Z.eqb Pos.eqb orb andb negb].
  - destruct (ba_isInt a) eqn:Ei.
    + rewrite (blendLoop_ok _ _ _ _ _ _ _ V); [eexists; split; [reflexivity|]; apply (M V); reflexivity|assumption..|].
      intros y x Hy Hx C. rewrite G1, G2 by assumption. cbn [obind]. unfold V, blend_value. rewrite <- ?clamp01_unit. rewrite D, Ei. reflexivity.
    + rewrite (blendLoop_ok _ _ _ _ _ _ _ V); [eexists; split; [reflexivity|]; apply (M V); reflexivity|assumption..|].
      intros y x Hy Hx C. rewrite G1, G2 by assumption. cbn [obind]. unfold V, blend_value. rewrite <- ?clamp01_unit. rewrite D, Ei. reflexivity.
  - rewrite (blendLoop_ok _ _ _ _ _ _ _ V); [eexists; split; [reflexivity|]; apply (M V); reflexivity|assumption..|].
    intros y x Hy Hx C. unfold V, blend_value. rewrite <- ?clamp01_unit. rewrite D. cbn [BLEND_ADD BLEND_MULT BLEND_MULADD Z.eqb Pos.eqb].
    destruct (ba_hasAlpha a) eqn:Eh.
    + destruct (Ha eq_refl ltac:(auto)) as [RA RN]. rewrite !G1, !G2 by assumption. cbn [obind].
      destruct (ba_isAlpha a), (ba_premult a); reflexivity.
    + cbn [obind]. rewrite G1, G2 by assumption. cbn [obind]. destruct (ba_isAlpha a), (ba_premult a); reflexivity.
  - rewrite (blendLoop_ok _ _ _ _ _ _ _ V); [eexists; split; [reflexivity|]; apply (M V); reflexivity|assumption..|].
    intros y x Hy Hx C. unfold V, blend_value. rewrite <- ?clamp01_unit. rewrite D. cbn [BLEND_ADD BLEND_MULT BLEND_MULADD Z.eqb Pos.eqb].
    destruct (ba_hasAlpha a) eqn:Eh.
    + destruct (Ha eq_refl ltac:(auto)) as [RA RN]. rewrite !G1, !G2 by assumption. reflexivity.
    + cbn [obind]. rewrite G1, G2 by assumption. reflexivity.
  - rewrite (blendLoop_ok _ _ _ _ _ _ _ V); [eexists; split; [reflexivity|]; apply (M V); reflexivity|assumption..|].
    intros y x Hy Hx C. rewrite G1, G2 by assumption. cbn [obind]. unfold V, blend_value. rewrite <- ?clamp01_unit. rewrite D. reflexivity.
Qed.
Print Assumptions C50_blend_partial.
(* replacing (and adding to an absent reference): the frame is copied.  The
   frame must touch the canvas. *)
Theorem C50_replace_partial : forall a refPresent ox oy fw fh iw ih FH FW canvas,
  ba_mode a = BLEND_REPLACE \/ ba_mode a = BLEND_ADD /\ refPresent = false ->
  blend_sizes ox oy fw fh (Z.of_nat iw) (Z.of_nat ih) -> good_origin ox oy -> rect ih iw canvas ->
  rect FH FW (ba_frame a) -> fh <= Z.of_nat FH -> fw <= Z.of_nat FW ->
  oy <= Z.of_nat ih -> ox <= Z.of_nat iw -> 0 <= oy + fh -> 0 <= ox + fw ->
  exists r, blendChannel a refPresent (blendRegion ox oy fw fh (Z.of_nat iw) (Z.of_nat ih)) canvas = Ok r /\ rect ih iw r /\
    forall y x, (y < ih)%nat -> (x < iw)%nat ->
      (covered oy ox fh fw y x -> px r y x = px (ba_frame a) (Z.to_nat (Z.of_nat y - oy)) (Z.to_nat (Z.of_nat x - ox))) /\
      (~ covered oy ox fh fw y x -> px r y x = px canvas y x).
Proof.
  intros a rp ox oy fw fh iw ih FH FW canvas Hm Hs Hg Hc Hf HFH HFW H1 H2 H3 H4.
  assert (E : blendChannel a rp (blendRegion ox oy fw fh (Z.of_nat iw) (Z.of_nat ih)) canvas =
              copyToCanvas (blendRegion ox oy fw fh (Z.of_nat iw) (Z.of_nat ih)) canvas (ba_frame a)).
  { unfold blendChannel. destruct Hm as [->|[-> ->]]; reflexivity. }
  rewrite E, (copyToCanvas_ok _ _ _ _ _ _ FH FW) by assumption. eexists. split; [reflexivity|]. split; [apply rect_mat|].
  intros y x Hy Hx. rewrite px_mat by assumption. pose proof (coveredb_spec oy ox fh fw y x) as Cs.
  destruct (coveredb oy ox fh fw y x); [|split; [intros C; apply Cs in C; discriminate|reflexivity]].
  split; [reflexivity|intros C; exfalso; apply C, Cs; reflexivity].
Qed.
Print Assumptions C50_replace_partial.
Definition ex_args (mode : Z) (f : list (list Z)) : BlendArgs := mkBA mode false false false false true (zeros2 3 3) f [] [].
Definition ex_frame : list (list Z) := [[1;2];[3;4]].
Example C50_ex : blend_sizes 2 1 2 2 3 3 /\ good_origin 2 1 /\
  blendChannel (ex_args BLEND_REPLACE ex_frame) true (blendRegion 2 1 2 2 3 3) (zeros2 3 3) = Ok [[0;0;0];[0;0;1];[0;0;3]] /\
  blendChannel (ex_args BLEND_ADD ex_frame) true (blendRegion (-1) (-1) 2 2 3 3) (zeros2 3 3) = Ok [[4;0;0];[0;0;0];[0;0;0]].
Proof. split; [unfold blend_sizes; lia|]. split; [unfold good_origin; lia|]. split; vm_compute; reflexivity. Qed.
(* a frame placed left of the canvas and below its top edge: panic, in every
   mode that reads or writes a pixel *)
Theorem C50_left_below_refuted :
  blendChannel (ex_args BLEND_REPLACE ex_frame) true (blendRegion (-1) 1 2 2 3 3) (zeros2 3 3) = Panic /\
  blendChannel (ex_args BLEND_ADD ex_frame) true (blendRegion (-1) 1 2 2 3 3) (zeros2 3 3) = Panic /\
  covered 1 (-1) 2 2 1 0.
Proof. split; [lazy; reflexivity|]. split; [lazy; reflexivity|]. unfold covered. lia. Qed.
Print Assumptions C50_left_below_refuted.
(* a frame that starts above the canvas but not left of it: panic *)
Theorem C50_above_refuted :
  blendChannel (ex_args BLEND_REPLACE ex_frame) true (blendRegion 0 (-1) 2 2 3 3) (zeros2 3 3) = Panic /\
  blendChannel (ex_args BLEND_ADD ex_frame) true (blendRegion 0 (-1) 2 2 3 3) (zeros2 3 3) = Panic /\
  covered (-1) 0 2 2 0 0.
Proof. split; [lazy; reflexivity|]. split; [lazy; reflexivity|]. unfold covered. lia. Qed.
Print Assumptions C50_above_refuted.
(* a replacing frame that does not touch the canvas: panic instead of no change *)
Theorem C50_outside_refuted :
  blendChannel (ex_args BLEND_REPLACE ex_frame) true (blendRegion 5 0 2 2 3 3) (zeros2 3 3) = Panic /\
  forall y x, (y < 3)%nat -> (x < 3)%nat -> ~ covered 0 5 2 2 y x.
Proof. split; [lazy; reflexivity|]. unfold covered. lia. Qed.
Print Assumptions C50_outside_refuted.
(* blending or multiplying onto a reference that was never saved: panic (the
   standard blends onto zeros) *)
Theorem C50_no_reference_refuted : forall a rg canvas, 2 <= ba_mode a <= 4 -> blendChannel a false rg canvas = Panic.
Proof.
  intros a rg canvas Hm. unfold blendChannel. assert (D : ba_mode a = 2 \/ ba_mode a = 3 \/ ba_mode a = 4) by lia.
  destruct D as [->|[->| ->]]; reflexivity.
Qed.
Print Assumptions C50_no_reference_refuted.

(* C61: samples of an integer modular frame of at most 24 bits *)
Theorem C61_lossless_samples_partial : forall h w m out, rect h w m -> rect h w out ->
  (forall y x, (y < h)%nat -> (x < w)%nat -> - 2 ^ 24 <= px m y x <= 2 ^ 24) ->
  modularToInt (Z.of_nat h) (Z.of_nat w) m out = Ok m.
Proof.
  intros h w m out Hm Ho Hr. unfold modularToInt. rewrite !Nat2Z.id.
  pose proof (loop2_map h w (fun y x => Ok (px m y x)) (px m) out Ho ltac:(reflexivity)) as L.
  rewrite mat_px in L by exact Hm. rewrite <- L. apply oloop_ext. intros y s Hy. apply oloop_ext. intros x s' Hx.
  rewrite (get_px h w) by (assumption || lia). cbn [obind]. specialize (Hr y x ltac:(lia) ltac:(lia)).
  rewrite f_mul_one by lia. rewrite f_to_i32_int by (change (2 ^ 24) with 16777216 in Hr; change (2 ^ 31) with 2147483648; lia). reflexivity.
Qed.
Print Assumptions C61_lossless_samples_partial.
Theorem C61_25_bits_refuted : exists v m, 0 <= v < 2 ^ 25 /\ modularToInt 1 1 [[v]] [[0]] = Ok m /\ m <> [[v]].
Proof. exists 16777217. eexists. split; [lia|]. split; [vm_compute; reflexivity|]. discriminate. Qed.
Print Assumptions C61_25_bits_refuted.
Example C61_ex : rect 1 3 [[-5;65535;16777216]] /\ modularToInt 1 3 [[-5;65535;16777216]] [[0;0;0]] = Ok [[-5;65535;16777216]].
Proof. split; [repeat split; repeat constructor|vm_compute; reflexivity]. Qed.

(* C62: float samples.  Small integers are converted by value... *)
Theorem C62_value_partial : forall h w m out, rect h w m -> rect h w out ->
  (forall y x, (y < h)%nat -> (x < w)%nat -> - 2 ^ 24 <= px m y x <= 2 ^ 24) ->
  modularToFloat (Z.of_nat h) (Z.of_nat w) m out = Ok (mat h w (fun y x => px m y x * F_ONE)).
Proof.
  intros h w m out Hm Ho Hr. unfold modularToFloat. rewrite !Nat2Z.id.
  pose proof (loop2_map h w (fun y x => Ok (px m y x * F_ONE)) (fun y x => px m y x * F_ONE) out Ho ltac:(reflexivity)) as L.
  rewrite <- L. apply oloop_ext. intros y s Hy. apply oloop_ext. intros x s' Hx.
  rewrite (get_px h w) by (assumption || lia). cbn [obind]. specialize (Hr y x ltac:(lia) ltac:(lia)).
  rewrite f_mul_one by lia. reflexivity.
Qed.
Print Assumptions C62_value_partial.
(* ...but a sample of a float image is the bit pattern of the number: 1.0 has
   the pattern 3F800000 and is decoded to 1065353216.0 *)
Theorem C62_float_bits_refuted : exists bits m, modularToFloat 1 1 [[bits]] [[0]] = Ok m /\ ieee_value bits = F_ONE /\ m = [[1065353216 * F_ONE]] /\ m <> [[ieee_value bits]].
Proof. exists 0x3F800000. eexists. split; [vm_compute; reflexivity|]. split; [reflexivity|]. split; [reflexivity|]. vm_compute. discriminate. Qed.
Print Assumptions C62_float_bits_refuted.
Example C62_ex : rect 1 1 [[7]] /\ modularToFloat 1 1 [[7]] [[0]] = Ok [[7 * F_ONE]].
Proof. split; [repeat split; repeat constructor|vm_compute; reflexivity]. Qed.

(* C48: float images.  The file is the header and the samples in PFM order;
   the header has the letter of the number of channels, width, height and a
   positive scale (big-endian). *)
Theorem C48_pfm_partial : forall h w C img,
  im_w img = Z.of_nat w -> im_h img = Z.of_nat h -> Z.of_nat h < 2 ^ 31 -> Z.of_nat w < 2 ^ 31 ->
  C = (if im_encoding img =? CE_GRAY then 1%nat else 3%nat) -> (C <= length (im_buffer img))%nat ->
  Forall (float_channel h w) (im_buffer img) ->
  (forall c y x, (c < C)%nat -> (y < h)%nat -> (x < w)%nat -> finite (sample (im_buffer img) ib_float c y x)) ->
  exists dw dh body, is_decimal (Z.of_nat w) dw /\ is_decimal (Z.of_nat h) dh /\
    WritePFM img = Ok ([80; if (C =? 1)%nat then 102 else 70; 10] ++ dw ++ [32] ++ dh ++ [10; 49; 46; 48; 10] ++ body) /\
    be_floats body = pfm_samples h w C (sample (im_buffer img) ib_float) /\ length body = (4 * (h * w * C))%nat.
Proof.
  intros h w C img Hw Hh Bh Bw HC HL Hb Hf. unfold WritePFM. rewrite pfmCheck_ok by (eapply Forall_impl; [|exact Hb]; intros ib (H & _); exact H).
  cbn [obind]. rewrite Hw, Hh.
  assert (E0 : i32 (u32 (Z.of_nat h - 1)) = Z.of_nat h - 1).
  { destruct h as [|h]; [reflexivity|]. rewrite u32_small by lia. apply i32_small. lia. }
  rewrite E0. rewrite (i32_small (Z.of_nat w)) by lia. replace (Z.to_nat (Z.of_nat h - 1 + 1)) with h by lia.
  replace (if im_encoding img =? CE_GRAY then 1%nat else 3%nat) with C by exact HC.
  rewrite (pfmRows_ok h w) by (assumption || lia). cbn [obind app].
  exists (sprintD (Z.of_nat w)), (sprintD (Z.of_nat h)), (flat_map (fun v => be32 (f_bits v)) (pfm_samples h w C (sample (im_buffer img) ib_float))).
  split; [apply sprintD_decimal; lia|]. split; [apply sprintD_decimal; lia|]. split.
  - replace (if (C =? 1)%nat then 102 else 70) with (if im_encoding img =? CE_GRAY then 102 else 70) by (rewrite HC; destruct (im_encoding img =? CE_GRAY); reflexivity).
    f_equal. repeat (rewrite <- app_assoc || cbn [app]). reflexivity.
  - assert (F : Forall finite (pfm_samples h w C (sample (im_buffer img) ib_float))).
    { apply Forall_forall. intros v Hv. unfold pfm_samples in Hv. apply in_flat_map in Hv as (i & Hi & Hv). apply in_flat_map in Hv as (x & Hx & Hv).
      apply in_map_iff in Hv as (c & <- & Hcc). apply in_seq in Hi, Hx, Hcc. apply Hf; lia. }
    split.
    + pose proof (be_floats_bytes _ F []) as Q. rewrite app_nil_r in Q. rewrite Q. cbn. apply app_nil_r.
    + assert (LF : forall l, length (flat_map (fun v => be32 (f_bits v)) l) = (4 * length l)%nat)
        by (induction l as [|a l IH]; cbn [flat_map]; [reflexivity|rewrite app_length, IH, be32_length; cbn [length]; lia]).
      rewrite LF. f_equal. unfold pfm_samples.
      assert (LG : forall (n k : nat) (f : nat -> list Z) s, (forall i, length (f i) = k) -> length (flat_map f (seq s n)) = (n * k)%nat).
      { induction n as [|n IH]; intros k f s Hfk; cbn [seq flat_map]; [reflexivity|]. rewrite app_length, Hfk, (IH k) by exact Hfk. lia. }
      rewrite (LG h (w * C)%nat); [lia|]. intros i. rewrite (LG w C); [lia|]. intros x. rewrite map_length, seq_length. reflexivity.
Qed.
Print Assumptions C48_pfm_partial.
(* an integer channel anywhere in the image: panic *)
Theorem C48_integer_image_refuted : forall img, Exists (fun ib => ib_type ib = TYPE_INT) (im_buffer img) -> WritePFM img = Panic.
Proof. intros img H. unfold WritePFM. rewrite pfmCheck_int by exact H. reflexivity. Qed.
Print Assumptions C48_integer_image_refuted.
Example C48_ex : WritePFM (set_buffer ex_image [mkIB 2 1 TYPE_FLOAT [[F_ONE; - F_HALF]] []]) =
  Ok [80;102;10; 50;32;49;10; 49;46;48;10; 63;128;0;0; 191;0;0;0] /\ finite F_ONE /\ finite (- F_HALF).
Proof.
  split; [vm_compute; reflexivity|]. split; (split; [|reflexivity]).
  - exists 1, 149. repeat split; lia.
  - exists (-1), 148. repeat split; lia.
Qed.

(* C47: whenever the writer succeeds the file is a sequence of correct chunks,
   provided that the compressed data is a list of bytes that fits in a chunk *)
Definition good_bytes (l : list Z) : Prop := Forall is_byte l /\ Z.of_nat (length l) < 2 ^ 32 - 100.
Definition colour_type (img : JXLImage) : Z :=
  if im_encoding img =? CE_GRAY then (if 0 <=? im_alphaIndex img then 4 else 0) else (if 0 <=? im_alphaIndex img then 6 else 2).
Definition ihdr_chunk (img : JXLImage) : Chunk :=
  mkCh [73; 72; 68; 82] (be32 (im_w img) ++ be32 (im_h img) ++ [pngBitDepth img; colour_type img; 0; 0; 0]).
(* the profile if there is one, or the rendering intent *)
Definition with_profile (writeICC : bool) (img : JXLImage) : bool := isHDR img || negb (length (im_icc img) =? 0)%nat || writeICC.
Definition colour_chunk (deflate1 : list Z -> list Z) (writeICC : bool) (img : JXLImage) : Chunk :=
  if with_profile writeICC img then mkCh [105; 67; 67; 80] ([106; 120; 108; 97; 116; 116; 101; 0; 0] ++ deflate1 (im_icc img))
  else mkCh [115; 82; 71; 66] [u8 (hd_intent (im_header img))].
Lemma u8_byte v : is_byte (u8 v).
Proof. unfold is_byte, u8. apply Z.mod_pos_bound. lia. Qed.
Ltac bytes := repeat (apply Forall_app; split); repeat (constructor; [unfold is_byte; lia|]); try constructor; try apply be32_bytes.
Lemma framed df1 wi img b0 data : good_bytes data -> (with_profile wi img = true -> good_bytes (df1 (im_icc img))) ->
  png_file crc32 [ihdr_chunk img; colour_chunk df1 wi img; mkCh [73; 68; 65; 84] data; mkCh [73; 69; 78; 68] []]
    ([137; 80; 78; 71; 13; 10; 26; 10] ++ writeIHDR (pngBitDepth img) (colour_type img) (set_buffer img b0) ++
     (if isHDR img || negb (length (im_icc img) =? 0)%nat || wi then writeICCP df1 (set_buffer img b0) else writeSRGB (isHDR img) (set_buffer img b0)) ++
     pngChunk ([73; 68; 65; 84] ++ data) ++ [0; 0; 0; 0] ++ [73; 69; 78; 68] ++ [174; 66; 96; 130]).
Proof.
  intros [B L] Hd1. unfold colour_chunk. fold (with_profile wi img).
  exists (writeIHDR (pngBitDepth img) (colour_type img) (set_buffer img b0) ++
     ((if with_profile wi img then writeICCP df1 (set_buffer img b0) else writeSRGB (isHDR img) (set_buffer img b0)) ++
     (pngChunk ([73; 68; 65; 84] ++ data) ++ (([0; 0; 0; 0] ++ [73; 69; 78; 68] ++ [174; 66; 96; 130]) ++ [])))).
  split; [|reflexivity].
  assert (Pd : pngBitDepth img = 8 \/ pngBitDepth img = 16) by (unfold pngBitDepth; destruct (isHDR img); [auto|destruct (_ <? _); auto]).
  constructor; [|constructor; [|constructor; [|constructor; [|constructor]]]].
  - unfold writeIHDR, ihdr_chunk. replace (u8 (pngBitDepth img)) with (pngBitDepth img) by (destruct Pd as [->| ->]; reflexivity).
    apply pngChunk_ok; [reflexivity| |].
    + apply Forall_app; split; [repeat constructor; unfold is_byte; lia|].
      apply Forall_app; split; [apply be32_bytes|]. apply Forall_app; split; [apply be32_bytes|].
      assert (B1 : is_byte (pngBitDepth img)) by (unfold is_byte; lia).
      assert (B2 : is_byte (colour_type img)) by (unfold is_byte, colour_type; destruct (im_encoding img =? CE_GRAY), (0 <=? im_alphaIndex img); lia).
      assert (B3 : is_byte 0) by (unfold is_byte; lia). repeat (constructor; [assumption|]). constructor.
    + rewrite !app_length, !be32_length. cbn. lia.
  - unfold with_profile in *. destruct (isHDR img || negb (length (im_icc img) =? 0)%nat || wi) eqn:Ec.
    + unfold writeICCP. change (im_icc (set_buffer img b0)) with (im_icc img). destruct (Hd1 eq_refl) as [B1 L1].
      apply (pngChunk_ok [105; 67; 67; 80] ([106; 120; 108; 97; 116; 116; 101; 0; 0] ++ df1 (im_icc img))); [reflexivity| |].
      * bytes. exact B1.
      * rewrite app_length. cbn [length]. lia.
    + unfold writeSRGB. destruct (isHDR img); [discriminate|]. change (im_header (set_buffer img b0)) with (im_header img).
      unfold chunk_bytes. cbn [ch_type ch_data]. exists (be32 1), (be32 (crc32 ([115; 82; 71; 66] ++ [u8 (hd_intent (im_header img))]))).
      split; [reflexivity|]. split; [reflexivity|]. split; [reflexivity|]. split.
      * apply be32_value, crc32_range. cbn [app]. do 4 (constructor; [unfold is_byte; lia|]). constructor; [apply u8_byte|constructor].
      * rewrite <- !app_assoc. reflexivity.
  - apply pngChunk_ok; [reflexivity| |lia]. bytes. exact B.
  - unfold chunk_bytes. cbn [ch_type ch_data]. exists [0; 0; 0; 0], [174; 66; 96; 130]. repeat split.
Qed.
Theorem C47_framing : forall deflate deflate1 writeICC img bytes, WritePNG deflate deflate1 writeICC img = Ok bytes ->
  exists raw b, pngRaw (set_buffer img b) = Ok raw /\
    (good_bytes (deflate raw) -> (with_profile writeICC img = true -> good_bytes (deflate1 (im_icc img))) ->
     png_file crc32 [ihdr_chunk img; colour_chunk deflate1 writeICC img; mkCh [73; 68; 65; 84] (deflate raw); mkCh [73; 69; 78; 68] []] bytes).
Proof.
  intros df df1 wi img bytes E. unfold WritePNG in E.
  destruct (pngPrepare (pngBitDepth img) img) as [img'| |] eqn:Ep; cbn [obind] in E; try discriminate.
  destruct (pngPrepare_same _ _ _ Ep) as [b0 ->].
  destruct (writeIDAT df (set_buffer img b0)) as [idat| |] eqn:Ei; cbn [obind] in E; try discriminate.
  destruct (writeIDAT_inv _ _ _ Ei) as (b & raw & Er & ->). injection E as <-.
  exists raw, b. split; [exact Er|]. intros G G1. exact (framed df1 wi img b0 (df raw) G G1).
Qed.
Print Assumptions C47_framing.
(* if moreover the depths of the written channels agree with the depth in the
   header, the amount of image data is what the header announces *)
Theorem C47_data_length_partial : forall img b raw, pngRaw (set_buffer img b) = Ok raw -> 0 <= im_w img -> 0 <= im_h img ->
  hd_colours (im_header img) = (if im_encoding img =? CE_GRAY then 1 else 3) ->
  (hd_hasAlpha (im_header img) = true <-> 0 <= im_alphaIndex img) ->
  depths_agree img (pngBitDepth img / 8) ->
  Z.of_nat (length raw) = png_announced (im_w img) (im_h img) (pngBitDepth img) (colour_type img).
Proof.
  intros img b raw E Hw Hh Hc Ha Hd.
  assert (Hc0 : 0 <= hd_colours (im_header img)) by (rewrite Hc; destruct (im_encoding img =? CE_GRAY); lia).
  rewrite (pngRaw_length (set_buffer img b) raw (pngBitDepth img / 8) Hw Hh Hc0 Hd E).
  change (im_header (set_buffer img b)) with (im_header img). change (im_w (set_buffer img b)) with (im_w img). change (im_h (set_buffer img b)) with (im_h img).
  unfold png_announced. f_equal. f_equal. rewrite Hc.
  assert (Pd : pngBitDepth img = 8 \/ pngBitDepth img = 16) by (unfold pngBitDepth; destruct (isHDR img); [auto|destruct (_ <? _); auto]).
  assert (S : png_samples (colour_type img) = (if im_encoding img =? CE_GRAY then 1 else 3) + (if hd_hasAlpha (im_header img) then 1 else 0)).
  { unfold colour_type. destruct (hd_hasAlpha (im_header img)).
    - assert (A : 0 <= im_alphaIndex img) by (apply Ha; reflexivity). destruct (0 <=? im_alphaIndex img) eqn:Ea; [|lia]. destruct (im_encoding img =? CE_GRAY); reflexivity.
    - destruct (0 <=? im_alphaIndex img) eqn:Ea; [assert (false = true) by (apply Ha; lia); discriminate|]. destruct (im_encoding img =? CE_GRAY); reflexivity. }
  rewrite S. set (s := _ + _). destruct Pd as [->| ->].
  - change (8 / 8) with 1. rewrite (Z.mul_assoc (im_w img)), Z.mul_1_r. apply (Z.div_unique _ _ _ 7); lia.
  - change (16 / 8) with 2. apply (Z.div_unique _ _ _ 7); lia.
Qed.
Print Assumptions C47_data_length_partial.
(* integer images of depth 8 or 16: the writer succeeds and the image data
   are the clamped samples *)
Theorem C47_image_data : forall deflate deflate1 writeICC img h w D,
  D = 8 \/ D = 16 -> im_w img = Z.of_nat w -> im_h img = Z.of_nat h ->
  hd_bits (im_header img) = D -> pngBitDepth img = D -> im_premult img = false ->
  Forall (int_channel h w) (im_buffer img) -> im_depths img = repeat D (length (im_buffer img)) ->
  hd_colours (im_header img) = 1 /\ hd_hasAlpha (im_header img) = false \/ hd_colours (im_header img) = 3 ->
  hd_colours (im_header img) + (if hd_hasAlpha (im_header img) then 1 else 0) <= Z.of_nat (length (im_buffer img)) ->
  let raw := png_rows h w (Z.to_nat (hd_colours (im_header img) + (if hd_hasAlpha (im_header img) then 1 else 0))) D
        (fun c y x => clamped (2 ^ D - 1) (sample (im_buffer img) ib_int c y x)) in
  exists bytes pre, WritePNG deflate deflate1 writeICC img = Ok bytes /\
    bytes = pre ++ pngChunk ([73; 68; 65; 84] ++ deflate raw) ++ [0; 0; 0; 0; 73; 69; 78; 68; 174; 66; 96; 130] /\
    (good_bytes (deflate raw) -> (with_profile writeICC img = true -> good_bytes (deflate1 (im_icc img))) ->
     png_file crc32 [ihdr_chunk img; colour_chunk deflate1 writeICC img; mkCh [73; 68; 65; 84] (deflate raw); mkCh [73; 69; 78; 68] []] bytes).
Proof.
  intros df df1 wi img h w D HD Hw Hh Hb Hp Hpm Hl Hd Hc Hn raw. unfold WritePNG. rewrite Hp.
  assert (Mx : depthMax D = 2 ^ D - 1) by (destruct HD as [->| ->]; reflexivity).
  set (bufs := map (clampIB h w (depthMax D)) (im_buffer img)).
  assert (Lb : length bufs = length (im_buffer img)) by apply map_length.
  assert (Hl2 : Forall (int_channel h w) bufs).
  { apply Forall_map. eapply Forall_impl; [|exact Hl]. intros ib H. apply clampIB_channel. exact H. }
  assert (Ep : pngPrepare D img = Ok (set_buffer img bufs)).
  { unfold pngPrepare. rewrite Hpm. change 0 with (Z.of_nat (length (@nil Z))). rewrite (needsCoerce_no h w) by (assumption || exact Hd). cbn [obind].
    rewrite (mapBuffers_clamp h w) by (assumption || exact Hd). reflexivity. }
  rewrite Ep. cbn [obind].
  set (bufs2 := map (clampIB h w (depthMax D)) bufs).
  assert (Lb2 : length bufs2 = length (im_buffer img)) by (unfold bufs2; rewrite map_length; exact Lb).
  assert (Hl3 : Forall (int_channel h w) bufs2).
  { apply Forall_map. eapply Forall_impl; [|exact Hl2]. intros ib H. apply clampIB_channel. exact H. }
  assert (BD : (if 8 <? hd_bits (im_header img) then 16 else 8) = D) by (rewrite Hb; destruct HD as [->| ->]; reflexivity).
  set (nch := Z.to_nat (hd_colours (im_header img) + (if hd_hasAlpha (im_header img) then 1 else 0))).
  assert (Ef : forall c y x, sample bufs2 ib_int c y x = if (c <? length (im_buffer img))%nat && (y <? h)%nat && (x <? w)%nat then clamped (2 ^ D - 1) (sample (im_buffer img) ib_int c y x) else 0).
  { intros c y x. unfold sample. rewrite <- Mx. assert (P0 : 0 <= depthMax D) by (destruct HD as [->| ->]; cbn; lia).
    destruct (c <? length (im_buffer img))%nat eqn:E1; cbn [andb].
    - rewrite (nth_indep bufs2 _ (clampIB h w (depthMax D) (mkIB 0 0 0 [] []))) by lia. unfold bufs2. rewrite map_nth.
      rewrite (nth_indep bufs _ (clampIB h w (depthMax D) (mkIB 0 0 0 [] []))) by lia. unfold bufs. rewrite map_nth.
      cbn [clampIB ib_int]. destruct (y <? h)%nat eqn:E2; cbn [andb].
      + destruct (x <? w)%nat eqn:E3.
        * rewrite !px_mat by lia. rewrite !clampv_clamped by exact P0. unfold clamped. lia.
        * unfold px at 1, mat at 1. rewrite nth_tab by lia. apply nth_overflow. rewrite tab_length. lia.
      + unfold px at 1, mat at 1. rewrite (nth_overflow (tab h _)) by (rewrite tab_length; lia). destruct x; reflexivity.
    - rewrite nth_overflow by lia. unfold px. destruct y, x; reflexivity. }
  assert (Er : pngRaw (set_buffer img bufs2) = Ok (png_rows h w nch D (sample bufs2 ib_int))).
  { apply pngRaw_ok; try assumption.
    - intros c y x Hcc. cbn [set_buffer im_buffer]. rewrite Ef, Mx. destruct (_ && _); [unfold clamped; destruct HD as [->| ->]; lia|destruct HD as [->| ->]; lia].
    - cbn [set_buffer im_buffer]. rewrite Lb2. unfold nch. lia.
    - cbn [set_buffer im_buffer im_depths]. rewrite Lb2. exact Hd.
    - cbn [set_buffer im_header]. unfold nch. rewrite Z2Nat.id; [reflexivity|]. destruct Hc as [[-> ->]| ->]; [lia|]. destruct (hd_hasAlpha _); lia.
    - cbn [set_buffer im_header]. intros Ha. destruct Hc as [[_ Hf]|Hc]; [congruence|exact Hc].
    - cbn [set_buffer im_header]. destruct Hc as [[-> _]| ->]; lia. }
  assert (Ei : writeIDAT df (set_buffer img bufs) = Ok (pngChunk ([73; 68; 65; 84] ++ df (png_rows h w nch D (sample bufs2 ib_int))))).
  { unfold writeIDAT. cbn [set_buffer im_header im_buffer im_depths]. rewrite BD.
    assert (N1 : 1 <= Z.of_nat (length bufs)) by (rewrite Lb; destruct Hc as [[E _]| E]; destruct (hd_hasAlpha _); lia).
    rewrite (castAt_int h w) by (assumption || lia). cbn [obind].
    destruct (1 <? Z.of_nat (length bufs)) eqn:E1; [rewrite (castAt_int h w) by (assumption || lia); cbn [obind]|cbn [obind]].
    all: destruct (2 <? Z.of_nat (length bufs)) eqn:E2; [rewrite (castAt_int h w) by (assumption || lia); cbn [obind]|cbn [obind]].
    all: assert (Ha : (if hd_hasAlpha (im_header img) then castAt (depthMax D) 3 bufs else Ok bufs) = Ok bufs)
           by (destruct (hd_hasAlpha (im_header img)) eqn:Ea; [apply (castAt_int h w); [exact Hl2|destruct Hc as [[_ Hf]|Hc]; [congruence|rewrite Lb; lia]]|reflexivity]).
    all: rewrite Ha; cbn [obind]; change 0 with (Z.of_nat (length (@nil Z))) at 1.
    all: rewrite (mapBuffers_clamp h w) by (assumption || (rewrite Lb; exact Hd)); cbn [obind]; fold bufs2.
    all: change (set_buffer (set_buffer img bufs) bufs2) with (set_buffer img bufs2); rewrite Er; reflexivity. }
  rewrite Ei. cbn [obind].
  assert (Rw : png_rows h w nch D (sample bufs2 ib_int) = png_rows h w nch D (fun c y x => clamped (2 ^ D - 1) (sample (im_buffer img) ib_int c y x))).
  { unfold png_rows. rewrite !flat_map_concat_map. f_equal. apply map_ext_in. intros y Hy. f_equal. rewrite !flat_map_concat_map. f_equal. apply map_ext_in. intros x Hx.
    rewrite !flat_map_concat_map. f_equal. apply map_ext_in. intros c Hcc. apply in_seq in Hy, Hx, Hcc. rewrite Ef.
    destruct (c <? length (im_buffer img))%nat eqn:E1; [|unfold nch in Hcc; lia]. destruct (y <? h)%nat eqn:E2; [|lia]. destruct (x <? w)%nat eqn:E3; [|lia]. reflexivity. }
  rewrite Rw. fold raw. eexists. eexists. split; [reflexivity|]. split.
  - match goal with |- ?a ++ ?b ++ ?c ++ ?d ++ ?e = _ => instantiate (1 := a ++ b ++ c) end.
    rewrite <- !app_assoc. reflexivity.
  - intros G G1. pose proof (framed df1 wi img bufs (df raw) G G1) as F. rewrite Hp in F. exact F.
Qed.
Print Assumptions C47_image_data.
Definition id_deflate (l : list Z) : list Z := l.
Example C47_ex : WritePNG id_deflate id_deflate false ex_image =
  Ok ([137;80;78;71;13;10;26;10] ++ pngChunk [73;72;68;82; 0;0;0;2; 0;0;0;1; 8;0;0;0;0]
      ++ pngChunk [115;82;71;66;1] ++ pngChunk [73;68;65;84; 0;5;255] ++ [0;0;0;0;73;69;78;68;174;66;96;130]).
Proof. vm_compute. reflexivity. Qed.
(* a gray image of depth 4: the header announces two bytes, three are written *)
Definition ex_depth4 : JXLImage :=
  mkJI [mkIB 1 1 TYPE_INT [] [[15]]] [] [4] 0 0 (mkHd 4 false 1 1 true true) 1 1 CE_GRAY (-1) 0 0 0 (13 + 2 ^ 24) false.
Theorem C47_low_depth_refuted : exists bytes, WritePNG id_deflate id_deflate false ex_depth4 = Ok bytes /\
  png_announced 1 1 (pngBitDepth ex_depth4) (colour_type ex_depth4) = 2 /\
  bytes = [137;80;78;71;13;10;26;10] ++ pngChunk [73;72;68;82; 0;0;0;1; 0;0;0;1; 8;0;0;0;0]
      ++ pngChunk [115;82;71;66;1] ++ pngChunk [73;68;65;84; 0; 0;255] ++ [0;0;0;0;73;69;78;68;174;66;96;130].
Proof. eexists. split; [vm_compute; reflexivity|]. split; vm_compute; reflexivity. Qed.
Print Assumptions C47_low_depth_refuted.
(* an 8-bit image with a wide gamut: announced as 16 bits, written as 8 (and
   half intensity is written as white) *)
Definition ex_hdr : JXLImage :=
  mkJI [mkIB 1 1 TYPE_FLOAT [[F_HALF]] []] [] [8] 0 0 (mkHd 8 false 1 1 false false) 1 1 CE_GRAY (-1) 0 0 0 (13 + 2 ^ 24) false.
Theorem C47_hdr_refuted : exists bytes raw, WritePNG id_deflate id_deflate false ex_hdr = Ok bytes /\
  png_announced 1 1 (pngBitDepth ex_hdr) (colour_type ex_hdr) = 3 /\ length raw = 2%nat /\
  exists pre, bytes = pre ++ pngChunk ([73;68;65;84] ++ raw) ++ [0;0;0;0;73;69;78;68;174;66;96;130].
Proof.
  eexists. exists [0; 255]. split; [vm_compute; reflexivity|]. split; [vm_compute; reflexivity|]. split; [reflexivity|].
  exists ([137;80;78;71;13;10;26;10] ++ pngChunk [73;72;68;82; 0;0;0;1; 0;0;0;1; 16;0;0;0;0] ++ pngChunk [105;67;67;80;106;120;108;97;116;116;101;0;0]). vm_compute. reflexivity.
Qed.
Print Assumptions C47_hdr_refuted.
(* gray with alpha: alpha is looked for in channel 3; panic *)
Definition ex_gray_alpha : JXLImage :=
  mkJI [mkIB 1 1 TYPE_INT [] [[15]]; mkIB 1 1 TYPE_INT [] [[255]]] [] [8;8] 0 0 (mkHd 8 true 1 1 true true) 1 1 CE_GRAY 0 0 0 0 (13 + 2 ^ 24) false.
Theorem C47_gray_alpha_refuted : WritePNG id_deflate id_deflate false ex_gray_alpha = Panic /\ colour_type ex_gray_alpha = 4.
Proof. split; vm_compute; reflexivity. Qed.
Print Assumptions C47_gray_alpha_refuted.
