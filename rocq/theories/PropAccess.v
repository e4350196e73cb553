(* C113: access to the channels of decoded images. *)
From Coq Require Import ZArith List Bool Lia Arith.
From Verif Require Import GoBase GoLoop GoMatrix ModelHeader ModelImage ModelWriters ModelToImage ModelAccess.
From Verif Require Import SpecImage SpecToImage SpecAccess ProofImage ProofWriters ProofToImage PropToImage.
Import ListNotations.
Open Scope Z_scope.

Lemma channel_in c img : (c < length (im_buffer img))%nat -> noChannel (Z.of_nat c) img = false /\ slice_get (im_buffer img) (Z.of_nat c) = Ok (nth c (im_buffer img) ib0).
Proof.
  intros H. split; [unfold noChannel; destruct (Z.ltb_spec (Z.of_nat c) 0); [lia|]; destruct (Z.geb_spec (Z.of_nat c) (Z.of_nat (length (im_buffer img)))); [lia|reflexivity]|].
  rewrite (slice_get_ok _ _ ib0) by lia. rewrite Nat2Z.id. reflexivity.
Qed.
Lemma put_nth {A} c (x : A) l : (c < length l)%nat -> length (firstn c l ++ x :: skipn (S c) l) = length l /\
  forall i d, nth i (firstn c l ++ x :: skipn (S c) l) d = if (i =? c)%nat then x else nth i l d.
Proof.
  intros H. split; [rewrite app_length, firstn_length; cbn [length]; rewrite skipn_length; lia|].
  intros i d. assert (LF : length (firstn c l) = c) by (rewrite firstn_length; lia). destruct (Nat.eqb_spec i c) as [->|N].
  - rewrite app_nth2 by lia. rewrite LF, Nat.sub_diag. reflexivity.
  - destruct (Nat.lt_ge_cases i c) as [L|L].
    + rewrite app_nth1 by lia. rewrite <- (firstn_skipn c l) at 2. rewrite app_nth1 by lia. reflexivity.
    + rewrite app_nth2 by lia. rewrite LF. destruct (i - c)%nat as [|k] eqn:E; [lia|]. cbn [nth].
      rewrite <- (firstn_skipn (S c) l) at 2. rewrite app_nth2 by (rewrite firstn_length; lia). rewrite firstn_length, Nat.min_l by lia. f_equal. lia.
Qed.
(* C113.  The data that was set is got back; nothing else changes. *)
Theorem C113_get_set : forall c data img, (c < length (im_buffer img))%nat ->
  (exists img', SetIntChannelData (Z.of_nat c) data img = Ok img' /\ GetIntChannelData (Z.of_nat c) img' = Ok data /\
    GetFloatChannelData (Z.of_nat c) img' = GetFloatChannelData (Z.of_nat c) img /\ agree_but c (im_buffer img) (im_buffer img') /\ img' = set_buffer img (im_buffer img')) /\
  (exists img', SetFloatChannelData (Z.of_nat c) data img = Ok img' /\ GetFloatChannelData (Z.of_nat c) img' = Ok data /\
    GetIntChannelData (Z.of_nat c) img' = GetIntChannelData (Z.of_nat c) img /\ agree_but c (im_buffer img) (im_buffer img') /\ img' = set_buffer img (im_buffer img')).
Proof.
  intros c data img H. destruct (channel_in c img H) as (N & G). unfold SetIntChannelData, SetFloatChannelData. rewrite N, G. cbn [obind].
  assert (P : forall ib, let img' := setChannel (Z.of_nat c) ib img in
    noChannel (Z.of_nat c) img' = false /\ slice_get (im_buffer img') (Z.of_nat c) = Ok ib /\ agree_but c (im_buffer img) (im_buffer img') /\ img' = set_buffer img (im_buffer img')).
  { intros ib img'. unfold img', setChannel. rewrite Nat2Z.id. destruct (put_nth c ib (im_buffer img) H) as (L & V). cbn [set_buffer im_buffer].
    destruct (channel_in c (set_buffer img (firstn c (im_buffer img) ++ ib :: skipn (S c) (im_buffer img)))) as (N' & G'); [cbn [set_buffer im_buffer]; lia|]. split; [exact N'|]. cbn [set_buffer im_buffer] in G'.
    split; [rewrite G', V, Nat.eqb_refl; reflexivity|]. split; [|reflexivity]. split; [lia|]. intros i d Hi. rewrite V. destruct (Nat.eqb_spec i c); [contradiction|reflexivity]. }
  split.
  - set (ib := mkIB _ _ _ _ _). exists (setChannel (Z.of_nat c) ib img). destruct (P ib) as (P1 & P2 & P3 & P4). unfold GetIntChannelData, GetFloatChannelData. rewrite P1, P2, N, G. repeat (split; [reflexivity|]). split; assumption.
  - set (ib := mkIB _ _ _ _ _). exists (setChannel (Z.of_nat c) ib img). destruct (P ib) as (P1 & P2 & P3 & P4). unfold GetIntChannelData, GetFloatChannelData. rewrite P1, P2, N, G. repeat (split; [reflexivity|]). split; assumption.
Qed.
Print Assumptions C113_get_set.
(* There are errors, no panics, for other indices. *)
Theorem C113_index : forall c data img ih, (c < 0 \/ Z.of_nat (length (im_buffer img)) <= c ->
    GetIntChannelData c img = Err /\ SetIntChannelData c data img = Err /\ GetFloatChannelData c img = Err /\ SetFloatChannelData c data img = Err) /\
  (forall e d, 0 <= c < NumExtraChannels ih -> nth (Z.to_nat c) (ih_extra ih) d = e -> GetExtraChannelType c ih = Ok (ec_type e)) /\ (c < 0 \/ NumExtraChannels ih <= c -> GetExtraChannelType c ih = Err).
Proof.
  intros c data img ih. unfold NumExtraChannels. split; [|split].
  - intros H. unfold GetIntChannelData, SetIntChannelData, GetFloatChannelData, SetFloatChannelData. assert (noChannel c img = true) as -> by (unfold noChannel; destruct (Z.ltb_spec c 0); [reflexivity|]; destruct (Z.geb_spec c (Z.of_nat (length (im_buffer img)))); [reflexivity|lia]). repeat split.
  - intros e d H E. unfold GetExtraChannelType. destruct (Z.ltb_spec c 0); [lia|]. destruct (Z.geb_spec c (Z.of_nat (length (ih_extra ih)))); [lia|]. cbn [orb]. rewrite (slice_get_ok _ _ d) by lia. rewrite E. reflexivity.
  - intros H. unfold GetExtraChannelType. destruct (Z.ltb_spec c 0); [reflexivity|]. destruct (Z.geb_spec c (Z.of_nat (length (ih_extra ih)))); [reflexivity|lia].
Qed.
Print Assumptions C113_index.

(* an image of 8-bit integer samples that is shown without a colour transform, C88 *)
Definition plain8 (h w : nat) (matches : bool) (img : JXLImage) : Prop :=
  in_target matches img /\ im_premult img = false /\ hd_bits (im_header img) <= 8 /\ hd_colours (im_header img) = 3 /\
  Forall (int_channel h w) (im_buffer img) /\ im_depths img = repeat 8 (length (im_buffer img)) /\ ((if hd_hasAlpha (im_header img) then 4 else 3) <= length (im_buffer img))%nat.
Lemma plain8_shown h w fl matches img : plain8 h w matches img -> exists pix img', ToImage fl matches img = Ok (NRGBA (Z.of_nat w) (Z.of_nat h) pix, img') /\
    holds 4 h w (fun k y x => if (k =? 3)%nat && negb (hd_hasAlpha (im_header img)) then 255 else clamped 255 (int_at (im_buffer img) k y x)) pix.
Proof. intros (H1 & H2 & H3 & H4 & H5 & H6 & H7). apply C88_rgb_partial; assumption. Qed.
Lemma plain8_set h w matches img c ib : plain8 h w matches img -> (c < length (im_buffer img))%nat -> int_channel h w ib -> plain8 h w matches (setChannel (Z.of_nat c) ib img).
Proof.
  intros (H1 & H2 & H3 & H4 & H5 & H6 & H7) Hc Hi. unfold plain8, setChannel. rewrite Nat2Z.id. destruct (put_nth c ib (im_buffer img) Hc) as (L & V). cbn [set_buffer im_premult im_header im_buffer im_depths]. rewrite L.
  repeat (split; [first [exact H1|assumption]|]). split; [|split; assumption]. rewrite Forall_forall in *. intros x Hx. apply in_app_or in Hx. destruct Hx as [Hx|[<-|Hx]]; [apply H5; rewrite <- (firstn_skipn c (im_buffer img)); apply in_or_app; left; exact Hx|exact Hi|apply H5; rewrite <- (firstn_skipn (S c) (im_buffer img)); apply in_or_app; right; exact Hx].
Qed.
(* Integer samples that are set are shown. *)
Theorem C113_shown_partial : forall h w fl matches img c data, plain8 h w matches img -> (c < length (im_buffer img))%nat -> rect h w data ->
  exists img' pix img2, SetIntChannelData (Z.of_nat c) data img = Ok img' /\ ToImage fl matches img' = Ok (NRGBA (Z.of_nat w) (Z.of_nat h) pix, img2) /\
    holds 4 h w (fun k y x => if (k =? 3)%nat && negb (hd_hasAlpha (im_header img)) then 255 else clamped 255 (if (k =? c)%nat then px data y x else int_at (im_buffer img) k y x)) pix.
Proof.
  intros h w fl matches img c data HP Hc HR. destruct (channel_in c img Hc) as (N & G). unfold SetIntChannelData. rewrite N, G. cbn [obind]. set (ib := mkIB _ _ _ _ _).
  assert (HI : int_channel h w (nth c (im_buffer img) ib0)) by (destruct HP as (_ & _ & _ & _ & H5 & _); rewrite Forall_forall in H5; apply H5, nth_In, Hc).
  destruct (plain8_shown h w fl matches (setChannel (Z.of_nat c) ib img)) as (pix & img2 & E & V).
  { apply plain8_set; [exact HP|exact Hc|]. destruct HI as (I1 & I2 & I3 & _). repeat split; try assumption; apply HR. }
  eexists. exists pix, img2. split; [reflexivity|]. split; [exact E|]. revert V. apply holds_ext. intros k y x Hk Hy Hx. cbn [setChannel set_buffer im_header im_buffer]. rewrite Nat2Z.id. unfold int_at.
  destruct (put_nth c ib (im_buffer img) Hc) as (_ & V). rewrite V. destruct (k =? c)%nat; reflexivity.
Qed.
Print Assumptions C113_shown_partial.
(* The same for gray images, which show their first channel. *)
Definition gray8 (h w : nat) (matches : bool) (img : JXLImage) : Prop :=
  in_target matches img /\ im_premult img = false /\ hd_bits (im_header img) <= 8 /\ hd_colours (im_header img) = 1 /\
  Forall (int_channel h w) (im_buffer img) /\ im_depths img = repeat 8 (length (im_buffer img)).
Theorem C113_gray_partial : forall h w fl matches img c data, gray8 h w matches img -> (c < length (im_buffer img))%nat -> rect h w data ->
  exists img' pix img2, SetIntChannelData (Z.of_nat c) data img = Ok img' /\ ToImage fl matches img' = Ok (Gray (Z.of_nat w) (Z.of_nat h) pix, img2) /\
    holds 1 h w (fun _ y x => clamped 255 (if (c =? 0)%nat then px data y x else int_at (im_buffer img) 0 y x)) pix.
Proof.
  intros h w fl matches img c data (H1 & H2 & H3 & H4 & H5 & H6) Hc HR. destruct (channel_in c img Hc) as (N & G). unfold SetIntChannelData. rewrite N, G. cbn [obind]. set (ib := mkIB _ _ _ _ _).
  assert (HI : int_channel h w (nth c (im_buffer img) ib0)) by (rewrite Forall_forall in H5; apply H5, nth_In, Hc).
  destruct (put_nth c ib (im_buffer img) Hc) as (L & V).
  assert (EB : im_buffer (setChannel (Z.of_nat c) ib img) = firstn c (im_buffer img) ++ ib :: skipn (S c) (im_buffer img)) by (unfold setChannel; rewrite Nat2Z.id; reflexivity).
  destruct (C88_gray_partial h w fl matches (setChannel (Z.of_nat c) ib img)) as (pix & img2 & E & VV).
  - exact H1.
  - exact H2.
  - exact H3.
  - exact H4.
  - rewrite EB. rewrite Forall_forall in *. intros x Hx. apply in_app_or in Hx. destruct Hx as [Hx|[<-|Hx]].
    + apply H5. rewrite <- (firstn_skipn c (im_buffer img)). apply in_or_app. left. exact Hx.
    + destruct HI as (I1 & I2 & I3 & _). repeat split; try assumption; apply HR.
    + apply H5. rewrite <- (firstn_skipn (S c) (im_buffer img)). apply in_or_app. right. exact Hx.
  - rewrite EB, L. exact H6.
  - rewrite EB. intros A. apply (f_equal (@length _)) in A. rewrite L in A. cbn in A. lia.
  - eexists. exists pix, img2. split; [reflexivity|]. split; [exact E|]. revert VV. apply holds_ext. intros k y x Hk Hy Hx. rewrite EB. unfold int_at. rewrite V.
    destruct (Nat.eqb_spec c 0) as [->|NE]; [reflexivity|]. destruct c; [lia|]. reflexivity.
Qed.
Print Assumptions C113_gray_partial.
(* Finding: float samples set on such an image are not shown; there is no error. *)
Lemma holds_unique n h w v p q : (1 <= n)%nat -> holds n h w v p -> holds n h w v q -> p = q.
Proof.
  intros Hn (L1 & V1) (L2 & V2). apply (nth_ext _ _ 0 0); [lia|]. intros i Hi. rewrite L1 in Hi.
  destruct w as [|w']; [lia|]. set (w := S w') in *. pose proof (Nat.div_mod i n ltac:(lia)) as D. pose proof (Nat.mod_upper_bound i n ltac:(lia)) as M. set (j := (i / n)%nat) in *.
  assert (J : (j < h * w)%nat) by nia. pose proof (Nat.div_mod j w ltac:(lia)) as D2. pose proof (Nat.mod_upper_bound j w ltac:(lia)) as M2.
  assert (Y : (j / w < h)%nat) by (apply Nat.div_lt_upper_bound; lia).
  specialize (V1 (j / w)%nat (j mod w)%nat (i mod n)%nat Y M2 M). specialize (V2 (j / w)%nat (j mod w)%nat (i mod n)%nat Y M2 M). unfold pix_byte in V1, V2.
  replace (n * (j / w * w + j mod w) + i mod n)%nat with i in V1, V2 by (rewrite (Nat.mul_comm (j / w) w), <- D2; exact D). congruence.
Qed.
Theorem C113_other_kind_refuted : forall h w fl matches img c data, plain8 h w matches img -> (c < length (im_buffer img))%nat ->
  exists img' pix img1 img2, SetFloatChannelData (Z.of_nat c) data img = Ok img' /\
    ToImage fl matches img = Ok (NRGBA (Z.of_nat w) (Z.of_nat h) pix, img1) /\ ToImage fl matches img' = Ok (NRGBA (Z.of_nat w) (Z.of_nat h) pix, img2).
Proof.
  intros h w fl matches img c data HP Hc. destruct (channel_in c img Hc) as (N & G). unfold SetFloatChannelData. rewrite N, G. cbn [obind]. set (ib := mkIB _ _ _ _ _).
  assert (HI : int_channel h w (nth c (im_buffer img) ib0)) by (destruct HP as (_ & _ & _ & _ & H5 & _); rewrite Forall_forall in H5; apply H5, nth_In, Hc).
  destruct (plain8_shown h w fl matches img HP) as (pix & img1 & E1 & V1).
  destruct (plain8_shown h w fl matches (setChannel (Z.of_nat c) ib img)) as (pix2 & img2 & E2 & V2); [apply plain8_set; [exact HP|exact Hc|]; exact HI|].
  eexists. exists pix, img1, img2. split; [reflexivity|]. split; [exact E1|]. rewrite E2. do 3 f_equal. symmetry. apply (holds_unique 4 h w _ _ _ ltac:(lia) V1). revert V2. apply holds_ext.
  intros k y x Hk Hy Hx. cbn [setChannel set_buffer im_header im_buffer]. rewrite Nat2Z.id. unfold int_at. destruct (put_nth c ib (im_buffer img) Hc) as (_ & V). rewrite V. destruct (Nat.eqb_spec k c) as [->|]; reflexivity.
Qed.
Print Assumptions C113_other_kind_refuted.
(* Finding: samples of another size are accepted, and showing the image panics then. *)
Theorem C113_size_refuted : exists img data img', (forall fl, exists r, ToImage fl true img = Ok r) /\ SetIntChannelData 0 data img = Ok img' /\ forall fl, ToImage fl true img' = Panic.
Proof.
  exists (ex_img TYPE_INT [1; 2; 3] [8; 8; 8] (ex_header 8 false 3) 0 (-1) TF_SRGB []), []. eexists. split; [intros fl; eexists; vm_compute; reflexivity|]. split; [reflexivity|]. intros fl. vm_compute. reflexivity.
Qed.
Print Assumptions C113_size_refuted.
(* Finding: the kind of an image without channels, such as every copy of an image, cannot
   be asked for. *)
Theorem C113_kind : forall img, (im_buffer img <> [] -> exists i f, IsIntBased img = Ok i /\ IsFloatBased img = Ok f /\ i = (ib_type (nth 0 (im_buffer img) ib0) =? TYPE_INT) /\ f = (ib_type (nth 0 (im_buffer img) ib0) =? TYPE_FLOAT)) /\
  (im_buffer img = [] -> IsIntBased img = Panic /\ IsFloatBased img = Panic).
Proof. intros img. unfold IsIntBased, IsFloatBased. destruct (im_buffer img) as [|ib l]; split; intros H; try congruence; [split; reflexivity|]. exists (IsInt ib), (IsFloat ib). repeat split. Qed.
Print Assumptions C113_kind.
Theorem C113_copy_refuted : forall img copyBuffer img', NewJXLImageFromJXLImage img copyBuffer = Ok img' -> IsIntBased img' = Panic /\ forall c, GetIntChannelData c img' = Err.
Proof.
  intros img b img' H. injection H as <-. split; [reflexivity|]. intros c. unfold GetIntChannelData, noChannel. cbn [im_buffer length]. destruct (Z.ltb_spec c 0); [reflexivity|]. destruct (Z.geb_spec c (Z.of_nat 0)); [reflexivity|lia].
Qed.
Print Assumptions C113_copy_refuted.

Example C113_example : let img := ex_img TYPE_INT [1; 2; 3] [8; 8; 8] (ex_header 8 false 3) 0 (-1) TF_SRGB [] in
  plain8 1 1 true img /\
  (exists img', SetIntChannelData 1 [[77]] img = Ok img' /\ GetIntChannelData 1 img' = Ok [[77]] /\ GetIntChannelData 2 img' = Ok [[3]]) /\ GetIntChannelData 3 img = Err /\ IsIntBased img = Ok true.
Proof.
  intros img. split.
  - split; [right; split; reflexivity|]. repeat (split; [reflexivity || (cbn; lia)|]). split; [repeat constructor|]. split; [reflexivity|cbn; lia].
  - split; [eexists; repeat split|split; reflexivity].
Qed.
Example C113_gray_example : let img := ex_img TYPE_INT [7; 100] [8; 8] (ex_header 8 true 1) CE_GRAY 0 TF_SRGB [] in
  gray8 1 1 true img /\
  exists img' img2, SetIntChannelData 0 [[300]] img = Ok img' /\ ToImage idTF true img' = Ok (Gray 1 1 [255], img2).
Proof.
  intros img. split.
  - split; [right; split; reflexivity|]. repeat (split; [reflexivity || (cbn; lia)|]). split; [repeat constructor|reflexivity].
  - eexists. eexists. split; [reflexivity|]. vm_compute. reflexivity.
Qed.
