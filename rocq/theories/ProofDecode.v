(* Lemmas about the frame loop. *)
From Coq Require Import ZArith List Bool Lia Arith ZifyBool ZifyNat.
From Verif Require Import GoBase GoLoop GoMatrix GoFloat32.
From Verif Require Import ModelBitReader ModelHeader ModelFrameHeader ModelImage ModelDecode SpecImage SpecDecode ProofCodes ProofImage PropImage.
Import ListNotations.
Open Scope Z_scope.

(* ---- lists ---- *)
Lemma list_set_length {A} (l : list A) n v : length (list_set l n v) = length l.
Proof. revert n. induction l as [|a l IH]; intros [|n]; cbn; try reflexivity. rewrite IH. reflexivity. Qed.
Lemma nth_list_set {A} (l : list A) n m v d : (n < length l)%nat -> nth m (list_set l n v) d = if (m =? n)%nat then v else nth m l d.
Proof.
  revert n m. induction l as [|a l IH]; intros [|n] [|m] H; cbn in *; try lia; try reflexivity.
  rewrite IH by lia. reflexivity.
Qed.
Lemma list_set_same {A} (l : list A) n d : (n < length l)%nat -> list_set l n (nth n l d) = l.
Proof. revert n. induction l as [|a l IH]; intros [|n] H; cbn in *; try lia; try reflexivity. rewrite IH by lia. reflexivity. Qed.
Lemma list_set_twice {A} (l : list A) n v w : list_set (list_set l n v) n w = list_set l n w.
Proof. revert n. induction l as [|a l IH]; intros [|n]; cbn; try reflexivity. rewrite IH. reflexivity. Qed.
Lemma nth_ext_all {A} (l k : list A) d : length l = length k -> (forall i, (i < length l)%nat -> nth i l d = nth i k d) -> l = k.
Proof. intros. apply (nth_ext l k d d); assumption. Qed.

Lemma rd_wr mem i j v : (i < length mem)%nat -> rd (wr mem i v) j = if (j =? i)%nat then v else rd mem j.
Proof. intros. unfold rd, wr. apply nth_list_set. assumption. Qed.
Lemma wr_length mem i v : length (wr mem i v) = length mem.
Proof. apply list_set_length. Qed.
Lemma wr_rd mem i : (i < length mem)%nat -> wr mem i (rd mem i) = mem.
Proof. intros. unfold wr, rd. apply list_set_same. assumption. Qed.
Lemma wr_wr mem i v w : wr (wr mem i v) i w = wr mem i w.
Proof. apply list_set_twice. Qed.
Lemma rd_alloc_new mem v : rd (alloc mem v) (length mem) = v.
Proof. unfold rd, alloc. rewrite app_nth2, Nat.sub_diag by lia. reflexivity. Qed.
Lemma rd_alloc_old mem v i : (i < length mem)%nat -> rd (alloc mem v) i = rd mem i.
Proof. intros. unfold rd, alloc. rewrite app_nth1 by assumption. reflexivity. Qed.
Lemma alloc_length mem v : length (alloc mem v) = S (length mem).
Proof. unfold alloc. rewrite app_length. cbn. lia. Qed.

(* ---- buffers of one type ---- *)
Definition chan (int : bool) (h w : nat) (ib : ImageBuffer) : Prop := if int then int_channel h w ib else float_channel h w ib.
Definition samples (int : bool) (ib : ImageBuffer) : list (list Z) := if int then ib_int ib else ib_float ib.
Definition upd_ib (int : bool) (ib : ImageBuffer) (m : list (list Z)) : ImageBuffer :=
  if int then mkIB (ib_w ib) (ib_h ib) (ib_type ib) (ib_float ib) m else mkIB (ib_w ib) (ib_h ib) (ib_type ib) m (ib_int ib).
Definition tyOf (int : bool) : Z := if int then TYPE_INT else TYPE_FLOAT.
Lemma chan_type int h w ib : chan int h w ib -> ib_type ib = tyOf int.
Proof. destruct int; intros H; apply H. Qed.
Lemma chan_size int h w ib : chan int h w ib -> ib_h ib = Z.of_nat h /\ ib_w ib = Z.of_nat w.
Proof. destruct int; intros (H & H1 & H2 & H3); split; assumption. Qed.
Lemma chan_rect int h w ib : chan int h w ib -> rect h w (samples int ib).
Proof. destruct int; intros H; apply H. Qed.
Lemma chan_upd int h w ib m : chan int h w ib -> rect h w m -> chan int h w (upd_ib int ib m).
Proof. destruct int; intros (H1 & H2 & H3 & H4) H; repeat split; cbn; try assumption; apply H. Qed.
Lemma samples_upd int ib m : samples int (upd_ib int ib m) = m.
Proof. destruct int; reflexivity. Qed.
Lemma cast_float_id ib mx : ib_type ib = TYPE_FLOAT -> CastToFloatIfMax ib mx = Ok ib.
Proof. intros H. unfold CastToFloatIfMax, IsFloat. rewrite H. reflexivity. Qed.

Lemma listEq_refl {A} (eq : A -> A -> bool) l : (forall x, In x l -> eq x x = true) -> listEq eq l l = true.
Proof. induction l as [|a l IH]; intros H; cbn; [reflexivity|]. rewrite H by (left; reflexivity). cbn. apply IH. intros x Hx. apply H. right. exact Hx. Qed.
Lemma compare_refl m : CompareMatrix2D m m = true.
Proof. unfold CompareMatrix2D. apply listEq_refl. intros r _. apply listEq_refl. intros x _. apply Z.eqb_refl. Qed.
Lemma slice_equals_refl int h w l : Forall (chan int h w) l -> ImageBufferSliceEquals l l = true.
Proof.
  intros H. apply listEq_refl. intros ib Hi. rewrite Forall_forall in H. apply H, chan_type in Hi.
  unfold Equals. rewrite !Z.eqb_refl, Hi. cbn. destruct int; cbn; apply compare_refl.
Qed.

(* ---- colours ---- *)
Lemma ihColours_spec ih : ihColours ih = Z.of_nat (image_colours ih).
Proof. unfold ihColours, image_colours, ModelHeader.CE_GRAY. destruct (_ =? 1); reflexivity. Qed.
Lemma frColours_spec ih fh : frColours ih fh = Z.of_nat (frame_colours ih fh).
Proof. unfold frColours, frame_colours, VARDCT. rewrite ihColours_spec. destruct (ih_xyb ih), (fh_enc fh =? 0); reflexivity. Qed.
Lemma hasAlpha_spec ih : ihHasAlpha ih = has_alpha ih.
Proof. unfold ihHasAlpha, has_alpha. destruct (ih_alpha ih); reflexivity. Qed.
Lemma colours_cases ih fh : (image_colours ih = 1 \/ image_colours ih = 3)%nat /\ (frame_colours ih fh = image_colours ih \/ frame_colours ih fh = 3%nat).
Proof. unfold frame_colours, image_colours. destruct (_ =? 1), (ih_xyb ih), (fh_enc fh =? 0); lia. Qed.
Lemma frameChannel_spec ih fh c : (c < channel_count ih)%nat ->
  frameChannel (ihColours ih) (frColours ih fh) (Z.of_nat c) = Z.of_nat (source_channel ih fh c) /\
  (source_channel ih fh c < frame_colours ih fh + length (ih_extra ih))%nat.
Proof.
  intros Hc. unfold frameChannel, source_channel, channel_count in *. rewrite ihColours_spec, frColours_spec.
  pose proof (colours_cases ih fh) as (C1 & C2).
  destruct (Nat.eqb_spec (frame_colours ih fh) (image_colours ih)) as [E|E]; destruct (Nat.ltb_spec c (image_colours ih)).
  - replace (Z.of_nat (frame_colours ih fh) =? Z.of_nat (image_colours ih)) with true by lia. cbn [negb]. lia.
  - replace (Z.of_nat (frame_colours ih fh) =? Z.of_nat (image_colours ih)) with true by lia. cbn [negb]. lia.
  - replace (Z.of_nat (frame_colours ih fh) =? Z.of_nat (image_colours ih)) with false by lia. cbn [negb].
    replace (Z.of_nat c =? 0) with true by lia. lia.
  - replace (Z.of_nat (frame_colours ih fh) =? Z.of_nat (image_colours ih)) with false by lia. cbn [negb].
    replace (Z.of_nat c =? 0) with false by lia. lia.
Qed.
Lemma colour_iff ih fh c : (c < channel_count ih)%nat -> (source_channel ih fh c < frame_colours ih fh)%nat <-> (c < image_colours ih)%nat.
Proof.
  intros Hc. unfold source_channel. pose proof (colours_cases ih fh) as (C1 & C2).
  destruct (Nat.ltb_spec c (image_colours ih)); destruct (Nat.eqb_spec (frame_colours ih fh) (image_colours ih)); lia.
Qed.
Lemma ec_source ih fh c : (image_colours ih <= c)%nat -> (source_channel ih fh c - frame_colours ih fh = c - image_colours ih)%nat /\ (frame_colours ih fh <= source_channel ih fh c)%nat.
Proof. intros H. unfold source_channel. destruct (Nat.ltb_spec c (image_colours ih)); lia. Qed.

(* ---- sample values ---- *)
Lemma wrap32_i32 v : wrap32 v = i32 v.
Proof. reflexivity. Qed.
Lemma limited_clamp01 c v : clamp01 c v = limited c v.
Proof.
  unfold clamp01, limited. destruct c; [|reflexivity]. assert (0 < F_ONE) by reflexivity.
  destruct (Z.ltb_spec v 0); [lia|]. destruct (Z.ltb_spec F_ONE v); lia.
Qed.

(* ---- one channel ---- *)
Definition layer (int : bool) (b : list ImageBuffer) : Layer := fun c y x => px (samples int (nth c b ZERO_IB)) y x.
(* what the headers must satisfy for a frame with buffers of FH rows and FW
   columns and an image of H rows and W columns *)
Record fits (int : bool) (ih : ImageHeader) (fh : FrameHeader) (H W FH FW : nat) : Prop := mkFits {
  ft_w : dim_w (ih_size ih) = Z.of_nat W; ft_h : dim_h (ih_size ih) = Z.of_nat H; ft_W : (1 <= W)%nat; ft_H : (1 <= H)%nat;
  ft_up : 1 <= fh_up fh <= 8; ft_bw : 0 <= fh_bw fh; ft_bh : 0 <= fh_bh fh;
  ft_sizes : blend_sizes (fh_ox fh) (fh_oy fh) (fh_bw fh * fh_up fh) (fh_bh fh * fh_up fh) (Z.of_nat W) (Z.of_nat H);
  ft_origin : good_origin (fh_ox fh) (fh_oy fh);
  ft_scaled : fh_up fh = 1 \/ fh_ox fh = 0 /\ fh_oy fh = 0;
  ft_touch : fh_oy fh <= Z.of_nat H /\ fh_ox fh <= Z.of_nat W /\ 0 <= fh_oy fh + fh_bh fh * fh_up fh /\ 0 <= fh_ox fh + fh_bw fh * fh_up fh;
  ft_buf : fh_bh fh * fh_up fh <= Z.of_nat FH /\ fh_bw fh * fh_up fh <= Z.of_nat FW;
  ft_ec : length (fh_ecblend fh) = length (ih_extra ih);
  ft_blend : forall c, (c < channel_count ih)%nat -> let b := blending_of ih fh c in
    0 <= bl_mode b <= 4 /\ (int = true -> bl_mode b <= 1) /\ 0 <= bl_source b < 4 /\ (has_alpha ih = true -> 0 <= bl_alpha b < Z.of_nat (length (ih_extra ih))) }.

Lemma region_spec int ih fh H W FH FW : fits int ih fh H W FH FW ->
  frameRegion ih fh = blendRegion (fh_ox fh) (fh_oy fh) (fh_bw fh * fh_up fh) (fh_bh fh * fh_up fh) (Z.of_nat W) (Z.of_nat H).
Proof.
  intros F. destruct F as [Ew Eh H1 H2 Hu Hbw Hbh (S1 & S2 & S3 & S4 & S5 & S6) _ Hs _ _ _ _]. unfold frameRegion, upBounds. rewrite Ew, Eh.
  change (2 ^ 30) with 1073741824 in *. rewrite (i32_small (fh_up fh)) by lia.
  assert (E : fh_ox fh * fh_up fh = fh_ox fh /\ fh_oy fh * fh_up fh = fh_oy fh) by (destruct Hs as [->|[-> ->]]; lia).
  destruct E as [-> ->]. rewrite !i32_small by lia.
  assert (U : forall v, 0 <= v < 1073741824 -> u32 v = v) by (intros; apply Z.mod_small; lia).
  rewrite !U by lia. reflexivity.
Qed.
Lemma int_or_float int ib : ib_type ib = tyOf int -> IsInt ib = int /\ IsFloat ib = negb int.
Proof. intros H. unfold IsInt, IsFloat. rewrite H. destruct int; split; reflexivity. Qed.
Lemma chan_nth int h w l i : Forall (chan int h w) l -> (i < length l)%nat -> chan int h w (nth i l ZERO_IB).
Proof. intros H Hi. rewrite Forall_forall in H. apply H, nth_In, Hi. Qed.
Lemma slice_nth (l : list ImageBuffer) i : (i < length l)%nat -> slice_get l (Z.of_nat i) = Ok (nth i l ZERO_IB).
Proof. intros H. rewrite (slice_get_ok l _ ZERO_IB) by lia. rewrite Nat2Z.id. reflexivity. Qed.
Lemma upd_same int ib : upd_ib int ib (samples int ib) = ib.
Proof. destruct ib, int; reflexivity. Qed.
(* the matrix of one channel after drawing *)
Lemma drawn_mat int ih fh frame saved canvas c H W m : rect H W m ->
  (forall y x, (y < H)%nat -> (x < W)%nat -> px m y x = drawn int ih fh frame saved canvas c y x) ->
  m = mat H W (drawn int ih fh frame saved canvas c).
Proof.
  intros R E. apply (rect_ext H W); [exact R|apply rect_mat|]. intros y x Hy Hx. rewrite px_mat by assumption. apply E; assumption.
Qed.

(* what is known about the saved frame named by channel c *)
Definition ref_for (int : bool) (ih : ImageHeader) (fh : FrameHeader) (H W : nat) (mem : Mem) (refs : list (option nat)) (saved : nat -> option Layer) (c : nat) : Prop :=
  let b := blending_of ih fh c in
  match nth (Z.to_nat (bl_source b)) refs None with
  | Some rid => (rid < length mem)%nat /\ length (rd mem rid) = channel_count ih /\ Forall (chan int H W) (rd mem rid) /\
      exists L, saved (Z.to_nat (bl_source b)) = Some L /\ forall y x, (y < H)%nat -> (x < W)%nat ->
        L c y x = layer int (rd mem rid) c y x /\
        (has_alpha ih = true -> bl_mode b = 2 \/ bl_mode b = 3 ->
         L (image_colours ih + Z.to_nat (bl_alpha b))%nat y x = layer int (rd mem rid) (image_colours ih + Z.to_nat (bl_alpha b))%nat y x)
  | None => bl_mode b <= 1 /\ saved (Z.to_nat (bl_source b)) = None
  end.
Lemma blendOne_ok int ih fh refs cid fid c mem H W FH FW saved :
  fits int ih fh H W FH FW -> (cid < length mem)%nat -> (fid < length mem)%nat ->
  length (rd mem cid) = channel_count ih -> Forall (chan int H W) (rd mem cid) ->
  length (rd mem fid) = (frame_colours ih fh + length (ih_extra ih))%nat -> Forall (chan int FH FW) (rd mem fid) ->
  length refs = 4%nat -> (c < channel_count ih)%nat -> ref_for int ih fh H W mem refs saved c ->
  blendOne ih fh (frameRegion ih fh) refs cid fid (Z.of_nat c) mem =
    Ok (wr mem cid (list_set (rd mem cid) c (upd_ib int (nth c (rd mem cid) ZERO_IB)
          (mat H W (drawn int ih fh (layer int (rd mem fid)) saved (layer int (rd mem cid)) c))))).
Proof.
  intros F Hcid Hfid Lc Cc Lf Cf Lr Hc HR. pose proof (frameChannel_spec ih fh c Hc) as [EC BC].
  pose proof (colour_iff ih fh c Hc) as CI. rewrite (region_spec _ _ _ _ _ _ _ F).
  destruct (ft_blend _ _ _ _ _ _ _ F c Hc) as (Hm & Hi & Hsrc & Hal).
  unfold blendOne. rewrite EC. rewrite (slice_nth (rd mem fid)) by lia. cbn [obind].
  set (fb := nth (source_channel ih fh c) (rd mem fid) ZERO_IB). assert (Kf : chan int FH FW fb) by (apply chan_nth; [assumption|lia]).
  assert (EI : (if Z.of_nat (source_channel ih fh c) <? frColours ih fh then Ok (fh_blend fh) else slice_get (fh_ecblend fh) (Z.of_nat (source_channel ih fh c) - frColours ih fh)) = Ok (blending_of ih fh c)).
  { rewrite frColours_spec. unfold blending_of. destruct (Nat.ltb_spec c (image_colours ih)).
    - replace (_ <? _) with true by lia. reflexivity.
    - pose proof (ec_source ih fh c ltac:(lia)) as (E1 & E2). replace (_ <? _) with false by lia.
      rewrite (slice_get_ok _ _ (mkBl 0 0 false 0)) by (rewrite (ft_ec _ _ _ _ _ _ _ F); unfold channel_count in Hc; lia).
      f_equal. f_equal. lia. }
  rewrite EI. cbn [obind]. clear EI. set (b := blending_of ih fh c) in *.
  assert (EA : (if ihColours ih <=? Z.of_nat c then obind (slice_get (ih_extra ih) (Z.of_nat c - ihColours ih)) (fun e => Ok (ec_type e =? ALPHA)) else Ok false) = Ok (is_alpha ih c)).
  { rewrite ihColours_spec. unfold is_alpha. destruct (Nat.ltb_spec c (image_colours ih)).
    - replace (_ <=? _) with false by lia. reflexivity.
    - replace (_ <=? _) with true by lia. unfold channel_count in Hc. rewrite <- Nat2Z.inj_sub by lia.
      destruct (nth_error (ih_extra ih) (c - image_colours ih)) as [e|] eqn:En.
      + rewrite (slice_get_ok _ _ e) by lia. rewrite Nat2Z.id. cbn [obind]. rewrite (nth_error_nth _ _ _ En). reflexivity.
      + apply nth_error_None in En. lia. }
  rewrite EA. cbn [obind]. clear EA.
  assert (EP : exists pm, (if ihHasAlpha ih then obind (slice_get (ih_extra ih) (bl_alpha b)) (fun e => Ok (ec_assoc e)) else Ok false) = Ok pm /\ (has_alpha ih = true -> pm = alpha_premultiplied ih b)).
  { rewrite hasAlpha_spec. unfold alpha_premultiplied. destruct (has_alpha ih); [|exists false; split; [reflexivity|discriminate]].
    specialize (Hal eq_refl). destruct (nth_error (ih_extra ih) (Z.to_nat (bl_alpha b))) as [e|] eqn:En; [|apply nth_error_None in En; lia].
    rewrite (slice_get_ok _ _ e) by lia. rewrite (nth_error_nth _ _ _ En). exists (ec_assoc e). split; reflexivity. }
  destruct EP as (pm & EP & HP). rewrite EP. cbn [obind]. clear EP.
  rewrite (slice_get_ok refs _ None) by lia. cbn [obind].
  rewrite (slice_nth (rd mem cid)) by lia. cbn [obind]. set (cv := nth c (rd mem cid) ZERO_IB).
  assert (Kc : chan int H W cv) by (apply chan_nth; [assumption|lia]).
  pose proof (chan_type _ _ _ _ Kc) as Tc. pose proof (chan_type _ _ _ _ Kf) as Tf. pose proof (chan_rect _ _ _ _ Kc) as Rc. pose proof (chan_rect _ _ _ _ Kf) as Rf.
  unfold convertCanvas. rewrite Tc, Tf, Z.eqb_refl. cbn [negb obind fst snd].
  assert (SC : forall m v, (c < length (rd m cid))%nat -> setCanvas m cid (Z.of_nat c) v = Ok (wr m cid (list_set (rd m cid) c v))).
  { intros m v Hl. unfold setCanvas. rewrite slice_set_ok by lia. rewrite Nat2Z.id. reflexivity. }
  assert (Scv : list_set (rd mem cid) c cv = rd mem cid) by (apply list_set_same; lia).
  rewrite SC by lia. cbn [obind]. rewrite Scv, wr_rd by exact Hcid. clear EC.
  destruct (ft_touch _ _ _ _ _ _ _ F) as (T1 & T2 & T3 & T4). destruct (ft_buf _ _ _ _ _ _ _ F) as (B1 & B2).
  pose proof (ft_sizes _ _ _ _ _ _ _ F) as FS. pose proof (ft_origin _ _ _ _ _ _ _ F) as FO.
  destruct (int_or_float int cv Tc) as [IC FC]. destruct (int_or_float int fb Tf) as [IF FF].
  unfold ref_for in HR. fold b in HR.
  destruct ((bl_mode b =? BLEND_REPLACE) || match nth (Z.to_nat (bl_source b)) refs None with None => true | _ => false end && (bl_mode b =? BLEND_ADD)) eqn:EM.
  - (* the frame is copied *)
    assert (D : forall y x, drawn int ih fh (layer int (rd mem fid)) saved (layer int (rd mem cid)) c y x =
               if coveredb (fh_oy fh) (fh_ox fh) (fh_bh fh * fh_up fh) (fh_bw fh * fh_up fh) y x
               then px (samples int fb) (Z.to_nat (Z.of_nat y - fh_oy fh)) (Z.to_nat (Z.of_nat x - fh_ox fh)) else px (samples int cv) y x).
    { intros y x. unfold drawn. fold b. destruct (coveredb _ _ _ _ y x); [|reflexivity].
      destruct (nth (Z.to_nat (bl_source b)) refs None) as [rid|].
      - destruct HR as (_ & _ & _ & L & -> & _). unfold BLEND_REPLACE in EM. cbn [andb] in EM. rewrite orb_false_r in EM. rewrite EM. reflexivity.
      - destruct HR as (_ & ->). reflexivity. }
    assert (CP : copyToCanvas (blendRegion (fh_ox fh) (fh_oy fh) (fh_bw fh * fh_up fh) (fh_bh fh * fh_up fh) (Z.of_nat W) (Z.of_nat H)) (samples int cv) (samples int fb) =
                 Ok (mat H W (drawn int ih fh (layer int (rd mem fid)) saved (layer int (rd mem cid)) c))).
    { rewrite (copyToCanvas_ok _ _ _ _ _ _ FH FW) by assumption. f_equal. apply drawn_mat; [apply rect_mat|].
      intros y x Hy Hx. rewrite px_mat by assumption. symmetry. apply D. }
    rewrite IC. destruct int; cbn [samples] in CP; rewrite CP; cbn [obind]; rewrite SC by lia; unfold upd_ib; fold cv; rewrite Tc, ?Tf; reflexivity.
  - (* the frame is blended *)
    apply orb_false_iff in EM. destruct EM as [EM1 EM2]. unfold BLEND_REPLACE in EM1.
    destruct (nth (Z.to_nat (bl_source b)) refs None) as [rid|]; [|exfalso; unfold BLEND_ADD in EM2; cbn [andb] in EM2; destruct HR as (Hle & _); lia].
    destruct HR as (Hrid & Lrd & Cr & L & EL & HL). clear EM2.
    rewrite (slice_nth (rd mem rid)) by lia. cbn [obind]. set (rb := nth c (rd mem rid) ZERO_IB).
    assert (Kr : chan int H W rb) by (apply chan_nth; [assumption|lia]).
    pose proof (chan_type _ _ _ _ Kr) as Tr. pose proof (chan_rect _ _ _ _ Kr) as Rr. pose proof (chan_size _ _ _ _ Kr) as (Zh & Zw).
    pose proof (ft_W _ _ _ _ _ _ _ F) as W1. pose proof (ft_H _ _ _ _ _ _ _ F) as H1.
    replace ((ib_w rb =? 0) && (ib_h rb =? 0)) with false by lia. cbn [obind].
    rewrite slice_set_ok by lia. rewrite Nat2Z.id. cbn [obind]. assert (Srb : list_set (rd mem rid) c rb = rd mem rid) by (apply list_set_same; lia). rewrite Srb, wr_rd by exact Hrid.
    set (ai := (image_colours ih + Z.to_nat (bl_alpha b))%nat).
    assert (BA : blendAlpha ih b (ihColours ih) (ib_w cv) (ib_h cv) rid fid mem = Ok mem).
    { unfold blendAlpha. rewrite hasAlpha_spec. destruct (has_alpha ih) eqn:Ha; [|reflexivity]. cbn [andb]. specialize (Hal eq_refl).
      destruct ((bl_mode b =? BLEND_BLEND) || (bl_mode b =? BLEND_MULADD)) eqn:Em; [|reflexivity].
      unfold BLEND_BLEND, BLEND_MULADD in Em. destruct int; [exfalso; specialize (Hi eq_refl); lia|].
      destruct (nth_error (ih_extra ih) (Z.to_nat (bl_alpha b))) as [e|] eqn:En; [|apply nth_error_None in En; lia].
      rewrite (slice_get_ok _ _ e) by lia. cbn [obind]. rewrite ihColours_spec.
      replace (Z.of_nat (image_colours ih) + bl_alpha b) with (Z.of_nat ai) by (unfold ai; lia).
      assert (Bai : (ai < channel_count ih)%nat) by (unfold ai, channel_count; lia).
      rewrite (slice_nth (rd mem rid)) by lia. cbn [obind]. pose proof (chan_nth _ _ _ _ ai Cr ltac:(lia)) as Ka.
      pose proof (chan_size _ _ _ _ Ka) as (Y1 & Y2). replace ((ib_w _ =? 0) && _) with false by lia. cbn [obind].
      destruct (int_or_float false _ (chan_type _ _ _ _ Ka)) as [_ ->]. cbn [negb obind].
      rewrite slice_set_ok by lia. rewrite Nat2Z.id. cbn [obind]. rewrite list_set_same by lia. rewrite wr_rd by exact Hrid.
      pose proof (colours_cases ih fh) as (C1 & C2). assert (Bf : (ai < length (rd mem fid))%nat) by (unfold ai; lia).
      rewrite (slice_nth (rd mem fid)) by lia. cbn [obind]. pose proof (chan_nth _ _ _ _ ai Cf Bf) as Kb.
      destruct (int_or_float false _ (chan_type _ _ _ _ Kb)) as [_ ->]. cbn [negb obind].
      rewrite slice_set_ok by lia. rewrite Nat2Z.id. cbn [obind]. rewrite list_set_same by lia. rewrite wr_rd by exact Hfid. reflexivity. }
    rewrite BA. cbn [obind]. rewrite (slice_nth (rd mem cid)) by lia. cbn [obind]. fold cv.
    assert (CRf : convertReference ih (bl_mode b) (ihColours ih) (frColours ih fh) (Z.of_nat c) (Z.of_nat (source_channel ih fh c)) cv rb fb = Ok (cv, rb, fb)).
    { unfold convertReference. rewrite Tr, Tf, Z.eqb_refl. cbn [negb orb]. destruct (bl_mode b =? BLEND_ADD) eqn:Em; [reflexivity|]. cbn [negb].
      unfold BLEND_ADD in Em. destruct int; [exfalso; specialize (Hi eq_refl); lia|].
      assert (D1 : exists d, depthOf ih (ihColours ih) (Z.of_nat c) = Ok d).
      { unfold depthOf. rewrite ihColours_spec. destruct (Z.of_nat (image_colours ih) <=? Z.of_nat c) eqn:E; [|eexists; reflexivity].
        unfold channel_count in Hc. destruct (nth_error (ih_extra ih) (c - image_colours ih)) as [e|] eqn:En; [|apply nth_error_None in En; lia].
        rewrite (slice_get_ok _ _ e) by lia. eexists. reflexivity. }
      assert (D2 : exists d, depthOf ih (frColours ih fh) (Z.of_nat (source_channel ih fh c)) = Ok d).
      { unfold depthOf. rewrite frColours_spec. destruct (Z.of_nat (frame_colours ih fh) <=? Z.of_nat (source_channel ih fh c)) eqn:E; [|eexists; reflexivity].
        destruct (nth_error (ih_extra ih) (source_channel ih fh c - frame_colours ih fh)) as [e|] eqn:En; [|apply nth_error_None in En; lia].
        rewrite (slice_get_ok _ _ e) by lia. eexists. reflexivity. }
      destruct D1 as [d1 ->], D2 as [d2 ->]. cbn [obind]. rewrite !cast_float_id by assumption. reflexivity. }
    rewrite CRf. cbn [obind fst snd]. rewrite SC by lia. cbn [obind]. rewrite Scv, wr_rd by exact Hcid.
    (* the alpha matrices *)
    set (wa := ihHasAlpha ih && ((bl_mode b =? BLEND_BLEND) || (bl_mode b =? BLEND_MULADD))).
    set (fi := (frame_colours ih fh + Z.to_nat (bl_alpha b))%nat).
    assert (OA : (if wa then obind (slice_get (rd mem rid) (ihColours ih + bl_alpha b)) (fun a => Ok (ib_float a)) else Ok []) = Ok (if wa then ib_float (nth ai (rd mem rid) ZERO_IB) else [])).
    { destruct wa eqn:Ew; [|reflexivity]. unfold wa in Ew. rewrite hasAlpha_spec in Ew. apply andb_prop in Ew. destruct Ew as [Ea _]. specialize (Hal Ea).
      rewrite ihColours_spec. replace (Z.of_nat (image_colours ih) + bl_alpha b) with (Z.of_nat ai) by (unfold ai; lia).
      rewrite slice_nth by (unfold ai, channel_count in *; lia). reflexivity. }
    assert (NA : (if wa then obind (slice_get (rd mem fid) (frColours ih fh + bl_alpha b)) (fun a => Ok (ib_float a)) else Ok []) = Ok (if wa then ib_float (nth fi (rd mem fid) ZERO_IB) else [])).
    { destruct wa eqn:Ew; [|reflexivity]. unfold wa in Ew. rewrite hasAlpha_spec in Ew. apply andb_prop in Ew. destruct Ew as [Ea _]. specialize (Hal Ea).
      rewrite frColours_spec. replace (Z.of_nat (frame_colours ih fh) + bl_alpha b) with (Z.of_nat fi) by (unfold fi; lia).
      rewrite slice_nth by (unfold fi in *; lia). reflexivity. }
    rewrite OA, NA. cbn [obind]. clear OA NA.
    assert (EInt : (bl_mode b =? BLEND_ADD) && IsInt fb = int).
    { rewrite IF. destruct int; [|apply andb_false_r]. unfold BLEND_ADD. specialize (Hi eq_refl). lia. }
    rewrite EInt, IF.
    set (args := mkBA (bl_mode b) (bl_clamp b) (ihHasAlpha ih) (is_alpha ih c) pm int (if int then ib_int rb else ib_float rb)
                   (if int then ib_int fb else ib_float fb) (if wa then ib_float (nth ai (rd mem rid) ZERO_IB) else []) (if wa then ib_float (nth fi (rd mem fid) ZERO_IB) else [])).
    destruct (C50_blend_partial args (fh_ox fh) (fh_oy fh) (fh_bw fh * fh_up fh) (fh_bh fh * fh_up fh) W H FH FW (samples int cv)) as (m & Em & Rm & Vm); cbn [args ba_ref ba_frame ba_hasAlpha ba_mode ba_oldA ba_newA]; try assumption.
    { rewrite hasAlpha_spec. intros Ea Hmode. unfold wa. rewrite hasAlpha_spec, Ea. specialize (Hal Ea). cbn [andb].
      replace ((bl_mode b =? BLEND_BLEND) || (bl_mode b =? BLEND_MULADD)) with true by (unfold BLEND_BLEND, BLEND_MULADD; lia).
      destruct int; [exfalso; specialize (Hi eq_refl); lia|].
      split; [apply (chan_rect false), chan_nth; [assumption|unfold ai, channel_count in *; lia]|apply (chan_rect false), chan_nth; [assumption|unfold fi; lia]]. }
    { lia. }
    unfold blendChannel, BLEND_REPLACE in Em. change (ba_mode args) with (bl_mode b) in Em. rewrite EM1 in Em. cbn [orb negb andb] in Em. fold args in Em.
    change (if int then ib_int cv else ib_float cv) with (samples int cv). rewrite Em. cbn [obind].
    rewrite SC by lia. do 3 f_equal.
    assert (EQ : m = mat H W (drawn int ih fh (layer int (rd mem fid)) saved (layer int (rd mem cid)) c)).
    { apply drawn_mat; [exact Rm|]. intros y x Hy Hx. destruct (Vm y x Hy Hx) as [V1 V2]. unfold drawn. fold b.
      pose proof (coveredb_spec (fh_oy fh) (fh_ox fh) (fh_bh fh * fh_up fh) (fh_bw fh * fh_up fh) y x) as Cs.
      destruct (coveredb _ _ _ _ y x); [|apply V2; intros C; apply Cs in C; discriminate].
      rewrite V1 by (apply Cs; reflexivity). rewrite EL, EM1. destruct (HL y x Hy Hx) as [HL1 HL2]. rewrite HL1.
      unfold blend_value. cbn [args ba_ref ba_frame ba_oldA ba_newA ba_hasAlpha ba_clamp ba_mode ba_isInt ba_isAlpha ba_premult].
      rewrite <- ?clamp01_unit, !limited_clamp01, hasAlpha_spec. unfold mixed.
      change (px (if int then ib_int rb else ib_float rb) y x) with (layer int (rd mem rid) c y x).
      set (fy := Z.to_nat (Z.of_nat y - fh_oy fh)). set (fx := Z.to_nat (Z.of_nat x - fh_ox fh)).
      change (px (if int then ib_int fb else ib_float fb) fy fx) with (layer int (rd mem fid) (source_channel ih fh c) fy fx).
      fold ai. fold fi. set (old := layer int (rd mem rid) c y x). set (new := layer int (rd mem fid) (source_channel ih fh c) fy fx).
      assert (MD : bl_mode b = 1 \/ bl_mode b = 2 \/ bl_mode b = 3 \/ bl_mode b = 4) by lia.
      assert (AL : bl_mode b = 2 \/ bl_mode b = 3 -> has_alpha ih = true ->
         px (if wa then ib_float (nth ai (rd mem rid) ZERO_IB) else []) y x = L ai y x /\
         px (if wa then ib_float (nth fi (rd mem fid) ZERO_IB) else []) fy fx = layer int (rd mem fid) fi fy fx /\ pm = alpha_premultiplied ih b).
      { intros Hmode Ea. specialize (HL2 Ea Hmode). fold ai in HL2. rewrite HL2. specialize (HP Ea). split; [|split; [|exact HP]].
        - destruct int; [exfalso; specialize (Hi eq_refl); lia|]. unfold wa. rewrite hasAlpha_spec, Ea.
          replace (true && _) with true by (unfold BLEND_BLEND, BLEND_MULADD; lia). reflexivity.
        - destruct int; [exfalso; specialize (Hi eq_refl); lia|]. unfold wa. rewrite hasAlpha_spec, Ea.
          replace (true && _) with true by (unfold BLEND_BLEND, BLEND_MULADD; lia). reflexivity. }
      destruct MD as [M|[M|[M|M]]]; rewrite M in *; cbn [BLEND_ADD BLEND_MULT BLEND_MULADD Z.eqb Pos.eqb].
      - reflexivity.
      - destruct (has_alpha ih) eqn:Ea; cbn [negb orb andb].
        + destruct (AL ltac:(auto) eq_refl) as (-> & -> & ->). destruct (is_alpha ih c), (alpha_premultiplied ih b); reflexivity.
        + reflexivity.
      - destruct (has_alpha ih) eqn:Ea; [|reflexivity]. destruct (AL ltac:(auto) eq_refl) as (-> & -> & _). reflexivity.
      - reflexivity. }
    rewrite <- EQ. destruct int; reflexivity.
Qed.

(* ---- all channels ---- *)
Lemma drawn_ext int ih fh frame frame' saved saved' canvas canvas' c y x :
  (forall k v u, frame k v u = frame' k v u) -> canvas c y x = canvas' c y x ->
  (forall i, saved i = saved' i) -> drawn int ih fh frame saved canvas c y x = drawn int ih fh frame' saved' canvas' c y x.
Proof.
  intros Ef Ec Es. unfold drawn. destruct (coveredb _ _ _ _ y x); [|exact Ec]. rewrite Es, !Ef. reflexivity.
Qed.
Definition order_ok (ih : ImageHeader) (fh : FrameHeader) (refs : list (option nat)) (cid : nat) : Prop :=
  forall c, (c < channel_count ih)%nat -> let b := blending_of ih fh c in
    nth (Z.to_nat (bl_source b)) refs None = Some cid -> has_alpha ih = true -> bl_mode b = 2 \/ bl_mode b = 3 ->
    (c <= image_colours ih + Z.to_nat (bl_alpha b))%nat.
Lemma blendFrame_ok int ih fh refs cid fid mem H W FH FW saved :
  fits int ih fh H W FH FW -> (cid < length mem)%nat -> (fid < length mem)%nat -> cid <> fid ->
  length (rd mem cid) = channel_count ih -> Forall (chan int H W) (rd mem cid) ->
  length (rd mem fid) = (frame_colours ih fh + length (ih_extra ih))%nat -> Forall (chan int FH FW) (rd mem fid) ->
  length refs = 4%nat -> (forall c, (c < channel_count ih)%nat -> ref_for int ih fh H W mem refs saved c) -> order_ok ih fh refs cid ->
  exists s, blendFrame ih fh refs cid fid mem = Ok (wr mem cid s) /\ length s = channel_count ih /\ Forall (chan int H W) s /\
    forall c y x, (c < channel_count ih)%nat -> (y < H)%nat -> (x < W)%nat ->
      layer int s c y x = drawn int ih fh (layer int (rd mem fid)) saved (layer int (rd mem cid)) c y x.
Proof.
  intros F Hcid Hfid Hne Lc Cc Lf Cf Lr HR HO. set (n := channel_count ih) in *.
  set (D := drawn int ih fh (layer int (rd mem fid)) saved (layer int (rd mem cid))).
  assert (INV : exists mem', blendFrame ih fh refs cid fid mem = Ok mem' /\
     exists s, mem' = wr mem cid s /\ length s = n /\ Forall (chan int H W) s /\
       (forall c, (c < 0 + n)%nat -> samples int (nth c s ZERO_IB) = mat H W (D c)) /\ (forall c, (0 + n <= c)%nat -> nth c s ZERO_IB = nth c (rd mem cid) ZERO_IB)).
  { unfold blendFrame. rewrite Lc. fold n.
    apply (oloop_inv (fun k m => exists s, m = wr mem cid s /\ length s = n /\ Forall (chan int H W) s /\
       (forall c, (c < k)%nat -> samples int (nth c s ZERO_IB) = mat H W (D c)) /\ (forall c, (k <= c)%nat -> nth c s ZERO_IB = nth c (rd mem cid) ZERO_IB))).
    - exists (rd mem cid). split; [symmetry; apply wr_rd; exact Hcid|]. split; [exact Lc|]. split; [exact Cc|]. split; [lia|reflexivity].
    - intros k m Hk (s & -> & Ls & Cs & S1 & S2).
      assert (Rc : rd (wr mem cid s) cid = s) by (rewrite rd_wr by exact Hcid; rewrite Nat.eqb_refl; reflexivity).
      assert (Ro : forall j, j <> cid -> rd (wr mem cid s) j = rd mem j) by (intros j Hj; rewrite rd_wr by exact Hcid; destruct (Nat.eqb_spec j cid); [contradiction|reflexivity]).
      assert (HK : ref_for int ih fh H W (wr mem cid s) refs saved k).
      { specialize (HR k ltac:(lia)). specialize (HO k ltac:(unfold n in *; lia)). unfold ref_for in *. set (b := blending_of ih fh k) in *.
        destruct (nth (Z.to_nat (bl_source b)) refs None) as [rid|]; [|exact HR].
        destruct HR as (R1 & R2 & R3 & L & EL & HL). rewrite wr_length. split; [exact R1|].
        destruct (Nat.eq_dec rid cid) as [->|Hr].
        - rewrite Rc. split; [exact Ls|]. split; [exact Cs|]. exists L. split; [exact EL|]. intros y x Hy Hx. destruct (HL y x Hy Hx) as [HL1 HL2].
          split.
          + rewrite HL1. unfold layer. rewrite S2 by lia. reflexivity.
          + intros Ha Hmd. rewrite HL2 by assumption. unfold layer. rewrite S2; [reflexivity|]. apply HO; [reflexivity|assumption|assumption].
        - rewrite Ro by exact Hr. split; [exact R2|]. split; [exact R3|]. exists L. split; [exact EL|exact HL]. }
      rewrite (blendOne_ok int ih fh refs cid fid k (wr mem cid s) H W FH FW saved); try assumption; try (rewrite wr_length; assumption); try (rewrite Rc; assumption); try (rewrite Ro by (intro; subst; contradiction); assumption); [|unfold n in *; lia].
      eexists. split; [reflexivity|]. rewrite wr_wr, Rc, (Ro fid) by (intro; subst; contradiction).
      exists (list_set s k (upd_ib int (nth k s ZERO_IB) (mat H W (drawn int ih fh (layer int (rd mem fid)) saved (layer int s) k)))).
      split; [reflexivity|]. split; [rewrite list_set_length; exact Ls|]. split.
      + rewrite Forall_forall. intros ib Hin. apply (In_nth _ _ ZERO_IB) in Hin. destruct Hin as (i & Hi & <-). rewrite list_set_length in Hi.
        rewrite nth_list_set by lia. destruct (Nat.eqb_spec i k); [|apply chan_nth; assumption].
        apply chan_upd; [apply chan_nth; [assumption|lia]|apply rect_mat].
      + split.
        * intros c Hc. rewrite nth_list_set by lia. destruct (Nat.eqb_spec c k) as [->|]; [|apply S1; lia].
          rewrite samples_upd. apply drawn_mat; [apply rect_mat|]. intros y x Hy Hx. rewrite px_mat by assumption. unfold D.
          apply drawn_ext; [reflexivity| |reflexivity]. unfold layer. rewrite S2 by lia. reflexivity.
        * intros c Hc. rewrite nth_list_set by lia. destruct (Nat.eqb_spec c k); [lia|]. apply S2. lia. }
  destruct INV as (mem' & E & s & -> & Ls & Cs & S1 & _). exists s. split; [exact E|]. split; [exact Ls|]. split; [exact Cs|].
  intros c y x Hc Hy Hx. unfold layer at 1. rewrite S1 by (cbn; lia). apply px_mat; assumption.
Qed.

(* ---- the state of the loop ---- *)
(* the slice l shows the layer L *)
Definition good (int : bool) (ih : ImageHeader) (H W : nat) (l : list ImageBuffer) (L : Layer) : Prop :=
  length l = channel_count ih /\ Forall (chan int H W) l /\
  forall c y x, (c < channel_count ih)%nat -> (y < H)%nat -> (x < W)%nat -> layer int l c y x = L c y x.
Definition refs_ok (int : bool) (ih : ImageHeader) (H W : nat) (mem : Mem) (refs : list (option nat)) (saved : nat -> option Layer) : Prop :=
  length refs = 4%nat /\ forall i, (i < 4)%nat ->
    match nth i refs None with
    | Some id => (id < length mem)%nat /\ exists L, saved i = Some L /\ good int ih H W (rd mem id) L
    | None => saved i = None
    end.
Definition lfs_ok (mem : Mem) (cid : nat) (d : list (option nat)) (lfs : nat -> option (list ImageBuffer)) : Prop :=
  length d = 5%nat /\ forall i, (i < 5)%nat -> option_map (rd mem) (nth i d None) = lfs i /\ forall id, nth i d None = Some id -> (id < length mem)%nat /\ id <> cid.
Definition blank (ih : ImageHeader) (mem : Mem) (cid : nat) (refs : list (option nat)) (canvas : Layer) : Prop :=
  rd mem cid = repeat ZERO_IB (channel_count ih) /\ (forall i, nth i refs None <> Some cid) /\ forall c y x, canvas c y x = 0.
Definition INV (int : bool) (ih : ImageHeader) (H W : nat) (st : DState) lfs saved (canvas : Layer) : Prop :=
  (d_canvas st < length (d_mem st))%nat /\ refs_ok int ih H W (d_mem st) (d_refs st) saved /\ lfs_ok (d_mem st) (d_canvas st) (d_lf st) lfs /\
  (blank ih (d_mem st) (d_canvas st) (d_refs st) canvas \/ good int ih H W (rd (d_mem st) (d_canvas st)) canvas).

Lemma channel_count_pos ih : (1 <= channel_count ih)%nat.
Proof. unfold channel_count, image_colours. destruct (_ =? 1); lia. Qed.
Lemma wr_alloc_new mem a b : wr (alloc mem a) (length mem) b = alloc mem b.
Proof.
  unfold wr, alloc. induction mem as [|x mem IH]; cbn; [reflexivity|]. f_equal. exact IH.
Qed.
Lemma wr_alloc_old mem a i b : (i < length mem)%nat -> wr (alloc mem a) i b = alloc (wr mem i b) a.
Proof.
  unfold wr, alloc. revert i. induction mem as [|x mem IH]; intros [|i] Hi; cbn in *; try lia; [reflexivity|]. f_equal. apply IH. lia.
Qed.
Lemma refs_mono int ih H W mem mem' refs saved : refs_ok int ih H W mem refs saved -> (length mem <= length mem')%nat ->
  (forall i id, nth i refs None = Some id -> rd mem' id = rd mem id) -> refs_ok int ih H W mem' refs saved.
Proof.
  intros [L4 R] HL E. split; [exact L4|]. intros i Hi. specialize (R i Hi). specialize (E i). destruct (nth i refs None) as [id|]; [|exact R].
  destruct R as (R1 & L & R2 & R3). split; [lia|]. exists L. split; [exact R2|]. rewrite E by reflexivity. exact R3.
Qed.
Lemma lfs_mono mem mem' cid cid' d lfs : lfs_ok mem cid d lfs -> (length mem <= length mem')%nat -> (cid' = cid \/ (length mem <= cid')%nat) ->
  (forall id, (id < length mem)%nat -> id <> cid -> rd mem' id = rd mem id) -> lfs_ok mem' cid' d lfs.
Proof.
  intros [L5 R] HL HC E. split; [exact L5|]. intros i Hi. destruct (R i Hi) as [R1 R2]. destruct (nth i d None) as [id|].
  - destruct (R2 id eq_refl) as [R3 R4]. split; [|intros id' E'; assert (id' = id) by congruence; subst id'; lia].
    rewrite <- R1. cbn. rewrite E by assumption. reflexivity.
  - split; [exact R1|discriminate].
Qed.
Lemma ref_id_lt int ih H W mem refs saved i id : refs_ok int ih H W mem refs saved -> nth i refs None = Some id -> (id < length mem)%nat.
Proof.
  intros [L4 R] E. destruct (Nat.lt_ge_cases i 4) as [Hi|Hi]; [|rewrite nth_overflow in E by lia; discriminate].
  specialize (R i Hi). rewrite E in R. apply R.
Qed.
Lemma nth_repeat_none i n : nth i (repeat (@None nat) n) None = None.
Proof. revert i. induction n as [|n IH]; intros [|i]; cbn; auto. Qed.
Lemma newBuffers_ok int h w n : (Z.of_nat h <= 2 ^ 30) -> (Z.of_nat w <= 2 ^ 30) ->
  exists l, newBuffers n (tyOf int) (Z.of_nat h) (Z.of_nat w) = Ok l /\ length l = n /\ Forall (fun ib => chan int h w ib /\ samples int ib = zeros2 (Z.of_nat h) (Z.of_nat w)) l.
Proof.
  intros Bh Bw. induction n as [|n IH]; [exists []; repeat split; constructor|]. destruct IH as (l & E & L & Fa). cbn [newBuffers].
  unfold NewImageBuffer. replace (negb (tyOf int =? TYPE_INT) && negb (tyOf int =? TYPE_FLOAT)) with false by (destruct int; reflexivity).
  replace ((Z.of_nat h <? 0) || (2 ^ 30 <? Z.of_nat h) || (Z.of_nat w <? 0) || (2 ^ 30 <? Z.of_nat w)) with false by lia.
  pose proof (zeros_rect (Z.of_nat h) (Z.of_nat w) ltac:(lia) ltac:(lia)) as Z0. rewrite !Nat2Z.id in Z0.
  rewrite make_ok by lia. destruct int; cbn [tyOf TYPE_INT TYPE_FLOAT Z.eqb Pos.eqb obind]; cbn [tyOf TYPE_INT TYPE_FLOAT] in E; rewrite E; cbn [obind]; eexists; (split; [reflexivity|]); (split; [cbn; lia|]); constructor; try exact Fa; (split; [|reflexivity]); repeat split; try apply Z0.
Qed.
Lemma px_zeros h w y x : px (zeros2 h w) y x = 0.
Proof.
  unfold px, zeros2. destruct (Nat.lt_ge_cases y (Z.to_nat h)) as [Hy|Hy].
  - rewrite (nth_indep _ _ (repeat 0 (Z.to_nat w))) by (rewrite repeat_length; exact Hy). rewrite nth_repeat. apply nth_repeat.
  - rewrite (nth_overflow (repeat (repeat 0 (Z.to_nat w)) (Z.to_nat h))) by (rewrite repeat_length; exact Hy). destruct x; reflexivity.
Qed.
Lemma zero_layer int ih H W l : length l = channel_count ih ->
  Forall (fun ib => chan int H W ib /\ samples int ib = zeros2 (Z.of_nat H) (Z.of_nat W)) l -> forall L, (forall c y x, L c y x = 0) -> good int ih H W l L.
Proof.
  intros Ll Fa L HL. split; [exact Ll|]. rewrite Forall_forall in Fa. split; [rewrite Forall_forall; intros ib Hi; apply Fa, Hi|].
  intros c y x Hc Hy Hx. rewrite HL. unfold layer. destruct (Fa (nth c l ZERO_IB)) as [_ ->]; [apply nth_In; lia|].
  apply px_zeros.
Qed.

(* the canvas has its size after the first frame *)
Lemma init_ok int ih H W st lfs saved canvas b :
  INV int ih H W st lfs saved canvas -> dim_w (ih_size ih) = Z.of_nat W -> dim_h (ih_size ih) = Z.of_nat H -> (1 <= W)%nat -> (1 <= H)%nat ->
  Z.of_nat W <= 2 ^ 30 -> Z.of_nat H <= 2 ^ 30 -> b <> [] -> (forall ib, In ib b -> ib_type ib = tyOf int) ->
  exists mem', initCanvas ih (d_canvas st) (length (d_mem st)) (alloc (d_mem st) b) = Ok (alloc mem' b) /\ length mem' = length (d_mem st) /\
    good int ih H W (rd mem' (d_canvas st)) canvas /\ refs_ok int ih H W mem' (d_refs st) saved /\ lfs_ok mem' (d_canvas st) (d_lf st) lfs.
Proof.
  intros (Hc & HR & HL & HC) Ew Eh W1 H1 BW BH Hb Tb. unfold initCanvas. rewrite rd_alloc_old by exact Hc. rewrite Ew, Eh.
  assert (I : forall v, 0 <= v <= 2 ^ 30 -> i32 v = v) by (intros v Hv; apply i32_small; change (2 ^ 30) with 1073741824 in *; change (2 ^ 31) with 2147483648; lia).
  rewrite !I by lia. pose proof (channel_count_pos ih) as Cp.
  destruct HC as [(Eb & Nr & Z0)|G].
  - rewrite Eb. rewrite (slice_nth _ 0) by (rewrite repeat_length; lia). cbn [obind]. rewrite nth_repeat. cbn [ib_h ib_w ZERO_IB Z.eqb andb].
    rewrite rd_alloc_new. destruct b as [|b0 b']; [contradiction|]. cbn [slice_get]. rewrite (slice_nth _ 0) by (cbn; lia). cbn [obind nth]. rewrite Tb by (left; reflexivity).
    rewrite repeat_length. destruct (newBuffers_ok int H W (channel_count ih) BH BW) as (l & El & Ll & Fl). rewrite El. cbn [obind].
    rewrite wr_alloc_old by exact Hc. exists (wr (d_mem st) (d_canvas st) l). split; [reflexivity|]. split; [apply wr_length|].
    rewrite rd_wr by exact Hc. rewrite Nat.eqb_refl. split; [apply zero_layer; assumption|]. split.
    + apply (refs_mono _ _ _ _ (d_mem st)); [exact HR|rewrite wr_length; lia|]. intros i id E. rewrite rd_wr by exact Hc.
      destruct (Nat.eqb_spec id (d_canvas st)); [subst; exfalso; apply (Nr i E)|reflexivity].
    + apply (lfs_mono (d_mem st) _ (d_canvas st)); [exact HL|rewrite wr_length; lia|left; reflexivity|]. intros id Hi Hn. rewrite rd_wr by exact Hc.
      destruct (Nat.eqb_spec id (d_canvas st)); [contradiction|reflexivity].
  - destruct G as (Gl & Gc & Gv). rewrite (slice_nth _ 0) by lia. cbn [obind]. pose proof (chan_nth _ _ _ _ 0%nat Gc ltac:(lia)) as K0.
    destruct (chan_size _ _ _ _ K0) as [-> ->]. replace ((Z.of_nat H =? 0) && (Z.of_nat W =? 0)) with false by lia.
    exists (d_mem st). split; [reflexivity|]. split; [reflexivity|]. split; [repeat split; assumption|]. split; assumption.
Qed.
(* the check for a reference that is the canvas *)
Lemma found_false mem cv refs : forall s k, foundRef k s mem cv refs = false -> forall i id, nth i refs None = Some id -> rd mem id = cv ->
  ImageBufferSliceEquals cv cv = true -> k + Z.of_nat i = s.
Proof.
  induction refs as [|r t IH]; intros s k E i id En Ei Er; [destruct i; discriminate|]. cbn [foundRef] in E. apply orb_false_iff in E. destruct E as [E1 E2].
  destruct i as [|i]; cbn [nth] in En.
  - subst r. rewrite Ei, Er in E1. lia.
  - specialize (IH s (k + 1) E2 i id En Ei Er). lia.
Qed.
Lemma copyAll_ok l : exists l', copyAll l = Ok l' /\ l' = l.
Proof.
  induction l as [|ib l IH]; [exists []; split; reflexivity|]. destruct IH as (l' & E & ->). cbn [copyAll NewImageBufferFromImageBuffer obind]. rewrite E. cbn [obind].
  eexists. split; [reflexivity|]. rewrite !copyMatrix_id. destruct ib; reflexivity.
Qed.

(* what is demanded of a frame *)
Definition noTransform (ih : ImageHeader) (fh : FrameHeader) : Prop := ih_xyb ih = false /\ fh_ycbcr fh = false.
Definition allowed (int : bool) (ih : ImageHeader) (H W : nat) (f : FrameIn) (b : list ImageBuffer) (saved : nat -> option Layer) : Prop :=
  let fh := fi_h f in
  0 <= fh_saveref fh < 4 /\
  (* the buffers of the frame *)
  length b = (frame_colours ih fh + length (ih_extra ih))%nat /\
  (exists FH FW, Forall (chan int FH FW) b /\
     (fh_type fh = 2 \/ fits int ih fh H W FH FW) /\
     (* saved before the colour transform: there is none, and the frame has the size and the channels of the image *)
     (fh_savect fh = true -> noTransform ih fh /\ FH = H /\ FW = W /\ frame_colours ih fh = image_colours ih)) /\
  (fh_type fh = 2 -> fh_savect fh = true) /\
  (fh_type fh <> 2 -> forall c, (c < channel_count ih)%nat -> let bl := blending_of ih fh c in
     (* blending needs a saved frame *)
     (2 <= bl_mode bl -> saved (Z.to_nat (bl_source bl)) <> None) /\
     (* a frame that is saved as it is does not blend onto the frame that it replaces *)
     (fh_savect fh = true -> fh_last fh = false -> bl_source bl <> fh_saveref fh \/ bl_mode bl = 0) /\
     (* an alpha channel is not drawn before a channel that is blended with it onto the frame to be replaced *)
     (has_alpha ih = true -> bl_mode bl = 2 \/ bl_mode bl = 3 -> bl_source bl = fh_saveref fh ->
      (c <= image_colours ih + Z.to_nat (bl_alpha bl))%nat)).
Definition decodedAs (ih : ImageHeader) (f : FrameIn) (lf : option (list ImageBuffer)) (b : list ImageBuffer) : Prop :=
  fi_toc f = Ok tt /\ (lf = None -> Z.land (fh_flags (fi_h f)) USE_LF_FRAME = 0) /\
  exists d, fi_decode f lf = Ok d /\
    if fh_type (fi_h f) =? LF_FRAME then b = d
    else exists u, fi_up f d = Ok u /\ fi_extra f = Ok tt /\ performColourTransforms (fi_ct f) ih (fi_h f) u = Ok b.

Lemma refs_set int ih H W mem refs saved i id L : refs_ok int ih H W mem refs saved -> (i < 4)%nat -> (id < length mem)%nat -> good int ih H W (rd mem id) L ->
  refs_ok int ih H W mem (list_set refs i (Some id)) (store saved i L).
Proof.
  intros [L4 R] Hi Hid G. split; [rewrite list_set_length; exact L4|]. intros j Hj. rewrite nth_list_set by lia. unfold store.
  destruct (Nat.eqb_spec j i); [|apply R, Hj]. split; [exact Hid|]. exists L. split; [reflexivity|exact G].
Qed.
(* a frame up to the colour transform *)
Lemma step_start ih f st lfs b : lfs_ok (d_mem st) (d_canvas st) (d_lf st) lfs -> 0 <= fh_lflevel (fi_h f) < 5 ->
  decodedAs ih f (lfs (Z.to_nat (fh_lflevel (fi_h f)))) b ->
  exists lf d, slice_get (d_lf st) (fh_lflevel (fi_h f)) = Ok lf /\
    (match lf with None => true | _ => false end) && negb (Z.land (fh_flags (fi_h f)) USE_LF_FRAME =? 0) = false /\
    fi_toc f = Ok tt /\ fi_decode f (lfValue st lf) = Ok d /\
    (if fh_type (fi_h f) =? LF_FRAME then b = d
     else exists u, fi_up f d = Ok u /\ fi_extra f = Ok tt /\ performColourTransforms (fi_ct f) ih (fi_h f) u = Ok b).
Proof.
  intros [L5 R] Hl (Et & Ef & d & Ed & Er). destruct (R (Z.to_nat (fh_lflevel (fi_h f))) ltac:(lia)) as [R1 R2].
  exists (nth (Z.to_nat (fh_lflevel (fi_h f))) (d_lf st) None), d. split; [apply slice_get_ok; lia|]. split.
  - destruct (nth _ (d_lf st) None); [reflexivity|]. cbn in R1. rewrite Ef by (symmetry; exact R1). reflexivity.
  - split; [exact Et|]. split; [|exact Er]. unfold lfValue. rewrite R1. exact Ed.
Qed.
Lemma visible_step int ih H W f st lfs saved canvas b :
  INV int ih H W st lfs saved canvas -> fh_type (fi_h f) = 0 \/ fh_type (fi_h f) = 3 -> fh_lflevel (fi_h f) = 0 ->
  decodedAs ih f (lfs 0%nat) b -> allowed int ih H W f b saved ->
  let canvas' := drawn int ih (fi_h f) (layer int b) saved canvas in
  exists st', frameStep false false ih f st = Ok (st', fh_last (fi_h f)) /\ good int ih H W (rd (d_mem st') (d_canvas st')) canvas' /\
    (fh_last (fi_h f) = false ->
     INV int ih H W st' lfs (store saved (Z.to_nat (fh_saveref (fi_h f))) (if fh_savect (fi_h f) then layer int b else canvas')) canvas').
Proof.
  intros HI Ty Lv De (Sr & Lb & (FH & FW & Cb & Fi & Sc) & _ & Al) canvas'. set (fh := fi_h f) in *.
  assert (F : fits int ih fh H W FH FW) by (destruct Fi as [E|E]; [lia|exact E]). clear Fi.
  specialize (Al ltac:(lia)). destruct HI as (Hc & HR & HL & HC). pose proof (conj Hc (conj HR (conj HL HC)) : INV int ih H W st lfs saved canvas) as HI.
  destruct (step_start ih f st lfs b HL) as (lf & d & E1 & E2 & E3 & E4 & E5); [fold fh; lia|fold fh; rewrite Lv; exact De|]. fold fh in E1, E2, E5.
  replace (fh_type fh =? LF_FRAME) with false in E5 by (unfold LF_FRAME; lia). destruct E5 as (u & E5 & E6 & E7).
  unfold frameStep. fold fh. rewrite E1. cbn [obind]. rewrite E2, E3. cbn [obind]. rewrite E4. cbn [obind].
  replace (0 <? fh_lflevel fh) with false by lia. cbn [obind]. replace (fh_type fh =? LF_FRAME) with false by (unfold LF_FRAME; lia).
  set (s := Z.to_nat (fh_saveref fh)). set (fid := length (d_mem st)).
  assert (RA : forall v, rd (alloc (d_mem st) v) fid = v) by (intros; apply rd_alloc_new).
  assert (WA : forall a v, wr (alloc (d_mem st) a) fid v = alloc (d_mem st) v) by (intros; apply wr_alloc_new).
  rewrite RA, E5. cbn [obind]. rewrite WA. pose proof HR as [L4 _].
  set (refs1 := if negb (fh_last fh) && fh_savect fh then list_set (d_refs st) s (Some fid) else d_refs st).
  assert (ER : (if negb (fh_last fh) && fh_savect fh then slice_set (d_refs st) (fh_saveref fh) (Some fid) else Ok (d_refs st)) = Ok refs1).
  { unfold refs1. destruct (negb (fh_last fh) && fh_savect fh); [apply slice_set_ok; lia|reflexivity]. }
  rewrite ER. cbn [obind]. clear ER. rewrite E6. cbn [obind]. rewrite RA, E7. cbn [obind]. rewrite WA, andb_false_r.
  destruct (init_ok int ih H W st lfs saved canvas b HI (ft_w _ _ _ _ _ _ _ F) (ft_h _ _ _ _ _ _ _ F) (ft_W _ _ _ _ _ _ _ F) (ft_H _ _ _ _ _ _ _ F)) as (mem' & EI & Lm & Gc & R1 & L1).
  { apply (ft_sizes _ _ _ _ _ _ _ F). } { apply (ft_sizes _ _ _ _ _ _ _ F). }
  { intros ->. cbn in Lb. pose proof (colours_cases ih fh). lia. } { intros ib Hin. rewrite Forall_forall in Cb. apply (chan_type _ FH FW), Cb, Hin. }
  fold fid in EI. rewrite EI. cbn [obind]. clear EI. set (mem4 := alloc mem' b). set (cid := d_canvas st) in *.
  assert (Lm4 : length mem4 = S fid) by (unfold mem4; rewrite alloc_length; lia).
  assert (Rf4 : rd mem4 fid = b) by (unfold mem4, fid; rewrite <- Lm; apply rd_alloc_new).
  assert (Ro4 : forall i, (i < fid)%nat -> rd mem4 i = rd mem' i) by (intros i Hi; apply rd_alloc_old; lia).
  set (saved1 := if negb (fh_last fh) && fh_savect fh then store saved s (layer int b) else saved).
  assert (R2 : refs_ok int ih H W mem4 refs1 saved1).
  { assert (R0 : refs_ok int ih H W mem4 (d_refs st) saved) by (apply (refs_mono _ _ _ _ mem'); [exact R1|lia|intros i id E; apply Ro4; pose proof (ref_id_lt _ _ _ _ _ _ _ _ _ R1 E); lia]).
    unfold refs1, saved1. destruct (negb (fh_last fh) && fh_savect fh) eqn:Es; [|exact R0]. apply andb_prop in Es. destruct Es as [_ Es].
    destruct (Sc Es) as (_ & -> & -> & Ec). apply refs_set; [exact R0|lia|lia|]. rewrite Rf4. split; [unfold channel_count; lia|]. split; [exact Cb|reflexivity]. }
  assert (L2 : lfs_ok mem4 cid (d_lf st) lfs) by (apply (lfs_mono mem' _ cid); [exact L1|lia|left; reflexivity|intros id Hid _; apply Ro4; lia]).
  replace ((fh_type fh =? REGULAR_FRAME) || (fh_type fh =? SKIP_PROGRESSIVE)) with true by (unfold REGULAR_FRAME, SKIP_PROGRESSIVE; lia).
  assert (Gr : rd mem4 cid = rd mem' cid) by (apply Ro4; exact Hc).
  (* after the check for an aliased canvas *)
  assert (FD : exists mem5 cid5, (if foundRef 0 (fh_saveref fh) mem4 (rd mem4 cid) refs1 then obind (copyAll (rd mem4 cid)) (fun b => Ok (alloc mem4 b, length mem4)) else Ok (mem4, cid)) = Ok (mem5, cid5) /\
     (cid5 < length mem5)%nat /\ (fid < length mem5)%nat /\ cid5 <> fid /\ rd mem5 cid5 = rd mem' cid /\ rd mem5 fid = b /\ refs_ok int ih H W mem5 refs1 saved1 /\ lfs_ok mem5 cid5 (d_lf st) lfs /\
     forall i, nth i refs1 None = Some cid5 -> i = s).
  { destruct (foundRef 0 (fh_saveref fh) mem4 (rd mem4 cid) refs1) eqn:EF.
    - destruct (copyAll_ok (rd mem4 cid)) as (l & El & ->). rewrite El. cbn [obind]. exists (alloc mem4 (rd mem4 cid)), (length mem4). split; [reflexivity|].
      rewrite alloc_length, rd_alloc_new, rd_alloc_old by lia. rewrite Gr. split; [lia|]. split; [lia|]. split; [lia|]. split; [reflexivity|]. split; [exact Rf4|]. split.
      + apply (refs_mono _ _ _ _ mem4); [exact R2|rewrite alloc_length; lia|]. intros i id E. apply rd_alloc_old. apply (ref_id_lt _ _ _ _ _ _ _ _ _ R2 E).
      + split; [apply (lfs_mono mem4 _ cid); [exact L2|rewrite alloc_length; lia|right; lia|intros id Hid _; apply rd_alloc_old; exact Hid]|].
        intros i E. pose proof (ref_id_lt _ _ _ _ _ _ _ _ _ R2 E). lia.
    - exists mem4, cid. split; [reflexivity|]. split; [lia|]. split; [lia|]. split; [unfold fid; lia|]. split; [exact Gr|]. split; [exact Rf4|]. split; [exact R2|]. split; [exact L2|].
      intros i E. destruct Gc as (_ & Gc & _). pose proof (found_false _ _ _ _ _ EF i cid E eq_refl) as K. rewrite Gr in K. specialize (K (slice_equals_refl _ _ _ _ Gc)). unfold s. lia. }
  destruct FD as (mem5 & cid5 & EF & B1 & B2 & B3 & Rc5 & Rf5 & R3 & L3 & Alias). rewrite EF. cbn [obind fst snd]. clear EF.
  assert (SV : forall i, saved1 i = None -> saved i = None) by (intros i; unfold saved1, store; destruct (negb (fh_last fh) && fh_savect fh); [destruct (i =? s)%nat; [discriminate|auto]|auto]).
  assert (RF : forall c, (c < channel_count ih)%nat -> ref_for int ih fh H W mem5 refs1 saved1 c).
  { intros c Hcc. destruct (ft_blend _ _ _ _ _ _ _ F c Hcc) as (M1 & M2 & M3 & M4). destruct (Al c Hcc) as (A1 & _). unfold ref_for. destruct R3 as [_ R3].
    specialize (R3 (Z.to_nat (bl_source (blending_of ih fh c))) ltac:(lia)). destruct (nth _ refs1 None) as [id|].
    - destruct R3 as (I1 & L & I2 & I3 & I4 & I5). split; [exact I1|]. split; [exact I3|]. split; [exact I4|]. exists L. split; [exact I2|]. intros y x Hy Hx. split; [symmetry; apply I5; assumption|].
      intros Ha _. symmetry. apply I5; try assumption. specialize (M4 Ha). unfold channel_count. lia.
    - split; [|exact R3]. destruct (Z.le_gt_cases 2 (bl_mode (blending_of ih fh c))) as [G2|G2]; [|lia]. exfalso. apply (A1 G2). apply SV, R3. }
  assert (OK : order_ok ih fh refs1 cid5).
  { intros c Hcc b0 E Ha Hm. unfold b0 in *. destruct (Al c Hcc) as (_ & _ & A3). apply A3; [exact Ha|exact Hm|]. destruct (ft_blend _ _ _ _ _ _ _ F c Hcc) as (_ & _ & M3 & _).
    apply Alias in E. unfold s in E. lia. }
  destruct (blendFrame_ok int ih fh refs1 cid5 fid mem5 H W FH FW saved1 F) as (sl & EB & Sl & Cs & Vs); try assumption.
  { rewrite Rc5. apply Gc. } { rewrite Rc5. apply Gc. } { rewrite Rf5. exact Lb. } { rewrite Rf5. exact Cb. } { apply R3. }
  rewrite EB. cbn [obind fst snd]. rewrite Rf5, Rc5 in Vs.
  assert (Vc : forall c y x, (c < channel_count ih)%nat -> (y < H)%nat -> (x < W)%nat -> layer int sl c y x = canvas' c y x).
  { intros c y x Hcc Hy Hx. rewrite Vs by assumption. unfold canvas', drawn. destruct (coveredb _ _ _ _ y x); [|apply Gc; assumption].
    destruct (Al c Hcc) as (_ & A2 & _). unfold saved1. destruct (negb (fh_last fh) && fh_savect fh) eqn:Es; [|reflexivity]. apply andb_prop in Es. destruct Es as [Es1 Es2].
    specialize (A2 Es2 ltac:(destruct (fh_last fh); [discriminate|reflexivity])). unfold store. destruct (Nat.eqb_spec (Z.to_nat (bl_source (blending_of ih fh c))) s) as [Eq|]; [|reflexivity].
    destruct (ft_blend _ _ _ _ _ _ _ F c Hcc) as (_ & _ & M3 & _). destruct A2 as [A2|A2]; [exfalso; unfold s in Eq; lia|]. rewrite A2. cbn [Z.eqb]. destruct (saved _); reflexivity. }
  set (refs2 := if negb (fh_last fh) && negb (fh_savect fh) then list_set refs1 s (Some cid5) else refs1). destruct R3 as [L5 R3].
  assert (ER : (if negb (fh_last fh) && negb (fh_savect fh) then slice_set refs1 (fh_saveref fh) (Some cid5) else Ok refs1) = Ok refs2).
  { unfold refs2. destruct (negb (fh_last fh) && negb (fh_savect fh)); [apply slice_set_ok; lia|reflexivity]. }
  rewrite ER. cbn [obind]. clear ER. eexists. split; [reflexivity|]. cbn [d_mem d_canvas d_refs d_lf].
  assert (Rn : rd (wr mem5 cid5 sl) cid5 = sl) by (rewrite rd_wr by exact B1; rewrite Nat.eqb_refl; reflexivity).
  assert (Gn : good int ih H W sl canvas') by (split; [exact Sl|split; [exact Cs|exact Vc]]).
  split; [rewrite Rn; exact Gn|]. intros El. unfold INV. cbn [d_mem d_canvas d_refs d_lf]. rewrite wr_length, Rn. split; [exact B1|]. split; [|split; [|right; exact Gn]].
  - split; [unfold refs2; destruct (negb (fh_last fh) && negb (fh_savect fh)); rewrite ?list_set_length; exact L5|]. intros i Hi. unfold refs2, store. rewrite El. cbn [negb andb]. destruct (fh_savect fh) eqn:Es; cbn [negb].
    + specialize (R3 i Hi). specialize (Alias i). unfold saved1, store in R3. rewrite El, ?Es in R3. cbn [negb andb] in R3.
      destruct (nth i refs1 None) as [id|] eqn:En; [|exact R3]. destruct R3 as (I1 & L & I2 & I3). rewrite wr_length. split; [exact I1|]. exists L. split; [exact I2|].
      rewrite rd_wr by exact B1. destruct (Nat.eqb_spec id cid5) as [->|]; [|exact I3]. exfalso. specialize (Alias eq_refl). subst i. unfold refs1 in En. rewrite El, ?Es in En. cbn [negb andb] in En.
      rewrite nth_list_set in En by lia. rewrite Nat.eqb_refl in En. congruence.
    + rewrite nth_list_set by lia. destruct (Nat.eqb_spec i s) as [->|Hn].
      * rewrite wr_length. split; [exact B1|]. exists canvas'. split; [reflexivity|]. rewrite Rn. exact Gn.
      * specialize (R3 i Hi). specialize (Alias i). unfold saved1 in R3. rewrite El, ?Es in R3. cbn [negb andb] in R3. destruct (nth i refs1 None) as [id|]; [|exact R3].
        destruct R3 as (I1 & L & I2 & I3). rewrite wr_length. split; [exact I1|]. exists L. split; [exact I2|].
        rewrite rd_wr by exact B1. destruct (Nat.eqb_spec id cid5) as [->|]; [|exact I3]. exfalso. apply Hn, Alias. reflexivity.
  - apply (lfs_mono mem5 _ cid5); [exact L3|rewrite wr_length; lia|left; reflexivity|]. intros id _ Hn. rewrite rd_wr by exact B1. destruct (Nat.eqb_spec id cid5); [contradiction|reflexivity].
Qed.
Definition size_ok (ih : ImageHeader) (H W : nat) : Prop :=
  dim_w (ih_size ih) = Z.of_nat W /\ dim_h (ih_size ih) = Z.of_nat H /\ (1 <= W)%nat /\ (1 <= H)%nat /\ Z.of_nat W <= 2 ^ 30 /\ Z.of_nat H <= 2 ^ 30.
Lemma reference_step int ih H W f st lfs saved canvas b : size_ok ih H W ->
  INV int ih H W st lfs saved canvas -> fh_type (fi_h f) = 2 -> fh_last (fi_h f) = false -> fh_lflevel (fi_h f) = 0 ->
  decodedAs ih f (lfs 0%nat) b -> allowed int ih H W f b saved ->
  exists st', frameStep false false ih f st = Ok (st', false) /\
    INV int ih H W st' lfs (store saved (Z.to_nat (fh_saveref (fi_h f))) (layer int b)) canvas.
Proof.
  intros (S1 & S2 & S3 & S4 & S5 & S6) HI Ty Nl Lv De (Sr & Lb & (FH & FW & Cb & _ & Sc) & Sv & _). set (fh := fi_h f) in *.
  specialize (Sv Ty). destruct (Sc Sv) as (_ & -> & -> & Ec). clear Sc.
  destruct HI as (Hc & HR & HL & HC). pose proof (conj Hc (conj HR (conj HL HC)) : INV int ih H W st lfs saved canvas) as HI.
  destruct (step_start ih f st lfs b HL) as (lf & d & E1 & E2 & E3 & E4 & E5); [fold fh; lia|fold fh; rewrite Lv; exact De|]. fold fh in E1, E2, E5.
  replace (fh_type fh =? LF_FRAME) with false in E5 by (unfold LF_FRAME; lia). destruct E5 as (u & E5 & E6 & E7).
  unfold frameStep. fold fh. rewrite E1. cbn [obind]. rewrite E2, E3. cbn [obind]. rewrite E4. cbn [obind].
  replace (0 <? fh_lflevel fh) with false by lia. cbn [obind]. replace (fh_type fh =? LF_FRAME) with false by (unfold LF_FRAME; lia).
  set (s := Z.to_nat (fh_saveref fh)). set (fid := length (d_mem st)). pose proof HR as [L4 _].
  assert (RA : forall v, rd (alloc (d_mem st) v) fid = v) by (intros; apply rd_alloc_new).
  assert (WA : forall a v, wr (alloc (d_mem st) a) fid v = alloc (d_mem st) v) by (intros; apply wr_alloc_new).
  rewrite RA, E5. cbn [obind]. rewrite WA, Nl, Sv. cbn [negb andb]. rewrite slice_set_ok by lia. fold s. cbn [obind]. rewrite E6. cbn [obind]. rewrite RA, E7. cbn [obind]. rewrite WA, andb_false_r.
  destruct (init_ok int ih H W st lfs saved canvas b HI) as (mem' & EI & Lm & Gc & R1 & L1); try assumption.
  { intros ->. cbn in Lb. pose proof (colours_cases ih fh). lia. } { intros ib Hin. rewrite Forall_forall in Cb. apply (chan_type _ H W), Cb, Hin. }
  fold fid in EI. rewrite EI. cbn [obind]. clear EI.
  replace ((fh_type fh =? REGULAR_FRAME) || (fh_type fh =? SKIP_PROGRESSIVE)) with false by (unfold REGULAR_FRAME, SKIP_PROGRESSIVE; lia). cbn [obind fst snd].
  eexists. split; [reflexivity|]. unfold INV. cbn [d_mem d_canvas d_refs d_lf]. rewrite alloc_length. split; [lia|].
  assert (Ro : forall i, (i < fid)%nat -> rd (alloc mem' b) i = rd mem' i) by (intros i Hi; apply rd_alloc_old; lia). split.
  - apply refs_set; [|lia|rewrite alloc_length; lia|].
    + apply (refs_mono _ _ _ _ mem'); [exact R1|rewrite alloc_length; lia|]. intros i id E. apply Ro. pose proof (ref_id_lt _ _ _ _ _ _ _ _ _ R1 E). lia.
    + unfold fid. rewrite <- Lm, rd_alloc_new. split; [unfold channel_count; lia|]. split; [exact Cb|reflexivity].
  - split; [apply (lfs_mono mem' _ (d_canvas st)); [exact L1|rewrite alloc_length; lia|left; reflexivity|intros id Hid _; apply Ro; lia]|].
    right. rewrite Ro by exact Hc. exact Gc.
Qed.
Lemma lf_step int ih H W f st lfs saved canvas b :
  INV int ih H W st lfs saved canvas -> fh_type (fi_h f) = 1 -> 1 <= fh_lflevel (fi_h f) <= 4 ->
  decodedAs ih f (lfs (Z.to_nat (fh_lflevel (fi_h f)))) b ->
  exists st', frameStep false false ih f st = Ok (st', false) /\ INV int ih H W st' (store lfs (Z.to_nat (fh_lflevel (fi_h f) - 1)) b) saved canvas.
Proof.
  intros (Hc & HR & HL & HC) Ty Lv De. set (fh := fi_h f) in *.
  destruct (step_start ih f st lfs b HL) as (lf & d & E1 & E2 & E3 & E4 & E5); [fold fh; lia|exact De|]. fold fh in E1, E2, E5.
  replace (fh_type fh =? LF_FRAME) with true in E5 by (unfold LF_FRAME; lia). subst d.
  unfold frameStep. fold fh. rewrite E1. cbn [obind]. rewrite E2, E3. cbn [obind]. rewrite E4. cbn [obind].
  replace (0 <? fh_lflevel fh) with true by lia. destruct HL as [L5 HL]. rewrite slice_set_ok by lia. cbn [obind]. replace (fh_type fh =? LF_FRAME) with true by (unfold LF_FRAME; lia).
  eexists. split; [reflexivity|]. unfold INV. cbn [d_mem d_canvas d_refs d_lf]. rewrite alloc_length. split; [lia|].
  assert (Ro : forall i, (i < length (d_mem st))%nat -> rd (alloc (d_mem st) b) i = rd (d_mem st) i) by (intros i Hi; apply rd_alloc_old; lia). split; [|split].
  - apply (refs_mono _ _ _ _ (d_mem st)); [exact HR|rewrite alloc_length; lia|]. intros i id E. apply Ro, (ref_id_lt _ _ _ _ _ _ _ _ _ HR E).
  - split; [rewrite list_set_length; exact L5|]. intros i Hi. rewrite nth_list_set by lia. unfold store. destruct (Nat.eqb_spec i (Z.to_nat (fh_lflevel fh - 1))).
    + split; [cbn; rewrite rd_alloc_new; reflexivity|]. intros id E. assert (id = length (d_mem st)) by congruence. rewrite alloc_length. lia.
    + destruct (HL i Hi) as [R1 R2]. destruct (nth i (d_lf st) None) as [id|].
      * destruct (R2 id eq_refl) as [R3 R4]. split; [rewrite <- R1; cbn; rewrite Ro by exact R3; reflexivity|]. intros id' E'. assert (id' = id) by congruence. subst id'. rewrite alloc_length. lia.
      * split; [exact R1|discriminate].
  - destruct HC as [(B1 & B2 & B3)|G]; [left|right; rewrite Ro by exact Hc; exact G]. split; [rewrite Ro by exact Hc; exact B1|]. split; assumption.
Qed.
Lemma loop_ok int ih H W frames lfs saved canvas out : size_ok ih H W ->
  picture int ih fi_h (decodedAs ih) (layer int) (allowed int ih H W) frames lfs saved canvas out ->
  forall st, INV int ih H W st lfs saved canvas ->
  exists st', frameLoop false false ih frames st = Ok st' /\ good int ih H W (rd (d_mem st') (d_canvas st')) out.
Proof.
  intros HS P. induction P as [f t lfs saved canvas out p Ty Lv De _ IH|f t lfs saved canvas out p Ty Nl Lv De Al _ IH|f t lfs saved canvas p Ty La Lv De Al|f t lfs saved canvas out p Ty Nl Lv De Al _ IH]; intros st HI; cbn [frameLoop].
  - destruct (lf_step _ _ _ _ _ _ _ _ _ _ HI Ty Lv De) as (st' & E & HI'). rewrite E. cbn [obind snd fst]. apply IH, HI'.
  - destruct (reference_step _ _ _ _ _ _ _ _ _ _ HS HI Ty Nl Lv De Al) as (st' & E & HI'). rewrite E. cbn [obind snd fst]. apply IH, HI'.
  - destruct (visible_step _ _ _ _ _ _ _ _ _ _ HI Ty Lv De Al) as (st' & E & G & _). rewrite E, La. cbn [obind snd fst]. exists st'. split; [reflexivity|exact G].
  - destruct (visible_step _ _ _ _ _ _ _ _ _ _ HI Ty Lv De Al) as (st' & E & _ & HI'). rewrite E, Nl. cbn [obind snd fst]. apply IH. apply HI'. exact Nl.
Qed.
Lemma init_inv int ih H W : INV int ih H W (initState ih) (fun _ => None) (fun _ => None) (fun _ _ _ => 0).
Proof.
  unfold INV, initState. cbn [d_mem d_canvas d_refs d_lf]. split; [cbn; lia|]. split; [|split].
  - split; [reflexivity|]. intros i Hi. rewrite nth_repeat_none. reflexivity.
  - split; [reflexivity|]. intros i Hi. rewrite nth_repeat_none. split; [reflexivity|discriminate].
  - left. split; [|split; [intros i; rewrite nth_repeat_none; discriminate|reflexivity]]. cbn [rd nth]. unfold channel_count. rewrite ihColours_spec, Nat2Z.id. reflexivity.
Qed.
