(* C90, C91: the frame loop. *)
From Coq Require Import ZArith List Bool Lia Arith ZifyBool ZifyNat.
From Verif Require Import GoBase GoLoop GoMatrix GoFloat32.
From Verif Require Import ModelBitReader ModelHeader ModelFrameHeader ModelImage ModelDecode SpecImage SpecHeader SpecFrameHeader SpecDecode ProofImage PropImage ProofDecode.
Import ListNotations.
Open Scope Z_scope.

(* C90: the frames of the stream make the picture that the by-value reading
   describes, seen in the orientation of the header.  All buffers are integer
   (modes replace and add) or all are float (every mode). *)
Theorem C90_composition_partial : forall int ih H W frames out,
  size_ok ih H W -> 1 <= ih_orientation ih <= 8 ->
  picture int ih fi_h (decodedAs ih) (layer int) (allowed int ih H W) frames (fun _ => None) (fun _ => None) (fun _ _ _ => 0) out ->
  exists l, decodeBoxes false false ih [mkBx false frames (Ok tt)] = Ok (Some l) /\ length l = channel_count ih /\
    forall c, (c < channel_count ih)%nat ->
      chan int (fst (seen_size (ih_orientation ih) H W)) (snd (seen_size (ih_orientation ih) H W)) (nth c l ZERO_IB) /\
      forall y x, (y < H)%nat -> (x < W)%nat ->
        layer int l c (fst (seen_at (ih_orientation ih) H W y x)) (snd (seen_at (ih_orientation ih) H W y x)) = out c y x.
Proof.
  intros int ih H W frames out HS Ho HP. destruct (loop_ok _ _ _ _ _ _ _ _ _ HS HP _ (init_inv int ih H W)) as (st & E & Gl & Gc & Gv).
  destruct HS as (_ & _ & W1 & H1 & BW & BH). unfold decodeBoxes. change (1 <? Z.of_nat (length [mkBx false frames (Ok tt)])) with false. cbv iota. cbn [bx_atEnd bx_frames bx_pad]. rewrite E. cbn [obind].
  set (cv := rd (d_mem st) (d_canvas st)) in *. set (k := ih_orientation ih) in *.
  assert (T : forall ib, chan int H W ib -> exists d, transposeBuffer ib k = Ok d /\ chan int (fst (seen_size k H W)) (snd (seen_size k H W)) d /\
     forall y x, (y < H)%nat -> (x < W)%nat -> px (samples int d) (fst (seen_at k H W y x)) (snd (seen_at k H W y x)) = px (samples int ib) y x).
  { intros ib Hib. assert (Hch : channel H W ib) by (unfold channel, chan in *; destruct int; [left|right]; exact Hib).
    destruct (C15_orientation k H W ib Ho Hch ltac:(lia) ltac:(lia) ltac:(lia) ltac:(lia)) as (d & Ed & Et & Hd & Hp & _).
    pose proof (chan_type _ _ _ _ Hib) as Ti. rewrite Ti in Et. exists d. split; [exact Ed|].
    assert (Cd : chan int (fst (seen_size k H W)) (snd (seen_size k H W)) d).
    { unfold chan. destruct int; destruct Hd as [Hd|Hd]; try exact Hd; destruct Hd as (Ht & _); rewrite Ht in Et; discriminate. }
    split; [exact Cd|]. intros y x Hy Hx. specialize (Hp y x Hy Hx). unfold content in Hp. rewrite Et, Ti in Hp. destruct int; exact Hp. }
  assert (O : exists l, orientAll k cv = Ok l /\ length l = length cv /\ forall c, (c < length cv)%nat ->
     chan int (fst (seen_size k H W)) (snd (seen_size k H W)) (nth c l ZERO_IB) /\
     forall y x, (y < H)%nat -> (x < W)%nat -> px (samples int (nth c l ZERO_IB)) (fst (seen_at k H W y x)) (snd (seen_at k H W y x)) = px (samples int (nth c cv ZERO_IB)) y x).
  { clear -T Gc. induction cv as [|ib t IH]; [exists []; repeat split; cbn in *; lia|]. inversion Gc; subst. destruct (IH ltac:(assumption)) as (l & E & L & P).
    destruct (T ib ltac:(assumption)) as (d & Ed & Cd & Pd). cbn [orientAll]. rewrite Ed. cbn [obind]. rewrite E. cbn [obind]. exists (d :: l). split; [reflexivity|]. split; [cbn; lia|].
    intros [|c] Hc; cbn [nth]; [split; assumption|apply P; cbn in Hc; lia]. }
  destruct O as (l & El & Ll & P). rewrite El. cbn [obind]. exists l. split; [reflexivity|]. split; [lia|]. intros c Hc. destruct (P c ltac:(lia)) as [P1 P2]. split; [exact P1|].
  intros y x Hy Hx. unfold layer. rewrite P2 by assumption. apply Gv; assumption.
Qed.
Print Assumptions C90_composition_partial.

(* ---- concrete streams ---- *)
Definition ih_of (space : Z) (h w : Z) (extra : list ExtraChannel) (alpha : list Z) : ImageHeader :=
  mkIH 5 (mkDim w h) 1 w h None None (mkBD 8 0 false) true extra alpha false
    (mkCol false space 1 None 1 None 13 1) tone_default no_extensions None None None None None.
Definition fh_of (ty enc : Z) (ycbcr : bool) (up ox oy bw bh : Z) (bl : Blending) (ec : list Blending) (last : bool) (sr : Z) (ct : bool) : FrameHeader :=
  mkFH ty enc 0 ycbcr [0;0;0] [0;0;0] up [] 1 256 2048 8 11 3 2 NewPassesInfo 0 false 0 0 ox oy bw bh bl ec last sr ct [] default_filter no_extensions.
Definition fi_of (fh : FrameHeader) (b : list ImageBuffer) : FrameIn :=
  mkFI fh (Ok tt) (Ok tt) (fun _ => Ok b) (fun b => Ok b) (Ok tt) (fun x y z => Ok (x, y, z)).
Definition ints (h w : Z) (m : list (list Z)) : ImageBuffer := mkIB w h TYPE_INT [] m.
Definition floats (h w : Z) (m : list (list Z)) : ImageBuffer := mkIB w h TYPE_FLOAT m [].
Definition replace0 : Blending := mkBl 0 0 false 0.
Definition shown (ih : ImageHeader) (frames : list FrameIn) : Outcome (list (list (list Z))) :=
  obind (frameLoop false false ih frames (initState ih)) (fun st => Ok (map content (rd (d_mem st) (d_canvas st)))).

(* a gray image of 2 rows and 3 columns: a frame saved in slot 1, and a frame
   of one row and two columns added to it at row 1, column 1 *)
Definition ex_ih : ImageHeader := ih_of 1 2 3 [] [].
Definition ex_frames : list FrameIn :=
  [fi_of (fh_of 0 1 false 1 0 0 3 2 replace0 [] false 1 false) [ints 2 3 [[1;2;3];[4;5;6]]];
   fi_of (fh_of 3 1 false 1 1 1 2 1 (mkBl 1 0 false 1) [] true 0 false) [ints 1 2 [[10;20]]]].
Example C90_ex : exists out,
  size_ok ex_ih 2 3 /\
  picture true ex_ih fi_h (decodedAs ex_ih) (layer true) (allowed true ex_ih 2 3) ex_frames (fun _ => None) (fun _ => None) (fun _ _ _ => 0) out /\
  shown ex_ih ex_frames = Ok [[[1;2;3];[4;15;26]]] /\ out 0%nat 1%nat 2%nat = 26 /\ out 0%nat 0%nat 2%nat = 3.
Proof.
  assert (C1 : forall c, (c < channel_count ex_ih)%nat -> c = 0%nat) by (intros [|c] Hc; [reflexivity|cbn in Hc; lia]).
  eexists. split; [unfold size_ok; cbn; lia|]. split.
  - eapply pic_frame with (p := [ints 2 3 [[1;2;3];[4;5;6]]]); [left; reflexivity|reflexivity|reflexivity| | |].
    + split; [reflexivity|]. split; [reflexivity|]. eexists. split; [reflexivity|]. cbn. eexists. repeat split.
    + split; [cbn; lia|]. split; [reflexivity|]. split.
      * exists 2%nat, 3%nat. split; [repeat constructor|]. split; [right|discriminate].
        constructor; try (cbn; unfold blend_sizes, good_origin; cbn; lia). intros c Hc. rewrite (C1 c Hc). cbn. lia.
      * split; [discriminate|]. intros _ c Hc. rewrite (C1 c Hc). cbn. split; [lia|]. split; [discriminate|]. discriminate.
    + cbv zeta. cbn [fi_of fi_h fh_of fh_savect fh_saveref]. eapply pic_last with (p := [ints 1 2 [[10;20]]]); [right; reflexivity|reflexivity|reflexivity| |].
      * split; [reflexivity|]. split; [reflexivity|]. eexists. split; [reflexivity|]. cbn. eexists. repeat split.
      * split; [cbn; lia|]. split; [reflexivity|]. split.
        { exists 1%nat, 2%nat. split; [repeat constructor|]. split; [right|discriminate].
          constructor; try (cbn; unfold blend_sizes, good_origin; cbn; lia). intros c Hc. rewrite (C1 c Hc). cbn. lia. }
        split; [discriminate|]. intros _ c Hc. rewrite (C1 c Hc). cbn. split; [discriminate|]. split; discriminate.
  - split; [vm_compute; reflexivity|]. split; vm_compute; reflexivity.
Qed.

(* ---- findings ---- *)
(* A frame that asks to be saved before the colour transform is saved after
   it.  Frame 1 has the samples 0, 1/2, 0 and the transform makes them 1, 1, 1;
   frame 2 adds zeros to the saved frame. *)
Definition yct (a b c : list (list Z)) : Outcome (list (list Z) * list (list Z) * list (list Z)) :=
  let s := map (map (fun v => f_add v F_HALF)) b in Ok (s, s, s).
Definition ycc_frames : list FrameIn :=
  let f := fh_of 0 1 true 1 0 0 1 1 replace0 [] false 1 true in
  [mkFI f (Ok tt) (Ok tt) (fun _ => Ok [floats 1 1 [[0]]; floats 1 1 [[F_HALF]]; floats 1 1 [[0]]]) (fun b => Ok b) (Ok tt) yct;
   fi_of (fh_of 0 1 false 1 0 0 1 1 (mkBl 1 0 false 1) [] true 0 false) [floats 1 1 [[0]]; floats 1 1 [[0]]; floats 1 1 [[0]]]].
Theorem C90_save_before_transform_refuted :
  shown (ih_of 0 1 1 [] []) ycc_frames = Ok [[[F_ONE]]; [[F_ONE]]; [[F_ONE]]] /\
  shown (ih_of 0 1 1 [] []) ycc_frames <> Ok [[[0]]; [[F_HALF]]; [[0]]].
Proof. split; vm_compute; [reflexivity|discriminate]. Qed.
Print Assumptions C90_save_before_transform_refuted.
(* A frame that is only a reference and not saved before the colour transform
   is not saved at all: the canvas is. *)
Definition ref_frames (ct : bool) : list FrameIn :=
  [fi_of (fh_of 2 1 false 1 0 0 1 1 replace0 [] false 1 ct) [ints 1 1 [[7]]];
   fi_of (fh_of 0 1 false 1 0 0 1 1 (mkBl 1 0 false 1) [] true 0 false) [ints 1 1 [[1]]]].
Theorem C90_reference_only_refuted :
  shown (ih_of 1 1 1 [] []) (ref_frames true) = Ok [[[8]]] /\ shown (ih_of 1 1 1 [] []) (ref_frames false) = Ok [[[1]]].
Proof. split; vm_compute; reflexivity. Qed.
Print Assumptions C90_reference_only_refuted.
(* The canvas is the saved frame that it is blended onto: a channel after the
   alpha channel is blended with the new alpha instead of the saved one.  One
   gray channel, alpha and a third channel. *)
Definition ec0 (ty : Z) : ExtraChannel := mkEC ty (mkBD 8 0 false) 0 [] false [] 0.
Definition alias_ih : ImageHeader := ih_of 1 1 1 [ec0 0; ec0 1] [0].
Definition alias_frames : list FrameIn :=
  [fi_of (fh_of 0 1 false 1 0 0 1 1 replace0 [replace0; replace0] false 0 false) [floats 1 1 [[0]]; floats 1 1 [[0]]; floats 1 1 [[F_ONE]]];
   fi_of (fh_of 0 1 false 1 0 0 1 1 replace0 [replace0; mkBl 2 0 false 0] true 0 false) [floats 1 1 [[0]]; floats 1 1 [[F_HALF]]; floats 1 1 [[0]]]].
Theorem C90_shared_canvas_refuted : exists third,
  shown alias_ih alias_frames = Ok [[[0]]; [[F_HALF]]; [[third]]] /\
  third <> mixed false alias_ih 2 (mkBl 2 0 false 0) F_ONE 0 0 F_HALF /\
  mixed false alias_ih 2 (mkBl 2 0 false 0) F_ONE 0 0 F_HALF = 0.
Proof. eexists. split; [vm_compute; reflexivity|]. split; [vm_compute; discriminate|vm_compute; reflexivity]. Qed.
Print Assumptions C90_shared_canvas_refuted.
(* A frame that is saved as it is and blends a channel onto the slot that it
   is saved in is blended onto itself. *)
Definition self_ih : ImageHeader := ih_of 1 1 1 [ec0 1] [].
Definition self_frames : list FrameIn :=
  [fi_of (fh_of 0 1 false 1 0 0 1 1 replace0 [replace0] false 1 false) [ints 1 1 [[1]]; ints 1 1 [[100]]];
   fi_of (fh_of 0 1 false 1 0 0 1 1 replace0 [mkBl 1 0 false 1] false 1 true) [ints 1 1 [[2]]; ints 1 1 [[30]]]].
Theorem C90_blends_onto_itself_refuted : exists st b,
  frameStep false false self_ih (nth 0 self_frames (fi_of (fh_of 0 0 false 0 0 0 0 0 replace0 [] true 0 false) [])) (initState self_ih) = Ok (st, false) /\
  frameLoop false false self_ih [fi_of (fh_of 0 1 false 1 0 0 1 1 replace0 [mkBl 1 0 false 1] true 0 false) [ints 1 1 [[2]]; ints 1 1 [[30]]]] st = Ok b /\
  map content (rd (d_mem b) (d_canvas b)) = [[[2]]; [[130]]] /\
  exists st2, frameStep false false self_ih (nth 1 self_frames (fi_of (fh_of 0 0 false 0 0 0 0 0 replace0 [] true 0 false) [])) st = Ok (st2, false) /\
    map content (rd (d_mem st2) (d_canvas st2)) = [[[2]]; [[60]]].
Proof.
  eexists. eexists. split; [vm_compute; reflexivity|]. split; [vm_compute; reflexivity|]. split; [vm_compute; reflexivity|].
  eexists. split; [vm_compute; reflexivity|]. vm_compute. reflexivity.
Qed.
Print Assumptions C90_blends_onto_itself_refuted.
(* The origin of an upsampled frame is multiplied by the factor, but the
   header counts it in pixels of the image: the frame lands one column further. *)
Definition up_frames : list FrameIn :=
  [fi_of (fh_of 0 1 false 2 1 0 1 1 replace0 [] true 0 false) [ints 2 2 [[1;2];[3;4]]]].
Theorem C90_upsampled_origin_refuted :
  shown (ih_of 1 2 4 [] []) up_frames = Ok [[[0;0;1;2];[0;0;3;4]]] /\
  drawn true (ih_of 1 2 4 [] []) (fi_h (hd (fi_of (fh_of 0 0 false 0 0 0 0 0 replace0 [] true 0 false) []) up_frames)) (layer true [ints 2 2 [[1;2];[3;4]]]) (fun _ => None) (fun _ _ _ => 0) 0%nat 0%nat 1%nat = 1.
Proof. split; vm_compute; reflexivity. Qed.
Print Assumptions C90_upsampled_origin_refuted.
(* A gray image with integer alpha and a frame with three colour channels that
   is blended with alpha: the alpha of the frame is looked up at the position
   it has in the image, is not converted, and reading it panics. *)
Definition gray_frames : list FrameIn :=
  let z := floats 1 1 [[0]] in
  [fi_of (fh_of 0 0 false 1 0 0 1 1 replace0 [replace0] false 0 false) [z; z; z; ints 1 1 [[255]]];
   fi_of (fh_of 0 0 false 1 0 0 1 1 (mkBl 2 0 false 0) [replace0] true 0 false) [z; z; z; ints 1 1 [[255]]]].
Theorem C90_gray_alpha_refuted : frameLoop false false (ih_of 1 1 1 [ec0 0] [0]) gray_frames (initState (ih_of 1 1 1 [ec0 0] [0])) = Panic.
Proof. vm_compute. reflexivity. Qed.
Print Assumptions C90_gray_alpha_refuted.

(* C90: buffers of different types.  An integer channel that meets a float
   channel is divided by the greatest value of its bit depth: that of the image
   for colours, that of the extra channel otherwise; the float channel stays. *)
Definition channel_bits (ih : ImageHeader) (c : nat) : Z :=
  if (c <? image_colours ih)%nat then bd_bits (ih_bd ih)
  else match nth_error (ih_extra ih) (c - image_colours ih) with Some e => bd_bits (ec_bd e) | None => 0 end.
Definition as_float (bits v : Z) : Z := f_mul (f_of_int v) (f_div F_ONE (f_of_int (2 ^ bits - 1))).
(* f is the integer channel ib with its samples as floats *)
Definition converted (h w : nat) (bits : Z) (ib f : ImageBuffer) : Prop :=
  float_channel h w f /\ forall y x, (y < h)%nat -> (x < w)%nat -> px (ib_float f) y x = as_float bits (px (ib_int ib) y x).
Lemma depthMax_bits b : 1 <= b <= 31 -> depthMax b = 2 ^ b - 1.
Proof.
  intros H. unfold depthMax. rewrite Z.shiftl_mul_pow2 by lia. pose proof (Z.pow_le_mono_r 2 b 31 ltac:(lia) ltac:(lia)). pose proof (Z.pow_pos_nonneg 2 b ltac:(lia) ltac:(lia)).
  assert (E : i32 (-1 * 2 ^ b) = - 2 ^ b).
  { unfold i32. change (2 ^ 31) with 2147483648 in *. change (2 ^ 32) with 4294967296 in *. lia. }
  rewrite E. unfold Z.lnot. lia.
Qed.
Lemma depth_image ih c : (c < channel_count ih)%nat -> depthOf ih (ihColours ih) (Z.of_nat c) = Ok (channel_bits ih c).
Proof.
  intros H. unfold depthOf, channel_bits, channel_count in *. rewrite ihColours_spec. destruct (Nat.ltb_spec c (image_colours ih)).
  - replace (Z.of_nat (image_colours ih) <=? Z.of_nat c) with false by lia. reflexivity.
  - replace (Z.of_nat (image_colours ih) <=? Z.of_nat c) with true by lia. replace (Z.of_nat c - Z.of_nat (image_colours ih)) with (Z.of_nat (c - image_colours ih)) by lia.
    destruct (nth_error (ih_extra ih) (c - image_colours ih)) as [e|] eqn:En; [|apply nth_error_None in En; lia].
    unfold slice_get. replace (Z.of_nat (c - image_colours ih) <? 0) with false by lia. rewrite Nat2Z.id, En. reflexivity.
Qed.
Lemma depth_frame ih fh c : (c < channel_count ih)%nat -> depthOf ih (frColours ih fh) (Z.of_nat (source_channel ih fh c)) = Ok (channel_bits ih c).
Proof.
  intros H. unfold depthOf, channel_bits, channel_count, source_channel in *. rewrite frColours_spec. destruct (Nat.ltb_spec c (image_colours ih)).
  - replace (Z.of_nat (frame_colours ih fh) <=? _) with false; [reflexivity|]. symmetry. apply Z.leb_gt. destruct (Nat.eqb_spec (frame_colours ih fh) (image_colours ih)); [lia|].
    unfold frame_colours in *. destruct (ih_xyb ih), (fh_enc fh =? 0); lia.
  - replace (Z.of_nat (frame_colours ih fh) <=? _) with true by lia. replace (Z.of_nat (c - image_colours ih + frame_colours ih fh) - Z.of_nat (frame_colours ih fh)) with (Z.of_nat (c - image_colours ih)) by lia.
    destruct (nth_error (ih_extra ih) (c - image_colours ih)) as [e|] eqn:En; [|apply nth_error_None in En; lia].
    unfold slice_get. replace (Z.of_nat (c - image_colours ih) <? 0) with false by lia. rewrite Nat2Z.id, En. reflexivity.
Qed.
Lemma cast_converted h w b ib : int_channel h w ib -> 1 <= b <= 31 -> exists f, CastToFloatIfMax ib (depthMax b) = Ok f /\ converted h w b ib f.
Proof.
  intros Hi Hb. rewrite depthMax_bits by exact Hb. pose proof (Z.pow_le_mono_r 2 1 b ltac:(lia) ltac:(lia)). rewrite (castFloat_ok h w) by (exact Hi || lia). eexists. split; [reflexivity|]. split.
  - destruct Hi as (_ & H1 & H2 & _). repeat split; try assumption; apply rect_mat.
  - intros y x Hy Hx. cbn [ib_float]. rewrite px_mat by assumption. reflexivity.
Qed.
Theorem C90_conversion_partial : forall ih fh c h w h' w' cv fb, (c < channel_count ih)%nat -> 1 <= channel_bits ih c <= 31 ->
  let fc := frameChannel (ihColours ih) (frColours ih fh) (Z.of_nat c) in
  let conv := convertCanvas ih (ihColours ih) (frColours ih fh) (Z.of_nat c) fc cv fb in
  (int_channel h w cv -> float_channel h' w' fb -> exists cv', conv = Ok (cv', fb) /\ converted h w (channel_bits ih c) cv cv') /\
  (float_channel h w cv -> int_channel h' w' fb -> exists fb', conv = Ok (cv, fb') /\ converted h' w' (channel_bits ih c) fb fb') /\
  (ib_type cv = ib_type fb -> conv = Ok (cv, fb)).
Proof.
  intros ih fh c h w h' w' cv fb Hc Hb fc conv. subst fc conv. destruct (frameChannel_spec ih fh c Hc) as [-> _]. unfold convertCanvas.
  rewrite (depth_image _ _ Hc), (depth_frame _ fh _ Hc). cbn [obind]. split; [|split].
  - intros Hi Hf. destruct (cast_converted _ _ _ _ Hi Hb) as (f & Ef & Cf). pose proof Hi as (Ti & _). pose proof Hf as (Tf & _). rewrite (cast_float_id _ _ Tf). cbn [obind]. rewrite Ef. cbn [obind].
    rewrite Ti, Tf. cbn [TYPE_INT TYPE_FLOAT Z.eqb negb]. now exists f.
  - intros Hf Hi. destruct (cast_converted _ _ _ _ Hi Hb) as (f & Ef & Cf). pose proof Hi as (Ti & _). pose proof Hf as (Tf & _). rewrite Ef. cbn [obind]. rewrite (cast_float_id _ _ Tf). cbn [obind].
    rewrite Ti, Tf. cbn [TYPE_INT TYPE_FLOAT Z.eqb negb]. now exists f.
  - intros ->. rewrite Z.eqb_refl. reflexivity.
Qed.
Print Assumptions C90_conversion_partial.
(* the same before blending onto a saved frame: all three become float, unless
   the mode is add and saved frame and frame have the same type *)
Definition float_of (h w : nat) (bits : Z) (ib f : ImageBuffer) : Prop :=
  (int_channel h w ib -> converted h w bits ib f) /\ (float_channel h w ib -> f = ib).
Lemma cast_float_of h w b ib : channel h w ib -> 1 <= b <= 31 -> exists f, CastToFloatIfMax ib (depthMax b) = Ok f /\ float_of h w b ib f.
Proof.
  intros [Hi|Hf] Hb.
  - destruct (cast_converted _ _ _ _ Hi Hb) as (f & E & C). exists f. split; [exact E|]. split; [now intros _|]. intros (T & _). destruct Hi as (T' & _). rewrite T' in T. discriminate.
  - exists ib. destruct Hf as (T & Hf). split; [now apply cast_float_id|]. split; [|reflexivity]. intros (T' & _). rewrite T' in T. discriminate.
Qed.
Theorem C90_reference_conversion_partial : forall ih fh mode c h w h' w' cv ref fb, (c < channel_count ih)%nat -> 1 <= channel_bits ih c <= 31 ->
  channel h w cv -> channel h w ref -> channel h' w' fb ->
  let fc := frameChannel (ihColours ih) (frColours ih fh) (Z.of_nat c) in
  let conv := convertReference ih mode (ihColours ih) (frColours ih fh) (Z.of_nat c) fc cv ref fb in
  (mode = 1 -> ib_type ref = ib_type fb -> conv = Ok (cv, ref, fb)) /\
  (mode <> 1 \/ ib_type ref <> ib_type fb -> exists cv' ref' fb', conv = Ok (cv', ref', fb') /\
    float_of h w (channel_bits ih c) cv cv' /\ float_of h w (channel_bits ih c) ref ref' /\ float_of h' w' (channel_bits ih c) fb fb').
Proof.
  intros ih fh mode c h w h' w' cv ref fb Hc Hb H1 H2 H3 fc conv. subst fc conv. destruct (frameChannel_spec ih fh c Hc) as [-> _]. unfold convertReference.
  rewrite (depth_image _ _ Hc), (depth_frame _ fh _ Hc). cbn [obind]. split.
  - intros -> ->. rewrite Z.eqb_refl. reflexivity.
  - intros D. destruct (cast_float_of _ _ _ _ H1 Hb) as (a & -> & A). destruct (cast_float_of _ _ _ _ H2 Hb) as (b & -> & B). destruct (cast_float_of _ _ _ _ H3 Hb) as (d & -> & C). cbn [obind].
    replace (_ || _) with true by (unfold BLEND_ADD; lia). now exists a, b, d.
Qed.
Print Assumptions C90_reference_conversion_partial.
Example C90_conversion_ex : channel_bits ex_ih 0 = 8 /\ (0 < channel_count ex_ih)%nat /\
  (exists cv, convertCanvas ex_ih (ihColours ex_ih) 1 0 0 (ints 1 2 [[0; 255]]) (floats 1 1 [[F_ONE]]) = Ok (cv, floats 1 1 [[F_ONE]]) /\ ib_float cv = [[0; F_ONE]]) /\
  int_channel 1 2 (ints 1 2 [[0; 255]]) /\ float_channel 1 1 (floats 1 1 [[F_ONE]]).
Proof. split; [reflexivity|]. split; [cbn; lia|]. split; [eexists; split; vm_compute; reflexivity|]. split; repeat split; repeat constructor. Qed.

(* C90: the colour transform gets the first three channels as floats, of every
   frame of an XYB image and of YCbCr frames; other frames and other channels
   are not touched. *)
Definition with_floats (ib : ImageBuffer) (m : list (list Z)) : ImageBuffer := mkIB (ib_w ib) (ib_h ib) TYPE_FLOAT m (ib_int ib).
Theorem C90_transform_partial : forall ct ih fh h w x y z rest, 1 <= bd_bits (ih_bd ih) <= 31 -> channel h w x -> channel h w y -> channel h w z ->
  (ih_xyb ih = false -> fh_ycbcr fh = false -> performColourTransforms ct ih fh (x :: y :: z :: rest) = Ok (x :: y :: z :: rest)) /\
  (ih_xyb ih = true \/ fh_ycbcr fh = true -> exists x' y' z',
     float_of h w (bd_bits (ih_bd ih)) x x' /\ float_of h w (bd_bits (ih_bd ih)) y y' /\ float_of h w (bd_bits (ih_bd ih)) z z' /\
     performColourTransforms ct ih fh (x :: y :: z :: rest) =
     match ct (ib_float x') (ib_float y') (ib_float z') with
     | Ok (a, b, c) => Ok (with_floats x' a :: with_floats y' b :: with_floats z' c :: rest)
     | Err => Err
     | Panic => Panic
     end).
Proof.
  intros ct ih fh h w x y z rest Hb Hx Hy Hz. split.
  - intros E1 E2. unfold performColourTransforms. rewrite E1, E2. reflexivity.
  - intros D.
    assert (K : forall ib, channel h w ib -> exists f, (if IsInt ib then CastToFloatIfMax ib (depthMax (bd_bits (ih_bd ih))) else Ok ib) = Ok f /\ float_of h w (bd_bits (ih_bd ih)) ib f /\ ib_type f = TYPE_FLOAT).
    { intros ib Hi. destruct (cast_float_of _ _ _ _ Hi Hb) as (f & E & F). exists f. destruct Hi as [Hi|Hi].
      - pose proof Hi as (T & _). unfold IsInt. rewrite T. cbn [TYPE_INT Z.eqb]. split; [exact E|]. split; [exact F|]. destruct F as [F _]. specialize (F Hi). destruct F as [(T' & _) _]. exact T'.
      - pose proof Hi as (T & _). rewrite cast_float_id in E by exact T. injection E as <-. unfold IsInt. rewrite T. split; [reflexivity|]. split; [exact F|reflexivity]. }
    destruct (K x Hx) as (x' & Ex & Fx & Tx), (K y Hy) as (y' & Ey & Fy & Ty), (K z Hz) as (z' & Ez & Fz & Tz). exists x', y', z'. split; [exact Fx|]. split; [exact Fy|]. split; [exact Fz|].
    unfold performColourTransforms. replace (negb (ih_xyb ih) && negb (fh_ycbcr fh)) with false by (destruct D as [-> | ->]; [reflexivity|now rewrite andb_false_r]).
    unfold castColour. change (slice_get (x :: y :: z :: rest) 0) with (Ok x). cbn [obind]. rewrite Ex. cbn [obind].
    assert (S0 : forall a b c d, slice_set (a :: b :: c :: rest) 0 d = Ok (d :: b :: c :: rest)) by (intros; rewrite slice_set_ok by (cbn [length]; lia); reflexivity).
    assert (S1 : forall a b c d, slice_set (a :: b :: c :: rest) 1 d = Ok (a :: d :: c :: rest)) by (intros; rewrite slice_set_ok by (cbn [length]; lia); reflexivity).
    assert (S2 : forall a b c d, slice_set (a :: b :: c :: rest) 2 d = Ok (a :: b :: d :: rest)) by (intros; rewrite slice_set_ok by (cbn [length]; lia); reflexivity).
    assert (G0 : forall a b c, slice_get (a :: b :: c :: rest) 0 = Ok a) by (intros; reflexivity).
    assert (G1 : forall a b c, slice_get (a :: b :: c :: rest) 1 = Ok b) by (intros; reflexivity).
    assert (G2 : forall a b c, slice_get (a :: b :: c :: rest) 2 = Ok c) by (intros; reflexivity).
    rewrite S0. cbn [obind]. rewrite G1. cbn [obind]. rewrite Ey. cbn [obind]. rewrite S1. cbn [obind]. rewrite G2. cbn [obind]. rewrite Ez. cbn [obind]. rewrite S2. cbn [obind].
    rewrite G0, G1, G2. cbn [obind]. destruct (ct _ _ _) as [[[a b] c]| |]; cbn [obind fst snd]; try reflexivity.
    unfold setFloat. rewrite G0. cbn [obind]. rewrite S0. cbn [obind]. rewrite G1. cbn [obind]. rewrite S1. cbn [obind]. rewrite G2. cbn [obind]. rewrite S2, Tx, Ty, Tz. reflexivity.
Qed.
Print Assumptions C90_transform_partial.
(* a YCbCr frame with an extra channel; the transform turns the channels round *)
Example C90_transform_ex : bd_bits (ih_bd ex_ih) = 8 /\ channel 1 1 (floats 1 1 [[5]]) /\ channel 1 1 (ints 1 1 [[255]]) /\
  exists l, performColourTransforms (fun a b c => Ok (b, c, a)) ex_ih (fh_of 0 1 true 1 0 0 1 1 replace0 [] true 0 false)
    [floats 1 1 [[5]]; ints 1 1 [[255]]; floats 1 1 [[7]]; ints 1 1 [[9]]] = Ok l /\ map content l = [[[F_ONE]]; [[7]]; [[5]]; [[9]]].
Proof. split; [reflexivity|]. split; [right; repeat split; repeat constructor|]. split; [left; repeat split; repeat constructor|]. eexists. split; vm_compute; reflexivity. Qed.

(* C91: where decoding ends.  A successful run ends with the first frame that
   is marked as the last one and is not an LF frame; what follows is not read. *)
Lemma step_flag rv ih f st st' e : frameStep false rv ih f st = Ok (st', e) -> e = negb (fh_type (fi_h f) =? LF_FRAME) && fh_last (fi_h f).
Proof.
  unfold frameStep. intros E.
  repeat match type of E with
  | obind ?m _ = Ok _ => destruct m eqn:?; cbn [obind] in E; try discriminate
  | (if ?b then _ else _) = Ok _ => destruct b eqn:?; try discriminate
  | Ok _ = Ok _ => injection E as _ <-; cbn [negb andb]; try reflexivity
  end.
Qed.
Theorem C91_ends_at_last_frame : forall rv ih frames st st', frameLoop false rv ih frames st = Ok st' ->
  exists pre f post, frames = pre ++ f :: post /\ fh_last (fi_h f) = true /\ fh_type (fi_h f) <> LF_FRAME /\
    Forall (fun g => fh_type (fi_h g) = LF_FRAME \/ fh_last (fi_h g) = false) pre /\
    forall post', frameLoop false rv ih (pre ++ f :: post') st = Ok st'.
Proof.
  intros rv ih frames. induction frames as [|f t IH]; intros st st' E; [discriminate|]. cbn [frameLoop] in E.
  destruct (frameStep false rv ih f st) as [[st1 e]| |] eqn:Es; cbn [obind fst snd] in E; try discriminate. pose proof (step_flag _ _ _ _ _ _ Es) as Ee. destruct e.
  - injection E as <-. exists [], f, t. symmetry in Ee. apply andb_prop in Ee. destruct Ee as [E1 E2]. split; [reflexivity|]. split; [exact E2|]. split; [lia|]. split; [constructor|].
    intros post'. cbn [app frameLoop]. rewrite Es. reflexivity.
  - destruct (IH st1 st' E) as (pre & g & post & -> & G1 & G2 & G3 & G4). exists (f :: pre), g, post. split; [reflexivity|]. split; [exact G1|]. split; [exact G2|]. split.
    + constructor; [|exact G3]. destruct (fh_type (fi_h f) =? LF_FRAME) eqn:Et; [left; lia|right]. destruct (fh_last (fi_h f)); [discriminate|reflexivity].
    + intros post'. cbn [app frameLoop]. rewrite Es. cbn [obind fst snd]. apply G4.
Qed.
Print Assumptions C91_ends_at_last_frame.
Example C91_ex : exists st, frameLoop false false ex_ih ex_frames (initState ex_ih) = Ok st /\ length ex_frames = 2%nat.
Proof. eexists. split; [vm_compute; reflexivity|reflexivity]. Qed.
(* No error is passed over: when decoding succeeds, every frame up to the last
   one has a readable table of contents and decodes, and those that are shown
   could be upsampled and given noise and splines. *)
Definition frame_worked (g : FrameIn) : Prop :=
  fi_toc g = Ok tt /\ exists lf b, fi_decode g lf = Ok b /\
  (fh_type (fi_h g) <> LF_FRAME -> fi_extra g = Ok tt /\ exists b', fi_up g b = Ok b').
Lemma step_fine rv ih f st r : frameStep false rv ih f st = Ok r -> frame_worked f.
Proof.
  unfold frameStep. intros E. destruct (slice_get (d_lf st) _) as [lf| |]; cbn [obind] in E; try discriminate. destruct (_ && _) in E; [discriminate|].
  destruct (fi_toc f) as [[]| |] eqn:Et; cbn [obind] in E; try discriminate.
  destruct (fi_decode f (lfValue st lf)) as [b| |] eqn:Ed; cbn [obind] in E; try discriminate. split; [exact Et|]. exists (lfValue st lf), b. split; [exact Ed|].
  intros N. destruct (if 0 <? fh_lflevel (fi_h f) then _ else _) in E; cbn [obind] in E; try discriminate. replace (fh_type (fi_h f) =? LF_FRAME) with false in E by lia.
  assert (R : rd (alloc (d_mem st) b) (length (d_mem st)) = b) by (unfold rd, alloc; rewrite app_nth2 by lia; now rewrite Nat.sub_diag). rewrite R in E.
  destruct (fi_up f b) as [b'| |]; cbn [obind] in E; try discriminate. destruct (if negb (fh_last (fi_h f)) && _ then _ else _) in E; cbn [obind] in E; try discriminate.
  destruct (fi_extra f) as [[]| |]; cbn [obind] in E; try discriminate. split; [reflexivity|]. now exists b'.
Qed.
Theorem C91_no_error_skipped : forall rv ih frames st st', frameLoop false rv ih frames st = Ok st' ->
  exists pre f post, frames = pre ++ f :: post /\ fh_last (fi_h f) = true /\ fh_type (fi_h f) <> LF_FRAME /\ Forall frame_worked (pre ++ [f]).
Proof.
  intros rv ih frames. induction frames as [|f t IH]; intros st st' E; [discriminate|]. cbn [frameLoop] in E.
  destruct (frameStep false rv ih f st) as [[st1 e]| |] eqn:Es; cbn [obind fst snd] in E; try discriminate. pose proof (step_flag _ _ _ _ _ _ Es) as Ee. pose proof (step_fine _ _ _ _ _ Es) as Fe. destruct e.
  - exists [], f, t. symmetry in Ee. apply andb_prop in Ee. destruct Ee as [E1 E2]. split; [reflexivity|]. split; [exact E2|]. split; [lia|]. constructor; [exact Fe|constructor].
  - destruct (IH st1 st' E) as (pre & g & post & -> & G1 & G2 & G3). exists (f :: pre), g, post. split; [reflexivity|]. split; [exact G1|]. split; [exact G2|]. constructor; assumption.
Qed.
Print Assumptions C91_no_error_skipped.
(* the second frame of C91_ex does not decode *)
Example C91_error_example : frameLoop false false ex_ih [nth 0 ex_frames (fi_of (fh_of 0 1 false 1 0 0 3 2 replace0 [] false 1 false) []);
    mkFI (fh_of 0 1 false 1 0 0 3 2 replace0 [] true 1 false) (Ok tt) (Ok tt) (fun _ => Err) (fun b => Ok b) (Ok tt) (fun x y z => Ok (x, y, z))] (initState ex_ih) = Err.
Proof. vm_compute. reflexivity. Qed.
(* With ParseOnly the loop is left only by an error: no stream is accepted. *)
Theorem C91_parse_only_refuted : forall rv ih frames st st', frameLoop true rv ih frames st <> Ok st'.
Proof.
  intros rv ih frames. induction frames as [|f t IH]; intros st st'; [discriminate|]. cbn [frameLoop]. unfold frameStep.
  destruct (slice_get _ _); cbn [obind]; try discriminate. destruct (_ && _); [discriminate|]. destruct (fi_toc f); cbn [obind]; try discriminate.
  destruct (fi_skip f); cbn [obind fst snd]; try discriminate. apply IH.
Qed.
Print Assumptions C91_parse_only_refuted.
(* With several boxes the frames are read from the second one only: neither
   the rest of the first box nor any later box is looked at. *)
Theorem C91_boxes_refuted : forall po rv ih a a' b rest rest', decodeBoxes po rv ih (a :: b :: rest) = decodeBoxes po rv ih (a' :: b :: rest').
Proof.
  intros. unfold decodeBoxes. replace (1 <? Z.of_nat (length (a :: b :: rest))) with true by (cbn [length]; lia).
  replace (1 <? Z.of_nat (length (a' :: b :: rest'))) with true by (cbn [length]; lia). reflexivity.
Qed.
Print Assumptions C91_boxes_refuted.
(* the frame of the first of two boxes is lost, and a stream whose last frame
   is in the third box is an error *)
Example C91_boxes_ex : decodeBoxes false false ex_ih [mkBx false ex_frames (Ok tt); mkBx true [] (Ok tt)] = Ok None /\
  decodeBoxes false false ex_ih [mkBx false [] (Ok tt); mkBx false (firstn 1 ex_frames) (Ok tt); mkBx false (skipn 1 ex_frames) (Ok tt)] = Err /\
  exists l, decodeBoxes false false ex_ih [mkBx false ex_frames (Ok tt)] = Ok (Some l).
Proof. split; [vm_compute; reflexivity|]. split; [vm_compute; reflexivity|]. eexists. vm_compute. reflexivity. Qed.
