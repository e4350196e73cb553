(* Theorems about modular streams: the header, the layout of the channels and
   the transforms taken together. *)
From Coq Require Import ZArith List Bool Lia Arith.
From Verif Require Import GoBase GoLoop GoMatrix Bits ModelBitReader SpecBitReader SpecCodes SpecGrammar ModelUtil ModelHeader SpecHeader
  ModelEntropy ModelMATree ModelModular ModelModStream SpecFrameHeader SpecModular SpecPalette SpecModStream.
From Verif Require Import ProofGrammar ProofPalette ProofModStream ProofModStream2 ProofModStream3 ProofModStream4 ProofUtil.
Import ListNotations.
Open Scope Z_scope.

(* ---- C71: the header ---- *)
(* The reader accepts exactly the bit strings of the grammar in the dialect
   of the decoder, and never panics. *)
Theorem C71_modular_header_partial : exact readModularHeader (modular_code mimplemented).
Proof. exact exact_modular. Qed.
Print Assumptions C71_modular_header_partial.

(* Headers of the standard without explicit squeeze parameters are read to
   their values.  Conversely what the decoder reads without explicit squeeze
   parameters is a header of the standard when the transforms are of the
   kinds and types the standard knows. *)
Theorem C71_standard_headers_partial : forall c g w l, Forall (fun t => ti_sp t = []) l ->
  (modular_code mstandard c (g, w, l) -> reads readModularHeader c (g, w, l)) /\
  (modular_code mimplemented c (g, w, l) -> Forall (fun t => ti_tr t <= 2 /\ ti_rctType t < 42) l -> modular_code mstandard c (g, w, l)).
Proof.
  intros c g w l F. pose proof (modular_iff c g w l F) as I. split.
  - intros H. apply exact_modular. apply I, H.
  - intros H1 H2. apply I. auto.
Qed.
Print Assumptions C71_standard_headers_partial.

Lemma seq_i {A B} (R : code A) (S : A -> code B) c1 c2 v w : R c1 v -> S v c2 w -> c_seq R S (c1 ++ c2) w.
Proof. intros H1 H2. exists c1, c2, v. auto. Qed.
Lemma u32_i c0 n0 c1 n1 c2 n2 c3 n3 i x : (i < 4)%nat -> 0 <= x < 2 ^ Z.of_nat (nth i [n0; n1; n2; n3] O) ->
  c_u32 c0 n0 c1 n1 c2 n2 c3 n3 (zbits 2 (Z.of_nat i) ++ zbits (nth i [n0; n1; n2; n3] O) x) (nth i [c0; c1; c2; c3] 0 + x).
Proof. intros H1 H2. exists i, x. cbv zeta. auto. Qed.
Lemma fixed_i n v : 0 <= v < 2 ^ Z.of_nat n -> c_fixed n (zbits n v) v.
Proof. split; auto. Qed.
Lemma ret_i {A} (v : A) : c_ret v [] v.
Proof. split; reflexivity. Qed.
Ltac side := vm_compute; first [reflexivity | split; [discriminate|reflexivity] | lia].
Ltac B b := eapply seq_i; [apply (eq_refl : c_bool [b] b)|]; cbv beta.
Ltac F v := eapply seq_i; [apply (fixed_i _ v); side|]; cbv beta.
Ltac U i x := eapply seq_i; [apply (u32_i _ _ _ _ _ _ _ _ i x); [lia|side]|]; cbv beta.
Ltac N := eapply seq_i; [apply ret_i|]; cbv beta.
Ltac one := match goal with |- c_list (Z.to_nat ?e) _ _ _ => let n := eval vm_compute in (Z.to_nat e) in change (Z.to_nat e) with n end; cbn [c_list].

(* one squeeze: horizontal, in place, one channel from channel 0 on *)
Definition sq_bits : list bool := firstn 21 (flat_map (fun b => zbits 8 b) [103; 48; 0]).
Definition sq_header := (true, mkWP 16 10 7 7 7 0 0 [13; 12; 12; 12], [mkTI 2 0 0 0 0 0 0 [mkSP true true 0 1]]).
Lemma sq_standard : modular_code mstandard sq_bits sq_header.
Proof.
  assert (H : exists c v, modular_code mstandard c v /\ c = sq_bits /\ v = sq_header).
  { do 2 eexists. split; [|split].
    - unfold modular_code. B true. eapply seq_i; [unfold wp_code; B true; apply ret_i|]. cbv beta. U 1%nat 0.
      eapply seq_i; [|apply ret_i]. one. eapply seq_i; [|N; apply ret_i].
      unfold transform_code. F 2. split; [cbn; lia|]. cbn [c_when negb Z.eqb Pos.eqb]. N. N. split; [cbn; lia|]. N. N. N. N.
      eapply seq_i; [|apply ret_i]. U 1%nat 0. one. eapply seq_i; [|N; apply ret_i].
      unfold squeeze_code. B true. B true. cbn [md_begin md_num mstandard]. unfold channel_code. U 0%nat 0. U 0%nat 0. apply ret_i.
    - reflexivity.
    - reflexivity. }
  destruct H as (c & v & H & -> & ->). exact H.
Qed.
Lemma start_at d : Forall is_byte d -> reader_at (NewBitStreamReader d) d 0.
Proof. intros H. unfold reader_at, NewBitStreamReader, is_byte. cbn. repeat split; auto; try lia. Qed.
(* Finding: the fields of explicit squeeze parameters are read with offsets
   for lengths and lengths for offsets.  A header with one squeeze of channel
   0 is read as a squeeze of no channels from channel 3 on, and three bits
   too many are consumed. *)
Theorem C71_squeeze_parameters_refuted :
  modular_code mstandard sq_bits sq_header /\ ~ reads readModularHeader sq_bits sq_header /\
  exists s', readModularHeader (NewBitStreamReader [103; 48; 0; 0]) =
    (Ok (true, mkWP 16 10 7 7 7 0 0 [13; 12; 12; 12], [mkTI 2 0 0 0 0 0 0 [mkSP true true 3 0]]), s').
Proof.
  split; [exact sq_standard|]. split; [|eexists; vm_compute; reflexivity]. intros H.
  destruct (H (NewBitStreamReader [103; 48; 0; 0]) [103; 48; 0; 0] O) as (s' & E & R).
  - apply start_at. repeat constructor; unfold is_byte; lia.
  - split; [vm_compute; lia|]. change (length sq_bits) with 21%nat. intros i Hi. do 21 (destruct i as [|i]; [reflexivity|]). lia.
  - apply (f_equal fst) in E. vm_compute in E. discriminate.
Qed.
Print Assumptions C71_squeeze_parameters_refuted.
(* Finding: the start of an explicit squeeze is never 1 or 2, and it is an
   error to use the selector for the largest starts. *)
Theorem C71_squeeze_start_refuted : forall c v, squeeze_code mimplemented c v ->
  firstn 2 (skipn 2 c) <> [true; true] /\ (sp_beginC v < 3 -> firstn 2 (skipn 2 c) = [false; true]).
Proof.
  intros c v (a & b & h & -> & -> & a1 & b1 & i & -> & -> & a2 & b2 & st & -> & [(k & x & Hk & Hx & -> & ->) N] & a3 & b3 & n & -> & H3 & -> & ->).
  cbn [app skipn sp_beginC] in *. do 4 (destruct k as [|k]; [cbn [nth] in *; split; [try (vm_compute; discriminate)|intros; try lia; try reflexivity]|]); try lia.
  all: exfalso; apply N; reflexivity.
Qed.
Print Assumptions C71_squeeze_start_refuted.

(* a header with a colour transform (type 6, from channel 0) and a squeeze
   with the default parameters *)
Example C71_example : modular_code mstandard
  ([false; true] ++ zbits 2 2 ++ zbits 4 0 ++ (zbits 2 0 ++ zbits 2 0 ++ zbits 3 0 ++ zbits 2 0) ++ zbits 2 2 ++ zbits 2 0)
  (false, mkWP 16 10 7 7 7 0 0 [13; 12; 12; 12], [mkTI 0 0 6 0 0 0 0 []; mkTI 2 0 0 0 0 0 0 []]).
Proof.
  assert (H : exists c v, modular_code mstandard c v /\
    c = ([false; true] ++ zbits 2 2 ++ zbits 4 0 ++ (zbits 2 0 ++ zbits 2 0 ++ zbits 3 0 ++ zbits 2 0) ++ zbits 2 2 ++ zbits 2 0) /\
    v = (false, mkWP 16 10 7 7 7 0 0 [13; 12; 12; 12], [mkTI 0 0 6 0 0 0 0 []; mkTI 2 0 0 0 0 0 0 []])).
  { do 2 eexists. split; [|split].
    - unfold modular_code. B false. eapply seq_i; [unfold wp_code; B true; apply ret_i|]. cbv beta. U 2%nat 0.
      eapply seq_i; [|apply ret_i]. one. eapply seq_i.
      { unfold transform_code. F 0. split; [cbn; lia|]. cbn [c_when negb Z.eqb Pos.eqb]. unfold channel_code. U 0%nat 0. U 0%nat 0. split; [cbn; lia|]. N. N. N. N. N. apply ret_i. }
      cbv beta. eapply seq_i; [|apply ret_i]. eapply seq_i; [|N; apply ret_i].
      unfold transform_code. F 2. split; [cbn; lia|]. cbn [c_when negb Z.eqb Pos.eqb]. N. N. split; [cbn; lia|]. N. N. N. N.
      eapply seq_i; [|apply ret_i]. U 0%nat 0. one. apply ret_i.
    - reflexivity.
    - reflexivity. }
  destruct H as (c & v & H & -> & ->). exact H.
Qed.

(* ---- C72: the layout of the channels ---- *)
(* For any image and transforms of it: from channels of the sizes of the
   image the decoder derives channels of the sizes of the transformed image,
   the number of meta channels and the squeezes a default list stands for.
   Missing: default squeezes when the first channel is not of the size of the
   first one that is no meta channel (see below), palettes with the weighted
   predictor. *)
Theorem C72_layout_partial : forall depth behind delta l meta P meta' Q chs,
  encoded depth behind first_like_meta delta l (meta, P) (meta', Q) -> Forall2 laid chs P ->
  exists chs', metaTransforms (map fst l) (Z.of_nat meta, chs) = Ok ((Z.of_nat meta', chs'), map snd l) /\ Forall2 laid chs' Q.
Proof.
  intros depth behind delta l meta P meta' Q chs E F.
  exact (meta_ok depth behind first_like_meta delta (fun _ _ H => H) l (meta, P) (meta', Q) E chs F).
Qed.
Print Assumptions C72_layout_partial.

(* The list operation of the model is that of the code. *)
Theorem C72_insert : forall A pad (s : GoSlice A) p e, sl_ok s -> (p <= sl_len s)%nat ->
  exists s', AddToSlice pad s (Z.of_nat p) e = Ok s' /\ insertAt (contents s) (Z.of_nat p) e = Ok (contents s').
Proof. intros A. exact insertAt_AddToSlice. Qed.
Print Assumptions C72_insert.

(* Finding: the default squeeze takes the size of channel 0, also when that
   is a palette.  Three channels of 20x20 become a palette of one colour and
   indices of 20x20; the standard squeezes those to 5x5, the decoder not at
   all. *)
Theorem C72_default_after_palette_refuted :
  let t := mkTI 1 0 0 3 1 0 0 [] in
  let P := [mkPl 3 1 (-1) (-1) [[0]; [0]; [0]]; mkPl 20 20 0 0 (mat 20 20 (fun _ _ => 0))] in
  exists chs, metaPalette t (0, repeat (newChan 20 20 0 0 false) 3) = Ok (1, chs) /\ Forall2 laid chs P /\
    defaultSqueezeList 1 chs = Ok [] /\
    default_squeezes 1 P [mkSP false true 1 1; mkSP true true 1 1; mkSP false true 1 1; mkSP true true 1 1].
Proof.
  cbv zeta. eexists. split; [reflexivity|]. split; [|split; [vm_compute; reflexivity|]].
  - constructor; [repeat split|]. constructor; [repeat split|]. constructor.
  - split; [cbn; lia|]. cbv zeta. cbn [nth Nat.add p_w p_h]. eexists. split; [reflexivity|].
    change (Z.of_nat 20) with 20. change ((20 <=? 20) && (8 <? 20)) with true. cbv iota.
    eexists. split; [reflexivity|]. change ((20 + 1) / 2) with 10. change (Z.of_nat 1) with 1. change (Z.of_nat _ - 1) with 1.
    apply RoundsWH; [lia|lia|]. change ((20 + 1) / 2) with 10. change ((10 + 1) / 2) with 5. apply RoundsW; [lia|lia|]. change ((10 + 1) / 2) with 5. apply RoundsEnd; lia.
Qed.
Print Assumptions C72_default_after_palette_refuted.

(* Finding: transforms of channels that do not exist are not rejected but
   crash the decoder: a palette, a squeeze, a default squeeze. *)
Theorem C72_missing_channels_refuted :
  (forall h w, metaTransforms [mkTI 1 0 0 3 1 0 0 []] (0, [newChan h w 0 0 false]) = Panic) /\
  (forall h w b, 0 < b -> metaTransforms [mkTI 2 0 0 0 0 0 0 [mkSP true true b 1]] (0, [newChan h w 0 0 false]) = Panic).
Proof.
  split; [intros h w; reflexivity|]. intros h w b Hb. cbn [metaTransforms ti_tr ti_sp Z.eqb Pos.eqb fst snd PALETTE SQUEEZE obind metaSqueezes].
  unfold metaSqueezeStep. cbn [sp_beginC sp_numC sp_inPlace sp_horizontal]. replace (b <? 0) with false by (symmetry; apply Z.ltb_ge; lia).
  change (Z.to_nat 1) with 1%nat. cbn [obind oloop]. rewrite slice_get_panic by (right; cbn; lia). reflexivity.
Qed.
Print Assumptions C72_missing_channels_refuted.

(* Finding: an extra channel with a dimension shift is given the size of the
   frame instead of the shifted one. *)
Theorem C72_shifted_channel_refuted : forall h w s, 0 <= h < 2 ^ 31 -> 0 <= w < 2 ^ 31 ->
  exists c, initialChannel h w 3 [s] 3 = Ok c /\ c_height c = h /\ c_width c = w /\ c_hshift c = s /\ c_vshift c = s.
Proof.
  intros h w s Hh Hw. eexists. split; [reflexivity|]. unfold newChan. cbn [c_height c_width c_hshift c_vshift].
  rewrite !ProofCodes.i32_small, !ProofCodes.u32_small by lia. auto.
Qed.
Print Assumptions C72_shifted_channel_refuted.

(* ---- C73: all transforms undone ---- *)
(* For any image whose channels are transformed by any sequence of colour
   transforms, squeezes and palettes: from channels with the samples of the
   transformed image the decoder gets back channels with the samples, sizes
   and shifts of the image.  Missing: palettes followed by further channels
   (C57), palettes with delta entries or the weighted predictor, squeezes of
   empty channels or of samples of 2^28 or more. *)
Theorem C73_transforms_undone_partial : forall depth default l meta P meta' Q chs, 3 <= depth <= 24 ->
  encoded depth (eq []) default deltaTable l (meta, P) (meta', Q) -> Forall2 shows chs Q ->
  exists chs', applyTransforms depth l chs = Ok chs' /\ Forall2 shows chs' P.
Proof.
  intros depth default l meta P meta' Q chs Hd E F.
  exact (apply_ok depth (eq []) default (fun P H => eq_sym H) Hd l (meta, P) (meta', Q) E chs F).
Qed.
Print Assumptions C73_transforms_undone_partial.

(* Finding: the colour transforms 42 to 73, which the header can hold, crash
   the decoder instead of being rejected. *)
Theorem C73_rct_type_refuted : forall rt, 42 <= rt <= 73 ->
  let c := set_buf (newChan 1 1 0 0 false) [[5]] in
  (exists b v, transform_code mimplemented b v /\ ti_tr v = 0 /\ ti_rctType v = rt) /\
  applyTransforms 8 [(mkTI 0 0 rt 0 0 0 0 [], [])] [c; c; c] = Panic.
Proof.
  intros rt Hr. cbv zeta. split.
  - do 2 eexists. split; [|split].
    + unfold transform_code. F 0. split; [exact I|]. cbn [c_when negb Z.eqb Pos.eqb]. unfold channel_code. U 0%nat 0.
      eapply seq_i; [apply (u32_i _ _ _ _ _ _ _ _ 3 (rt - 10)); [lia|cbn [nth]; change (2 ^ Z.of_nat 6) with 64; lia]|]. cbv beta. split; [exact I|]. N. N. N. N. N. apply ret_i.
    + reflexivity.
    + cbn [ti_rctType nth]. lia.
  - replace rt with (42 + Z.of_nat (Z.to_nat (rt - 42))) by lia. assert (H : (Z.to_nat (rt - 42) < 32)%nat) by lia. revert H. generalize (Z.to_nat (rt - 42)). intros n H.
    do 32 (destruct n as [|n]; [vm_compute; reflexivity|]). lia.
Qed.
Print Assumptions C73_rct_type_refuted.

(* A 1x3 image of three channels: a colour transform (second permutation,
   both differences), then the default squeeze, which halves the two chroma
   channels both ways and leaves empty residuals. *)
Definition ex_planes : list Plane := [mkPl 1 3 0 0 [[10; 20; 30]]; mkPl 1 3 0 0 [[7; 0; 255]]; mkPl 1 3 0 0 [[1; 2; 9]]].
Definition ex_list : list (TransformInfo * list SqueezeParam) :=
  [(mkTI 0 0 10 0 0 0 0 [], []); (mkTI 2 0 0 0 0 0 0 [], [mkSP true false 1 2; mkSP false false 1 2])].
Definition ex_result : list Plane :=
  [mkPl 1 3 0 0 [[7; 0; 255]]; mkPl 1 2 1 1 [[-2; -246]]; mkPl 1 2 1 1 [[11; -225]]; mkPl 1 1 0 1 [[-9]]; mkPl 1 1 0 1 [[-18]];
   mkPl 0 2 1 1 []; mkPl 0 2 1 1 []].
Lemma ex_encoded : encoded 8 (eq []) first_like_meta deltaTable ex_list (0%nat, ex_planes) (0%nat, ex_result).
Proof.
  assert (H : exists s, encoded 8 (eq []) first_like_meta deltaTable ex_list (0%nat, ex_planes) s /\ s = (0%nat, ex_result)).
  { eexists. split.
    - eapply EncStep.
      + cbn [snd ex_planes]. repeat (constructor; [repeat split; try (cbn; lia); repeat constructor|]). constructor.
      + eapply (ByRct 8 (eq []) first_like_meta deltaTable (mkTI 0 0 10 0 0 0 0 []) 0%nat [] (fun j => nth (Z.to_nat j) ex_planes blankPlane) []); [reflexivity|reflexivity|cbn; lia|].
        intros j Hj. assert (j = 0 \/ j = 1 \/ j = 2) as [->|[->| ->]] by lia; (repeat split; [repeat constructor|repeat constructor; vm_compute; discriminate || reflexivity]).
      + eapply EncStep.
        * cbn [snd app]. repeat (constructor; [split; [apply rect_mat|split; cbn; lia]|]). constructor.
        * eapply BySqueeze; [reflexivity| |intros X; now elim X|].
          -- eapply SqOne; [apply (Squeezed (mkSP true false 1 2) 0 [_] [_; _] [])|eapply SqOne; [apply (Squeezed (mkSP false false 1 2) 0 [_] [_; _] [_; _])|apply SqNone]].
             all: try reflexivity; try (cbn [length]; lia).
             all: repeat (constructor; [cbn [p_h p_w low]; split; [vm_compute; lia|split; [vm_compute; lia|repeat constructor; vm_compute; discriminate]]|]); constructor.
          -- intros _. split; [|split; reflexivity]. split; [cbn; lia|]. cbv zeta. exists []. split; [reflexivity|].
             apply RoundsEnd; vm_compute; discriminate.
        * apply EncNone.
    - vm_compute. reflexivity. }
  destruct H as (s & H & ->). exact H.
Qed.
Definition chan_of (p : Plane) : Chan := mkChan (Z.of_nat (p_h p)) (Z.of_nat (p_w p)) (p_vs p) (p_hs p) false (p_px p) true [].
Example C72_example : encoded 8 (eq []) first_like_meta deltaTable ex_list (0%nat, ex_planes) (0%nat, ex_result) /\
  let blank := newChan 1 3 0 0 false in
  match metaTransforms (map fst ex_list) (0, [blank; blank; blank]) with
  | Ok ((0, chs), sq) => map (fun c => (c_height c, c_width c, c_vshift c, c_hshift c)) chs =
      [(1, 3, 0, 0); (1, 2, 1, 1); (1, 2, 1, 1); (1, 1, 0, 1); (1, 1, 0, 1); (0, 2, 1, 1); (0, 2, 1, 1)] /\ sq = map snd ex_list
  | _ => False
  end.
Proof. split; [exact ex_encoded|]. vm_compute. split; reflexivity. Qed.
Example C73_example : Forall2 shows (map chan_of ex_result) ex_result /\
  omap (map c_buf) (applyTransforms 8 ex_list (map chan_of ex_result)) = Ok [[[10; 20; 30]]; [[7; 0; 255]]; [[1; 2; 9]]].
Proof. split; [repeat (constructor; [repeat split; left; reflexivity|]); constructor|vm_compute; reflexivity]. Qed.
