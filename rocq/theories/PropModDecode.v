(* Properties of whole modular streams: C98. *)
From Coq Require Import ZArith List Bool Lia ZifyBool ZifyNat.
From Verif Require Import GoBase GoLoop GoMatrix Bits ModelBitReader ModelUtil ModelEntropy ModelMATree ModelModular ModelModStream ModelModDecode.
From Verif Require Import SpecCodes SpecBitReader SpecHeader SpecFrameHeader SpecGrammar SpecEntropy SpecDist SpecPrefix SpecLZ SpecStream SpecSymbols SpecMATree SpecTreeCode SpecModular SpecPalette SpecChannel SpecModStream SpecModDecode.
From Verif Require Import ProofReads ProofCodes ProofSymbols ProofModStream3 ProofModDecode PropStream PropSymbols PropTreeCode PropModStream.
Import ListNotations.
Open Scope Z_scope.

(* ---- C98: modular streams from bits to samples ---- *)
(* The tree of the frame is the one that was sent. *)
Definition frame_tree (gd : option (list Node * ES)) (global : option (list Node * header)) : Prop :=
  match global with
  | Some (nodes, h) => exists e c, gd = Some (nodes, e) /\ stream_of h e /\ tree_sent nodes h c
  | None => True
  end.

Lemma stream_ok gd global stream l depth behind delta P meta Q chs (partial : bool) now later dim c s d p :
  0 <= stream < 2 ^ 31 -> P <> [] ->
  encoded depth behind first_like_meta delta l (0%nat, P) (meta, Q) -> Forall (fun t => ti_sp t = []) (map fst l) ->
  Forall good_plane Q -> Z.of_nat (length Q) < 2 ^ 28 -> Forall2 laid chs P ->
  Q = now ++ later -> (if partial then global_part meta dim now later else later = []) -> 0 <= dim < 2 ^ 32 ->
  modular_bits global stream (widest Q) (map fst l) now c -> frame_tree gd global ->
  reader_at s d p -> bits_at d p c -> (p + length c + 15 <= 8 * length d)%nat ->
  exists ms s1 chs1 chs2 s', NewModularStream gd chs s = (Ok ms, s1) /\
    decodeChannels depth dim stream partial ms s1 = ((if partial then Ok (chs1 ++ chs2) else applyTransforms depth l (chs1 ++ chs2)), s') /\
    Forall2 shows chs1 now /\ Forall2 laid chs2 later /\ reader_at s' d (p + length c) /\ ms_transforms ms = l /\ Forall (fun c => c_decoded c = true) chs1.
Proof.
  intros Hs HP HE Hsp HQ HN HL EQ Hpart Hdim (hc & wp & g & tc & nodes & h & values & sc & x & Hh & Htree & Hps & Hv & Hm & Hsym & Hx & ->) Hgd Hr Hb Hk.
  apply bits_at_app in Hb. destruct Hb as [Hb1 Hb]. apply bits_at_app in Hb. destruct Hb as [Hb2 Hb3]. rewrite !app_length in Hk.
  destruct (proj1 (C71_standard_headers_partial hc g wp (map fst l) Hsp) Hh s d p Hr Hb1) as (s1 & E1 & R1).
  destruct (C72_layout_partial depth behind delta l 0 P meta Q chs HE HL) as (chs' & E2 & L2). change (Z.of_nat 0) with 0 in E2.
  assert (T : exists s2 e, (if g then match gd with Some t => rret t | None => rpanic end else NewMATreeWithReader) s1 = (Ok (nodes, e), s2) /\
    reader_at s2 d (p + length hc + length tc) /\ stream_of h e /\ exists tc', tree_sent nodes h tc').
  { destruct g.
    - destruct Htree as [-> ->]. destruct Hgd as (e & tc' & -> & He & Ht). exists s1, e. split; [reflexivity|]. cbn [length]. rewrite Nat.add_0_r. split; [exact R1|]. split; [exact He|]. exists tc'. exact Ht.
    - destruct (C97_tree_partial nodes h tc) as (e & He & _ & Re); [apply Htree|apply Htree|apply Htree|].
      destruct (Re s1 d _ R1 Hb2 ltac:(lia)) as (s2 & E & R2). exists s2, e. split; [exact E|]. split; [exact R2|]. split; [exact He|]. exists tc. exact Htree. }
  destruct T as (s2 & e & E3 & R2 & He & tc' & Ht).
  pose proof (tree_sent_fine _ _ _ Ht) as HT. pose proof Ht as (_ & _ & Hd & l6 & c6 & c7 & _ & _ & Hhd & _).
  destruct (C83_restart h e He) as (He' & Hf & _).
  assert (Ha : (ahead h <= 15)%nat) by (unfold ahead; destruct (hd_codes h); lia).
  destruct (C96_values_partial h (widest Q) (NewEntropyStreamWithStream e) values sc x s2 d (p + length hc + length tc) (header_proper _ _ _ _ _ (good_map_code 2) Hhd Hd) He' Hf
    (fun N => or_intror (Hm N)) Hsym Hv R2 Hb3 ltac:(lia)) as (ss & S0 & S1 & S2 & S3).
  assert (Ew : i32 (maxWidth chs') = widest Q).
  { rewrite (maxWidth_ok chs' Q L2). apply i32_small. assert (B : forall R, Forall good_plane R -> 0 <= widest R < 2 ^ 31).
    { clear. intros R H. induction H as [|q t (_ & _ & G) F IH]; unfold widest in *; cbn [map fold_right]; lia. } specialize (B Q HQ). lia. }
  subst Q. apply Forall2_app_inv_r in L2 as (cn & cl & Ln & Ll & ->). apply Forall_app in HQ as [HQ1 HQ2]. rewrite app_length in HN.
  destruct (decode_loop wp nodes partial dim meta stream (widest (now ++ later)) HT (modular_fields _ _ _ _ _ Hh) Hs now cn [] [] later cl values ss (Forall2_nil _) Ln Ll HQ1 Hps S1) as (done & D & F).
  { cbn [length]. lia. }
  { destruct partial; exact Hpart. }
  eexists. exists s2, done, cl, (snd (ss (length values))). split; [|split; [|split; [|split; [exact Ll|split; [|split]]]]].
  - unfold NewModularStream. destruct chs as [|c0 chs]; [inversion HL; congruence|].
    unfold rbind at 1. rewrite E1. cbv beta iota. unfold rbind at 1, rlift at 1. rewrite E2. unfold rbind at 1. rewrite E3. unfold rret. reflexivity.
  - unfold decodeChannels. cbn [ms_stream ms_wp ms_tree ms_nbMeta ms_distMultiplier ms_channels ms_transforms fst snd]. rewrite Ew, <- S0.
    replace (u32 dim) with dim by (symmetry; unfold u32; apply Z.mod_small; lia). rewrite D. rewrite (surjective_pairing (ss (length values))). cbn [fst snd]. rewrite S3.
    replace (match ss_x x with Some n => n =? 1245184 | None => true end) with true by (destruct Hx as [-> | ->]; reflexivity). cbn [negb]. rewrite combine_split_map. destruct partial; reflexivity.
  - clear - F. cbn [app] in F. induction F as [|a b t u [H _] F IH]; constructor; assumption.
  - rewrite !app_length, !Nat.add_assoc. exact S2.
  - cbn [ms_transforms]. apply combine_split_map.
  - clear - F. cbn [app] in F. induction F as [|a b t u (_ & _ & _ & H) F IH]; constructor; assumption.
Qed.

(* Any image, transformed in any way and with its tree and samples sent in
   any way, comes out as it was.  Missing: explicit squeezes (C71), rows of
   less than 8 samples with LZ77 (C22) and what C73, C92, C96 and C97 leave
   out. *)
Theorem C98_image_partial : forall gd global stream l depth P meta Q chs dim c s d p,
  3 <= depth <= 24 -> 0 <= stream < 2 ^ 31 -> 0 <= dim < 2 ^ 32 -> P <> [] ->
  encoded depth (eq []) first_like_meta deltaTable l (0%nat, P) (meta, Q) -> Forall (fun t => ti_sp t = []) (map fst l) ->
  Forall good_plane Q -> Z.of_nat (length Q) < 2 ^ 28 -> Forall2 laid chs P ->
  modular_bits global stream (widest Q) (map fst l) Q c -> frame_tree gd global ->
  reader_at s d p -> bits_at d p c -> (p + length c + 15 <= 8 * length d)%nat ->
  exists chs' s', decodeModular gd depth dim stream chs s = (Ok chs', s') /\ Forall2 shows chs' P /\ reader_at s' d (p + length c).
Proof.
  intros gd global stream l depth P meta Q chs dim c s d p Hdep Hs Hdim HP HE Hsp HQ HN HL Hbits Hgd Hr Hb Hk.
  destruct (stream_ok gd global stream l depth (eq []) deltaTable P meta Q chs false Q [] dim c s d p) as (ms & s1 & chs1 & chs2 & s' & E1 & E2 & F1 & F2 & R & _); try assumption; [rewrite app_nil_r; reflexivity|reflexivity|].
  inversion F2. subst chs2. rewrite app_nil_r in E2.
  destruct (C73_transforms_undone_partial depth _ l 0 P meta Q chs1 Hdep HE F1) as (chs' & E3 & F3).
  exists chs', s'. split; [|split; [exact F3|exact R]]. unfold decodeModular, rbind. rewrite E1, E2, E3. reflexivity.
Qed.
Print Assumptions C98_image_partial.

(* The global stream: the channels up to the first one larger than a group
   are decoded, the others left as they are.  The rows that copies refer to
   are as long as the widest of all channels (see below). *)
Theorem C98_global_partial : forall gd global stream l depth P meta now later chs dim c s d p,
  0 <= stream < 2 ^ 31 -> 0 <= dim < 2 ^ 32 -> P <> [] ->
  encoded depth (eq []) first_like_meta deltaTable l (0%nat, P) (meta, now ++ later) -> Forall (fun t => ti_sp t = []) (map fst l) ->
  Forall good_plane (now ++ later) -> Z.of_nat (length (now ++ later)) < 2 ^ 28 -> Forall2 laid chs P -> global_part meta dim now later ->
  modular_bits global stream (widest (now ++ later)) (map fst l) now c -> frame_tree gd global ->
  reader_at s d p -> bits_at d p c -> (p + length c + 15 <= 8 * length d)%nat ->
  exists ms s1 chs1 chs2 s', NewModularStream gd chs s = (Ok ms, s1) /\ decodeChannels depth dim stream true ms s1 = (Ok (chs1 ++ chs2), s') /\
    Forall2 shows chs1 now /\ Forall2 laid chs2 later /\ reader_at s' d (p + length c) /\
    (* if there are no others, the transforms give the image *)
    (later = [] -> 3 <= depth <= 24 -> exists chs', applyTransforms depth (ms_transforms ms) (chs1 ++ chs2) = Ok chs' /\ Forall2 shows chs' P).
Proof.
  intros gd global stream l depth P meta now later chs dim c s d p Hs Hdim HP HE Hsp HQ HN HL Hpart Hbits Hgd Hr Hb Hk.
  destruct (stream_ok gd global stream l depth (eq []) deltaTable P meta (now ++ later) chs true now later dim c s d p) as (ms & s1 & chs1 & chs2 & s' & E1 & E2 & F1 & F2 & R & Et & Fd); try assumption; [reflexivity|].
  exists ms, s1, chs1, chs2, s'. split; [exact E1|]. split; [exact E2|]. split; [exact F1|]. split; [exact F2|]. split; [exact R|]. intros -> Hdep. inversion F2. subst chs2.
  rewrite app_nil_r in *. rewrite Et. exact (C73_transforms_undone_partial depth _ l 0 P meta now chs1 Hdep HE F1).
Qed.
Print Assumptions C98_global_partial.

(* Every image can be sent: with a tree of one leaf that predicts 0 and a flat
   code for the sizes of the samples. *)
Definition one_leaf : list Node := [mkNode (-1) 0 0 0 0 0 0 1].
Definition flat_header : header := Header None [0] 5 [HConf 0 0 0] (Frequencies [(32, -1, repeat 128 32)]).
(* how long the bits of symbols are *)
Lemma symbols_short h m : hd_lz h = None -> Forall hconf_ok (hd_configs h) ->
  (forall ts T w t, hd_codes h = Prefixes ts -> In T ts -> In (w, t) T -> (length w <= 16)%nat) ->
  forall x l c x', symbols h m x l c x' -> ss_n x = 0 -> (length c <= (match ss_x x with None => 32 | _ => 0 end) + 48 * length l)%nat.
Proof.
  intros NL HC HW x l c x' H. induction H as [x|x ctx v c x1 l c' x2 H1 H2 IH]; intros Hn; [destruct (ss_x x); cbn; lia|].
  assert (K : (length c <= (match ss_x x with None => match ss_x x1 with None => 0 | _ => 32 end | _ => 0 end) + 48)%nat /\ (ss_x x1 = None -> ss_x x = None) /\ ss_n x1 = 0).
  { inversion H1 as [hist d y ctx' cl cfg v' c0 y' Hc Hv _ Ht|hist d y ctx' s l0 lc len n cl cfg cl' cfg' c1 y1 c2 y2 E|hist n d y ctx' Hp]; subst; [|congruence|cbn in Hn; lia]. cbn [ss_x ss_n].
    assert (X : (length (hyb_extra cfg v) <= 30)%nat).
    { destruct Hc as (_ & _ & Hc). apply nth_error_In in Hc. rewrite Forall_forall in HC. destruct (HC cfg Hc) as (K1 & K2 & _). unfold hyb_extra. destruct (v <? 2 ^ h_e cfg); [cbn; lia|]. rewrite zbits_length.
      destruct (Z.eq_dec v 0) as [->|V0]; [cbn; lia|]. assert (Z.log2 v < 31) by (apply Z.log2_lt_pow2; lia). lia. }
    assert (A : forall fs slot n c t n', ans_code fs slot n c t n' -> (length c <= 16)%nat).
    { intros fs slot n c t n' (o & _ & HA). cbv zeta in HA. destruct (_ <? 2 ^ 16); [destruct HA as (w & _ & -> & _); rewrite zbits_length; lia|destruct HA as (-> & _); cbn; lia]. }
    rewrite app_length. inversion Ht as [ts T w t y0 E1 E2 E3|fs f slot n c t n' E1 E2 E3 E4 E5|fs f slot n c t n' E1 E2 E3 E5]; subst.
    - apply nth_error_In in E2. pose proof (HW _ _ _ _ E1 E2 E3). destruct y'; split; try split; auto; lia.
    - apply A in E5. rewrite app_length, zbits_length. split; [lia|]. split; [discriminate|reflexivity].
    - apply A in E5. split; [lia|]. split; [discriminate|reflexivity]. }
  destruct K as (K1 & K2 & K3). specialize (IH K3). rewrite app_length. cbn [length]. destruct (ss_x x) as [y|], (ss_x x1) as [y1|]; try (specialize (K2 eq_refl); discriminate); lia.
Qed.
Lemma flat_sent : exists c, header_code cluster_map proper_dist 1 true c flat_header /\ (length c <= 100)%nat.
Proof.
  eexists. split; [|shelve]. unfold header_code. eapply seq_intro; [apply (bool_intro false)|]. eapply seq_intro; [apply ret_intro|]. eapply seq_intro; [left; apply ret_intro|].
  eapply seq_intro; [apply (bool_intro false)|]. eapply seq_intro; [eapply seq_intro; [apply (fixed_intro 2 0); cbn; lia|apply ret_intro]|].
  eapply seq_intro.
  { eapply seq_intro; [|eapply seq_intro; apply ret_intro]. unfold config_code. eapply seq_intro; [apply (fixed_intro _ 0); cbn; lia|]. change (0 =? 5 + 0) with false. cbv iota.
    eapply seq_intro; [apply (fixed_intro _ 0); cbn; lia|]. split; [lia|]. eapply seq_intro; [apply (fixed_intro _ 0); cbn; lia|]. split; [lia|]. apply ret_intro. }
  eapply seq_intro; [|apply ret_intro]. eapply seq_intro; [|apply ret_intro]. eapply seq_intro; [|eapply seq_intro; apply ret_intro]. split.
  - eapply seq_intro; [apply (bool_intro false)|]. eapply seq_intro; [apply (bool_intro true)|]. eapply seq_intro; [apply (SpecCodes.u8c_n 4 15); cbn; lia|].
    split; [cbn; lia|]. apply ret_intro.
  - apply Forall_forall. cbn [snd]. intros z Hz. apply repeat_spec in Hz. lia.
  Unshelve. apply Nat.leb_le. vm_compute. reflexivity.
Qed.
Lemma leaf_sent h2 c2 : header_code cluster_map proper_dist 1 true c2 h2 -> described h2 -> exists c, tree_sent one_leaf h2 c /\ (length c <= 400 + length c2)%nat.
Proof.
  intros H2 D2.
  assert (H : exists c, header_code cluster_map proper_dist 6 true c (Header None [0; 0; 0; 0; 0; 0] 15 [HConf 15 0 0] (Prefixes [[([], 0)]])) /\ (length c <= 100)%nat).
  { eexists. split; [|shelve]. unfold header_code. eapply seq_intro; [apply (bool_intro false)|]. eapply seq_intro; [apply ret_intro|].
    eapply seq_intro. { left. cbn. exists 0%nat, [0; 0; 0; 0; 0; 0]. split; [lia|]. split; [reflexivity|]. split; [reflexivity|]. split; [repeat constructor; cbn; lia|]. split; [cbn; lia|reflexivity]. }
    eapply seq_intro; [apply (bool_intro true)|]. eapply seq_intro; [apply ret_intro|].
    eapply seq_intro; [eapply seq_intro; [|eapply seq_intro; apply ret_intro]; eapply seq_intro; [apply (fixed_intro _ 15); cbn; lia|apply ret_intro]|].
    eapply seq_intro; [|apply ret_intro].
    eapply seq_intro. { eapply seq_intro; [|eapply seq_intro; apply ret_intro]. eapply seq_intro; [apply (bool_intro false)|]. apply ret_intro. }
    eapply seq_intro; [|apply ret_intro]. eapply seq_intro; [|eapply seq_intro; apply ret_intro]. apply ret_intro.
    Unshelve. apply Nat.leb_le. vm_compute. reflexivity. }
  destruct H as (hc & H & Lh). set (h := Header _ _ _ _ _) in H.
  destruct (C96_sendable h 0 [(1, 0); (2, 0); (3, 0); (4, 0); (5, 0)]) as (sc & x & H1 & _ & Hx).
  { exact (header_proper cluster_map 6 true hc h (good_map_code 2) H I). }
  { discriminate. }
  { assert (S : forall a, 0 <= a < 6 -> sendable h (a, 0)).
    { intros a Ha. exists 0%nat, (HConf 15 0 0). cbn [fst snd].
      split; [|split; [lia|split; [exact I|eexists; eexists; (split; [reflexivity|]); left; reflexivity]]].
      assert (E : a = 0 \/ a = 1 \/ a = 2 \/ a = 3 \/ a = 4 \/ a = 5) by lia.
      destruct E as [->|[->|[->|[->|[->| ->]]]]]; repeat split; vm_compute; (reflexivity || discriminate). }
    repeat constructor; apply S; lia. }
  assert (Ls : (length sc <= 32 + 48 * 5)%nat).
  { refine (symbols_short h 0 eq_refl _ _ _ _ _ _ H1 eq_refl).
    - repeat constructor; cbn; lia.
    - intros ts T w t E HT HI. injection E as <-. destruct HT as [<-|[]]. destruct HI as [HI|[]]. injection HI as <- _. cbn. lia. }
  exists ((hc ++ sc) ++ c2). split; [|rewrite !app_length; lia]. split; [|split; [cbn; lia|split]].
  - split; [|split].
    + split; [discriminate|]. intros [|i] n E; [|destruct i; discriminate]. injection E as <-. cbn. lia.
    + intros i Hi. cbn in Hi. lia.
    + reflexivity.
  - exact D2.
  - eexists. exists (hc ++ sc), c2. split; [|split; [|split; [exact H2|reflexivity]]].
    + exists [[(1, 0); (2, 0); (3, 0); (4, 0); (5, 0)]]. split; [|reflexivity]. constructor; [|constructor]. right. exists 0, 0, 0. cbn. repeat split; lia.
    + exists hc, h, sc, x. split; [exact H|]. split; [exact I|]. split; [exact H1|]. split; [left; exact Hx|]. split; [cbn; lia|reflexivity].
Qed.
Lemma flat_leaf_sent : exists c, tree_sent one_leaf flat_header c /\ (length c <= 500)%nat.
Proof.
  destruct flat_sent as (c2 & H2 & L2). destruct (leaf_sent flat_header c2 H2) as (c & Hc & Lc); [|exists c; split; [exact Hc|lia]]. unfold described, flat_header. cbn [hd_codes]. constructor; [|constructor]. right. cbn [snd].
  intros K. apply (repeat_spec 32) in K. discriminate.
Qed.
Definition zigzag (v : Z) : Z := if v <? 0 then -2 * v - 1 else 2 * v.
Lemma zigzag_ok v : unzigzag (zigzag v) = v.
Proof.
  unfold zigzag, unzigzag. destruct (Z.ltb_spec v 0).
  - replace (Z.even (-2 * v - 1)) with false by (replace (-2 * v - 1) with (1 + 2 * (- v - 1)) by lia; symmetry; rewrite Z.even_add_mul_2; reflexivity).
    replace (-2 * v - 1 + 1) with ((- v) * 2) by lia. rewrite Z.div_mul by lia. lia.
  - replace (Z.even (2 * v)) with true by (rewrite Z.even_mul; reflexivity). rewrite Z.mul_comm, Z.div_mul by lia. reflexivity.
Qed.
Lemma flat_sendable v : 0 <= v < 2 ^ 31 -> sendable flat_header (0, v).
Proof.
  intros Hv. exists 0%nat, (HConf 0 0 0). cbn [fst snd]. split; [repeat split; vm_compute; (reflexivity || discriminate)|]. split; [exact Hv|]. split; [exact I|].
  assert (T : 0 <= hyb_token (HConf 0 0 0) v < 32).
  { unfold hyb_token. cbn [h_e h_i h_j]. change (2 ^ 0) with 1. destruct (Z.ltb_spec v 1); [lia|]. cbv zeta. rewrite !Z.sub_0_r, Z.mod_1_r. change (2 ^ (0 + 0)) with 1.
    pose proof (Z.log2_spec v ltac:(lia)) as [L1 L2]. pose proof (Z.log2_nonneg v) as L0. rewrite Z.pow_succ_r in L2 by lia.
    rewrite (Z.div_small (v - _)) by lia. assert (Z.log2 v < 31) by (apply Z.log2_lt_pow2; lia). lia. }
  exists (32, -1, repeat 128 32). split; [reflexivity|]. split; [lia|]. cbn [snd]. rewrite nth_indep with (d' := 128) by (rewrite repeat_length; lia). rewrite nth_repeat. lia.
Qed.
Definition residuals (Q : list Plane) : list (Z * Z) := map (fun v => (0, zigzag v)) (concat (concat (map p_px Q))).
Lemma raster (m : list (list Z)) h w : rect h w m -> length (concat m) = (h * w)%nat /\
  forall y x, (y < h)%nat -> (x < w)%nat -> nth_error (concat m) (y * w + x) = Some (px m y x).
Proof.
  intros [R1 R2]. revert h R1. induction m as [|r m IH]; intros h R1; cbn [concat length] in *; subst h; [split; [reflexivity|intros; lia]|].
  inversion R2 as [|? ? Lr R3]. subst. destruct (IH R3 _ eq_refl) as [L N]. rewrite app_length, L. split; [lia|]. intros [|y] x Hy Hx.
  - rewrite nth_error_app1 by lia. unfold px. cbn [nth Nat.mul Nat.add]. apply nth_error_nth'. lia.
  - rewrite nth_error_app2 by lia. replace (S y * length r + x - length r)%nat with (y * length r + x)%nat by lia. rewrite (N y x) by lia. reflexivity.
Qed.
Lemma leaf_sends wp stream : forall Q before, Forall good_plane Q -> Forall (fun q => samples_within (2 ^ 26) (p_px q)) Q ->
  planes_send wp one_leaf stream before Q (residuals Q).
Proof.
  induction Q as [|q Q IH]; intros before HG HW; [constructor|]. inversion HG as [|? ? (R & _) HG']. inversion HW as [|? ? W HW']. subst.
  unfold residuals. cbn [map concat]. rewrite concat_app, map_app. constructor; [|apply IH; assumption].
  destruct (raster _ _ _ R) as [L N]. unfold plane_sends. cbv zeta. split; [rewrite map_length; exact L|].
  assert (B : forall y x, (y < p_h q)%nat -> (x < p_w q)%nat -> - 2 ^ 26 <= px (p_px q) y x <= 2 ^ 26).
  { intros y x Hy Hx. destruct R as [R1 R2]. unfold samples_within in W. rewrite Forall_forall in W, R2. assert (I1 : In (nth y (p_px q) []) (p_px q)) by (apply nth_In; lia).
    specialize (W _ I1). specialize (R2 _ I1). rewrite Forall_forall in W. assert (I2 : In (px (p_px q) y x) (nth y (p_px q) [])) by (apply nth_In; lia). specialize (W _ I2). lia. }
  split; [exact B|]. exists (fun _ _ _ => 0), (fun _ _ => 0). split.
  - intros K. apply Exists_cons in K. destruct K as [[K|[_ K]]|K]; [discriminate K|discriminate K|inversion K].
  - intros y x Hy Hx. specialize (B y x Hy Hx). exists 0%nat. eexists. exists (zigzag (px (p_px q) y x)). split; [eapply dec_leaf; [reflexivity|cbn; lia]|]. split; [reflexivity|]. cbn [n_context n_multiplier n_offset n_predictor].
    split; [rewrite nth_error_map, (N y x Hy Hx); reflexivity|]. split; [unfold zigzag; destruct (Z.ltb_spec (px (p_px q) y x) 0); lia|].
    rewrite zigzag_ok. unfold predictor. change (0 =? 0) with true. cbv iota. lia.
Qed.
Lemma sendable_short stream m l wp hc Q : modular_code mstandard hc (false, wp, l) ->
  Forall good_plane Q -> Forall (fun q => samples_within (2 ^ 26) (p_px q)) Q -> Z.of_nat (length (concat (concat (map p_px Q)))) < 2 ^ 31 ->
  exists c, modular_bits None stream m l Q c /\ (length c <= length hc + 532 + 48 * length (concat (concat (map p_px Q))))%nat.
Proof.
  intros Hh HG HW HL. destruct flat_leaf_sent as (tc & Ht & Lt).
  assert (S : exists sc x, symbols flat_header m sst0 (residuals Q) sc x /\ (ss_x x = None \/ ss_x x = Some 1245184)).
  { destruct (residuals Q) as [|v vs] eqn:Ev; [exists [], sst0; split; [constructor|left; reflexivity]|].
    destruct (C96_sendable flat_header m (v :: vs)) as (sc & x & H1 & _ & Hx).
    - destruct flat_sent as (c2 & H2 & _). apply (header_proper _ _ _ _ _ (good_map_code 2) H2). apply Ht.
    - discriminate.
    - rewrite <- Ev. unfold residuals. apply Forall_map, Forall_forall. intros z Hz. apply flat_sendable.
      apply in_concat in Hz as (r & Hr & Hz). apply in_concat in Hr as (pq & Hq & Hr). apply in_map_iff in Hq as (q & <- & Hq).
      rewrite Forall_forall in HW. specialize (HW q Hq). unfold samples_within in HW. rewrite Forall_forall in HW. specialize (HW r Hr). rewrite Forall_forall in HW. specialize (HW z Hz).
      unfold zigzag. destruct (Z.ltb_spec z 0); lia.
    - exists sc, x. split; [exact H1|right; exact Hx]. }
  destruct S as (sc & x & S1 & S2).
  assert (Ls : (length sc <= 32 + 48 * length (residuals Q))%nat).
  { refine (symbols_short flat_header m eq_refl _ _ _ _ _ _ S1 eq_refl); [repeat constructor; cbn; lia|intros ts T w t E; discriminate]. }
  unfold residuals in Ls. rewrite map_length in Ls.
  exists (hc ++ tc ++ sc). split; [|rewrite !app_length; lia]. exists hc, wp, false, tc, one_leaf, flat_header, (residuals Q), sc, x.
  split; [exact Hh|]. split; [exact Ht|]. split; [apply leaf_sends; assumption|]. split; [unfold residuals; rewrite map_length; exact HL|].
  split; [intros K; elim K; reflexivity|]. split; [exact S1|]. split; [exact S2|reflexivity].
Qed.
Theorem C98_sendable : forall stream m l wp hc Q, modular_code mstandard hc (false, wp, l) ->
  Forall good_plane Q -> Forall (fun q => samples_within (2 ^ 26) (p_px q)) Q -> Z.of_nat (length (concat (concat (map p_px Q)))) < 2 ^ 31 ->
  exists c, modular_bits None stream m l Q c.
Proof. intros stream m l wp hc Q Hh HG HW HL. destruct (sendable_short stream m l wp hc Q Hh HG HW HL) as (c & Hc & _). exists c. exact Hc. Qed.
Print Assumptions C98_sendable.

(* The 1x3 image of C73, with a colour transform and the default squeeze *)
Example C98_example : exists c, modular_bits None 0 (widest ex_result) (map fst ex_list) ex_result c /\
  forall s d p, reader_at s d p -> bits_at d p c -> (p + length c + 15 <= 8 * length d)%nat ->
  exists chs s', decodeModular None 8 256 0 (repeat (newChan 1 3 0 0 false) 3) s = (Ok chs, s') /\ Forall2 shows chs ex_planes.
Proof.
  assert (H : exists hc, modular_code mstandard hc (false, mkWP 16 10 7 7 7 0 0 [13; 12; 12; 12], map fst ex_list)).
  { eexists. unfold modular_code. B false. eapply seq_i; [unfold wp_code; B true; apply ret_i|]. cbv beta. U 2%nat 0.
    eapply seq_i; [|apply ret_i]. one. eapply seq_i.
    { unfold transform_code. F 0. split; [cbn; lia|]. cbn [c_when negb Z.eqb Pos.eqb]. unfold channel_code. U 0%nat 0. U 2%nat 8. split; [cbn; lia|]. N. N. N. N. N. apply ret_i. }
    cbv beta. eapply seq_i; [|apply ret_i]. eapply seq_i; [|N; apply ret_i].
    unfold transform_code. F 2. split; [cbn; lia|]. cbn [c_when negb Z.eqb Pos.eqb]. N. N. split; [cbn; lia|]. N. N. N. N.
    eapply seq_i; [|apply ret_i]. U 0%nat 0. one. apply ret_i. }
  destruct H as [hc H].
  assert (G : Forall good_plane ex_result) by (repeat (constructor; [split; [split; [reflexivity|repeat constructor]|split; cbn; lia]|]); constructor).
  destruct (C98_sendable 0 (widest ex_result) (map fst ex_list) _ hc ex_result H G) as (c & Hc); [repeat constructor; vm_compute; discriminate|cbn; lia|].
  exists c. split; [exact Hc|]. intros s d p Hr Hb Hk.
  destruct (C98_image_partial None None 0 ex_list 8 ex_planes 0 ex_result (repeat (newChan 1 3 0 0 false) 3) 256 c s d p) as (chs & s' & E & F & _); try assumption; try lia; try discriminate.
  - exact ex_encoded.
  - repeat constructor.
  - cbn. lia.
  - repeat (constructor; [repeat split; vm_compute; reflexivity|]). constructor.
  - exact I.
  - exists chs, s'. split; [exact E|exact F].
Qed.

(* The copies of the standard are in rows of the channels that are in the
   stream.  Here one channel of three rows is, and the last row is a copy of
   the one above; the decoder takes rows of a channel that is sent later, and
   gets the first row instead. *)
Definition copy_header : header := Header (Some (224, 3, HConf 8 0 0)) [0; 1] 15 [HConf 15 0 0; HConf 15 0 0] (Prefixes [[([false], 0); ([true; false], 2); ([true; true], 229)]; [([], 0)]]).
Definition rows (a b c : Z) : Plane := mkPl 3 8 0 0 [repeat a 8; repeat b 8; repeat c 8].
Definition wide : Plane := mkPl 1 300 0 0 [repeat 0 300].
Lemma copy_sent : exists c, header_code cluster_map proper_dist 1 true c copy_header.
Proof.
  eexists. unfold header_code. eapply seq_intro; [apply (bool_intro true)|].
  eapply seq_intro. { split; [reflexivity|]. U 0%nat 0. U 0%nat 0. eapply seq_intro; [|apply ret_intro]. unfold config_code. eapply seq_intro; [apply (fixed_intro _ 8); cbn; lia|apply ret_intro]. }
  eapply seq_intro. { left. cbn. exists 1%nat, [0; 1]. split; [lia|]. split; [reflexivity|]. split; [reflexivity|]. split; [repeat constructor; cbn; lia|]. split; [cbn; lia|reflexivity]. }
  eapply seq_intro; [apply (bool_intro true)|]. eapply seq_intro; [apply ret_intro|].
  eapply seq_intro. { eapply seq_intro; [eapply seq_intro; [apply (fixed_intro _ 15); cbn; lia|apply ret_intro]|]. eapply seq_intro; [|apply ret_intro].
    eapply seq_intro; [eapply seq_intro; [apply (fixed_intro _ 15); cbn; lia|apply ret_intro]|]. eapply seq_intro; apply ret_intro. }
  eapply seq_intro; [|apply ret_intro].
  eapply seq_intro. { eapply seq_intro; [unfold alphabet_code; eapply seq_intro; [apply (bool_intro true)|]; eapply seq_intro; [apply (fixed_intro _ 7); cbn; lia|]; eapply seq_intro; [apply (fixed_intro _ 101); cbn; lia|apply ret_intro]|].
    eapply seq_intro; [|apply ret_intro]. eapply seq_intro; [eapply seq_intro; [apply (bool_intro false)|apply ret_intro]|]. eapply seq_intro; apply ret_intro. }
  eapply seq_intro; [|apply ret_intro].
  eapply seq_intro. { unfold prefix_code. change (1 + 2 ^ 7 + 101 =? 1) with false. cbv iota. eapply seq_intro; [apply (fixed_intro _ 1); cbn; lia|]. change (1 =? 1) with true. cbv iota. unfold simple_code.
    eapply seq_intro; [apply (fixed_intro _ 2); cbn; lia|]. change (2 =? 0) with false. change (2 =? 1) with false. change (2 =? 2) with true. cbv iota.
    eapply seq_intro; [eapply seq_intro; [apply (fixed_intro _ 0); cbn; lia|]; eapply seq_intro; [|apply ret_intro]; eapply seq_intro; [apply (fixed_intro _ 2); cbn; lia|]; eapply seq_intro; [|apply ret_intro]; eapply seq_intro; [apply (fixed_intro _ 229); cbn; lia|]; eapply seq_intro; apply ret_intro|]. apply ret_intro. }
  eapply seq_intro; [|apply ret_intro]. eapply seq_intro; [apply ret_intro|]. eapply seq_intro; apply ret_intro.
Qed.
Definition copy_bits : list bool := repeat false 8 ++ concat (repeat [true; false] 8) ++ [true; true].
Lemma copy_symbols m v : v = copied (repeat 2 8 ++ repeat 0 8) (limit (repeat 2 8 ++ repeat 0 8) (spec_distance m 0)) ->
  limit (repeat 2 8 ++ repeat 0 8) (spec_distance m 0) = 8 \/ limit (repeat 2 8 ++ repeat 0 8) (spec_distance m 0) = 16 ->
  exists x, symbols copy_header m sst0 (repeat (0, 0) 8 ++ repeat (0, 2) 8 ++ repeat (0, v) 8) copy_bits x /\ ss_x x = None.
Proof.
  assert (L0 : forall hist, symbol copy_header m (SST hist 0 0 None) 0 0 [false] (SST (0 :: hist) 0 0 None)).
  { intros hist. apply (symbol_literal copy_header m hist 0 None 0 0 (HConf 15 0 0) 0 [false] None); [repeat split; vm_compute; discriminate|lia|vm_compute; reflexivity|].
    eapply token_prefix; [reflexivity|reflexivity|left; reflexivity]. }
  assert (L2 : forall hist, symbol copy_header m (SST hist 0 0 None) 0 2 [true; false] (SST (2 :: hist) 0 0 None)).
  { intros hist. apply (symbol_literal copy_header m hist 0 None 0 0 (HConf 15 0 0) 2 [true; false] None); [repeat split; vm_compute; discriminate|lia|vm_compute; reflexivity|].
    eapply token_prefix; [reflexivity|reflexivity|right; left; reflexivity]. }
  assert (LC : forall hist, symbol copy_header m (SST hist 0 0 None) 0 (copied hist (limit hist (spec_distance m 0))) [true; true]
    (SST (copied hist (limit hist (spec_distance m 0)) :: hist) 7 (limit hist (spec_distance m 0)) None)).
  { intros hist. apply (symbol_copy copy_header m hist 0 None 0 224 3 (HConf 8 0 0) 8 0 0 (HConf 15 0 0) 1 (HConf 15 0 0) [true; true] None [] None);
      [reflexivity|repeat split; vm_compute; discriminate|repeat split; vm_compute; discriminate|lia|lia| |].
    - eapply token_prefix; [reflexivity|reflexivity|right; right; left; reflexivity].
    - eapply token_prefix; [reflexivity|reflexivity|left; reflexivity]. }
  intros Hv Hd. specialize (LC (repeat 2 8 ++ repeat 0 8)). rewrite <- Hv in LC. set (k := limit _ _) in *. clearbody k.
  assert (E : v = if k =? 8 then 2 else 0) by (destruct Hd; subst k v; reflexivity).
  exists (SST (repeat v 8 ++ repeat 2 8 ++ repeat 0 8) 0 k None). split; [|reflexivity]. unfold copy_bits, sst0. cbn [repeat app concat].
  do 8 (eapply (symbols_cons _ _ _ _ _ [false]); [apply L0|]).
  do 8 (eapply (symbols_cons _ _ _ _ _ [true; false]); [apply L2|]).
  eapply (symbols_cons _ _ _ _ _ [true; true]); [exact LC|].
  assert (C : forall hist n l c x, 0 < n -> copied hist k = v -> symbols copy_header m (SST (v :: hist) (n - 1) k None) l c x -> symbols copy_header m (SST hist n k None) ((0, v) :: l) c x).
  { intros hist n l c x Hn <- S. apply (symbols_cons _ _ _ _ _ [] _ _ _ _ (symbol_copied copy_header m hist n k None 0 Hn) S). }
  clear LC Hv. destruct Hd as [-> | ->]; cbn in E; subst v; do 7 (apply C; [lia|reflexivity|]); apply symbols_nil.
Qed.
Theorem C98_rows_refuted : exists c, modular_bits None 0 (widest [rows 0 1 1]) [] [rows 0 1 1] c /\
  forall s d p, reader_at s d p -> bits_at d p c -> (p + length c + 15 <= 8 * length d)%nat ->
  exists ms s1 c1 c2 s', NewModularStream None [newChan 3 8 0 0 false; newChan 1 300 0 0 false] s = (Ok ms, s1) /\
    decodeChannels 8 256 0 true ms s1 = (Ok [c1; c2], s') /\ shows c1 (rows 0 1 0).
Proof.
  assert (H : exists hc, modular_code mstandard hc (false, mkWP 16 10 7 7 7 0 0 [13; 12; 12; 12], [])).
  { eexists. unfold modular_code. B false. eapply seq_i; [unfold wp_code; B true; apply ret_i|]. cbv beta. U 0%nat 0. eapply seq_i; apply ret_i. }
  destruct H as [hc H]. destruct copy_sent as [c2 H2]. destruct (leaf_sent _ _ H2 I) as (tc & Ht & _).
  assert (S : forall m v, (m = 8 /\ v = 1 \/ m = 300 /\ v = 0) -> modular_bits None 0 m [] [rows 0 1 v] (hc ++ tc ++ copy_bits)).
  { intros m v Hmv. destruct (copy_symbols m (zigzag v)) as (x & S & Hx); [destruct Hmv as [[-> ->]|[-> ->]]; reflexivity|destruct Hmv as [[-> ->]|[-> ->]]; [left|right]; reflexivity|].
    exists hc, (mkWP 16 10 7 7 7 0 0 [13; 12; 12; 12]), false, tc, one_leaf, copy_header, (residuals [rows 0 1 v]), copy_bits, x.
    split; [exact H|]. split; [exact Ht|]. split. { apply leaf_sends; constructor; [|constructor|destruct Hmv as [[_ ->]|[_ ->]]; repeat constructor; vm_compute; discriminate|constructor]. split; [split; [reflexivity|repeat constructor]|split; cbn; lia]. }
    split; [cbn; lia|]. split; [intros _; lia|]. split; [exact S|]. split; [left; exact Hx|reflexivity]. }
  exists (hc ++ tc ++ copy_bits). split; [apply S; left; split; reflexivity|]. intros s d p Hr Hb Hk.
  destruct (C98_global_partial None None 0 [] 8 [rows 0 1 0; wide] 0 [rows 0 1 0] [wide] [newChan 3 8 0 0 false; newChan 1 300 0 0 false] 256 (hc ++ tc ++ copy_bits) s d p)
    as (ms & s1 & chs1 & chs2 & s' & E1 & E2 & F1 & F2 & _); try assumption; try lia; try discriminate.
  - constructor.
  - constructor.
  - repeat (constructor; [split; [split; [reflexivity|repeat constructor]|split; cbn; lia]|]). constructor.
  - cbn. lia.
  - repeat (constructor; [repeat split; vm_compute; reflexivity|]). constructor.
  - split; [|unfold held; cbn; lia]. intros [|[|i]] q E; [|discriminate|discriminate]. injection E as <-. right. cbn. lia.
  - apply S. right. split; reflexivity.
  - exact I.
  - inversion F1 as [|a1 ? ? ? G1 G2]; subst. inversion G2; subst. inversion F2 as [|a2 ? ? ? G3 G4]; subst. inversion G4; subst.
    exists ms, s1, a1, a2, s'. split; [exact E1|]. split; [exact E2|exact G1].
Qed.
Print Assumptions C98_rows_refuted.

(* A stream that asks for the tree of a frame that has none *)
Theorem C98_no_tree_refuted : exists c, forall chs s d p, chs <> [] -> reader_at s d p -> bits_at d p c -> fst (NewModularStream None chs s) = Panic.
Proof.
  assert (H : exists hc, modular_code mstandard hc (true, mkWP 16 10 7 7 7 0 0 [13; 12; 12; 12], [])).
  { eexists. unfold modular_code. B true. eapply seq_i; [unfold wp_code; B true; apply ret_i|]. cbv beta. U 0%nat 0. eapply seq_i; apply ret_i. }
  destruct H as [hc H]. exists hc. intros chs s d p Hc Hr Hb.
  destruct (proj1 (C71_standard_headers_partial hc _ _ [] (Forall_nil _)) H s d p Hr Hb) as (s1 & E1 & R1).
  unfold NewModularStream. destruct chs; [congruence|]. unfold rbind at 1. rewrite E1. cbv beta iota. reflexivity.
Qed.
Print Assumptions C98_no_tree_refuted.
