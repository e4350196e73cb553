(* Lemmas about whole files. *)
From Coq Require Import ZArith List Bool Lia Arith ZifyBool ZifyNat.
From Verif Require Import GoBase GoLoop GoMatrix Bits ModelBitReader ModelUtil ModelHeader ModelFrameHeader ModelBoxes ModelEntropy ModelMATree ModelModular ModelModStream ModelModDecode ModelGroups ModelToc ModelImage ModelModFrame ModelDecode ModelFile.
From Verif Require Import SpecBitReader SpecCodes SpecGrammar SpecBoxes SpecHeader SpecFrameHeader SpecToc SpecGroups SpecStream SpecModular SpecModStream SpecModDecode SpecModFrame SpecImage SpecDecode SpecFile.
From Verif Require Import ProofReads ProofCodes ProofBitWriter ProofBitReader2 ProofHeader ProofFrameHeader ProofBoxes ProofToc ProofGroups ProofImage ProofModFrame ProofDecode PropFrameHeader PropHeader PropFrame PropModFrame PropDecode.
Import ListNotations.
Open Scope Z_scope.

Lemma byte_up_8 n : byte_up (8 * n) = (8 * n)%nat.
Proof. unfold byte_up. replace ((8 * n + 7) / 8)%nat with n; [reflexivity|]. apply (Nat.div_unique _ 8 n 7); lia. Qed.
Lemma byte_up_add k p : byte_up (8 * k + p) = (8 * k + byte_up p)%nat.
Proof. unfold byte_up. replace (8 * k + p + 7)%nat with (k * 8 + (p + 7))%nat by lia. rewrite Nat.div_add_l by lia. lia. Qed.
Lemma byte_up_ge p : (p <= byte_up p < p + 8)%nat.
Proof. unfold byte_up. pose proof (Nat.div_mod (p + 7) 8 ltac:(lia)). pose proof (Nat.mod_upper_bound (p + 7) 8 ltac:(lia)). lia. Qed.
Lemma byte_up_mul p : exists k, byte_up p = (8 * k)%nat.
Proof. exists ((p + 7) / 8)%nat. reflexivity. Qed.
Lemma byte_up_unique p k : (p <= 8 * k < p + 8)%nat -> byte_up p = (8 * k)%nat.
Proof. intros H. unfold byte_up. f_equal. symmetry. apply (Nat.div_unique _ 8 k (p + 7 - 8 * k)); lia. Qed.

Lemma plus_zeros d b len : (b + len <= length d)%nat -> Forall is_byte d -> Forall is_byte (byte_range d (Z.of_nat b) (Z.of_nat len) ++ [0; 0; 0; 0]).
Proof.
  intros H Hd. apply Forall_app. split; [|repeat constructor; lia]. unfold byte_range. rewrite Forall_forall in *. intros x Hx. apply Hd.
  rewrite !Nat2Z.id in Hx. apply (In_nth _ _ 0) in Hx as (k & Hk & <-). rewrite firstn_length, skipn_length in Hk.
  rewrite nth_firstn_lt, nth_skipn' by lia. apply nth_In. lia.
Qed.
Lemma section_bits d b len c : (b + len <= length d)%nat -> (length c <= 8 * len)%nat -> bits_at d (8 * b) c ->
  bits_at (byte_range d (Z.of_nat b) (Z.of_nat len) ++ [0; 0; 0; 0]) 0 c.
Proof.
  intros Hl Hc (_ & H). unfold byte_range. rewrite !Nat2Z.id. assert (L : length (firstn len (skipn b d)) = len) by (rewrite firstn_length, skipn_length; lia).
  split; [rewrite app_length, L; cbn; lia|]. intros i Hi. rewrite <- (H i Hi). unfold stream_bit. cbn [Nat.add].
  assert (E1 : ((8 * b + i) / 8 = b + i / 8)%nat) by (rewrite (Nat.mul_comm 8), Nat.div_add_l by lia; reflexivity).
  assert (E2 : ((8 * b + i) mod 8 = i mod 8)%nat) by (rewrite Nat.add_comm, (Nat.mul_comm 8), Nat.mod_add by lia; reflexivity).
  rewrite E1, E2. assert (Hq : (i / 8 < len)%nat) by (apply Nat.div_lt_upper_bound; lia). rewrite app_nth1 by lia. rewrite nth_firstn_lt by exact Hq. rewrite nth_skipn'. reflexivity.
Qed.

(* ---- one frame ---- *)
Definition buffer_of (q : Plane) : ImageBuffer := mkIB (Z.of_nat (p_w q)) (Z.of_nat (p_h q)) TYPE_INT [] (p_px q).
Definition frame_in (o : Rest) (ih : ImageHeader) (f : FrameHeader * list Plane) : FrameIn :=
  mkFI (fst f) (Ok tt) (Ok tt) (fun _ => Ok (map buffer_of (snd f)))
    (fun b => if upsampleNothing (fst f) then Ok b else o_up o ih (fst f) b) (extraOf (fst f)) (o_ct o ih (fst f)).

Lemma plain_is ih fh h w dim num ds : lossless_image ih -> plain_frame fh h w dim num ds -> plainModular ih fh = true /\ upsampleNothing fh = true /\ extraOf fh = Ok tt.
Proof.
  intros (X & _) (E1 & E2 & _ & _ & E3 & E4 & E5 & E6 & E7 & _). inversion E7 as [|? ? F0 E7']. inversion E7' as [|? ? F1 E7'']. inversion E7'' as [|? ? F4 _].
  unfold plainModular, upsampleNothing, extraOf. rewrite E1, E2, E3, E5, E6, X, F0, F4. split; [reflexivity|]. split; [|reflexivity]. cbn [Z.eqb Pos.eqb andb].
  apply forallb_forall. intros k Hk. rewrite Forall_forall in E4. rewrite <- (E4 k Hk). reflexivity.
Qed.
Lemma count_pos a b : (1 <= count a b)%nat. Proof. unfold count. rewrite Nat.add_1_r. apply le_n_S, Nat.le_0_l. Qed.
Lemma plain_geo fh h w dim num ds : plain_frame fh h w dim num ds -> geo_ok (geoOf fh) /\ (1 <= dim)%nat.
Proof.
  intros (E1 & _ & Ej & Ek & _ & _ & _ & _ & _ & Eh & Ew & H1 & H2 & H3 & H4 & Ed & (k & K1 & K2) & _ & (N1 & _) & N).
  assert (P : 1 <= 2 ^ k) by (pose proof (Z.pow_pos_nonneg 2 k); lia).
  assert (D : (1 <= dim)%nat) by lia. split; [|exact D].
  constructor; cbn [geoOf g_width g_height g_dim g_fx g_fy]; [lia|lia|exists k; split; [lia|congruence]|rewrite Ej; vm_compute; split; discriminate|rewrite Ek; vm_compute; split; discriminate|].
  pose proof (count_stride h dim H3 D) as C1. pose proof (count_stride w dim H4 D) as C2. unfold strideOf in C1, C2. rewrite Ew, Eh, Ed, C1, C2.
  clear - N N1. nia.
Qed.
Lemma plain_counts fh h w dim num ds : plain_frame fh h w dim num ds ->
  numGroups (geoOf fh) = Ok (Z.of_nat (count h dim * count w dim)) /\ numLFGroups (geoOf fh) = Ok (Z.of_nat (count h (8 * dim) * count w (8 * dim))) /\
  paddedHeight (geoOf fh) = Ok (Z.of_nat h) /\ paddedWidth (geoOf fh) = Ok (Z.of_nat w) /\
  tocEntries (Z.of_nat (count h dim * count w dim)) (Z.of_nat (count h (8 * dim) * count w (8 * dim))) (ps_num (fh_passes fh)) =
    Z.of_nat (if (count h dim * count w dim =? 1)%nat && (num =? 1)%nat then 1 else 2 + count h (8 * dim) * count w (8 * dim) + num * (count h dim * count w dim)).
Proof.
  intros Hp. destruct (plain_geo _ _ _ _ _ _ Hp) as (G & D). destruct (counts _ G) as (_ & _ & C1 & C2 & _). destruct (padded _ G) as (P1 & P2).
  destruct Hp as (E1 & _ & Ej & Ek & _ & _ & _ & _ & _ & Eh & Ew & H1 & H2 & H3 & H4 & Ed & _ & (shift & Ep) & (N1 & _) & N).
  rewrite C1, C2, P1, P2. unfold nW, nH, lW, lH. cbn [geoOf g_width g_height g_dim]. rewrite Ew, Eh, Ed.
  replace (8 * Z.of_nat dim) with (Z.of_nat (8 * dim)) by lia. rewrite !count_stride by lia. rewrite Ep. cbn [ps_num passes_of].
  repeat split.
  - f_equal. lia.
  - f_equal. lia.
  - f_equal. unfold ph, round_up, pad_unit. cbn [geoOf g_height g_fy g_vardct]. rewrite E1, Ek, Eh. cbn [Z.eqb VARDCT]. change (max3 [0;0;0]) with 0. cbn. rewrite Z.div_1_r. lia.
  - f_equal. unfold pw, round_up, pad_unit. cbn [geoOf g_width g_fx g_vardct]. rewrite E1, Ej, Ew. cbn [Z.eqb VARDCT]. change (max3 [0;0;0]) with 0. cbn. rewrite Z.div_1_r. lia.
  - unfold tocEntries. set (nG := (count h dim * count w dim)%nat) in *. set (nL := (count h (8 * dim) * count w (8 * dim))%nat) in *. clearbody nG nL.
    destruct (Nat.eqb_spec nG 1), (Nat.eqb_spec num 1), (Z.eqb_spec (Z.of_nat nG) 1), (Z.eqb_spec (Z.of_nat num) 1); try lia; cbn [andb]; try reflexivity;
      rewrite u32_small; lia.
Qed.

Lemma image_channels ih : lossless_image ih -> forall fh, fh_ycbcr fh = false ->
  Forall (eq 0) (mf_dimShifts (mfOf ih fh)) /\ channel_count ih = (length (mf_dimShifts (mfOf ih fh)) + Z.to_nat (ecStartOf (mfOf ih fh)))%nat /\
  mf_floats (mfOf ih fh) = repeat false (channel_count ih).
Proof.
  intros (_ & _ & B & _ & E) fh Y. cbn [mfOf mf_dimShifts mf_floats]. unfold ecStartOf, channel_count, image_colours, ihColours, floatOf. cbn [mfOf mf_ycbcr mf_gray]. rewrite Y, B.
  change ModelHeader.CE_GRAY with 1. repeat split.
  - rewrite Forall_forall in *. intros v Hv. apply in_map_iff in Hv as (e & <- & He). symmetry. apply (E e He).
  - rewrite map_length. destruct (col_space (ih_colour ih) =? 1); cbn [negb andb]; [change (Z.to_nat 1) with 1%nat|change (Z.to_nat 3) with 3%nat]; lia.
  - assert (M : map (fun e => negb (bd_exp (ec_bd e) =? 0)) (ih_extra ih) = repeat false (length (ih_extra ih))).
    { clear - E. induction E as [|e t He Et IH]; [reflexivity|]. cbn [map length repeat]. rewrite IH. destruct He as [-> _]. reflexivity. }
    rewrite M. rewrite repeat_app. f_equal. destruct (col_space (ih_colour ih) =? 1); reflexivity.
Qed.

Lemma section_starts_ok d first lengths sections : sections_at d first lengths sections ->
  forall k, (k < length lengths)%nat -> section_start (Z.of_nat first) lengths k < Z.of_nat (length d) /\ section_start (Z.of_nat first) lengths k + nth k lengths 0 <= Z.of_nat (length d).
Proof.
  intros (L & H) k Hk. destruct (nth_error sections k) as [c|] eqn:E; [|apply nth_error_None in E; lia].
  destruct (H k c E) as (b & len & E1 & E2 & H1 & H2 & _). rewrite E1. rewrite (nth_error_nth _ _ _ E2). lia.
Qed.

Lemma decodeFrame_ok o ih fh h w dim num ds P sections d first lengths codes lf s :
  lossless_image ih -> plain_frame fh h w dim num ds -> samples_of h w P -> length P = channel_count ih -> Forall2 toc_code lengths codes ->
  frame_sent (bd_bits (ih_bd ih)) h w dim num ds P sections -> sections_at d first lengths sections -> reader_at s d (8 * first) ->
  exists s' p' next, decodeFrame o ih fh lengths lf s = (Ok (map buffer_of P), s') /\ reader_at s' d p' /\
    section_start (Z.of_nat first) lengths (length lengths) = Z.of_nat next /\ byte_up p' = (8 * next)%nat.
Proof.
  intros HI Hp HP LP HT HS HA Hr. destruct (plain_is _ _ _ _ _ _ _ HI Hp) as (E1 & _ & _). destruct (plain_geo _ _ _ _ _ _ Hp) as (G & D1).
  destruct (plain_counts _ _ _ _ _ _ Hp) as (_ & _ & P1 & P2 & _).
  assert (Lc : Forall (fun l => 0 <= l < 2 ^ 32 - 4) lengths) by (clear - HT; induction HT; constructor; auto; eapply toc_code_reads; eassumption).
  assert (Hd : Forall is_byte d) by apply Hr.
  pose proof Hp as (F1 & F2 & F3 & F4 & F5 & F6 & F7 & F8 & F9 & F10 & F11 & F12 & F13 & F14 & F15 & F16 & F17 & (shift & F18) & F19 & F20).
  inversion F9 as [|? ? G0 F9']. inversion F9' as [|? ? G1 F9'']. inversion F9'' as [|? ? G4 _]. subst.
  destruct (image_channels ih HI fh F2) as (C1 & C2 & C3).
  pose proof HI as (_ & _ & _ & I4 & _).
  (* the readers *)
  assert (HRD : exists secs s1, setupBitReaders lengths s = (Ok secs, s1) /\ length secs = length lengths /\
    (forall i c, nth_error sections i = Some c -> holds (map (sectionReader s1) secs) i c) /\
    exists s0 d0 p0 c0, nth_error sections 0 = Some c0 /\ nth_error (map (sectionReader s1) secs) 0 = Some s0 /\ reader_at s0 d0 p0 /\ bits_at d0 p0 c0 /\ (p0 + length c0 + 15 <= 8 * length d0)%nat /\
      ((length lengths =? 1)%nat = true -> d0 = d /\ p0 = (8 * first)%nat) /\
      ((length lengths =? 1)%nat = false -> reader_at s1 d (8 * Z.to_nat (section_start (Z.of_nat first) lengths (length lengths))))).
  { pose proof HA as (L & HA'). destruct (Nat.eqb_spec (length lengths) 1) as [E|E].
    - exists [FrameReader], s. unfold setupBitReaders. rewrite E. split; [reflexivity|]. split; [reflexivity|]. cbn [map sectionReader].
      destruct sections as [|c0 [|c1 t]]; try (cbn [length] in L; lia). destruct (HA' 0%nat c0 eq_refl) as (b & len & S1 & S2 & S3 & S4 & S5 & S6 & S7).
      destruct (S7 eq_refl) as (S8 & S9). assert (b = first) by (unfold section_start in S1; cbn in S1; lia). subst b.
      split.
      + intros [|i] c Hc; [|destruct i; discriminate]. injection Hc as <-. exists s, d, (8 * first)%nat. split; [reflexivity|]. split; [exact Hr|]. split; [exact S6|lia].
      + exists s, d, (8 * first)%nat, c0. repeat split; try reflexivity; try assumption; try (apply Hr); try (apply S6); try lia; try discriminate.
    - destruct (reader_al _ _ _ Hr) as (A1 & A2 & A3).
      destruct (sections_ok lengths s d (Z.of_nat first) A1 A2 ltac:(lia) Lc (section_starts_ok _ _ _ _ HA)) as (bufs & s1 & B1 & B2 & B3 & B4).
      exists bufs, s1. unfold setupBitReaders. replace (length lengths =? 1)%nat with false by lia. cbn [negb]. split; [exact B1|]. split; [exact B2|].
      assert (HH : forall i c, nth_error sections i = Some c -> exists s0 d0, nth_error (map (sectionReader s1) bufs) i = Some s0 /\ reader_at s0 d0 0 /\ bits_at d0 0 c /\ (0 + length c + 15 <= 8 * length d0)%nat).
      { intros i c Hc. destruct (HA' i c Hc) as (b & len & S1 & S2 & S3 & S4 & S5 & S6 & S7). assert (Hi : (i < length lengths)%nat) by (apply nth_error_Some; congruence).
        specialize (B3 i Hi). rewrite S1, (nth_error_nth _ _ _ S2) in B3.
        exists (NewBitStreamReader (byte_range d (Z.of_nat b) (Z.of_nat len) ++ [0; 0; 0; 0])), (byte_range d (Z.of_nat b) (Z.of_nat len) ++ [0; 0; 0; 0]).
        split; [rewrite nth_error_map, B3; reflexivity|]. split; [apply start_at; apply plus_zeros; assumption|]. split; [apply section_bits; assumption|].
        unfold byte_range. rewrite !Nat2Z.id, app_length, firstn_length, skipn_length. cbn [length]. lia. }
      split.
      + intros i c Hc. destruct (HH i c Hc) as (s0 & d0 & H1 & H2 & H3 & H4). exists s0, d0, 0%nat. auto.
      + assert (exists c0, nth_error sections 0 = Some c0) as (c0 & Hc0) by (destruct HS as (? & ? & ? & ? & ? & c0 & HS); exists c0; apply HS).
        destruct (HH _ _ Hc0) as (s0 & d0 & H1 & H2 & H3 & H4). exists s0, d0, 0%nat, c0. repeat (split; [assumption|]). split; [discriminate|]. intros _. exact B4. }
  destruct HRD as (secs & s1 & R1 & R2 & R3 & s0 & d0 & p0 & c0 & R4 & R5 & R6 & R7 & R8 & R9 & R10).
  destruct (sent_decoded (mfOf ih fh) h w dim num shift ds P sections (map (sectionReader s1) secs) s0 d0 p0 c0) as (rs' & s0' & M1 & M2 & M3 & M4); try assumption.
  - cbn [mfOf mf_geo geoOf g_fx]. rewrite F3. reflexivity.
  - cbn [mfOf mf_geo geoOf g_fy]. rewrite F4. reflexivity.
  - cbn [mfOf mf_geo geoOf g_vardct]. rewrite F1. reflexivity.
  - congruence.
  - rewrite C3, LP. reflexivity.
  - rewrite map_length, R2. apply HA.
  - unfold decodeFrame. rewrite E1. cbn [negb].
    assert (Q : exists p' next, reader_at (if (length lengths =? 1)%nat then hd s1 rs' else s1) d p' /\ section_start (Z.of_nat first) lengths (length lengths) = Z.of_nat next /\ byte_up p' = (8 * next)%nat).
    { destruct (Nat.eqb_spec (length lengths) 1) as [E|E].
      - destruct (R9 eq_refl) as (-> & ->). assert (hd s1 rs' = s0') as -> by (destruct rs'; [discriminate|injection M3 as ->; reflexivity]).
        pose proof HA as (L & HA'). destruct sections as [|c1 [|? t]]; try (cbn [length] in L; lia). injection R4 as ->. destruct (HA' 0%nat c0 eq_refl) as (b & len & S1 & S2 & S3 & S4 & S5 & S6 & S7).
        destruct (S7 eq_refl) as (S8 & S9). assert (b = first) by (unfold section_start in S1; cbn in S1; lia). subst b.
        destruct lengths as [|l1 [|? ?]]; try (cbn [length] in E; lia). injection S2 as ->.
        exists (8 * first + length c0)%nat, (first + len)%nat. split; [exact M4|]. split; [unfold section_start; cbn; lia|]. apply byte_up_unique. lia.
      - specialize (R10 eq_refl). exists (8 * Z.to_nat (section_start (Z.of_nat first) lengths (length lengths)))%nat, (Z.to_nat (section_start (Z.of_nat first) lengths (length lengths))).
        split; [exact R10|]. split; [|apply byte_up_8]. rewrite Z2Nat.id; [reflexivity|]. unfold section_start. clear - Lc. rewrite firstn_all.
        assert (0 <= fold_right Z.add 0 lengths) by (induction Lc; cbn [fold_right]; lia). lia. }
    destruct Q as (p' & next & Q1 & Q2 & Q3). eexists _, p', next. split; [|split; [exact Q1|split; assumption]].
    rewrite (rbind_eq _ _ _ _ _ R1). rewrite P1, P2. cbn [obind]. rewrite !i32_small by lia.
    replace ((2 ^ 30 <? Z.of_nat h) || (Z.of_nat h <? 0) || (2 ^ 30 <? Z.of_nat w) || (Z.of_nat w <? 0)) with false by lia. rewrite M1. f_equal. f_equal.
    rewrite map_map. apply map_ext_in. intros q Hq. unfold samples_of in HP. rewrite Forall_forall in HP. destruct (HP q Hq) as (Q4 & Q5 & _). unfold bufferOf, buffer_of. cbn [fst snd]. rewrite !i32_small by lia. rewrite Q4, Q5. reflexivity.
Qed.

Lemma file_frame o ih d start next fh P s p st : lossless_image ih -> 1 <= dim_w (ih_size ih) < 2 ^ 31 -> 1 <= dim_h (ih_size ih) < 2 ^ 31 ->
  frame_bytes ih d start next fh P -> reader_at s d p -> byte_up p = (8 * start)%nat ->
  exists s' p', fileStep o false false ih st s = (frameStep false false ih (frame_in o ih (fh, P)) st, s') /\ reader_at s' d p' /\ byte_up p' = (8 * next)%nat.
Proof.
  intros HI W1 W2 (h & w & dim & num & ds & c & lengths & codes & sections & first & Hp & HF & HB & HT & HC & Ef & HP & LP & HS & HA & HN) Hr Eb.
  destruct (plain_is _ _ _ _ _ _ _ HI Hp) as (E1 & E2 & E3). destruct (plain_counts _ _ _ _ _ _ Hp) as (N1 & N2 & _ & _ & N5).
  apply bits_at_app in HB as [HB1 HB2].
  destruct (pad_ok s d p Hr) as (s1 & P1 & R1). change (8 * ((p + 7) / 8))%nat with (byte_up p) in R1. rewrite Eb in R1.
  destruct (C63_handled_frames_partial ih W1 W2 c fh HF) as (_ & RF). destruct (RF s1 d _ R1 HB1) as (s2 & P2 & R2).
  destruct (toc_plain s2 d _ lengths codes R2 HB2 HT HC) as (s3 & P3 & R3). rewrite <- Ef in R3.
  destruct (decodeFrame_ok o ih fh h w dim num ds P sections d first lengths codes (lfValue st (nth (Z.to_nat (fh_lflevel fh)) (d_lf st) None)) s3 HI Hp HP LP HT HS HA R3) as (s4 & p4 & next' & P4 & R4 & HN' & Eb4).
  assert (next' = next) by lia. subst next'.
  assert (LL : tocEntries (Z.of_nat (count h dim * count w dim)) (Z.of_nat (count h (8 * dim) * count w (8 * dim))) (ps_num (fh_passes fh)) = Z.of_nat (length lengths)).
  { rewrite N5. f_equal. destruct HA as (-> & _). destruct HS as (? & ? & ? & ? & ? & ? & HS). symmetry. apply HS. }
  exists s4, p4. split; [|split; assumption].
  unfold fileStep. assert (EH : ReadFrameHeader ih s = (Ok (fh, Z.of_nat (count h dim * count w dim), Z.of_nat (count h (8 * dim) * count w (8 * dim))), s2)).
  { unfold ReadFrameHeader. rewrite (rbind_eq _ _ _ _ _ P1), (rbind_eq _ _ _ _ _ P2). rewrite N1, N2. reflexivity. }
  rewrite (rbind_eq _ _ _ _ _ EH). rewrite LL, P3. destruct (SkipFrameData lengths s3) as [sk s5]. rewrite P4. reflexivity.
Qed.

(* ---- the frames ---- *)
Lemma frames_fit ih d : forall frames start, frames_bytes ih d start frames -> frames = [] \/ (start + length frames <= length d)%nat.
Proof.
  intros frames start H. induction H as [start|start next fh P t HF HT IH]; [left; reflexivity|right].
  destruct HF as (h & w & dim & num & ds & c & lengths & codes & sections & first & Hp & HF & HB & HT' & HC & Ef & HP & LP & HS & HA & HN).
  assert (Lc : 0 <= fold_right Z.add 0 lengths) by (clear - HT'; induction HT' as [|l c ls cs H1 H2 IH]; cbn [fold_right]; [lia|]; apply toc_code_reads in H1; lia).
  unfold section_start in HN. rewrite firstn_all in HN.
  destruct HB as (HB & _). rewrite app_length in HB. cbn [length] in HB.
  pose proof (byte_up_ge (8 * start + length c + 1)) as B1. pose proof (byte_up_ge (byte_up (8 * start + length c + 1) + length (concat codes))) as B2.
  cbn [length]. destruct IH as [->|IH]; [cbn [length]; lia|]. lia.
Qed.
Lemma file_loop o ih d : lossless_image ih -> 1 <= dim_w (ih_size ih) < 2 ^ 31 -> 1 <= dim_h (ih_size ih) < 2 ^ 31 ->
  forall frames start, frames_bytes ih d start frames -> forall s p st st' fuel, reader_at s d p -> byte_up p = (8 * start)%nat -> (length frames <= fuel)%nat ->
  frameLoop false false ih (map (frame_in o ih) frames) st = Ok st' ->
  exists s' p', fileLoop fuel o false false ih st s = (Ok st', s') /\ reader_at s' d p'.
Proof.
  intros HI W1 W2 frames start H. induction H as [start|start next fh P t HF HT IH]; intros s p st st' fuel Hr Eb Hf HL; [discriminate|].
  destruct fuel as [|fuel]; [cbn [length] in Hf; lia|]. cbn [map frameLoop] in HL.
  destruct (file_frame o ih d start next fh P s p st HI W1 W2 HF Hr Eb) as (s1 & p1 & E1 & R1 & B1).
  destruct (frameStep false false ih (frame_in o ih (fh, P)) st) as [[st1 e]| |] eqn:Es; try discriminate. cbn [obind fst snd] in HL.
  cbn [fileLoop]. rewrite (rbind_eq _ _ _ _ _ E1). cbn [fst snd]. destruct e.
  - injection HL as <-. exists s1, p1. split; [reflexivity|exact R1].
  - apply (IH s1 p1 st1 st' fuel); auto. cbn [length] in Hf. lia.
Qed.

(* ---- composition ---- *)
Lemma land_bit f : Z.testbit f 5 = false -> Z.land f USE_LF_FRAME = 0.
Proof.
  intros H. change USE_LF_FRAME with (2 ^ 5). apply Z.bits_inj'. intros n Hn. rewrite Z.land_spec, Z.bits_0.
  destruct (Z.eq_dec n 5) as [->|N]; [rewrite H; reflexivity|]. rewrite Z.pow2_bits_false by lia. apply andb_false_r.
Qed.
Definition frame_fine (ih : ImageHeader) (f : FrameHeader * list Plane) : Prop :=
  exists h w dim num ds, plain_frame (fst f) h w dim num ds /\ samples_of h w (snd f) /\ length (snd f) = channel_count ih.
Lemma frames_fine ih d start frames : frames_bytes ih d start frames -> Forall (frame_fine ih) frames.
Proof.
  intros H. induction H as [|start next fh P t HF HT IH]; constructor; [|exact IH].
  destruct HF as (h & w & dim & num & ds & c & lengths & codes & sections & first & Hp & HF & HB & HT' & HC & Ef & HP & LP & _). exists h, w, dim, num, ds. auto.
Qed.
Lemma fine_decoded o ih f lf : lossless_image ih -> frame_fine ih f -> decodedAs ih (frame_in o ih f) lf (map buffer_of (snd f)).
Proof.
  intros HI (h & w & dim & num & ds & Hp & HP & LP). destruct (plain_is _ _ _ _ _ _ _ HI Hp) as (E1 & E2 & E3).
  destruct Hp as (F1 & F2 & F3 & F4 & F5 & F6 & F7 & F8 & F9 & _). inversion F9 as [|? ? G0 F9']. inversion F9' as [|? ? G1 F9'']. inversion F9'' as [|? ? G4 F9'''].
  inversion F9''' as [|? ? G5 _]. subst. destruct HI as (X & _).
  split; [reflexivity|]. split; [intros _; apply land_bit; exact G5|]. exists (map buffer_of (snd f)). split; [reflexivity|]. cbn [frame_in fi_h fi_up fi_extra fi_ct].
  destruct (fh_type (fst f) =? LF_FRAME); [reflexivity|]. rewrite E2, E3. exists (map buffer_of (snd f)). repeat split.
  unfold performColourTransforms. rewrite X, F2. reflexivity.
Qed.
Lemma fine_layer P c y x : layer true (map buffer_of P) c y x = plane_layer P c y x.
Proof.
  unfold layer, plane_layer, samples. change ZERO_IB with (buffer_of empty_plane). rewrite map_nth. reflexivity.
Qed.
Lemma fine_allowed o ih H W f saved saved' : lossless_image ih -> size_ok ih H W -> frame_fine ih f -> drawable ih H W f (snd f) saved ->
  allowed true ih H W (frame_in o ih f) (map buffer_of (snd f)) saved'.
Proof.
  intros HI (Z1 & Z2 & Z3 & Z4 & Z5 & Z6) (h & w & dim & num & ds & Hp & HP & LP) (D1 & D2 & D3 & D4).
  destruct Hp as (F1 & F2 & F3 & F4 & F5 & F6 & F7 & F8 & F9 & F10 & F11 & F12 & F13 & F14 & F15 & _). destruct HI as (X & _).
  assert (FC : frame_colours ih (fst f) = image_colours ih) by (unfold frame_colours; rewrite X, F1; reflexivity).
  unfold allowed. cbn [frame_in fi_h]. split; [exact D1|]. split; [rewrite map_length, FC; exact LP|]. split.
  { exists h, w. split; [|split].
    - rewrite Forall_forall in *. intros b Hb. apply in_map_iff in Hb as (q & <- & Hq). unfold samples_of in HP. rewrite Forall_forall in HP. destruct (HP q Hq) as (Q1 & Q2 & _ & _ & Q5 & _).
      unfold chan, int_channel, buffer_of. cbn [ib_type ib_h ib_w ib_int]. rewrite Q1, Q2. auto.
    - destruct (Z.eq_dec (fh_type (fst f)) 2) as [E|E]; [left; exact E|right]. destruct (D4 E) as (K1 & K2 & K3 & K4 & K5 & K6 & K7 & K8 & K9 & K10 & K11).
      constructor; try assumption; rewrite ?F5, ?Z.mul_1_r; try lia; try (unfold blend_sizes; lia).
      intros c Hc b. destruct (K11 c Hc) as (A & B & C & _). subst b. repeat split; try lia; try apply C; auto.
    - intros E. destruct (D3 E). repeat split; [exact X|exact F2|lia|lia|exact FC]. }
  split; [exact D2|]. intros E c Hc. cbv zeta. destruct (D4 E) as (_ & _ & _ & _ & _ & _ & _ & _ & _ & _ & K11). destruct (K11 c Hc) as (A & B & C & D). cbv zeta in *.
  split; [lia|]. split; [exact D|]. lia.
Qed.

Definition same_layer (a b : Layer) : Prop := forall c y x, a c y x = b c y x.
Definition same_saved (a b : nat -> option Layer) : Prop := forall i, match a i, b i with Some u, Some v => same_layer u v | None, None => True | _, _ => False end.
Lemma drawn_same ih fh fa fb sa sb ca cb : same_layer fa fb -> same_saved sa sb -> same_layer ca cb -> same_layer (drawn true ih fh fa sa ca) (drawn true ih fh fb sb cb).
Proof.
  intros H1 H2 H3 c y x. unfold drawn. destruct (coveredb _ _ _ _ y x); [|apply H3]. cbv zeta. specialize (H2 (Z.to_nat (bl_source (blending_of ih fh c)))).
  destruct (sa _) as [u|], (sb _) as [v|]; try contradiction; [|apply H1]. rewrite !H1, !H2. reflexivity.
Qed.
Lemma store_same sa sb i u v : same_saved sa sb -> same_layer u v -> same_saved (store sa i u) (store sb i v).
Proof. intros H1 H2 j. unfold store. destruct (j =? i)%nat; [exact H2|apply H1]. Qed.
Lemma picture_buffers o ih H W frames lfs saved canvas out : lossless_image ih -> size_ok ih H W -> Forall (frame_fine ih) frames ->
  picture true ih fst (fun f _ p => p = snd f) plane_layer (drawable ih H W) frames lfs saved canvas out ->
  forall lfs' saved' canvas', same_saved saved saved' -> same_layer canvas canvas' ->
  exists out', picture true ih fi_h (decodedAs ih) (layer true) (allowed true ih H W) (map (frame_in o ih) frames) lfs' saved' canvas' out' /\ same_layer out out'.
Proof.
  intros HI HS HF HP. assert (LS : forall P, same_layer (plane_layer P) (layer true (map buffer_of P))) by (intros P c y x; symmetry; apply fine_layer).
  induction HP as [f t lfs saved canvas out p T1 T2 D _ IH|f t lfs saved canvas out p T1 T2 T3 D A _ IH|f t lfs saved canvas p T1 T2 T3 D A|f t lfs saved canvas out p T1 T2 T3 D A _ IH];
    intros lfs' saved' canvas' S1 S2; inversion HF as [|? ? HF1 HF2]; subst; cbn [map].
  - destruct (IH HF2 (store lfs' (Z.to_nat (fh_lflevel (fst f) - 1)) (map buffer_of (snd f))) saved' canvas' S1 S2) as (out' & P & S).
    exists out'. split; [|exact S]. apply (pic_lf true ih fi_h (decodedAs ih) (layer true) (allowed true ih H W)) with (p := map buffer_of (snd f)); try assumption. apply fine_decoded; assumption.
  - destruct (IH HF2 lfs' (store saved' (Z.to_nat (fh_saveref (fst f))) (layer true (map buffer_of (snd f)))) canvas') as (out' & P & S); [apply store_same; auto|exact S2|].
    exists out'. split; [|exact S]. apply (pic_reference true ih fi_h (decodedAs ih) (layer true) (allowed true ih H W)) with (p := map buffer_of (snd f)); try assumption; [apply fine_decoded; assumption|].
    eapply fine_allowed; eassumption.
  - exists (drawn true ih (fst f) (layer true (map buffer_of (snd f))) saved' canvas'). split; [|apply drawn_same; auto].
    apply (pic_last true ih fi_h (decodedAs ih) (layer true) (allowed true ih H W) (frame_in o ih f)) with (p := map buffer_of (snd f)); try assumption; [apply fine_decoded; assumption|].
    eapply fine_allowed; eassumption.
  - cbv zeta in IH. set (cv := drawn true ih (fst f) (plane_layer (snd f)) saved canvas) in *.
    set (cv' := drawn true ih (fst f) (layer true (map buffer_of (snd f))) saved' canvas').
    assert (SC : same_layer cv cv') by (apply drawn_same; auto).
    destruct (IH HF2 lfs' (store saved' (Z.to_nat (fh_saveref (fst f))) (if fh_savect (fst f) then layer true (map buffer_of (snd f)) else cv')) cv') as (out' & P & S);
      [apply store_same; [exact S1|destruct (fh_savect (fst f)); auto]|exact SC|].
    exists out'. split; [|exact S]. apply (pic_frame true ih fi_h (decodedAs ih) (layer true) (allowed true ih H W)) with (p := map buffer_of (snd f)); try assumption; [apply fine_decoded; assumption|].
    eapply fine_allowed; eassumption.
Qed.

(* ---- the whole file ---- *)
Lemma zbits_first v n : Z.testbit v 0 = true -> (1 <= n)%nat -> nth 0 (zbits n v) false = true.
Proof. destruct n as [|n]; [lia|]. intros H _. cbn [zbits nth]. rewrite <- H. rewrite Z.bit0_odd. try reflexivity. Qed.
Lemma no_container icc c ih d : SpecHeader.header_code iso_handled icc 5 c ih -> bits_at d 0 c -> (12 <= length d)%nat -> bytes_eqb (sub d 0 12) JPEGXL_CONTAINER_HEADER = false.
Proof.
  intros (c1 & c2 & v & -> & (-> & _) & (-> & _) & _) HB Hl. destruct (bytes_eqb (sub d 0 12) JPEGXL_CONTAINER_HEADER) eqn:E; [|reflexivity]. apply bytes_eqb_eq in E.
  destruct HB as (_ & HB). specialize (HB 0%nat ltac:(rewrite app_length; cbn [length zbits]; lia)). unfold stream_bit in HB. cbn [Nat.add] in HB. change (0 / 8)%nat with 0%nat in HB. change (0 mod 8)%nat with 0%nat in HB.
  rewrite app_nth1 in HB by (cbn [length zbits]; lia). rewrite zbits_first in HB by (reflexivity || lia).
  destruct d as [|b d]; [cbn in Hl; lia|]. unfold sub in E. cbn [skipn firstn] in E. unfold JPEGXL_CONTAINER_HEADER in E. assert (b = 0) by congruence. subst b. discriminate.
Qed.
Lemma not_at_end s d p : reader_at s d p -> (p < 8 * length d)%nat -> AtEnd s = (false, s).
Proof.
  intros Hr Hp. destruct (reader_at_good _ _ _ Hr) as (G & _ & E). rewrite (AtEnd_spec s G), E.
  destruct (skipn p (bytes_bits d)) eqn:E2; [|reflexivity]. apply (f_equal (@length bool)) in E2. rewrite skipn_length, bytes_bits_length in E2. cbn in E2. lia.
Qed.
Lemma codestream_start o icc level d base ih frames c start s : (forall n, 0 <= n < 2 ^ 32 -> exact (o_icc o n) (icc n)) -> lossless_image ih ->
  SpecHeader.header_code iso_handled icc level c ih -> bits_at d (8 * base) c -> (8 * start = byte_up (8 * base + length c))%nat -> (start < length d)%nat -> frames_bytes ih d start frames ->
  reader_at (set_pos base s) d (8 * base) ->
  exists s1, reader_at s1 d (8 * start) /\
    match AtEnd (set_pos base s) with
    | (true, _) => Ok None
    | (false, s) =>
        match ParseImageHeader (o_icc o) level s with
        | (Ok ih, s) =>
            match ih_preview ih with
            | Some _ => Err
            | None => obind (if ih_xyb ih then o_matrix o ih else Ok tt) (fun _ => decodeBox o false false ih (S (8 * length d)) s)
            end
        | (Err, _) => Err
        | (Panic, _) => Panic
        end
    end = decodeBox o false false ih (S (8 * length d)) s1.
Proof.
  intros HO HI HC HB Es Hs HF R0.
  assert (8 * base < 8 * length d)%nat. { unfold byte_up in Es. pose proof (Nat.div_mod (8 * base + length c + 7) 8 ltac:(lia)). lia. }
  rewrite (not_at_end _ _ _ R0) by lia.
  destruct (C54_header_language (o_icc o) icc level HO) as (_ & HL).
  assert (HC' : SpecHeader.header_code implemented icc level c ih) by (eapply header_mono; [apply handled_implemented|exact HC]).
  destruct (HL c ih _ d (8 * base)%nat HC' R0 HB) as (s1 & E1 & R1). rewrite E1. destruct HI as (X & PV & _). rewrite PV, X. cbn [obind].
  exists s1. unfold byte_up in Es. rewrite <- Es in R1. split; [exact R1|reflexivity].
Qed.
Lemma file_start o icc d ih frames : (forall n, 0 <= n < 2 ^ 32 -> exact (o_icc o n) (icc n)) -> lossless_image ih -> file_bytes icc d ih frames ->
  exists start s, (8 * start <= 8 * length d)%nat /\ frames_bytes ih d start frames /\ reader_at s d (8 * start) /\ decodeFile o false false d = decodeBox o false false ih (S (8 * length d)) s.
Proof.
  intros HO HI (Hl & Hd & c & start & HC & HB & Es & Hs & HF). exists start.
  unfold decodeFile. pose proof (header_ok d (S (length d)) Hd) as E. replace (length d <? 12)%nat with false in E by lia. rewrite (no_container _ _ _ _ HC HB Hl) in E. rewrite E.
  cbn [bh_offset]. change (Z.to_nat 0) with 0%nat.
  assert (R0 : reader_at (set_pos 0 (mkBR d 12 0 0 0)) d 0).
  { change 0%nat with (8 * br_pos (set_pos 0 (mkBR d 12 0 0 0)))%nat at 2. apply ProofBoxes.al_reader; [|reflexivity]. apply al_set_pos; [apply al_12; assumption|cbn; lia]. }
  destruct (codestream_start o icc 5 d 0 ih frames c start _ HO HI HC HB Es Hs HF R0) as (s1 & R1 & E1). exists s1. split; [lia|]. split; [exact HF|]. split; [exact R1|exact E1].
Qed.
(* ---- containers ---- *)
Section Inside.
Variables (A d B : list Z).
Let D := A ++ d ++ B.
Let b := length A.
Lemma bits_inside p c : bits_at d p c -> bits_at D (8 * b + p) c.
Proof.
  intros [H1 H2]. unfold D. split; [rewrite !app_length; fold b; lia|]. intros i Hi. rewrite <- H2 by exact Hi. unfold stream_bit.
  replace (8 * b + p + i)%nat with (p + i + b * 8)%nat by lia. rewrite Nat.div_add, Nat.mod_add by lia. f_equal.
  rewrite app_nth2 by (fold b; lia). fold b. replace ((p + i) / 8 + b - b)%nat with ((p + i) / 8)%nat by lia. apply app_nth1. apply Nat.div_lt_upper_bound; lia.
Qed.
Lemma start_inside first lengths i : section_start (Z.of_nat (b + first)) lengths i = Z.of_nat b + section_start (Z.of_nat first) lengths i.
Proof. unfold section_start. lia. Qed.
Lemma sections_inside first lengths sections : sections_at d first lengths sections -> sections_at D (b + first) lengths sections.
Proof.
  intros [L H]. split; [exact L|]. intros i c Hc. destruct (H i c Hc) as (x & len & E1 & E2 & E3 & E4 & E5 & E6 & E7).
  assert (LD : length D = (b + length d + length B)%nat) by (unfold D; rewrite !app_length; fold b; lia).
  exists (b + x)%nat, len. rewrite start_inside, E1. split; [lia|]. split; [exact E2|]. split; [lia|]. split; [lia|]. split; [exact E5|].
  split; [replace (8 * (b + x))%nat with (8 * b + 8 * x)%nat by lia; apply bits_inside; exact E6|]. intros N. specialize (E7 N). lia.
Qed.
Lemma frames_inside ih frames : forall start, frames_bytes ih d start frames -> frames_bytes ih D (b + start) frames.
Proof.
  intros start H. induction H as [start|start next fh P t HF _ IH]; [constructor|]. apply (fb_cons ih D (b + start) (b + next)); [|exact IH].
  destruct HF as (h & w & dim & num & ds & c & lengths & codes & sections & first & H1 & H2 & H3 & H4 & H5 & H6 & H7 & H8 & H9 & H10 & H11).
  exists h, w, dim, num, ds, c, lengths, codes, sections, (b + first)%nat. split; [exact H1|]. split; [exact H2|].
  replace (8 * (b + start))%nat with (8 * b + 8 * start)%nat by lia. split; [apply bits_inside; exact H3|]. split; [exact H4|].
  replace (8 * b + 8 * start + length c + 1)%nat with (8 * b + (8 * start + length c + 1))%nat by lia. rewrite byte_up_add. split; [apply bits_inside; exact H5|].
  split; [rewrite <- Nat.add_assoc, byte_up_add; lia|]. split; [exact H7|]. split; [exact H8|]. split; [exact H9|]. split; [apply sections_inside; exact H10|].
  rewrite start_inside, H11. lia.
Qed.
End Inside.
Lemma code_boxes_app o : forall l l', code_boxes o (l ++ l') = code_boxes o l ++ code_boxes (o + length (concat (map enc_box l))) l'.
Proof.
  intros l. revert o. induction l as [|x l IH]; intros o l'; cbn [app code_boxes map concat length]; [rewrite Nat.add_0_r; reflexivity|].
  rewrite IH, app_length, Nat.add_assoc, app_assoc. reflexivity.
Qed.
Lemma no_code_boxes : forall l o, Forall not_code l -> code_boxes o l = [].
Proof. intros l o H. revert o. induction H as [|x l Hx _ IH]; intros o; [reflexivity|]. cbn [code_boxes]. rewrite IH, app_nil_r. destruct x; cbn in Hx; [contradiction|contradiction|reflexivity|reflexivity]. Qed.
Lemma container_start o icc before after d ih frames : (forall n, 0 <= n < 2 ^ 32 -> exact (o_icc o n) (icc n)) -> lossless_image ih ->
  Forall wf_box (before ++ BCode d :: after) -> Forall not_code before -> Forall not_code after -> codestream icc (last_level 5 (before ++ BCode d :: after)) d ih frames ->
  let D := container before after d in
  exists start s, (8 * start <= 8 * length D)%nat /\ frames_bytes ih D start frames /\ reader_at s D (8 * start) /\ decodeFile o false false D = decodeBox o false false ih (S (8 * length D)) s.
Proof.
  intros HO HI Hw N1 N2 (Hd & c & start & HC & HB & Es & Hs & HF) D.
  set (bs := before ++ BCode d :: after) in *. set (A := signature ++ concat (map enc_box before) ++ be4 (8 + Z.of_nat (length d)) ++ t_jxlc).
  assert (ED : D = A ++ d ++ concat (map enc_box after)).
  { unfold D, A, container. rewrite map_app, concat_app. cbn [map concat]. unfold enc_box at 2. cbn [enc_body]. rewrite <- !app_assoc. reflexivity. }
  assert (LA : length A = (12 + length (concat (map enc_box before)) + 8)%nat) by (unfold A; rewrite !app_length; cbn [signature be4 t_jxlc length]; lia).
  assert (HD : Forall is_byte D).
  { unfold D, container. fold bs. apply Forall_app. split; [unfold is_byte; repeat constructor; lia|]. clear - Hw. induction Hw as [|x l Hx _ IH]; cbn [map concat]; [constructor|]. apply Forall_app. split; [apply Hx|exact IH]. }
  assert (H12 : (12 <= length D)%nat) by (rewrite ED, app_length; lia).
  assert (EL : length D = (length A + length d + length (concat (map enc_box after)))%nat) by (rewrite ED, !app_length; lia).
  unfold decodeFile. rewrite (header_ok D _ HD). replace (length D <? 12)%nat with false by lia.
  rewrite (proj2 (bytes_eqb_eq (sub D 0 12) JPEGXL_CONTAINER_HEADER) eq_refl).
  destruct (boxLoop_wf D bs (S (length D)) 5 [] _ (al_12 D HD H12) eq_refl Hw) as (s & E & Al & Ds).
  - reflexivity.
  - assert (Hbs : (length bs <= length (concat (map enc_box bs)))%nat).
    { clear - Hw. induction Hw as [|x l Hx _ IH]; cbn [map concat length]; [lia|]. rewrite app_length. pose proof (enc_box_length x Hx). lia. }
    unfold D, container. fold bs. rewrite app_length. lia.
  - rewrite E. cbn [app br_pos]. unfold bs at 1. rewrite code_boxes_app, (no_code_boxes before _ N1). cbn [app code_boxes]. rewrite (no_code_boxes after _ N2). cbn [app bh_offset].
    rewrite Nat2Z.id. replace (12 + length (concat (map enc_box before)) + 8)%nat with (length A) by exact LA.
    assert (R0 : reader_at (set_pos (length A) s) D (8 * length A)).
    { change (length A) with (br_pos (set_pos (length A) s)) at 2. apply ProofBoxes.al_reader; [|exact Ds]. apply al_set_pos; [exact Al|rewrite Ds; lia]. }
    exists (length A + start)%nat. assert (FB : frames_bytes ih D (length A + start) frames) by (rewrite ED; apply frames_inside; exact HF).
    destruct (codestream_start o icc (last_level 5 bs) D (length A) ih frames c (length A + start) s HO HI HC) as (s1 & R1 & E1); [| |lia|exact FB|exact R0|].
    + rewrite ED. replace (8 * length A)%nat with (8 * length A + 0)%nat by lia. apply bits_inside. exact HB.
    + rewrite byte_up_add. lia.
    + exists s1. split; [lia|]. split; [exact FB|]. split; [exact R1|exact E1].
Qed.

(* ---- writing files ---- *)
Lemma packed : forall n c, length c = (8 * n)%nat -> exists d, Forall is_byte d /\ length d = n /\ bytes_bits d = c.
Proof.
  induction n as [|n IH]; intros c Hc; [exists []; destruct c; [auto|cbn in Hc; lia]|].
  destruct (IH (skipn 8 c)) as (d & H1 & H2 & H3); [rewrite skipn_length; lia|].
  assert (L : length (firstn 8 c) = 8%nat) by (rewrite firstn_length; lia).
  exists (bz (firstn 8 c) :: d). split; [constructor; [|exact H1]|].
  - pose proof (bz_bound (firstn 8 c)) as B. pose proof (bz_nonneg (firstn 8 c)). rewrite L in B. unfold is_byte. change (2 ^ Z.of_nat 8) with 256 in B. lia.
  - split; [cbn [length]; congruence|]. unfold bytes_bits in *. cbn [flat_map]. rewrite H3. pose proof (zbits_bz (firstn 8 c)) as Z. rewrite L in Z. rewrite Z. apply firstn_skipn.
Qed.
Definition padded_bits (c : list bool) : list bool := c ++ repeat false (byte_up (length c) - length c).
Lemma padded_length c : length (padded_bits c) = byte_up (length c).
Proof. unfold padded_bits. rewrite app_length, repeat_length. pose proof (byte_up_ge (length c)). lia. Qed.
Lemma padded_at d p c : bits_at d p (padded_bits c) -> bits_at d p c.
Proof. intros H. apply bits_at_app in H. apply H. Qed.
Definition size_bytes (c : list bool) : nat := ((length c + 7) / 8)%nat.
Lemma toc_exists len : 0 <= len < 2 ^ 30 -> exists c, toc_code len c.
Proof.
  change (2 ^ 30) with 1073741824. intros H.
  assert (K : forall i base width, 0 <= i < 4 -> nth (Z.to_nat i) [0; 1024; 17408; 4211712] 0 = base -> nth (Z.to_nat i) [10; 14; 22; 30] 0 = width -> base <= len < base + 2 ^ width -> exists c, toc_code len c).
  { intros i base width Hi Eb Ew Hl. eexists. exists i, (len - base). cbv zeta. rewrite Eb, Ew. split; [exact Hi|]. split; [lia|]. split; [lia|reflexivity]. }
  destruct (Z.lt_ge_cases len 1024); [apply (K 0 0 10); try reflexivity; change (2 ^ 10) with 1024; lia|]. destruct (Z.lt_ge_cases len 17408); [apply (K 1 1024 14); try reflexivity; change (2 ^ 14) with 16384; lia|].
  destruct (Z.lt_ge_cases len 4211712); [apply (K 2 17408 22); try reflexivity; change (2 ^ 22) with 4194304; lia|]. apply (K 3 4211712 30); try reflexivity; change (2 ^ 30) with 1073741824; lia.
Qed.
Lemma toc_list lengths : Forall (fun l => 0 <= l < 2 ^ 30) lengths -> exists codes, Forall2 toc_code lengths codes.
Proof.
  induction 1 as [|l t H _ (codes & IH)]; [exists []; constructor|]. destruct (toc_exists l H) as (c & Hc). exists (c :: codes). constructor; assumption.
Qed.
Lemma sections_built d first : forall sections p, p = (8 * first)%nat -> bits_at d p (concat (map padded_bits sections)) -> (p + length (concat (map padded_bits sections)) + 16 <= 8 * length d)%nat ->
  sections_at d first (map (fun c => Z.of_nat (size_bytes c)) sections) sections /\
  section_start (Z.of_nat first) (map (fun c => Z.of_nat (size_bytes c)) sections) (length sections) = Z.of_nat (first + fold_right (fun c n => size_bytes c + n) 0 sections)%nat /\
  length (concat (map padded_bits sections)) = (8 * fold_right (fun c n => size_bytes c + n) 0 sections)%nat.
Proof.
  intros sections p -> HB HL.
  assert (LC : forall l : list (list bool), length (concat (map padded_bits l)) = (8 * fold_right (fun c n => size_bytes c + n) 0 l)%nat).
  { induction l as [|c l IH]; [reflexivity|]. cbn [map concat fold_right]. rewrite app_length, IH, padded_length. unfold byte_up, size_bytes. lia. }
  assert (SS : forall i, (i <= length sections)%nat -> section_start (Z.of_nat first) (map (fun c => Z.of_nat (size_bytes c)) sections) i = Z.of_nat (first + fold_right (fun c n => size_bytes c + n) 0 (firstn i sections))%nat).
  { intros i _. unfold section_start. rewrite firstn_map. rewrite Nat2Z.inj_add. f_equal. induction (firstn i sections) as [|c l IH]; [reflexivity|]. cbn [map fold_right]. rewrite IH. lia. }
  split; [|split; [rewrite SS, firstn_all by lia; reflexivity|apply LC]].
  split; [apply map_length|]. intros i c Hc. assert (Hi : (i < length sections)%nat) by (apply nth_error_Some; congruence).
  exists (first + fold_right (fun c n => size_bytes c + n) 0 (firstn i sections))%nat, (size_bytes c). rewrite SS by lia. split; [reflexivity|].
  split; [rewrite nth_error_map, Hc; reflexivity|].
  destruct (nth_error_split _ _ Hc) as (l1 & l2 & El & Ll). assert (E1 : firstn i sections = l1) by (rewrite El, firstn_app, <- Ll, Nat.sub_diag, firstn_all; cbn; apply app_nil_r).
  rewrite E1. set (b := (fold_right (fun c n => size_bytes c + n) 0 l1)%nat) in *.
  rewrite El, map_app, concat_app in HB, HL. cbn [map concat] in HB, HL. apply bits_at_app in HB as [_ HB]. apply bits_at_app in HB as [HB _]. rewrite !app_length in HL. rewrite LC in HB. rewrite (LC l1) in HL. fold b in HB, HL.
  rewrite padded_length in HL. pose proof (byte_up_ge (length c)) as B. assert (E2 : byte_up (length c) = (8 * size_bytes c)%nat) by reflexivity.
  replace (8 * (first + b))%nat with (8 * first + 8 * b)%nat by lia. repeat split; try lia; apply padded_at in HB; apply HB.
Qed.
Lemma file_built icc ih hc fh fc h w dim num ds P sections : SpecHeader.header_code iso_handled icc 5 hc ih -> frame_code fhandled ih fc fh ->
  plain_frame fh h w dim num ds -> samples_of h w P -> length P = channel_count ih -> frame_sent (bd_bits (ih_bd ih)) h w dim num ds P sections ->
  Forall (fun c => Z.of_nat (length c) <= 2 ^ 33 - 8) sections ->
  exists d, file_bytes icc d ih [(fh, P)].
Proof.
  intros HH HF Hp HP LP HS HB. set (lengths := map (fun c => Z.of_nat (size_bytes c)) sections).
  destruct (toc_list lengths) as (codes & HT).
  { unfold lengths. apply Forall_map. revert HB. apply Forall_impl. intros c Hc. unfold size_bytes. pose proof (Nat.div_mod (length c + 7) 8 ltac:(lia)). change (2 ^ 33) with 8589934592 in *. change (2 ^ 30) with 1073741824. lia. }
  set (A := padded_bits hc). set (B := padded_bits (fc ++ [false])). set (C := padded_bits (concat codes)). set (D := concat (map padded_bits sections)). set (E := repeat false 128).
  set (all := A ++ B ++ C ++ D ++ E).
  assert (LD : length D = (8 * fold_right (fun c n => size_bytes c + n) 0 sections)%nat).
  { unfold D. clear. induction sections as [|c l IH]; [reflexivity|]. cbn [map concat fold_right]. rewrite app_length, IH, padded_length. unfold byte_up, size_bytes. lia. }
  assert (LA : length A = (8 * size_bytes hc)%nat) by apply padded_length. assert (LB : length B = (8 * size_bytes (fc ++ [false]))%nat) by apply padded_length. assert (LCc : length C = (8 * size_bytes (concat codes))%nat) by apply padded_length.
  set (nD := fold_right (fun c n => size_bytes c + n)%nat 0%nat sections) in *.
  set (n := (size_bytes hc + size_bytes (fc ++ [false]) + size_bytes (concat codes) + nD + 16)%nat).
  destruct (packed n all) as (d & Hd & Ld & Ed).
  { unfold all, n, E. rewrite !app_length, repeat_length, LA, LB, LCc, LD. lia. }
  exists d. assert (HA : bits_at d 0 all) by (apply (bits_at_prefix d all []); rewrite app_nil_r; exact Ed).
  unfold all in HA. apply bits_at_app in HA as [HA1 HA]. apply bits_at_app in HA as [HA2 HA]. apply bits_at_app in HA as [HA3 HA]. apply bits_at_app in HA as [HA4 _].
  rewrite LA in *. rewrite LB in *. rewrite LCc in *. cbn [Nat.add] in *.
  set (start := size_bytes hc) in *. set (f1 := size_bytes (fc ++ [false])) in *. set (f2 := size_bytes (concat codes)) in *.
  assert (E1 : byte_up (8 * start + length fc + 1) = (8 * start + 8 * f1)%nat).
  { rewrite <- Nat.add_assoc, byte_up_add. f_equal. unfold f1, size_bytes, byte_up. rewrite app_length. reflexivity. }
  assert (E2 : byte_up (8 * start + 8 * f1 + length (concat codes)) = (8 * (start + f1 + f2))%nat).
  { replace (8 * start + 8 * f1 + length (concat codes))%nat with (8 * (start + f1) + length (concat codes))%nat by lia. rewrite byte_up_add. unfold f2, size_bytes, byte_up. lia. }
  destruct (sections_built d (start + f1 + f2) sections (8 * start + 8 * f1 + 8 * f2)%nat ltac:(lia) HA4 ltac:(fold D; rewrite LD; lia)) as (S1 & S2 & _).
  split; [lia|]. split; [exact Hd|]. exists hc, start. split; [exact HH|]. split; [apply padded_at; exact HA1|]. split; [reflexivity|]. split; [lia|].
  apply (fb_cons ih d start (start + f1 + f2 + nD)%nat); [|constructor].
  exists h, w, dim, num, ds, fc, lengths, codes, sections, (start + f1 + f2)%nat.
  split; [exact Hp|]. split; [exact HF|]. split; [apply padded_at; exact HA2|]. split; [exact HT|]. rewrite E1. split; [apply padded_at; exact HA3|]. split; [symmetry; exact E2|].
  split; [exact HP|]. split; [exact LP|]. split; [exact HS|]. split; [exact S1|]. unfold lengths at 2. rewrite map_length. exact S2.
Qed.
