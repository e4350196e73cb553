(* Properties of modular frames: C99. *)
From Coq Require Import ZArith List Bool Lia Arith ZifyBool ZifyNat.
From Verif Require Import GoBase GoLoop GoMatrix Bits ModelBitReader ModelUtil ModelHeader ModelFrameHeader ModelEntropy ModelMATree ModelModular ModelModStream ModelModDecode ModelGroups ModelSections ModelImage ModelHF ModelLF ModelModFrame.
From Verif Require Import SpecCodes SpecBitReader SpecGrammar SpecGroups SpecLF SpecStream SpecModular SpecPalette SpecModStream SpecModDecode SpecModFrame.
From Verif Require Import ProofReads ProofCodes ProofGroups ProofModStream3 ProofModDecode ProofModFrame PropImage PropLF PropStream PropTreeCode PropModStream PropModDecode.
Import ListNotations.
Open Scope Z_scope.

(* ---- C99: modular frames from sections to samples ---- *)
Lemma place_tile dim cols g q : place dim cols g (tile_of dim cols g q) = place dim cols g q.
Proof. reflexivity. Qed.
Lemma place_layout dim cols g p q : same_layout p q -> place dim cols g p = place dim cols g q.
Proof. intros (_ & _ & E1 & E2). unfold place, group_h, group_w. rewrite E1, E2. reflexivity. Qed.
Lemma combine_map {A B} (l : list A) (m : list B) : length l = length m -> map fst (combine l m) = l /\ map snd (combine l m) = m.
Proof. revert m. induction l as [|a l IH]; intros [|b m] H; try discriminate; [split; reflexivity|]. injection H as H. destruct (IH m H) as [H1 H2]. cbn. rewrite H1, H2. split; reflexivity. Qed.
Lemma group_stream f gd global dim cols g stream T c s d p chs :
  frame_tree gd global -> 3 <= mf_depth f <= 24 -> g_dim (mf_geo f) = Z.of_nat dim -> Z.of_nat dim < 2 ^ 32 -> 0 <= stream < 2 ^ 31 -> T <> [] ->
  stream_bits global (mf_depth f) stream (map (tile_of dim cols g) T) c -> Forall2 laid chs (map (tile_of dim cols g) T) ->
  reader_at s d p -> bits_at d p c -> (p + length c + 15 <= 8 * length d)%nat ->
  exists v s', groupStream gd f stream (combine (map (place dim cols g) T) chs) s = (Ok v, s') /\ pieces dim cols g T v.
Proof.
  intros FT Hd Ed Hdim Hs HT (l & meta & Q & HE & Hsp & Hk & HQ & HN & Hb) HL Hr Hbits Hlen.
  destruct (stream_ok gd global stream l (mf_depth f) (eq []) deltaTable (map (tile_of dim cols g) T) meta Q chs false Q [] (Z.of_nat dim) c s d p)
    as (ms & s1 & chs1 & chs2 & s' & E1 & E2 & F1 & F2 & R & Et & _); try assumption; [destruct T; [congruence|discriminate]|rewrite app_nil_r; reflexivity|reflexivity|lia|].
  inversion F2. subst chs2. rewrite app_nil_r in E2.
  destruct (C73_transforms_undone_partial _ _ l 0 _ meta Q chs1 Hd HE F1) as (chs' & E3 & F3). rewrite E3 in E2.
  pose proof (Forall2_length _ _ _ HL) as Ll. rewrite map_length in Ll.
  destruct (combine_map (map (place dim cols g) T) chs) as [M1 M2]; [rewrite map_length; lia|].
  eexists. exists s'. unfold groupStream. rewrite M1, M2. unfold rbind. rewrite E1, Ed, E2. split; [reflexivity|]. rewrite Et.
  assert (Eo : originsAfter l (map (place dim cols g) T) = map (place dim cols g) T).
  { replace (map (place dim cols g) T) with (map (place dim cols g) (snd (0%nat, map (tile_of dim cols g) T))) by (cbn [snd]; rewrite map_map; apply map_ext; reflexivity).
    apply (keep_origins (place dim cols g)) with (s' := (meta, Q)) (2 := place_layout dim cols g) (3 := HE); [|exact Hk].
    intros q Hq. unfold place. replace (p_vs q <? 0) with true by lia. reflexivity. }
  rewrite Eo. clear - F3. unfold pieces. revert chs' F3. induction T as [|q T IH]; intros chs' F3; inversion F3; subst; constructor; [split; [reflexivity|assumption]|apply IH; assumption].
Qed.

(* The groups of all passes are decoded, each from its own section. *)
Lemma groups_decoded f gd global dim rows cols nLF num ds later n rs :
  frame_tree gd global -> 3 <= mf_depth f <= 24 -> g_dim (mf_geo f) = Z.of_nat dim -> Z.of_nat dim < 2 ^ 32 ->
  Z.of_nat (20 + 3 * nLF + num * (rows * cols)) < 2 ^ 31 ->
  Forall (spread dim rows cols) later -> Forall good_plane later ->
  (later = [] /\ length rs = 1%nat \/ (1 < length rs)%nat /\ length rs = (2 + nLF + num * (rows * cols))%nat) ->
  (forall p g, (p < num)%nat -> (g < rows * cols)%nat -> filter (in_pass num ds p) later <> [] -> exists c,
     stream_bits global (mf_depth f) (Z.of_nat (18 + 3 * nLF + p * (rows * cols) + g)) (map (tile_of dim cols g) (filter (in_pass num ds p) later)) c /\
     holds rs (2 + nLF + p * (rows * cols) + g) c) ->
  forall rls p rs1, (p + length rls <= num)%nat -> Forall2 (fun p rl => Forall2 (chosen (in_pass num ds p)) rl later) (seq p (length rls)) rls ->
  length rs1 = length rs -> (forall j, (2 + nLF + p * (rows * cols) <= j)%nat -> nth_error rs1 j = nth_error rs j) ->
  exists vss rs', processPasses gd f (Z.of_nat nLF) (Z.of_nat (rows * cols)) (map (fun rl => repeat None n ++ rl) rls) p rs1 = (map (fun vs => Ok (map Some vs)) vss, rs') /\
    Forall2 (fun p vs => Forall2 (fun g v => pieces dim cols g (filter (in_pass num ds p) later) v) (seq 0 (rows * cols)) vs) (seq p (length rls)) vss /\
    length rs' = length rs1 /\ forall j, (j < 2 + nLF)%nat -> nth_error rs' j = nth_error rs1 j.
Proof.
  intros FT Hd Ed Hdim Hn SP GP Hrs HB. set (N := (rows * cols)%nat) in *. induction rls as [|rl rls IH]; intros p rs1 Hp HC L1 J1.
  - exists [], rs1. split; [reflexivity|]. split; [constructor|]. split; reflexivity.
  - cbn [length seq] in HC. inversion HC as [|? ? ? ? C1 C2]. subst. cbn [length] in Hp. cbn [map processPasses]. rewrite Nat2Z.id.
    assert (PN : (p * N + N <= num * N)%nat) by (rewrite <- Nat.mul_succ_l; apply Nat.mul_le_mono_r; lia).
    set (idx := fun g => (2 + nLF + p * N + g)%nat). set (T := filter (in_pass num ds p) later) in *.
    destruct (groups_ok (fun g => doProcessing gd f (Z.of_nat nLF) (Z.of_nat N) (repeat None n ++ rl) p g) (fun g v => pieces dim cols g T v) idx rs1 (seq 0 N)) with (rs := rs1) as (vs & rs2 & E2 & F2 & L2 & J2).
    + intros g rs3 Hg L3 N3. apply in_seq in Hg. cbn [Nat.add] in Hg. unfold doProcessing. rewrite groupChannels_skip, Ed.
      destruct (group_channels dim rows cols g (in_pass num ds p) rl later C1 SP GP ltac:(fold N; lia)) as (chs & Ec & Lc); [fold N; lia|]. fold T in Ec, Lc. rewrite Ec.
      assert (Ei : passGroupEntry (Z.of_nat nLF) (Z.of_nat N) (Z.of_nat p) (Z.of_nat g) = Z.of_nat (idx g)).
      { unfold passGroupEntry, idx. rewrite <- Nat2Z.inj_mul. rewrite (i64_small (2 + _)) by lia. rewrite (i64_small (Z.of_nat (p * N))) by lia. rewrite (i64_small (2 + _ + _)) by lia. rewrite i64_small by lia. lia. }
      assert (Es : passStream (Z.of_nat nLF) (Z.of_nat N) (Z.of_nat p) (Z.of_nat g) = Z.of_nat (18 + 3 * nLF + p * N + g)).
      { unfold passStream. rewrite <- Nat2Z.inj_mul, (Nat.mul_comm N p). rewrite (u32_small (3 * _)) by lia. rewrite (u32_small (18 + _)) by lia. rewrite (u32_small (Z.of_nat (p * N))) by lia.
        rewrite (u32_small (18 + _ + _)) by lia. rewrite u32_small by lia. lia. }
      rewrite Ei, Es. destruct T as [|q T'] eqn:ET.
      * cbn [map] in Lc. inversion Lc. subst chs. exists [], rs3. split; [|split; [constructor|split; reflexivity]].
        apply section_none; [destruct Hrs as [[_ Hrs]|[_ Hrs]]; [left; lia|right; unfold idx; lia]|]. reflexivity.
      * rewrite <- ET in *. assert (NE : T <> []) by (rewrite ET; discriminate).
        destruct (HB p g ltac:(lia) ltac:(lia)) as (c & Hc & (s & d & q0 & Ns & Rs & Bs & Ks)); [fold T; exact NE|]. fold T in Hc.
        assert (Ns3 : nth_error rs3 (idx g) = Some s) by (rewrite N3; unfold idx; rewrite J1 by lia; exact Ns).
        destruct (group_stream f gd global dim cols g (Z.of_nat (18 + 3 * nLF + p * N + g)) T c s d q0 chs FT Hd Ed Hdim ltac:(lia) NE Hc Lc Rs Bs Ks) as (v & s' & Ev & Pv).
        destruct Hrs as [[Hl _]|[Hl1 Hl2]]; [exfalso; apply NE; unfold T; rewrite Hl; reflexivity|].
        exists v, (list_set rs3 (idx g) s'). split; [apply section_at with (s := s); [apply reader_many; [lia|exact Ns3|unfold idx; lia]|exact Ns3|exact Ev]|].
        split; [exact Pv|]. split; [apply list_set_length|]. intros j Hj. apply nth_error_list_set, Hj.
    + apply FinFun.Injective_map_NoDup; [intros a b; unfold idx; lia|apply seq_NoDup].
    + reflexivity.
    + reflexivity.
    + rewrite E2. destruct (IH (S p) rs2) as (vss & rs' & E3 & F3 & L3 & J3); [lia|exact C2|lia| |].
      * intros j Hj. rewrite J2; [apply J1; cbn [Nat.mul] in Hj; lia|]. intros Hin. apply in_map_iff in Hin as (g & <- & Hg). apply in_seq in Hg. unfold idx in Hj. cbn [Nat.mul] in Hj. lia.
      * rewrite E3. rewrite keep_ok. exists (vs :: vss), rs'. split; [reflexivity|]. cbn [length seq]. split; [constructor; [exact F2|exact F3]|]. split; [lia|].
        intros j Hj. rewrite J3 by exact Hj. apply J2. intros Hin. apply in_map_iff in Hin as (g & <- & Hg). unfold idx in Hj. lia.
Qed.

(* Without channels for LF groups nothing is read there. *)
Lemma no_templates lfDim chs1 chs2 later : Forall (fun c => c_decoded c = true) chs1 -> Forall2 laid chs2 later -> Forall fine later -> lfTemplates lfDim (chs1 ++ chs2) = [].
Proof.
  intros D L F. unfold lfTemplates. generalize 0%nat. induction D as [|c t Hc D IH]; intros k.
  - cbn [app]. revert k F. induction L as [|c q t u Lc L IH]; intros k F; [reflexivity|]. inversion F as [|? ? (V & S & M & _) F']. subst. cbn [length seq combine flat_map].
    destruct Lc as (_ & _ & L3 & L4 & _). rewrite L3, L4. replace ((3 <=? p_hs q) && (3 <=? p_vs q)) with false by lia. rewrite andb_false_r. cbn [app]. apply IH, F'.
  - cbn [app length seq combine flat_map]. rewrite Hc. cbn [negb andb app]. apply IH.
Qed.
Lemma lf_groups_ok f gd numLF chs rs : geo_ok (mf_geo f) -> numLFGroups (mf_geo f) = Ok (Z.of_nat numLF) -> lfTemplates (lfGroupDim (mf_geo f)) chs = [] ->
  (length rs = 1%nat \/ (1 + numLF < length rs)%nat) -> Z.of_nat numLF < 2 ^ 31 -> decodeLFGroups gd f chs rs = (Ok chs, rs).
Proof.
  intros HG HN HT Hrs Hb. unfold decodeLFGroups. destruct (padded (mf_geo f) HG) as [E1 E2]. rewrite E1, E2, HN. cbn [obind]. rewrite HT, Nat2Z.id.
  destruct (counts (mf_geo f) HG) as (_ & _ & _ & Hc & _ & _ & Hw & _). assert (Enum : lW (mf_geo f) * lH (mf_geo f) = Z.of_nat numLF) by congruence.
  assert (G : forall l, (forall g, In g l -> (g < numLF)%nat) -> forGroups (lfGroup gd f (Z.of_nat numLF) []) l rs = (map Ok (map (fun _ => []) l), rs)).
  { induction l as [|g t IH]; intros Hl; [reflexivity|]. cbn [forGroups map].
    assert (Eg : lfGroup gd f (Z.of_nat numLF) [] g rs = (Ok [], rs)).
    { unfold lfGroup. specialize (Hl g (or_introl eq_refl)). pose proof (d_vals (mf_geo f) HG) as Hd.
      destruct (grid_lf (mf_geo f) HG) as [_ Gl Gs]. rewrite Gl, E1, E2 by lia. cbn [obind]. destruct (Gs (Z.of_nat g) ltac:(lia)) as [Gs' _]. rewrite Gs'. cbn [obind map].
      apply section_none; [|reflexivity]. unfold lfGroupEntry. clear - Hl Hb Hrs. rewrite i64_small by lia. lia. }
    rewrite Eg, IH by (intros g' Hg'; apply Hl; right; exact Hg'). reflexivity. }
  rewrite G by (intros g Hg; apply in_seq in Hg; lia). rewrite all_ok. cbn [obind ofold]. f_equal. induction (seq 0 numLF) as [|g t IH]; [reflexivity|]. cbn [map ofold obind]. exact IH.
Qed.

Lemma initial_ok h w ecStart shifts l : Z.of_nat h < 2 ^ 31 -> Z.of_nat w < 2 ^ 31 -> Forall (eq 0) shifts -> (forall i, In i l -> Z.of_nat i < ecStart + Z.of_nat (length shifts)) ->
  forall P, length P = length l -> Forall (fun q => p_h q = h /\ p_w q = w /\ p_vs q = 0 /\ p_hs q = 0) P ->
  exists chs, initialChannels (Z.of_nat h) (Z.of_nat w) ecStart shifts l = Ok chs /\ Forall2 laid chs P.
Proof.
  intros Hh Hw Hs. induction l as [|i l IH]; intros Hl [|q P] L F; try discriminate; [exists []; split; [reflexivity|constructor]|].
  inversion F as [|? ? (F1 & F2 & F3 & F4) F']. subst. destruct (IH (fun j Hj => Hl j (or_intror Hj)) P ltac:(cbn in L; lia) F') as (chs & E & Lc).
  cbn [initialChannels]. assert (Ed : (if Z.of_nat i <? ecStart then Ok 0 else slice_get shifts (Z.of_nat i - ecStart)) = Ok 0).
  { destruct (Z.ltb_spec (Z.of_nat i) ecStart); [reflexivity|]. specialize (Hl i (or_introl eq_refl)). rewrite (slice_get_ok _ _ 0) by lia. f_equal. rewrite Forall_forall in Hs. symmetry. apply Hs, nth_In. lia. }
  unfold initialChannel. rewrite Ed. cbn [obind]. rewrite E. cbn [obind]. eexists. split; [reflexivity|]. constructor; [|exact Lc].
  unfold laid, newChan. cbn [c_height c_width c_vshift c_hshift c_buf c_decoded c_forceWP]. rewrite F3, F4. rewrite !i32_small by lia. rewrite !u32_small by lia. repeat split.
Qed.
Lemma buffers_ok f h w P : g_height (mf_geo f) = Z.of_nat h -> g_width (mf_geo f) = Z.of_nat w -> (1 <= h)%nat -> (1 <= w)%nat ->
  Forall (fun q => p_h q = h /\ p_w q = w /\ rect h w (p_px q) /\ samples_within (2 ^ 24) (p_px q)) P ->
  forall chs pre, Forall2 shows chs P ->
  toBuffers f 0 (length pre) chs (pre ++ map (fun fl => (fl, zeros2 (Z.of_nat h) (Z.of_nat w))) (repeat false (length P))) = Ok (pre ++ map (fun q => (false, p_px q)) P).
Proof.
  intros Eh Ew Hh Hw. induction P as [|q P IH]; intros F chs pre S; inversion S as [|c ? chs' ? Sc S']; subst; [cbn [length repeat map toBuffers]; reflexivity|].
  inversion F as [|? ? (F1 & F2 & F3 & F4) F']. subst. cbn [toBuffers length repeat map]. rewrite Z.add_0_r, Eh, Ew.
  destruct Sc as (_ & _ & _ & _ & [Sb|[[K|K] _]]); [|lia..]. rewrite Sb.
  assert (E : modularToInt (Z.of_nat (p_h q)) (Z.of_nat (p_w q)) (p_px q) (zeros2 (Z.of_nat (p_h q)) (Z.of_nat (p_w q))) = Ok (p_px q)).
  { apply C61_lossless_samples_partial; [exact F3|pose proof (rect_zeros (Z.of_nat (p_h q)) (Z.of_nat (p_w q))) as K; rewrite !Nat2Z.id in K; exact K|].
    intros y x Hy Hx. unfold samples_within in F4. rewrite Forall_forall in F4. assert (Hr : In (nth y (p_px q) []) (p_px q)) by (apply nth_In; destruct F3; lia).
    specialize (F4 _ Hr). rewrite Forall_forall in F4. apply F4. apply nth_In. rewrite (rect_row (p_h q) (p_w q)) by (assumption || lia). exact Hx. }
  rewrite (modify_app pre _ _ _ (false, p_px q)) by (cbn [fst snd]; rewrite E; reflexivity). cbn [obind].
  specialize (IH F' chs' (pre ++ [(false, p_px q)]) S'). rewrite app_length in IH. cbn [length] in IH. rewrite Nat.add_1_r in IH. rewrite <- !app_assoc in IH. exact IH.
Qed.
Lemma rbind_eq {A B} (m : RM A) (k : A -> RM B) s a s' : m s = (Ok a, s') -> rbind m k s = k a s'.
Proof. intros E. unfold rbind. rewrite E. reflexivity. Qed.
Lemma count_stride size side : (1 <= size)%nat -> (1 <= side)%nat -> strideOf (Z.of_nat size) (Z.of_nat side) = Z.of_nat (count size side).
Proof. intros H1 H2. unfold strideOf, count. replace (Z.of_nat size - 1) with (Z.of_nat (size - 1)) by lia. rewrite <- Nat2Z.inj_div. lia. Qed.

Lemma frame_decoded f h w dim num shift ds P l meta now later global c0 rs s d p0 :
  let rows := count h dim in let cols := count w dim in let nLF := (count h (8 * dim) * count w (8 * dim))%nat in let nG := (rows * cols)%nat in
  geo_ok (mf_geo f) -> g_height (mf_geo f) = Z.of_nat h -> g_width (mf_geo f) = Z.of_nat w -> g_dim (mf_geo f) = Z.of_nat dim ->
  g_fx (mf_geo f) = 0 -> g_fy (mf_geo f) = 0 -> g_vardct (mf_geo f) = false ->
  Z.testbit (mf_flags f) 0 = false -> Z.testbit (mf_flags f) 1 = false -> Z.testbit (mf_flags f) 4 = false -> 3 <= mf_depth f <= 24 ->
  Forall (eq 0) (mf_dimShifts f) -> length P = (length (mf_dimShifts f) + Z.to_nat (ecStartOf f))%nat -> mf_floats f = repeat false (length P) ->
  mf_passes f = passes_of num shift ds -> scales_ok num ds -> Z.of_nat (20 + 3 * nLF + num * nG) < 2 ^ 31 ->
  (* the image *)
  Forall (fun q => p_h q = h /\ p_w q = w /\ p_vs q = 0 /\ p_hs q = 0 /\ rect h w (p_px q) /\ samples_within (2 ^ 24) (p_px q)) P ->
  encoded (mf_depth f) (eq []) first_like_meta deltaTable l (0%nat, P) (meta, now ++ later) -> Forall (fun t => ti_sp t = []) (map fst l) ->
  Forall good_plane (now ++ later) -> Z.of_nat (length (now ++ later)) < 2 ^ 28 -> global_part meta (Z.of_nat dim) now later ->
  Forall (spread dim rows cols) later -> Forall (fun q => Z.min (p_hs q) (p_vs q) < 3) later ->
  (* the sections *)
  length rs = (if (nG =? 1)%nat && (num =? 1)%nat then 1 else 2 + nLF + num * nG)%nat ->
  first_bits global (map fst l) now (now ++ later) c0 -> nth_error rs 0 = Some s -> reader_at s d p0 -> bits_at d p0 c0 -> (p0 + length c0 + 15 <= 8 * length d)%nat ->
  (forall p g, (p < num)%nat -> (g < nG)%nat -> filter (in_pass num ds p) later <> [] -> exists c,
     stream_bits global (mf_depth f) (Z.of_nat (18 + 3 * nLF + p * nG + g)) (map (tile dim (g / cols) (g mod cols)) (filter (in_pass num ds p) later)) c /\
     holds rs (2 + nLF + p * nG + g) c) ->
  exists rs' s', decodeModularFrame f rs = (Ok (map (fun q => (false, p_px q)) P), rs') /\
    length rs' = length rs /\ nth_error rs' 0 = Some s' /\ reader_at s' d (p0 + length c0).
Proof.
  intros rows cols nLF nG HG Eh Ew Ed Efx Efy Evd F0 F1 F4 Hdep Hsh LP Efl Eps Hsc Hnum HP HE Hsp HQ HQn Hpart HS Hm Lrs H1 Ns Rs Bs Ks HB.
  assert (Hhw : (1 <= h)%nat /\ (1 <= w)%nat /\ Z.of_nat h < 2 ^ 31 /\ Z.of_nat w < 2 ^ 31) by (destruct HG as [Gw Gh _ _ _ _]; lia).
  destruct Hhw as (Hh1 & Hw1 & Hh2 & Hw2).
  assert (Hdim : (1 <= dim)%nat /\ Z.of_nat dim < 2 ^ 32) by (pose proof (dim_vals _ HG) as Hv; lia). destruct Hdim as [Hdim1 Hdim2].
  destruct (counts _ HG) as (_ & _ & NG & NL & _).
  unfold nW, nH, lW, lH in NG, NL. rewrite Eh, Ew, Ed in NG, NL. replace (8 * Z.of_nat dim) with (Z.of_nat (8 * dim)) in NL by lia.
  rewrite !count_stride in NG, NL by lia. rewrite <- Nat2Z.inj_mul in NG, NL. rewrite Nat.mul_comm in NG, NL. fold rows cols nG in NG. fold nLF in NL.
  assert (Hfine : Forall fine later).
  { apply Forall_app in HQ as [_ HQ]. rewrite Forall_forall in *. intros q Hq. destruct (HS q Hq) as (V & S & _). unfold fine. specialize (Hm q Hq). specialize (HQ q Hq). auto. }
  pose proof HQ as HQ0. apply Forall_app in HQ0 as [_ HQl].
  (* one section: nothing is left for the groups *)
  assert (Hrs : later = [] /\ length rs = 1%nat \/ (1 < length rs)%nat /\ length rs = (2 + nLF + num * nG)%nat).
  { destruct ((nG =? 1)%nat && (num =? 1)%nat) eqn:E1; [left|right; lia]. split; [|exact Lrs]. apply andb_prop in E1 as [E1 _]. apply Nat.eqb_eq in E1. unfold nG in E1. apply Nat.eq_mul_1 in E1 as [Er Ec].
    destruct later as [|q later]; [reflexivity|exfalso]. destruct Hpart as [_ Hpart]. apply Hpart. inversion HS as [|? ? (V & S & _ & _ & B1 & B2) _]. subst. rewrite Er in B1. rewrite Ec in B2. right.
    assert (D : forall k, (dim / 2 ^ k <= dim)%nat) by (intros k; apply Nat.div_le_upper_bound; [apply Nat.pow_nonzero; lia|]; rewrite <- (Nat.mul_1_l dim) at 1; apply Nat.mul_le_mono_r; pose proof (Nat.pow_nonzero 2 k ltac:(lia)); lia).
    unfold group_h in B1. unfold group_w in B2. pose proof (D (Z.to_nat (p_vs q))). pose proof (D (Z.to_nat (p_hs q))). lia. }
  (* the first section *)
  destruct H1 as (c1 & c2 & c3 & lg & Hlg & Htree & Hmod & ->).
  apply bits_at_app in Bs. destruct Bs as [B1 Bs]. apply bits_at_app in Bs. destruct Bs as [B2 B3]. rewrite !app_length in Ks.
  assert (EL : exists s1, readLFGlobal (NewHFBlockContextWith ReadClusterMap) (mf_flags f) false s = (Ok lg, s1) /\ reader_at s1 d (p0 + length c1)).
  { change (readLFGlobal (NewHFBlockContextWith ReadClusterMap) (mf_flags f) false) with (readLFGlobal (NewHFBlockContextWith (fun _ _ => rerr)) (mf_flags f) false).
    refine (C77_standard_partial (fun _ _ => rerr) (fun _ _ _ => False) (mf_flags f) false c1 lg _ _ F0 F1 F4 Hlg _ s d p0 Rs B1).
    - intros n _. split; [intros ? ? []|]. intros s' d' p' _. exact I.
    - intros ? ? ? [].
    - intros hb Hhb. exfalso. destruct Hlg as (? & ? & ? & _ & _ & (? & ? & ? & _ & _ & (_ & ->))). discriminate. }
  destruct EL as (s1 & E1 & R1).
  assert (ET : exists gd s2, (if lg_hasGlobalTree lg then t <- NewMATreeWithReader ;; rret (Some t) else rret None) s1 = (Ok gd, s2) /\ reader_at s2 d (p0 + length c1 + length c2) /\ frame_tree gd global).
  { destruct (lg_hasGlobalTree lg).
    - destruct Htree as (nodes & hd & -> & Ht). destruct (C97_tree_partial nodes hd c2) as (e & He & _ & Re); [apply Ht|apply Ht|apply Ht|].
      destruct (Re s1 d _ R1 B2 ltac:(lia)) as (s2 & E & R2). exists (Some (nodes, e)), s2. unfold rbind. rewrite E. split; [reflexivity|]. split; [exact R2|]. exists e, c2. auto.
    - destruct Htree as [-> ->]. exists None, s1. split; [reflexivity|]. cbn [length]. rewrite Nat.add_0_r. split; [exact R1|exact I]. }
  destruct ET as (gd & s2 & E2 & R2 & FT).
  destruct (initial_ok h w (ecStartOf f) (mf_dimShifts f) (seq 0 (length (mf_dimShifts f) + Z.to_nat (ecStartOf f))) Hh2 Hw2 Hsh) with (P := P) as (chs0 & E3 & L3).
  { intros i Hi. apply in_seq in Hi. unfold ecStartOf in *. destruct (negb (mf_ycbcr f) && mf_gray f); lia. }
  { rewrite seq_length. exact LP. }
  { revert HP. apply Forall_impl. intros q Hq. tauto. }
  destruct (stream_ok gd global 0 l (mf_depth f) (eq []) deltaTable P meta (now ++ later) chs0 true now later (Z.of_nat dim) c3 s2 d (p0 + length c1 + length c2))
    as (ms & s3 & chs1 & chs2 & s4 & E4 & E5 & F5 & L5 & R5 & Et & Fd); try assumption; [lia| |reflexivity|lia|lia|].
  { intros ->. cbn in LP. unfold ecStartOf in LP. destruct (negb (mf_ycbcr f) && mf_gray f); cbn in LP; lia. }
  assert (EG : onSection lfGlobalEntry (newLFGlobal f) rs = (Ok (gd, ms, chs1 ++ chs2), list_set rs 0 s4)).
  { apply section_at with (s := s); [|exact Ns|].
    - unfold getBitreader, lfGlobalEntry. replace (if (length rs <=? 1)%nat then 0 else u32 0) with (Z.of_nat 0) by (destruct (length rs <=? 1)%nat; reflexivity). rewrite (slice_get_err _ _ _ Ns). reflexivity.
    - unfold newLFGlobal, globalStream. rewrite (rbind_eq _ _ _ _ _ E1). rewrite (rbind_eq _ _ _ _ _ E2). rewrite Eh, Ew, E3. unfold rbind, rlift. rewrite E4, Ed, E5. reflexivity. }
  unfold decodeModularFrame. rewrite EG. destruct (padded _ HG) as [Pw Ph]. unfold pw, pad_unit in Pw. unfold ph, pad_unit in Ph. rewrite Evd, Efx, Ew in Pw. rewrite Evd, Efy, Eh in Ph.
  assert (U : forall z, round_up z (1 * 2 ^ 0) = z) by (intros z; unfold round_up; change (1 * 2 ^ 0) with 1; rewrite Z.div_1_r; lia). rewrite U in Pw, Ph.
  rewrite Ph, Pw, NL, NG. cbn [obind].
  rewrite (lf_groups_ok f gd nLF); [|exact HG|exact NL|apply no_templates with later; assumption|rewrite list_set_length; destruct Hrs as [[_ Hr]|[_ Hr]]; [left; exact Hr|right]|lia].
  2: { rewrite Hr. lia. }
  rewrite Eps. unfold passes_of at 2. cbn [ps_num]. rewrite Nat2Z.id.
  destruct (passes_ok num shift ds chs1 chs2 later Hsc Fd L5 Hfine num 0 0 ltac:(lia) ltac:(lia)) as (rls & E6 & C6). rewrite E6.
  pose proof (Forall2_length _ _ _ C6) as Lr. rewrite seq_length in Lr.
  destruct (groups_decoded f gd global dim rows cols nLF num ds later (length chs1) (list_set rs 0 s4) FT Hdep Ed Hdim2 Hnum HS HQl) with (rls := rls) (p := 0%nat) (rs1 := list_set rs 0 s4) as (vss & rs' & E7 & C7 & L7 & J7).
  { rewrite list_set_length. exact Hrs. }
  { intros p g Hp Hg Hne. destruct (HB p g Hp Hg Hne) as (c & Hc & (s' & d' & p' & N' & Hs')). exists c. split; [exact Hc|]. exists s', d', p'. split; [rewrite nth_error_list_set by lia; exact N'|exact Hs']. }
  { lia. }
  { rewrite <- Lr. exact C6. }
  { reflexivity. }
  { reflexivity. }
  unfold decodePassGroupsModular. fold nG in E7. rewrite E7. exists rs', s4. split; [|split; [rewrite L7; apply list_set_length|split; [rewrite J7 by lia; destruct rs; [discriminate|reflexivity]|rewrite !app_length, !Nat.add_assoc; exact R5]]]. f_equal.
  replace (map (fun vs => Ok (map Some vs)) vss) with (map (@Ok _) (map (map Some) vss)) by apply map_map. rewrite all_ok. cbn [obind].
  rewrite <- Lr in C7.
  destruct (copy_passes dim rows cols num ds chs1 later HS HQl (seq 0 num) rls vss chs2 C6 C7) as (mid & E8 & H8 & L8 & N8).
  { revert L5. apply Forall2_imp. intros c q (L1 & L2 & L3' & L4 & L5 & _). split; [repeat split; assumption|left; exact L5]. }
  rewrite E8. cbn [obind].
  assert (FS : Forall2 shows (chs1 ++ mid) (now ++ later)).
  { apply Forall2_app; [exact F5|]. assert (G : forall i c q, nth_error mid i = Some c -> nth_error later i = Some q -> c_buf c = p_px q).
    { intros i c q Nc Nq. destruct (N8 i q Nq) as (c' & Nc' & Bc); [right|congruence].
      rewrite Forall_forall in Hfine. destruct (Hfine q (nth_error_In _ _ Nq)) as (V & S & M & _). destruct (some_pass num ds q Hsc ltac:(lia)) as (p & Hp & Ep). exists p. split; [apply in_seq; lia|exact Ep]. }
    clear - H8 G. induction H8 as [|c q t u ((S1 & S2 & S3 & S4) & _) H8 IH]; constructor.
    - repeat split; try assumption. left. apply (G 0%nat); reflexivity.
    - apply IH. intros i. apply (G (S i)). }
  rewrite Et. destruct (C73_transforms_undone_partial (mf_depth f) _ l 0 P meta (now ++ later) _ Hdep HE FS) as (chs' & E9 & F9). rewrite E9. cbn [obind].
  rewrite map_length, Efl, repeat_length, (Forall2_length _ _ _ F9), Z.sub_diag. rewrite !i32_small by lia.
  apply (buffers_ok f h w P Eh Ew Hh1 Hw1) with (pre := []); [|exact F9]. revert HP. apply Forall_impl. intros q Hq. tauto.
Qed.
(* A frame of integer samples comes out as it was, whatever the transforms,
   the trees, the codes and the passes are, from the bits of all sections to
   the buffers of the frame.  Missing: channels for LF groups, channels that
   do not reach the last group of a row or column, subsampled extra channels
   and transforms of groups that move channels (all refuted below), samples of
   more than 24 bits (C61), and what C98 leaves out. *)
Theorem C99_frame_partial : forall f h w dim num shift ds P l meta now later global c0 rs,
  let rows := count h dim in let cols := count w dim in let nLF := (count h (8 * dim) * count w (8 * dim))%nat in let nG := (rows * cols)%nat in
  geo_ok (mf_geo f) -> g_height (mf_geo f) = Z.of_nat h -> g_width (mf_geo f) = Z.of_nat w -> g_dim (mf_geo f) = Z.of_nat dim ->
  g_fx (mf_geo f) = 0 -> g_fy (mf_geo f) = 0 -> g_vardct (mf_geo f) = false ->
  Z.testbit (mf_flags f) 0 = false -> Z.testbit (mf_flags f) 1 = false -> Z.testbit (mf_flags f) 4 = false -> 3 <= mf_depth f <= 24 ->
  Forall (eq 0) (mf_dimShifts f) -> length P = (length (mf_dimShifts f) + Z.to_nat (ecStartOf f))%nat -> mf_floats f = repeat false (length P) ->
  mf_passes f = passes_of num shift ds -> scales_ok num ds -> Z.of_nat (20 + 3 * nLF + num * nG) < 2 ^ 31 ->
  (* the image *)
  Forall (fun q => p_h q = h /\ p_w q = w /\ p_vs q = 0 /\ p_hs q = 0 /\ rect h w (p_px q) /\ samples_within (2 ^ 24) (p_px q)) P ->
  encoded (mf_depth f) (eq []) first_like_meta deltaTable l (0%nat, P) (meta, now ++ later) -> Forall (fun t => ti_sp t = []) (map fst l) ->
  Forall good_plane (now ++ later) -> Z.of_nat (length (now ++ later)) < 2 ^ 28 -> global_part meta (Z.of_nat dim) now later ->
  Forall (spread dim rows cols) later -> Forall (fun q => Z.min (p_hs q) (p_vs q) < 3) later ->
  (* the sections *)
  length rs = (if (nG =? 1)%nat && (num =? 1)%nat then 1 else 2 + nLF + num * nG)%nat ->
  first_bits global (map fst l) now (now ++ later) c0 -> holds rs 0 c0 ->
  (forall p g, (p < num)%nat -> (g < nG)%nat -> filter (in_pass num ds p) later <> [] -> exists c,
     stream_bits global (mf_depth f) (Z.of_nat (18 + 3 * nLF + p * nG + g)) (map (tile dim (g / cols) (g mod cols)) (filter (in_pass num ds p) later)) c /\
     holds rs (2 + nLF + p * nG + g) c) ->
  exists rs', decodeModularFrame f rs = (Ok (map (fun q => (false, p_px q)) P), rs').
Proof.
  intros f h w dim num shift ds P l meta now later global c0 rs rows cols nLF nG HG Eh Ew Ed Efx Efy Evd F0 F1 F4 Hdep Hsh LP Efl Eps Hsc Hnum HP HE Hsp HQ HQn Hpart HS Hm Lrs H1 (s & d & p0 & Ns & Rs & Bs & Ks) HB.
  destruct (frame_decoded f h w dim num shift ds P l meta now later global c0 rs s d p0 HG Eh Ew Ed Efx Efy Evd F0 F1 F4 Hdep Hsh LP Efl Eps Hsc Hnum HP HE Hsp HQ HQn Hpart HS Hm Lrs H1 Ns Rs Bs Ks HB) as (rs' & s' & E & _).
  exists rs'. exact E.
Qed.
Print Assumptions C99_frame_partial.

(* Every image can be sent in this way: with a flat code, for any number of
   passes. *)
Lemma filter_len {A} (p : A -> bool) l : (length (filter p l) <= length l)%nat.
Proof. induction l as [|a l IH]; [reflexivity|]. cbn. destruct (p a); cbn; lia. Qed.
Lemma nth_error_S {A} (a : A) l n : nth_error (a :: l) (S n) = nth_error l n.
Proof. reflexivity. Qed.
Lemma choice_list {A} (R : nat -> A -> Prop) n : (forall i, (i < n)%nat -> exists a, R i a) -> exists l, length l = n /\ forall i a, nth_error l i = Some a -> R i a.
Proof.
  induction n as [|n IH]; intros H; [exists []; split; [reflexivity|intros [|i] a E; discriminate]|].
  destruct (IH (fun i Hi => H i (Nat.lt_lt_succ_r _ _ Hi))) as (l & L & F). destruct (H n ltac:(lia)) as [a Ha]. exists (l ++ [a]). split; [rewrite app_length; cbn; lia|].
  intros i b E. destruct (Nat.lt_ge_cases i n) as [Hi|Hi]; [rewrite nth_error_app1 in E by lia; auto|]. rewrite nth_error_app2 in E by lia.
  destruct (i - length l)%nat as [|k] eqn:Ek; [injection E as <-; replace i with n by lia; exact Ha|destruct k; discriminate].
Qed.
Lemma plain_header : exists hc, modular_code mstandard hc (false, mkWP 16 10 7 7 7 0 0 [13; 12; 12; 12], []) /\ (length hc <= 40)%nat.
Proof. eexists. split; [|shelve]. unfold modular_code. B false. eapply seq_i; [unfold wp_code; B true; apply ret_i|]. cbv beta. U 0%nat 0. eapply seq_i; apply ret_i. Unshelve. apply Nat.leb_le. vm_compute. reflexivity. Qed.
Lemma plain_lf : exists c lg, lf_global_code standard_threshold (fun _ _ _ => False) false c lg /\ lg_hasGlobalTree lg = false /\ (length c <= 40)%nat.
Proof.
  eexists. eexists. split; [unfold lf_global_code; eapply seq_i; [unfold dequant_code; B true; apply ret_i|]; cbv beta iota; B false; apply ret_i|]. split; [reflexivity|].
  apply Nat.leb_le. vm_compute. reflexivity.
Qed.
Lemma total_samples Q n : Forall (fun q => rect (p_h q) (p_w q) (p_px q) /\ (p_h q * p_w q <= n)%nat) Q -> (length (concat (concat (map p_px Q))) <= length Q * n)%nat.
Proof.
  induction 1 as [|q Q [R B] F IH]; [cbn; lia|]. cbn [map concat length Nat.mul]. rewrite concat_app, app_length. destruct (raster _ _ _ R) as [L _]. lia.
Qed.
Lemma within_px b h w m : rect h w m -> samples_within b m -> forall y x, (y < h)%nat -> (x < w)%nat -> - b <= px m y x <= b.
Proof.
  intros R W y x Hy Hx. unfold samples_within in W. rewrite Forall_forall in W. assert (I1 : In (nth y m []) m) by (apply nth_In; destruct R; lia). specialize (W _ I1).
  rewrite Forall_forall in W. apply W, nth_In. rewrite (rect_row h w) by assumption. exact Hx.
Qed.
Lemma sections_sent f h w dim num shift ds P :
  let rows := count h dim in let cols := count w dim in let nLF := (count h (8 * dim) * count w (8 * dim))%nat in let nG := (rows * cols)%nat in
  geo_ok (mf_geo f) -> g_height (mf_geo f) = Z.of_nat h -> g_width (mf_geo f) = Z.of_nat w -> g_dim (mf_geo f) = Z.of_nat dim ->
  g_fx (mf_geo f) = 0 -> g_fy (mf_geo f) = 0 -> g_vardct (mf_geo f) = false ->
  Z.testbit (mf_flags f) 0 = false -> Z.testbit (mf_flags f) 1 = false -> Z.testbit (mf_flags f) 4 = false -> 3 <= mf_depth f <= 24 ->
  Forall (eq 0) (mf_dimShifts f) -> length P = (length (mf_dimShifts f) + Z.to_nat (ecStartOf f))%nat -> mf_floats f = repeat false (length P) ->
  mf_passes f = passes_of num shift ds -> scales_ok num ds -> Z.of_nat (20 + 3 * nLF + num * nG) < 2 ^ 31 ->
  Forall (fun q => p_h q = h /\ p_w q = w /\ p_vs q = 0 /\ p_hs q = 0 /\ rect h w (p_px q) /\ samples_within (2 ^ 24) (p_px q)) P ->
  Z.of_nat (length P * (h * w)) < 2 ^ 28 ->
  exists sections : list (list bool), frame_sent (mf_depth f) h w dim num ds P sections /\
    Forall (fun c => (length c <= 612 + 48 * (length P * (h * w)))%nat) sections.
Proof.
  intros rows cols nLF nG HG Eh Ew Ed Efx Efy Evd F0 F1 F4 Hdep Hsh LP Efl Eps Hsc Hnum HP Htot.
  assert (Hhw : (1 <= h)%nat /\ (1 <= w)%nat /\ Z.of_nat h < 2 ^ 31 - 1 /\ Z.of_nat w < 2 ^ 31 - 1) by (destruct HG as [Gw Gh _ _ _ _]; lia).
  destruct Hhw as (Hh1 & Hw1 & Hh2 & Hw2).
  assert (Hdim1 : (1 <= dim)%nat) by (pose proof (dim_vals _ HG) as Hv; lia).
  assert (PN : P <> []) by (intros ->; cbn in LP; unfold ecStartOf in LP; destruct (negb (mf_ycbcr f) && mf_gray f); cbn in LP; lia).
  assert (GP : Forall good_plane P) by (revert HP; apply Forall_impl; intros q (Qh & Qw & _ & _ & R & _); unfold good_plane; rewrite Qh, Qw; split; [exact R|lia]).
  assert (C0 : forall size, (1 <= size)%nat -> ((count size dim - 1) * dim < size <= count size dim * dim)%nat).
  { intros size Hs. unfold count. pose proof (Nat.div_mod (size - 1) dim ltac:(lia)) as D. pose proof (Nat.mod_upper_bound (size - 1) dim ltac:(lia)). set (k := ((size - 1) / dim)%nat) in *.
    rewrite Nat.add_sub, Nat.mul_add_distr_r, Nat.mul_1_l. rewrite (Nat.mul_comm dim k) in D. lia. }
  assert (SP : Forall (spread dim rows cols) P).
  { revert HP. apply Forall_impl. intros q (Qh & Qw & V & S & _). unfold spread, group_h, group_w. rewrite Qh, Qw, V, S. change (2 ^ Z.to_nat 0)%nat with 1%nat. rewrite Nat.div_1_r.
    pose proof (C0 h Hh1). pose proof (C0 w Hw1). fold rows in H. fold cols in H0. lia. }
  set (small := (h <=? dim)%nat && (w <=? dim)%nat).
  set (now := if small then P else []). set (later := if small then [] else P).
  assert (NL : now ++ later = P) by (unfold now, later; destruct small; [apply app_nil_r|reflexivity]).
  destruct plain_header as (hc & Hc & Lhc). destruct plain_lf as (c1 & lg & Hlg & Hlt & Llf).
  assert (T0 : forall Q, Forall (fun q => rect (p_h q) (p_w q) (p_px q) /\ (p_h q * p_w q <= h * w)%nat) Q -> (length Q <= length P)%nat -> Z.of_nat (length (concat (concat (map p_px Q)))) < 2 ^ 31 /\ (length (concat (concat (map p_px Q))) <= length P * (h * w))%nat).
  { intros Q FQ LQ. pose proof (total_samples Q (h * w) FQ) as K. assert (length Q * (h * w) <= length P * (h * w))%nat by (apply Nat.mul_le_mono_r; exact LQ). lia. }
  assert (Wmore : forall m, samples_within (2 ^ 24) m -> samples_within (2 ^ 26) m).
  { intros m. apply Forall_impl. intros r. apply Forall_impl. intros v Hv. lia. }
  destruct (sendable_short 0 (widest (now ++ later)) [] _ hc now Hc) as (c3 & Hc3 & L3).
  { unfold now. destruct small; [exact GP|constructor]. }
  { unfold now. destruct small; [|constructor]. revert HP. apply Forall_impl. intros q Hq. apply Wmore. tauto. }
  { apply T0; unfold now; destruct small; [|constructor|lia|cbn; lia]. revert HP. apply Forall_impl. intros q (-> & -> & _ & _ & R & _). split; [exact R|lia]. }
  assert (Tn : (length (concat (concat (map p_px now))) <= length P * (h * w))%nat).
  { apply T0; unfold now; destruct small; [|constructor|lia|cbn; lia]. revert HP. apply Forall_impl. intros q (-> & -> & _ & _ & R & _). split; [exact R|lia]. }
  (* the sections of groups *)
  assert (SB : forall j, (j < num * nG)%nat -> exists c, (length c <= 612 + 48 * (length P * (h * w)))%nat /\ (filter (in_pass num ds (j / nG)) later <> [] ->
    stream_bits None (mf_depth f) (Z.of_nat (18 + 3 * nLF + j)) (map (tile dim (j mod nG / cols) ((j mod nG) mod cols)) (filter (in_pass num ds (j / nG)) later)) c)).
  { intros j Hj. set (T := filter _ later). set (gy := (j mod nG / cols)%nat). set (gx := ((j mod nG) mod cols)%nat).
    assert (TP : forall q, In q T -> In q P) by (intros q Hq; apply filter_In in Hq as [Hq _]; rewrite <- NL; apply in_or_app; right; exact Hq).
    assert (GT : Forall (fun q => good_plane q /\ (p_h q * p_w q <= h * w)%nat /\ samples_within (2 ^ 26) (p_px q)) (map (tile dim gy gx) T)).
    { apply Forall_forall. intros t Ht. apply in_map_iff in Ht as (q & <- & Hq). apply TP in Hq. rewrite Forall_forall in HP. destruct (HP q Hq) as (Qh & Qw & V & S & R & W).
      unfold tile, group_h, group_w. rewrite Qh, Qw, V, S. change (2 ^ Z.to_nat 0)%nat with 1%nat. rewrite Nat.div_1_r. set (a := (gy * dim)%nat). set (b := (gx * dim)%nat). cbn [p_h p_w p_px].
      assert (B1 : (Nat.min dim (h - a) <= h)%nat) by (clear; lia). assert (B2 : (Nat.min dim (w - b) <= w)%nat) by (clear; lia).
      split; [split; [apply rect_mat|cbn [p_h p_w]; clear - B1 B2 Hh2 Hw2; lia]|]. split; [apply Nat.mul_le_mono; assumption|].
      apply (within_rect (2 ^ 26) (mkPl (Nat.min dim (h - a)) (Nat.min dim (w - b)) 0 0 (mat (Nat.min dim (h - a)) (Nat.min dim (w - b)) (fun y x => px (p_px q) (a + y) (b + x))))); cbn [p_h p_w p_px]; [apply rect_mat|].
      intros y x Hy Hx. rewrite px_mat by assumption. apply (within_px (2 ^ 26) h w); [exact R|apply Wmore, W|clear - Hy; lia|clear - Hx; lia]. }
    assert (Hdec : T = [] \/ T <> []) by (destruct T; [left; reflexivity|right; discriminate]). destruct Hdec as [->|NT]; [exists []; split; [apply Nat.le_0_l|congruence]|].
    assert (TT : Z.of_nat (length (concat (concat (map p_px (map (tile dim gy gx) T))))) < 2 ^ 31 /\ (length (concat (concat (map p_px (map (tile dim gy gx) T)))) <= length P * (h * w))%nat).
    { apply T0; [revert GT; apply Forall_impl; intros q ((R & _) & B & _); auto|]. rewrite map_length. unfold T. rewrite <- NL, app_length. pose proof (filter_len (in_pass num ds (j / nG)) later). lia. }
    destruct (sendable_short (Z.of_nat (18 + 3 * nLF + j)) (widest (map (tile dim gy gx) T)) [] _ hc (map (tile dim gy gx) T) Hc) as (c & Hcc & Lcc).
    - revert GT. apply Forall_impl. tauto.
    - revert GT. apply Forall_impl. tauto.
    - apply TT.
    - exists c. split; [destruct TT as (_ & TT); clear - Lcc Lhc TT; lia|]. intros _. exists [], 0%nat, (map (tile dim gy gx) T). split; [constructor|]. split; [constructor|]. split; [constructor|]. split; [revert GT; apply Forall_impl; tauto|]. split; [|exact Hcc].
      rewrite map_length. assert (length T <= length P)%nat by (unfold T; rewrite <- NL, app_length; pose proof (filter_len (in_pass num ds (j / nG)) later); lia).
      assert (length P <= length P * (h * w))%nat by (rewrite <- (Nat.mul_1_r (length P)) at 1; apply Nat.mul_le_mono_l; apply Nat.le_trans with (1 * 1)%nat; [lia|apply Nat.mul_le_mono; assumption]). lia. }
  destruct (choice_list _ (num * nG) SB) as (sl & Ls & Fs).
  set (secs := (c1 ++ [] ++ c3) :: (if (nG =? 1)%nat && (num =? 1)%nat then [] else repeat [] (1 + nLF) ++ sl)).
  exists secs. assert (Fsec : Forall (fun c => (length c <= 612 + 48 * (length P * (h * w)))%nat) secs).
  { unfold secs. constructor; [rewrite !app_length; cbn [length]; clear - L3 Lhc Llf Tn; lia|]. destruct ((nG =? 1)%nat && (num =? 1)%nat); [constructor|]. apply Forall_app. split; [apply Forall_forall; intros c Hcr; apply repeat_spec in Hcr; subst c; apply Nat.le_0_l|].
    apply Forall_forall. intros c Hcs. apply In_nth_error in Hcs as (n & Hcs). specialize (Fs _ _ Hcs). apply Fs. }
  assert (Lsec : length secs = (if (nG =? 1)%nat && (num =? 1)%nat then 1 else 2 + nLF + num * nG)%nat).
  { unfold secs. destruct ((nG =? 1)%nat && (num =? 1)%nat); [reflexivity|]. cbn [length]. rewrite app_length, repeat_length, Ls. lia. }
  split; [|exact Fsec]. exists [], 0%nat, now, later, None, (c1 ++ [] ++ c3).
  split; [|split; [|split; [|split; [|split; [|split; [|split; [|split; [|split; [|split]]]]]]]]].
  - rewrite NL. constructor.
  - constructor.
  - rewrite NL. exact GP.
  - rewrite NL. assert (length P <= length P * (h * w))%nat by (rewrite <- (Nat.mul_1_r (length P)) at 1; apply Nat.mul_le_mono_l; apply Nat.le_trans with (1 * 1)%nat; [lia|apply Nat.mul_le_mono; assumption]). lia.
  - unfold now, later, small. rewrite Forall_forall in HP. destruct ((h <=? dim)%nat && (w <=? dim)%nat) eqn:Esm.
    + split; [|exact I]. intros i q Hi. apply nth_error_In in Hi. destruct (HP q Hi) as (Qh & Qw & _). right. rewrite Qh, Qw. lia.
    + split; [intros [|i] q Hi; discriminate|]. destruct P as [|q P']; [exact I|]. destruct (HP q (or_introl eq_refl)) as (Qh & Qw & _). unfold held. cbn [length]. rewrite Qh, Qw. lia.
  - unfold later. destruct small; [constructor|exact SP].
  - unfold later. destruct small; [constructor|]. revert HP. apply Forall_impl. intros q (_ & _ & V & S & _). rewrite V, S. reflexivity.
  - exact Lsec.
  - reflexivity.
  - exists c1, [], c3, lg. rewrite Hlt. split; [exact Hlg|]. split; [split; reflexivity|]. split; [exact Hc3|reflexivity].
  - intros p g Hp Hg NE.
    assert (Hj : (p * nG + g < num * nG)%nat) by (apply Nat.lt_le_trans with (p * nG + nG)%nat; [lia|]; rewrite <- Nat.mul_succ_l; apply Nat.mul_le_mono_r; lia).
    assert (Dj : ((p * nG + g) / nG = p)%nat) by (rewrite Nat.div_add_l, (Nat.div_small g nG) by lia; lia).
    assert (Mj : ((p * nG + g) mod nG = g)%nat) by (rewrite Nat.add_comm, Nat.mod_add, Nat.mod_small by lia; reflexivity).
    destruct (nth_error sl (p * nG + g)) as [c|] eqn:En; [|apply nth_error_None in En; lia]. specialize (Fs _ _ En). cbv beta in Fs. destruct Fs as (_ & Fs). rewrite Dj, Mj in Fs. specialize (Fs NE).
    exists c. rewrite Nat.add_assoc in Fs. split; [|exact Fs]. fold rows cols nG nLF. unfold secs. destruct ((nG =? 1)%nat && (num =? 1)%nat) eqn:E1.
    + exfalso. apply NE. unfold later. apply andb_prop in E1 as [E1 _]. apply Nat.eqb_eq in E1. unfold nG in E1. apply Nat.eq_mul_1 in E1 as [Er Ec]. pose proof (C0 h Hh1) as K1. pose proof (C0 w Hw1) as K2.
      fold rows in K1. fold cols in K2. rewrite Er in K1. rewrite Ec in K2. replace small with true by (unfold small; lia). reflexivity.
    + match goal with |- nth_error _ ?k = _ => replace k with (S ((1 + nLF) + (p * nG + g)))%nat by lia end. rewrite nth_error_S. rewrite nth_error_app2 by (rewrite repeat_length; lia). rewrite repeat_length.
      replace (1 + nLF + (p * nG + g) - (1 + nLF))%nat with (p * nG + g)%nat by lia. exact En.
Qed.
Lemma sent_decoded f h w dim num shift ds P sections rs s d p0 c0 :
  geo_ok (mf_geo f) -> g_height (mf_geo f) = Z.of_nat h -> g_width (mf_geo f) = Z.of_nat w -> g_dim (mf_geo f) = Z.of_nat dim ->
  g_fx (mf_geo f) = 0 -> g_fy (mf_geo f) = 0 -> g_vardct (mf_geo f) = false ->
  Z.testbit (mf_flags f) 0 = false -> Z.testbit (mf_flags f) 1 = false -> Z.testbit (mf_flags f) 4 = false -> 3 <= mf_depth f <= 24 ->
  Forall (eq 0) (mf_dimShifts f) -> length P = (length (mf_dimShifts f) + Z.to_nat (ecStartOf f))%nat -> mf_floats f = repeat false (length P) ->
  mf_passes f = passes_of num shift ds -> scales_ok num ds -> Z.of_nat (20 + 3 * (count h (8 * dim) * count w (8 * dim)) + num * (count h dim * count w dim)) < 2 ^ 31 ->
  Forall (fun q => p_h q = h /\ p_w q = w /\ p_vs q = 0 /\ p_hs q = 0 /\ rect h w (p_px q) /\ samples_within (2 ^ 24) (p_px q)) P ->
  frame_sent (mf_depth f) h w dim num ds P sections -> length rs = length sections -> (forall i c, nth_error sections i = Some c -> holds rs i c) ->
  nth_error sections 0 = Some c0 -> nth_error rs 0 = Some s -> reader_at s d p0 -> bits_at d p0 c0 -> (p0 + length c0 + 15 <= 8 * length d)%nat ->
  exists rs' s', decodeModularFrame f rs = (Ok (map (fun q => (false, p_px q)) P), rs') /\
    length rs' = length rs /\ nth_error rs' 0 = Some s' /\ reader_at s' d (p0 + length c0).
Proof.
  intros HG Eh Ew Ed Efx Efy Evd F0 F1 F4 Hdep Hsh LP Efl Eps Hsc Hnum HP (l & meta & now & later & global & c0' & HE & Hsp & HQ & HQn & Hpart & HS & Hm & Ls & N0 & H1 & HB) Lrs Hh N0' Ns Rs Bs Ks.
  assert (c0' = c0) as -> by congruence.
  apply (frame_decoded f h w dim num shift ds P l meta now later global c0 rs s d p0); try assumption; [congruence|].
  intros p g Hp Hg NE. destruct (HB p g Hp Hg NE) as (c & Nc & Hc). exists c. split; [exact Hc|apply Hh, Nc].
Qed.
Theorem C99_sendable : forall f h w dim num shift ds P,
  let rows := count h dim in let cols := count w dim in let nLF := (count h (8 * dim) * count w (8 * dim))%nat in let nG := (rows * cols)%nat in
  geo_ok (mf_geo f) -> g_height (mf_geo f) = Z.of_nat h -> g_width (mf_geo f) = Z.of_nat w -> g_dim (mf_geo f) = Z.of_nat dim ->
  g_fx (mf_geo f) = 0 -> g_fy (mf_geo f) = 0 -> g_vardct (mf_geo f) = false ->
  Z.testbit (mf_flags f) 0 = false -> Z.testbit (mf_flags f) 1 = false -> Z.testbit (mf_flags f) 4 = false -> 3 <= mf_depth f <= 24 ->
  Forall (eq 0) (mf_dimShifts f) -> length P = (length (mf_dimShifts f) + Z.to_nat (ecStartOf f))%nat -> mf_floats f = repeat false (length P) ->
  mf_passes f = passes_of num shift ds -> scales_ok num ds -> Z.of_nat (20 + 3 * nLF + num * nG) < 2 ^ 31 ->
  Forall (fun q => p_h q = h /\ p_w q = w /\ p_vs q = 0 /\ p_hs q = 0 /\ rect h w (p_px q) /\ samples_within (2 ^ 24) (p_px q)) P ->
  Z.of_nat (length P * (h * w)) < 2 ^ 28 ->
  exists sections : list (list bool), length sections = (if (nG =? 1)%nat && (num =? 1)%nat then 1 else 2 + nLF + num * nG)%nat /\
    forall rs, length rs = length sections -> (forall i c, nth_error sections i = Some c -> holds rs i c) ->
    exists rs', decodeModularFrame f rs = (Ok (map (fun q => (false, p_px q)) P), rs').
Proof.
  intros f h w dim num shift ds P rows cols nLF nG HG Eh Ew Ed Efx Efy Evd F0 F1 F4 Hdep Hsh LP Efl Eps Hsc Hnum HP Htot.
  destruct (sections_sent f h w dim num shift ds P HG Eh Ew Ed Efx Efy Evd F0 F1 F4 Hdep Hsh LP Efl Eps Hsc Hnum HP Htot) as (secs & Hs & _). exists secs.
  destruct Hs as (l & meta & now & later & global & c0 & Hs). split; [apply Hs|]. intros rs Lrs Hh.
  assert (N0 : nth_error secs 0 = Some c0) by apply Hs. destruct (Hh 0%nat c0 N0) as (s & d & p0 & Ns & Rs & Bs & Ks).
  destruct (sent_decoded f h w dim num shift ds P secs rs s d p0 c0) as (rs' & s' & E & _); try assumption; [|exists rs'; exact E].
  exists l, meta, now, later, global, c0. exact Hs.
Qed.
Print Assumptions C99_sendable.
(* A grey frame of 129 by 2 samples in two groups and two passes *)
Example C99_example_frame :
  let f := mkMF (mkGeo 129 2 128 0 0 false) 0 8 (passes_of 2 [0] [(2, 0)]) false true [] [false] in
  let P := [mkPl 2 129 0 0 (mat 2 129 (fun y x => Z.of_nat (x + y)))] in
  exists sections : list (list bool), length sections = 7%nat /\
    forall rs, length rs = 7%nat -> (forall i c, nth_error sections i = Some c -> holds rs i c) ->
    exists rs', decodeModularFrame f rs = (Ok (map (fun q => (false, p_px q)) P), rs').
Proof.
  destruct (C99_sendable (mkMF (mkGeo 129 2 128 0 0 false) 0 8 (passes_of 2 [0] [(2, 0)]) false true [] [false]) 2 129 128 2 [0] [(2, 0)]
    [mkPl 2 129 0 0 (mat 2 129 (fun y x => Z.of_nat (x + y)))]) as (secs & L & H); cbn [mf_geo mf_flags mf_depth mf_passes mf_dimShifts mf_floats g_height g_width g_dim g_fx g_fy g_vardct]; try reflexivity; try lia.
  - constructor; cbn [g_height g_width g_dim g_fx g_fy]; [lia|lia|exists 0; lia|lia|lia|reflexivity].
  - constructor.
  - split; [lia|]. repeat constructor; cbn [fst snd]; lia.
  - constructor; [|constructor]. cbn [p_h p_w p_vs p_hs p_px]. do 4 (split; [reflexivity|]). split; [apply rect_mat|].
    apply (within_rect (2 ^ 24) (mkPl 2 129 0 0 (mat 2 129 (fun y x => Z.of_nat (x + y))))); [apply rect_mat|]. cbn [p_h p_w p_px]. intros y x Hy Hx. rewrite px_mat by assumption. lia.
  - exists secs. cbn in L. split; [exact L|]. intros rs Lr. rewrite <- L in Lr. apply (H rs Lr).
Qed.

(* ---- what goes wrong ---- *)
(* The groups of a channel are counted by its own width.  A horizontal
   residual of a frame of 300 by 257 samples is 128 wide, and has nothing in
   the second column of groups: the second group writes to the lower half. *)
Theorem C99_residual_groups_refuted : exists c q,
  laid c q /\ p_h q = 300%nat /\ p_w q = 128%nat /\ p_hs q = 1 /\ p_vs q = 0 /\ count 257 256 = 2%nat /\
  exists c', groupChannel 256 1 c = Ok ((256, 0), c') /\ c_height c' = 44 /\ c_width c' = 128 /\
    p_w (tile 256 (1 / 2) (1 mod 2) q) = 0%nat.
Proof.
  exists (newChan 300 128 0 1 false), (mkPl 300 128 0 1 (mat 300 128 (fun _ _ => 0))). split; [repeat split|]. repeat split. eexists. split; [reflexivity|]. repeat split.
Qed.
(* For all channels but the first, the LF groups are looked up by the number of
   the channel in the image: one such channel panics, whatever is sent. *)
Theorem C99_lf_channels_refuted : forall gd f chs rs i r frameH frameW numLF vs rs',
  paddedHeight (mf_geo f) = Ok frameH -> paddedWidth (mf_geo f) = Ok frameW -> numLFGroups (mf_geo f) = Ok numLF -> 1 <= numLF ->
  lfTemplates (lfGroupDim (mf_geo f)) chs = [(S i, r)] ->
  forGroups (lfGroup gd f numLF [(S i, r)]) (seq 0 (Z.to_nat numLF)) rs = (map Ok vs, rs') -> Forall (fun v => length v = 1%nat) vs ->
  decodeLFGroups gd f chs rs = (Panic, rs').
Proof.
  intros gd f chs rs i r frameH frameW numLF vs rs' E1 E2 E3 HN ET EG F. unfold decodeLFGroups. rewrite E1, E2, E3. cbn [obind]. rewrite ET, EG, all_ok. cbn [obind]. f_equal.
  assert (L : length vs = Z.to_nat numLF).
  { apply (f_equal fst) in EG. cbn [fst] in EG. rewrite <- (map_length (@Ok _) vs), <- EG. rewrite <- (seq_length (Z.to_nat numLF) 0) at 2. generalize (seq 0 (Z.to_nat numLF)). clear. intros l. revert rs.
    induction l as [|g l IH]; intros rs; [reflexivity|]. cbn [forGroups]. destruct (lfGroup gd f numLF [(S i, r)] g rs) as [o rs1]. specialize (IH rs1). destruct (forGroups _ l rs1) as [t rs2]. cbn [fst length] in *. lia. }
  destruct (ofold _ [(S i, r)] chs) as [chs'| |] eqn:EO; cbn [obind]; [| |reflexivity].
  - destruct vs as [|v vs]; [cbn in L; lia|]. inversion F as [|? ? Lv _]. subst. cbn [ofold obind fst]. replace (slice_get v (Z.of_nat (S i))) with (@Panic ((Z * Z) * Chan)); [reflexivity|].
    unfold slice_get. destruct (Z.of_nat (S i) <? 0); [reflexivity|]. rewrite Nat2Z.id. destruct v as [|a [|? ?]]; try discriminate. destruct i; reflexivity.
  - exfalso. cbn [ofold obind fst] in EO. unfold modify, slice_get, slice_set in EO. repeat match type of EO with context [match ?x with _ => _ end] => destruct x; cbn [obind] in EO; try discriminate end.
Qed.
Example C99_example_lf_channel :
  let f := mkMF (mkGeo 256 256 256 0 0 false) 0 8 (passes_of 1 [] []) false true [] [false] in
  let chs := [mkChan 1 1 0 0 false [[0]] true []; newChan 32 32 3 3 false] in
  exists c, forall rs, length rs = 5%nat -> holds rs 1 c -> exists rs', decodeLFGroups None f chs rs = (Panic, rs').
Proof.
  set (f := mkMF (mkGeo 256 256 256 0 0 false) 0 8 (passes_of 1 [] []) false true [] [false]). cbv zeta.
  set (chs := [_; _]). set (q := mkPl 32 32 3 3 (mat 32 32 (fun _ _ => 0))). set (t := tile_of 256 1 0 q).
  assert (HT : t = mkPl 32 32 3 3 (mat 32 32 (fun y x => px (p_px q) (0 + y) (0 + x)))) by reflexivity.
  assert (R : rect 32 32 (p_px t)) by (rewrite HT; apply rect_mat).
  assert (GT : good_plane t) by (rewrite HT; split; [apply rect_mat|cbn; lia]).
  destruct plain_header as (hc & Hc & _). destruct (C98_sendable 2 (widest [t]) [] _ hc [t] Hc) as (c & Hcc).
  { constructor; [exact GT|constructor]. }
  { constructor; [|constructor]. apply (within_rect (2 ^ 26) t); [rewrite HT; apply rect_mat|]. intros y x Hy Hx. rewrite HT. cbn [p_px]. rewrite px_mat by (rewrite HT in *; assumption). rewrite HT in Hy, Hx. cbn [p_h p_w] in Hy, Hx.
    unfold q. cbn [p_px]. rewrite px_mat by assumption. lia. }
  { pose proof (total_samples [t] 1024) as K. assert (length (concat (concat (map p_px [t]))) <= 1 * 1024)%nat; [|lia]. apply K. constructor; [|constructor]. rewrite HT. split; [apply rect_mat|cbn; lia]. }
  exists c. intros rs Lr (s & d & p & Ns & Rs & Bs & Ks).
  destruct (group_stream f None None 256 1 0 2 [q] c s d p [newChan 32 32 3 3 false]) as (v & s' & Ev & Pv).
  { exact I. }
  { cbn [mf_depth f]. lia. }
  { reflexivity. }
  { reflexivity. }
  { lia. }
  { discriminate. }
  { exists [], 0%nat, [t]. split; [constructor|]. split; [constructor|]. split; [constructor|]. split; [constructor; [exact GT|constructor]|]. split; [reflexivity|exact Hcc]. }
  { constructor; [|constructor]. repeat split. }
  { exact Rs. }
  { exact Bs. }
  { exact Ks. }
  assert (Lv : length v = 1%nat) by (inversion Pv as [|? ? ? ? ? Pt]; inversion Pt; reflexivity).
  exists (list_set rs 1 s'). apply (C99_lf_channels_refuted None f chs rs 0 (newChan 256 256 3 3 false) 256 256 1 [v]); try reflexivity; try lia; [|constructor; [exact Lv|constructor]].
  assert (E : lfGroup None f 1 [(1%nat, newChan 256 256 3 3 false)] 0 rs = (Ok v, list_set rs 1 s')); [|match goal with |- forGroups ?F _ rs = _ => change (forGroups F [0%nat] rs = (map Ok [v], list_set rs 1 s')) end; cbn [forGroups map]; rewrite E; reflexivity].
  unfold lfGroup. cbn [mf_geo f]. change (onSection (lfGroupEntry (Z.of_nat 0)) (groupStream None f 2 [((0, 0), newChan 32 32 3 3 false)]) rs = (Ok v, list_set rs 1 s')).
  apply section_at with (s := s); [change (lfGroupEntry (Z.of_nat 0)) with (Z.of_nat 1); apply reader_many; [lia|exact Ns|lia]|exact Ns|exact Ev].
Qed.
(* A palette of two channels in the stream of a group: the second channel
   loses its place and is copied to the corner of the image. *)
Theorem C99_group_palette_refuted : exists t, ti_tr t = PALETTE /\ ti_numC t = 2 /\
  originsAfter [(t, [])] [(256, 512); (256, 512)] = [(256, 512); (0, 0)].
Proof. exists (mkTI PALETTE 0 0 2 2 0 0 []). repeat split. Qed.
(* Reference frames and frames with a header of defaults have no list of
   scales: no channel is in the only pass, nothing is read from the groups,
   and the conversion to buffers then meets channels without samples. *)
Theorem C99_default_passes_refuted : forall gd f chs rs nLF nG, mf_passes f = NewPassesInfo -> Z.of_nat (2 + nLF + nG) < 2 ^ 31 -> length rs = (2 + nLF + nG)%nat ->
  decodePasses (mf_passes f) chs (seq 0 (Z.to_nat (ps_num (mf_passes f)))) 0 = Ok [map (fun _ => None) chs] /\
  decodePassGroupsModular gd f (Z.of_nat nLF) (Z.of_nat nG) [map (fun _ => None) chs] chs rs = (Ok chs, rs) /\
  (forall ch t b, c_buf ch = [] -> 1 <= g_height (mf_geo f) -> 1 <= g_width (mf_geo f) -> toBuffers f 0 0 (ch :: t) ((false, zeros2 (g_height (mf_geo f)) (g_width (mf_geo f))) :: b) = Panic).
Proof.
  intros gd f chs rs nLF nG E Hb Lr. rewrite E. split; [|split].
  - change (seq 0 (Z.to_nat (ps_num NewPassesInfo))) with [0%nat]. cbn [decodePasses Nat.ltb Nat.leb]. unfold minShiftOf, NewPassesInfo. cbn [ps_last indexOf obind].
    assert (R : replacedChannels 3 3 chs = Ok (map (fun _ => None) chs)); [|rewrite R; reflexivity].
    induction chs as [|c t IH]; [reflexivity|]. cbn [replacedChannels map]. set (m := u32 _). replace ((3 <=? m) && (m <? 3)) with false by lia. rewrite andb_false_r. cbn [obind]. rewrite IH. reflexivity.
  - unfold decodePassGroupsModular. cbn [processPasses]. rewrite Nat2Z.id.
    assert (G : forall l, (forall g, In g l -> (g < nG)%nat) -> forGroups (fun g => doProcessing gd f (Z.of_nat nLF) (Z.of_nat nG) (map (fun _ => None) chs) 0 g) l rs = (map Ok (map (fun _ => []) l), rs)).
    { induction l as [|g t IH]; intros Hl; [reflexivity|]. cbn [forGroups map].
      assert (Eg : doProcessing gd f (Z.of_nat nLF) (Z.of_nat nG) (map (fun _ => None) chs) 0 g rs = (Ok [], rs)).
      { unfold doProcessing. assert (N : groupChannels (g_dim (mf_geo f)) (Z.of_nat g) (map (fun _ => None) chs) = Ok []) by (clear; induction chs as [|c t IH]; [reflexivity|exact IH]). rewrite N.
        specialize (Hl g (or_introl eq_refl)). apply section_none; [|reflexivity]. right. unfold passGroupEntry. cbn [Z.of_nat Z.mul]. change (i64 0) with 0. rewrite (i64_small (2 + _)) by lia. rewrite Z.add_0_r. rewrite (i64_small (2 + _)) by lia. rewrite i64_small by lia. lia. }
      rewrite Eg, IH by (intros g' Hg'; apply Hl; right; exact Hg'). reflexivity. }
    rewrite G by (intros g Hg; apply in_seq in Hg; lia). rewrite keep_ok. cbn [allGroups obind combine ofold fst snd].
    assert (K : forall gs i j chs', copyPass (map (fun _ => None) chs) gs i j chs' = Ok chs') by (clear; induction chs as [|c t IH]; intros gs i j chs'; [reflexivity|cbn [map copyPass]; apply IH]). rewrite K. reflexivity.
  - intros ch t b Hc Hh Hw. cbn [toBuffers]. unfold modify. change (Z.of_nat 0 + 0) with 0. cbn [slice_get]. rewrite (slice_get_ok _ _ (false, [])) by (cbn [length]; lia). cbn [Z.to_nat nth obind fst snd]. rewrite Hc.
    replace (modularToInt (g_height (mf_geo f)) (g_width (mf_geo f)) [] (zeros2 (g_height (mf_geo f)) (g_width (mf_geo f)))) with (@Panic (list (list Z))); [reflexivity|].
    unfold modularToInt. destruct (Z.to_nat (g_height (mf_geo f))) as [|n] eqn:En; [lia|]. destruct (Z.to_nat (g_width (mf_geo f))) as [|k] eqn:Ek; [lia|]. reflexivity.
Qed.
(* The last pass is looked up in the list of scales like all others: if the
   header names it for scale 2, channels of full size are in no pass. *)
Theorem C99_last_pass_refuted : let ps := passes_of 2 [0] [(2, 1)] in let c := newChan 10 10 0 0 false in
  level 2 [(2, 1)] 2 = 0 /\ decodePasses ps [c] (seq 0 2) 0 = Ok [[None]; [None]].
Proof. split; reflexivity. Qed.
(* An extra channel with a dimension shift of 1 is half as wide and high as
   the frame, but gets the full size. *)
Theorem C99_extra_channel_refuted : initialChannel 100 100 3 [1] 3 = Ok (newChan 100 100 1 1 false) /\ (100 + 2 ^ 1 - 1) / 2 ^ 1 = 50.
Proof. split; reflexivity. Qed.
(* A grey frame in YCbCr has three channels and one buffer: the first channel
   is written to buffer number -2. *)
Theorem C99_grey_ycbcr_refuted : forall f m b, mf_gray f = true -> mf_ycbcr f = true -> length m = Z.to_nat (ecStartOf f) -> length b = Z.to_nat (colourCount f) ->
  toBuffers f (Z.of_nat (length b) - Z.of_nat (length m)) 0 m b = Panic.
Proof.
  intros f m b G Y. unfold ecStartOf, colourCount. rewrite G, Y. cbn [negb andb]. intros Lm Lb. destruct m as [|c m]; [discriminate|]. destruct b as [|d [|? ?]]; try discriminate. cbn [toBuffers].
  change (Z.to_nat 3) with 3%nat in Lm. rewrite Lm. reflexivity.
Qed.
