(* Properties of the HF coefficients of a group: C101. *)
From Coq Require Import ZArith List Bool Lia Arith ZifyBool ZifyNat.
From Verif Require Import GoBase GoLoop GoMatrix Bits ModelBitReader ModelUtil ModelEntropy ModelHF ModelHFCoeff ModelHFGroup.
From Verif Require Import SpecCodes SpecBitReader SpecUtil SpecHF SpecHFGroup SpecGrammar SpecEntropy SpecDist SpecPrefix SpecLZ SpecStream SpecSymbols.
From Verif Require Import ProofReads ProofCodes ProofUtil ProofToc ProofHF ProofHFCoeff ProofHFGlobal ProofModDecode ProofHFGroup ProofDecode ProofSymbols PropStream PropSymbols PropModDecode PropHF.
Import ListNotations.
Open Scope Z_scope.

(* ---- C101: HF coefficients of a group from bits ---- *)
(* The coefficients Q of the blocks bs, sent in the standard's order and
   contexts with any entropy code, come back, scaled by the shift of the pass,
   and the reader is left where the group ends. *)
Definition height_in (i : GroupIn) (g : hgroup) (c : nat) : nat := Z.to_nat (Z.shiftr (fst (gi_size i)) (Z.of_nat (g_sy g c))).
Definition width_in (i : GroupIn) (g : hgroup) (c : nat) : nat := Z.to_nat (Z.shiftr (snd (gi_size i)) (Z.of_nat (g_sx g c))).
Theorem C101_group_partial : forall i g Q bs h preset l sc x s d p, let c0 := zbits (Z.to_nat (Z.log2_up (gi_presets i))) preset in
  group_inputs i g Q -> 0 <= preset < gi_presets i -> 495 * 16 * gi_presets i < 2 ^ 29 -> g_offset g = 495 * hb_numClusters (g_ctx g) * preset ->
  gi_blocks i = map block_place bs -> Forall (block_given i g (height_in i g) (width_in i g)) bs -> ForallOrdPairs (separate g) bs ->
  (forall c y x, (forall b, In b bs -> in_group g b -> in_channel g c b -> ~ In (y, x) (hf_positions g c b)) -> Q c y x = 0) ->
  group_sends g Q bs (fun _ _ _ => 0) l -> Z.of_nat (length l) < 2 ^ 31 ->
  stream_of h (gi_stream i) -> proper_header h -> symbols h 0 sst0 l sc x -> (ss_x x = None \/ ss_x x = Some 1245184) ->
  reader_at s d p -> bits_at d p (c0 ++ sc) -> (p + length (c0 ++ sc) + 15 <= 8 * length d)%nat ->
  exists q s', NewHFCoefficients i s = (Ok (preset, map (fun b => if in_groupb g b then Some (block_place b) else None) bs, q), s') /\
    length q = 3%nat /\ (forall c, (c < 3)%nat -> rect (height_in i g c) (width_in i g c) (nth c q []) /\ forall y x, px (nth c q []) y x = Q c y x * 2 ^ gi_shift i) /\
    reader_at s' d (p + length (c0 ++ sc)).
Proof.
  intros i g Q bs h preset l sc x s d p c0 G Hp Hnp Eoff Ebs HB HF HZ HS HL Hst Hpr Hsy Hx Hr Hb Hk.
  apply bits_at_app in Hb. destruct Hb as [Hb1 Hb2]. rewrite app_length in *.
  assert (N16 : 0 <= hb_numClusters (g_ctx g) <= 16) by (destruct (gp_shape i g Q G) as (? & ? & ? & _ & _ & _ & _ & _ & ?); lia).
  destruct (group_bits (gi_presets i) ltac:(lia)) as [W1 W2].
  assert (P2 : preset < 2 ^ Z.log2_up (gi_presets i)) by (destruct (Z.eq_dec (gi_presets i) 1) as [E|]; [rewrite E in *; cbn; lia|]; pose proof (Z.log2_up_spec (gi_presets i) ltac:(lia)); lia).
  assert (R0 : exists s1, readHFPreset (gi_presets i) s = (Ok preset, s1) /\ reader_at s1 d (p + length c0)).
  { replace (u32 (gi_presets i - 1)) with (gi_presets i - 1) in W1 by (symmetry; unfold u32; apply Z.mod_small; lia). unfold readHFPreset. rewrite W1.
    destruct (reads_zbits (Z.to_nat (Z.log2_up (gi_presets i))) (Z.log2_up (gi_presets i)) preset ltac:(lia) ltac:(lia) ltac:(lia) s d p Hr Hb1) as (s1 & E & R).
    exists s1. split; [|exact R]. erewrite rbind_ok by exact E. rewrite i32_id by lia. reflexivity. }
  destruct R0 as (s1 & E1 & R1).
  destruct (C83_restart h (gi_stream i) Hst) as (He & Hf & _). assert (Ha : (ahead h <= 15)%nat) by (unfold ahead; destruct (hd_codes h); lia).
  destruct (C96_values_partial h 0 _ l sc x s1 d (p + length c0) Hpr He Hf (fun _ => or_introl eq_refl) Hsy HL R1 Hb2 ltac:(lia)) as (ss & S0 & S1 & S2 & S3).
  set (Hh := height_in i g) in *. set (Ww := width_in i g) in *.
  assert (EC : groupChannels i = Ok (map (fun c => zeros2 (Z.shiftr (fst (gi_size i)) (Z.of_nat (g_sy g c))) (Z.shiftr (snd (gi_size i)) (Z.of_nat (g_sx g c)))) [0; 1; 2]%nat)).
  { unfold groupChannels.
    pose proof (gp_jy i g Q G 0%nat ltac:(lia)) as J1. pose proof (gp_jy i g Q G 1%nat ltac:(lia)) as J2. pose proof (gp_jy i g Q G 2%nat ltac:(lia)) as J3.
    pose proof (gp_jx i g Q G 0%nat ltac:(lia)) as K1. pose proof (gp_jx i g Q G 1%nat ltac:(lia)) as K2. pose proof (gp_jx i g Q G 2%nat ltac:(lia)) as K3.
    change (Z.of_nat 0) with 0 in J1, K1. change (Z.of_nat 1) with 1 in J2, K2. change (Z.of_nat 2) with 2 in J3, K3.
    cbv zeta. rewrite J1, K1. cbn [obind]. rewrite J2, K2. cbn [obind]. rewrite J3, K3. reflexivity. }
  assert (ST : state_ok i Hh Ww Q (fun _ _ _ => 0) (fun _ _ _ => False) ([zeros2 32 32; zeros2 32 32; zeros2 32 32], map (fun c => zeros2 (Z.shiftr (fst (gi_size i)) (Z.of_nat (g_sy g c))) (Z.shiftr (snd (gi_size i)) (Z.of_nat (g_sx g c)))) [0; 1; 2]%nat)).
  { split; [reflexivity|]. split; [reflexivity|]. intros c Hc. cbn [fst snd].
    assert (E : nth c [zeros2 32 32; zeros2 32 32; zeros2 32 32] [] = zeros2 32 32) by (destruct c as [|[|[|c]]]; [reflexivity..|lia]). rewrite E.
    split; [split; [apply (rect_zeros 32 32)|split; intros; rewrite px_zeros; lia]|].
    assert (E' : nth c (map (fun c => zeros2 (Z.shiftr (fst (gi_size i)) (Z.of_nat (g_sy g c))) (Z.shiftr (snd (gi_size i)) (Z.of_nat (g_sx g c)))) [0; 1; 2]%nat) [] =
      zeros2 (Z.shiftr (fst (gi_size i)) (Z.of_nat (g_sy g c))) (Z.shiftr (snd (gi_size i)) (Z.of_nat (g_sx g c)))) by (destruct c as [|[|[|c]]]; [reflexivity..|lia]).
    rewrite E'. split; [apply rect_zeros|]. intros y z. split; [intros []|]. intros _. apply px_zeros. }
  destruct (blocks_read i g Q Hh Ww G bs _ l HS HB HF _ _ ss ST ltac:(intros; intros []) S1) as (N' & [nz q] & E2 & S').
  exists q, (snd (ss (length l))). split; [|split; [|split]].
  - unfold NewHFCoefficients. erewrite rbind_ok by exact E1. erewrite rbind_ok by (unfold rlift; rewrite EC; reflexivity). rewrite (gp_hc i g Q G), Ebs.
    assert (EO : presetOffset (g_ctx g) preset = g_offset g).
    { rewrite Eoff. unfold presetOffset. rewrite (i32_id (495 * _)) by lia. apply i32_id. clear - Hp Hnp N16. nia. }
    rewrite EO, <- S0, E2. destruct (ss (length l)) as [e2 s2]. cbn [fst snd] in *. rewrite S3. destruct Hx as [-> | ->]; reflexivity.
  - destruct S' as (_ & L & _). exact L.
  - intros c Hc. destruct S' as (_ & _ & S'). destruct (S' c Hc) as (_ & R & V). cbn [snd] in *. split; [exact R|]. intros y z. destruct (V y z) as [V1 V2].
    destruct (in_dec (fun a b : nat * nat => ltac:(decide equality; apply Nat.eq_dec) : {a = b} + {a <> b}) (y, z) (positions g bs c)) as [HI|NI].
    + apply positions_spec in HI. apply V1. right. exact HI.
    + rewrite V2; [rewrite (HZ c y z); [reflexivity|]|].
      * intros b A1 A2 A3 A4. apply NI, positions_spec. exists b. tauto.
      * intros [[]|A]. apply NI, positions_spec. exact A.
  - rewrite Nat.add_assoc. exact S2.
Qed.
Print Assumptions C101_group_partial.

(* Every group can be sent; the values are those of symbols and the contexts
   those of the preset. *)
Lemma trim (l : list Z) : exists u k, l = u ++ repeat 0 k /\ (u = [] \/ last u 0 <> 0).
Proof.
  induction l as [|a l (u & k & -> & H)] using rev_ind; [exists [], 0%nat; split; [reflexivity|left; reflexivity]|].
  destruct (Z.eq_dec a 0) as [->|N]; [exists u, (S k); split; [rewrite <- app_assoc; f_equal; clear; induction k; cbn in *; congruence|exact H]|].
  exists ((u ++ repeat 0 k) ++ [a]), 0%nat. split; [cbn; now rewrite app_nil_r|]. right. rewrite last_last. exact N.
Qed.
Lemma zigzag_zero v : zigzag v = 0 -> v = 0.
Proof. unfold zigzag. destruct (Z.ltb_spec v 0); lia. Qed.
Lemma block_sendable g c b Q N : (forall y x, - 2 ^ 30 <= Q y x < 2 ^ 30) -> exists l M, block_sends g c b Q N l M.
Proof.
  intros HQ. destruct (trim (map (fun p => Q (fst p) (snd p)) (hf_positions g c b))) as (u & k & E & La).
  eexists. exists (fun y x => if covers_cell g c b y x then (nonzeros (map zigzag u) + blocks8 (b_type b) - 1) / blocks8 (b_type b) else N y x). exists (map zigzag u), k. split; [|split; [|split; [|split; [reflexivity|reflexivity]]]].
  - destruct La as [->|La]; [left; reflexivity|right]. destruct u as [|a u _] using rev_ind; [cbn in La; congruence|]. rewrite map_app. cbn [map]. rewrite last_last in *. intros K. apply zigzag_zero in K. congruence.
  - apply Forall_map, Forall_forall. intros v Hv. assert (HI : In v (map (fun p => Q (fst p) (snd p)) (hf_positions g c b))) by (rewrite E; apply in_or_app; left; exact Hv).
    apply in_map_iff in HI. destruct HI as (p & <- & _). specialize (HQ (fst p) (snd p)). unfold zigzag. destruct (Z.ltb_spec (Q (fst p) (snd p)) 0); lia.
  - rewrite E, map_map. f_equal. rewrite <- (map_id u) at 1. apply map_ext. intros v. symmetry. apply zigzag_ok.
Qed.
Lemma group_sendable g Q bs N : (forall c y x, - 2 ^ 30 <= Q c y x < 2 ^ 30) -> exists l, group_sends g Q bs N l.
Proof.
  intros HQ. revert N. induction bs as [|b bs IH]; intros N; [eexists; constructor|].
  destruct (in_groupb g b) eqn:T.
  2:{ destruct (IH N) as [l Hl]. exists l. apply gs_other; [|exact Hl]. intros K. apply in_groupb_spec in K. congruence. }
  assert (C : forall cs N, exists l M, channels_send g b Q cs N l M).
  { induction cs as [|c cs IHc]; intros N0; [eexists; eexists; constructor|].
    destruct (Nat.eq_dec ((b_y b - g_y g) mod 2 ^ g_sy g c) 0) as [A|A]; [destruct (Nat.eq_dec ((b_x b - g_x g) mod 2 ^ g_sx g c) 0) as [B|B]|].
    - destruct (block_sendable g c b (Q c) (N0 c) (HQ c)) as (l & M & HM). destruct (IHc (upd N0 c M)) as (l' & M' & HM'). eexists. eexists. eapply cs_send; [split; assumption|exact HM|exact HM'].
    - destruct (IHc N0) as (l & M & HM). eexists. eexists. apply cs_skip; [intros [_ K]; contradiction|exact HM].
    - destruct (IHc N0) as (l & M & HM). eexists. eexists. apply cs_skip; [intros [K _]; contradiction|exact HM]. }
  destruct (C [1; 0; 2]%nat N) as (l & M & HM). destruct (IH M) as (l' & Hl'). exists (l ++ l'). eapply gs_block; [apply in_groupb_spec; exact T|exact HM|exact Hl'].
Qed.

Lemma nonzeros_some u : u <> [] -> last u 0 <> 0 -> 1 <= nonzeros u.
Proof.
  intros N L. destruct u as [|a u _] using rev_ind; [congruence|]. rewrite last_last in L. unfold nonzeros. rewrite filter_app, app_length. cbn [filter]. replace (a =? 0) with false by lia. cbn. lia.
Qed.
Lemma block_contexts i g Q c b N l M : group_inputs i g Q -> (c < 3)%nat -> 0 <= b_type b <= 26 -> 0 <= b_lf b < hb_numLFContexts (g_ctx g) -> (forall y x, 0 <= N y x) ->
  block_sends g c b (Q c) N l M ->
  Forall (fun s => g_offset g <= fst s < g_offset g + 495 * hb_numClusters (g_ctx g) /\ 0 <= snd s < 2 ^ 31) l /\ forall y x, 0 <= M y x.
Proof.
  intros G Hc Ht Hl HN (used & k & La & Vu & EQ & -> & HM). destruct (hf_length i g Q c b G Hc Ht) as (LP & Bn & _). pose proof (nonzeros_unzig used) as NU.
  assert (LL : (length (hf_positions g c b) = length used + k)%nat) by (rewrite <- (map_length (fun p => Q c (fst p) (snd p))), EQ, app_length, map_length, repeat_length; reflexivity).
  split; [|intros y x; rewrite HM; destruct (covers_cell g c b y x); [apply Z.div_pos; lia|apply HN]].
  destruct (type_there _ Ht) as (t & Et). destruct (tt_order _ _ Ht Et) as (T1 & _). destruct (type_fields _ _ Ht Et) as (F1 & _).
  destruct (blockContext_ok (g_ctx g) (Z.of_nat c) (tt_orderID t) (b_mult b) (b_lf b) (gp_shape i g Q G) ltac:(lia) T1 Hl) as (bc & Eb & Ib & Lb).
  rewrite F1, (context_exact (g_ctx g) c (b_type b) (b_mult b) (b_lf b) (gp_shape i g Q G) Hc Ht Hl) in Eb. injection Eb as <-.
  set (bc := block_context _ _ _ _ _) in *. assert (Hb : 0 <= bc) by (pose proof (gp_map i g Q G) as F; rewrite Forall_forall in F; exact (F _ Ib)). clearbody bc.
  set (n := hb_numClusters (g_ctx g)) in *. set (nb := blocks8 (b_type b)) in *. clearbody n nb.
  assert (HP : 0 <= prediction N (cell_y g c b) (cell_x g c b)).
  { unfold prediction. destruct (cell_y g c b) as [|y0], (cell_x g c b) as [|x0]; [lia|apply HN|apply HN|]. pose proof (HN y0 (S x0)). pose proof (HN (S y0) x0). apply Z.div_pos; lia. }
  set (pr := prediction _ _ _) in *. clearbody pr. unfold block_symbols. constructor; cbn [fst snd].
  - assert (C : 0 <= (if pr <? 8 then pr else 4 + Z.min pr 64 / 2) <= 36).
    { destruct (Z.ltb_spec pr 8); [lia|]. pose proof (Z.div_mod (Z.min pr 64) 2 ltac:(lia)). pose proof (Z.mod_pos_bound (Z.min pr 64) 2 ltac:(lia)). lia. }
    unfold count_context. set (q := if pr <? 8 then _ else _) in *. clearbody q. split; [clear - C Hb Lb; nia|lia].
  - apply Forall_map, Forall_forall. intros j Hj. apply in_seq in Hj. cbn [fst snd].
    assert (V : 0 <= nth j used 0 < 2 ^ 31) by (rewrite Forall_forall in Vu; apply Vu, nth_In; lia). split; [|exact V].
    destruct La as [->|La]; [cbn in Hj; lia|].
    assert (S1 : 1 <= nonzeros (skipn j used)).
    { rewrite <- (firstn_skipn j used) in La. assert (SN : skipn j used <> []) by (intros K; apply (f_equal (@length Z)) in K; rewrite skipn_length in K; cbn in K; lia).
      apply nonzeros_some; [exact SN|]. intros K. apply La. transitivity (last (skipn j used) 0); [|exact K]. clear - SN. induction (firstn j used) as [|a f IH]; [reflexivity|]. cbn [app last]. destruct (f ++ skipn j used) eqn:E; [|exact IH].
      apply app_eq_nil in E. tauto. }
    pose proof (nonzeros_unzig (skipn j used)) as S2. rewrite skipn_length in S2.
    unfold coef_context. set (pv := match j with O => _ | S _ => _ end).
    assert (P01 : 0 <= pv <= 1) by (unfold pv; destruct j as [|j]; match goal with |- context [if ?cnd then _ else _] => destruct cnd end; lia). clearbody pv.
    destruct (coeffContext_ok (nb + Z.of_nat j) (nonzeros (skipn j used)) nb pv Bn ltac:(lia) ltac:(lia) P01) as (z & _ & Z1 & Z2). rewrite <- Z2. clear - Z1 Hb Lb. nia.
Qed.
Lemma group_contexts i g Q bs N l : group_inputs i g Q -> (forall b, In b bs -> in_group g b -> 0 <= b_type b <= 26 /\ 0 <= b_lf b < hb_numLFContexts (g_ctx g)) -> (forall c y x, 0 <= N c y x) ->
  group_sends g Q bs N l -> Forall (fun s => g_offset g <= fst s < g_offset g + 495 * hb_numClusters (g_ctx g) /\ 0 <= snd s < 2 ^ 31) l.
Proof.
  intros G HB HN GS. induction GS as [N|b bs N l NI GS IH|b bs N l M l' II CS GS IH].
  - constructor.
  - apply IH; [|exact HN]. intros b' A. apply HB. right. exact A.
  - destruct (HB b (or_introl eq_refl) II) as [T1 T2]. assert (C : forall cs N l M, Forall (fun c => (c < 3)%nat) cs -> (forall c y x, 0 <= N c y x) -> channels_send g b Q cs N l M ->
      Forall (fun s => g_offset g <= fst s < g_offset g + 495 * hb_numClusters (g_ctx g) /\ 0 <= snd s < 2 ^ 31) l /\ forall c y x, 0 <= M c y x).
    { clear - G T1 T2. intros cs N l M H3 HN CS. induction CS as [N|c cs N l N' NI CS IH|c cs N l M l' N' II BS CS IH]; inversion H3; subst.
      - split; [constructor|exact HN].
      - apply IH; assumption.
      - destruct (block_contexts i g Q c b (N c) l M G ltac:(assumption) T1 T2 (HN c) BS) as [B1 B2]. destruct IH as [I1 I2]; [assumption| |split; [apply Forall_app; split; assumption|exact I2]].
        intros c' y x. unfold upd. destruct (c' =? c)%nat; [apply B2|apply HN]. }
    destruct (C [1; 0; 2]%nat N l M ltac:(repeat constructor) HN CS) as [C1 C2]. apply Forall_app. split; [exact C1|]. apply IH; [|exact C2]. intros b' A. apply HB. right. exact A.
Qed.
Lemma group_length i g Q bs N l : group_inputs i g Q -> (forall b, In b bs -> in_group g b -> 0 <= b_type b <= 26) -> group_sends g Q bs N l -> Z.of_nat (length l) <= 196608 * Z.of_nat (length bs).
Proof.
  intros G HB GS. induction GS as [N|b bs N l NI GS IH|b bs N l M l' II CS GS IH].
  - cbn. lia.
  - cbn [length]. specialize (IH ltac:(intros b' A; apply HB; right; exact A)). lia.
  - pose proof (HB b (or_introl eq_refl) II) as T. assert (C : forall cs N l M, Forall (fun c => (c < 3)%nat) cs -> channels_send g b Q cs N l M -> Z.of_nat (length l) <= 65536 * Z.of_nat (length cs)).
    { clear - G T. intros cs N l M H3 CS. induction CS as [N|c cs N l N' NI CS IH|c cs N l M l' N' II BS CS IH]; inversion H3; subst; [cbn; lia|specialize (IH ltac:(assumption)); cbn [length]; lia|].
      specialize (IH ltac:(assumption)). rewrite app_length. cbn [length]. destruct BS as (used & k & _ & _ & EQ & -> & _). destruct (hf_length i g Q c b G ltac:(assumption) T) as (LP & Bn & _).
      assert (LL : (length (hf_positions g c b) = length used + k)%nat) by (rewrite <- (map_length (fun p => Q c (fst p) (snd p))), EQ, app_length, map_length, repeat_length; reflexivity).
      unfold block_symbols. cbn [length]. rewrite map_length, seq_length. clear - IH LP Bn LL. lia. }
    pose proof (C [1; 0; 2]%nat N l M ltac:(repeat constructor) CS) as C1. specialize (IH ltac:(intros b' A; apply HB; right; exact A)). rewrite app_length. cbn [length] in *. lia.
Qed.
(* one flat code for all contexts *)
Definition wide_header (n : nat) : header := Header None (repeat 0 n) 5 [HConf 0 0 0] (Frequencies [(32, -1, repeat 128 32)]).
Lemma max_zeros n : fold_right Z.max (-1) (repeat 0 (S n)) = 0.
Proof. induction n as [|n IH]; [reflexivity|]. cbn [repeat fold_right] in *. rewrite IH. reflexivity. Qed.
Lemma wide_sent n : (1 <= n)%nat -> exists c, header_code cluster_map proper_dist (Z.of_nat n) true c (wide_header n).
Proof.
  intros Hn. destruct flat_sent as (c1 & H1 & _). destruct n as [|n]; [lia|]. destruct n as [|n]; [exists c1; exact H1|]. clear c1 H1 Hn.
  eexists. unfold header_code. eapply seq_intro; [apply (bool_intro false)|]. eapply seq_intro; [apply ret_intro|]. eapply seq_intro.
  { left. unfold plain_map. cbv iota. replace (Z.of_nat (S (S n)) =? 1) with false by lia. exists 0%nat, (repeat 0 (S (S n))). split; [lia|]. split; [reflexivity|]. rewrite repeat_length. split; [lia|]. split; [apply Forall_forall; intros z Hz; apply repeat_spec in Hz; subst z; cbn; lia|].
    rewrite max_zeros. split; [lia|reflexivity]. }
  cbv beta iota. change (1 + 0) with 1. cbn [fst snd].
  eapply seq_intro; [apply (bool_intro false)|]. eapply seq_intro; [eapply seq_intro; [apply (fixed_intro 2 0); cbn; lia|apply ret_intro]|].
  eapply seq_intro.
  { eapply seq_intro; [|eapply seq_intro; apply ret_intro]. unfold config_code. eapply seq_intro; [apply (fixed_intro _ 0); cbn; lia|]. change (0 =? 5 + 0) with false. cbv iota.
    eapply seq_intro; [apply (fixed_intro _ 0); cbn; lia|]. split; [lia|]. eapply seq_intro; [apply (fixed_intro _ 0); cbn; lia|]. split; [lia|]. apply ret_intro. }
  eapply seq_intro; [|apply ret_intro]. eapply seq_intro; [|apply ret_intro]. eapply seq_intro; [|eapply seq_intro; apply ret_intro]. split.
  - eapply seq_intro; [apply (bool_intro false)|]. eapply seq_intro; [apply (bool_intro true)|]. eapply seq_intro; [apply (SpecCodes.u8c_n 4 15); cbn; lia|].
    split; [cbn; lia|]. apply ret_intro.
  - apply Forall_forall. cbn [snd]. intros z Hz. apply repeat_spec in Hz. lia.
Qed.
Lemma wide_sendable n ctx v : 0 <= ctx < Z.of_nat n -> 0 <= v < 2 ^ 31 -> sendable (wide_header n) (ctx, v).
Proof.
  intros Hc Hv. destruct (flat_sendable v Hv) as (cl & cfg & (K1 & K2 & K3) & V & LB & CO). exists cl, cfg. cbn [fst snd] in *. split; [|split; [exact V|split; [exact LB|exact CO]]].
  assert (E : cl = 0%nat) by (injection K2; lia). subst cl. split; [lia|]. split; [|exact K3].
  cbn [wide_header hd_map]. apply nth_error_repeat. lia.
Qed.
Lemma wide_proper n : (1 <= n)%nat -> described (wide_header n) /\ proper_header (wide_header n).
Proof.
  intros Hn. assert (D : described (wide_header n)) by (unfold described, wide_header; cbn [hd_codes]; constructor; [|constructor]; right; cbn [snd]; intros K; apply (repeat_spec 32) in K; discriminate).
  split; [exact D|]. destruct (wide_sent n Hn) as (c & Hc). exact (header_proper _ _ _ _ _ (good_map_code 2) Hc D).
Qed.
Theorem C101_sendable : forall i g Q bs presets preset, group_inputs i g Q -> 0 <= preset < presets -> g_offset g = 495 * hb_numClusters (g_ctx g) * preset -> 0 < hb_numClusters (g_ctx g) ->
  (forall c y x, - 2 ^ 30 <= Q c y x < 2 ^ 30) -> (forall b, In b bs -> in_group g b -> 0 <= b_type b <= 26 /\ 0 <= b_lf b < hb_numLFContexts (g_ctx g)) ->
  exists l hc h sc x, group_sends g Q bs (fun _ _ _ => 0) l /\ header_code cluster_map proper_dist (495 * hb_numClusters (g_ctx g) * presets) true hc h /\ described h /\ proper_header h /\
    symbols h 0 sst0 l sc x /\ (ss_x x = None \/ ss_x x = Some 1245184) /\ Z.of_nat (length l) <= 196608 * Z.of_nat (length bs).
Proof.
  intros i g Q bs presets preset G Hp Eo Hn HQ HB. destruct (group_sendable g Q bs (fun _ _ _ => 0) HQ) as (l & Hl). pose proof (group_contexts i g Q bs (fun _ _ _ => 0) l G HB (fun _ _ _ => Z.le_refl 0) Hl) as F.
  pose proof (group_length i g Q bs _ l G (fun b H1 H2 => proj1 (HB b H1 H2)) Hl) as LB.
  set (n := hb_numClusters (g_ctx g)) in *. clearbody n. assert (N1 : 1 <= 495 * n * presets) by nia. assert (N2 : g_offset g + 495 * n <= 495 * n * presets) by (rewrite Eo; nia).
  destruct (wide_sent (Z.to_nat (495 * n * presets)) ltac:(lia)) as (hc & Hh). destruct (wide_proper (Z.to_nat (495 * n * presets)) ltac:(lia)) as [D P]. rewrite Z2Nat.id in Hh by lia.
  exists l, hc. eexists. destruct l as [|v vs].
  - exists [], sst0. split; [exact Hl|]. split; [exact Hh|]. split; [exact D|]. split; [exact P|]. split; [constructor|]. split; [left; reflexivity|exact LB].
  - destruct (C96_sendable (wide_header (Z.to_nat (495 * n * presets))) 0 (v :: vs) P ltac:(discriminate)) as (sc & x & S1 & _ & S2).
    + rewrite Forall_forall in *. intros [ctx u] Hu. specialize (F _ Hu). pose proof (gp_offset i g Q G). apply wide_sendable; cbn [fst snd] in F; lia.
    + exists sc, x. split; [exact Hl|]. split; [exact Hh|]. split; [exact D|]. split; [exact P|]. split; [exact S1|]. split; [right; exact S2|exact LB].
Qed.
Print Assumptions C101_sendable.

(* Two blocks of a 16x16 group, 8x8 and 16x8 in the natural orders, with two
   coefficients that are not zero *)
Definition ex_hc : HFBlockContext := mkHFB [[]; []; []] defaultClusterMap 15 [] 1.
Definition ex_orders (ord : Z -> list (Z * Z)) : hgroup := HG 0 0 ex_hc 0 (fun o _ => ord o) (fun _ => 0%nat) (fun _ => 0%nat).
Definition ex_pair : list hblock := [HB 0 0 0 1 0; HB 6 0 1 3 0].
Definition ex_coefs (p1 p2 : nat * nat) (c y x : nat) : Z :=
  match c with
  | O => if (y =? fst p1)%nat && (x =? snd p1)%nat then -7 else 0
  | 1%nat => if (y =? fst p2)%nat && (x =? snd p2)%nat then 3 else 0
  | _ => 0
  end.
Definition ex_input (ord : Z -> list (Z * Z)) (e : ES) : GroupIn :=
  mkGI ex_hc 1 (map (fun o => [ord o; ord o; ord o]) [0; 1; 2; 3; 4; 5; 6; 7; 8; 9; 10; 11; 12]) e 1 (16, 16) (0, 0) [0; 0; 0] [0; 0; 0]
    (map block_place ex_pair) [[1; 7]; [0; 7]] [[1; 3]; [0; 3]] [[0; 0]; [0; 0]].
Lemma ex_group ord e p1 p2 : (forall o, 0 <= o <= 12 -> scan_order (fst (order_cells o)) (snd (order_cells o)) (ord o)) -> group_inputs (ex_input ord e) (ex_orders ord) (ex_coefs p1 p2).
Proof.
  intros HO. constructor; cbn [ex_input ex_orders g_ctx g_offset g_order g_sy g_sx g_y g_x gi_hc gi_orders gi_shift gi_jy gi_jx gi_pos fst snd].
  - reflexivity.
  - exact hfb_default.
  - apply Forall_forall. intros z Hz. assert (B : forallb (Z.leb 0) defaultClusterMap = true) by (vm_compute; reflexivity). rewrite forallb_forall in B. specialize (B z Hz). lia.
  - intros o c Ho Hc. assert (X : exists n, o = Z.of_nat n /\ (n <= 12)%nat) by (exists (Z.to_nat o); lia). destruct X as (n & -> & Hn). clear Ho.
    do 13 (destruct n as [|n]; [destruct c as [|[|[|c]]]; [reflexivity..|lia]|]). lia.
  - intros o c Ho _. exact (HO o Ho).
  - lia.
  - lia.
  - intros c Hc. destruct c as [|[|[|c]]]; [reflexivity..|lia].
  - intros c Hc. destruct c as [|[|[|c]]]; [reflexivity..|lia].
  - intros c y x. destruct c as [|[|c]]; cbn [ex_coefs]; [destruct (_ && _); cbn; lia|destruct (_ && _); cbn; lia|cbn; lia].
  - cbn. lia.
  - cbn. lia.
Qed.
Lemma ex_given ord e : Forall (block_given (ex_input ord e) (ex_orders ord) (height_in (ex_input ord e) (ex_orders ord)) (width_in (ex_input ord e) (ex_orders ord))) ex_pair.
Proof.
  assert (H1 : forall c, height_in (ex_input ord e) (ex_orders ord) c = 16%nat) by reflexivity. assert (H2 : forall c, width_in (ex_input ord e) (ex_orders ord) c = 16%nat) by reflexivity.
  assert (H3 : forall c t y x m l, cell_y (ex_orders ord) c (HB t y x m l) = y) by (intros; unfold cell_y; cbn [ex_orders g_sy g_y b_y Nat.pow]; rewrite Nat.div_1_r; lia).
  assert (H4 : forall c t y x m l, cell_x (ex_orders ord) c (HB t y x m l) = x) by (intros; unfold cell_x; cbn [ex_orders g_sx g_x b_x Nat.pow]; rewrite Nat.div_1_r; lia).
  constructor; [|constructor; [|constructor]].
  - split; [cbn; lia|]. split; [cbn; lia|]. intros _. split; [cbn; lia|]. split; [cbn; lia|]. split; [reflexivity|]. split; [reflexivity|]. split; [reflexivity|].
    intros c _ _. unfold block_fits. rewrite H1, H2, H3, H4. cbn [b_type cells fst snd]. lia.
  - split; [cbn; lia|]. split; [cbn; lia|]. intros _. split; [cbn; lia|]. split; [cbn; lia|]. split; [reflexivity|]. split; [reflexivity|]. split; [reflexivity|].
    intros c _ _. unfold block_fits. rewrite H1, H2, H3, H4. cbn [b_type cells fst snd]. lia.
Qed.
Example C101_example : exists ord p1 p2 e l sc x, (forall o, 0 <= o <= 12 -> getNaturalOrder isort o = Ok (ord o)) /\ p1 <> p2 /\
  group_sends (ex_orders ord) (ex_coefs p1 p2) ex_pair (fun _ _ _ => 0) l /\
  (exists h, stream_of h e /\ symbols h 0 sst0 l sc x) /\
  forall s d p, reader_at s d p -> bits_at d p sc -> (p + length sc + 15 <= 8 * length d)%nat ->
  exists q s', NewHFCoefficients (ex_input ord e) s = (Ok (0, [Some (0, 0); Some (0, 1)], q), s') /\
    px (nth 0 q []) (fst p1) (snd p1) = -14 /\ px (nth 1 q []) (fst p2) (snd p2) = 6 /\ px (nth 2 q []) (fst p2) (snd p2) = 0.
Proof.
  set (ord := fun o => match getNaturalOrder isort o with Ok l => l | _ => [] end).
  assert (N : forall o, 0 <= o <= 12 -> getNaturalOrder isort o = Ok (ord o) /\ scan_order (fst (order_cells o)) (snd (order_cells o)) (ord o)).
  { intros o Ho. destruct (C42_natural_order o isort Ho isort_ok) as (l & E & _ & S & _). unfold ord. rewrite E. split; [reflexivity|exact S]. }
  clearbody ord. assert (HO : forall o, 0 <= o <= 12 -> scan_order (fst (order_cells o)) (snd (order_cells o)) (ord o)) by (intros o Ho; apply N; exact Ho).
  set (g := ex_orders ord). set (b1 := HB 0 0 0 1 0). set (b2 := HB 6 0 1 3 0).
  set (p1 := nth 3 (hf_positions g 0 b1) (0, 0)%nat). set (p2 := nth 100 (hf_positions g 1 b2) (0, 0)%nat).
  assert (G : forall e, group_inputs (ex_input ord e) g (ex_coefs p1 p2)) by (intros e; exact (ex_group ord e p1 p2 HO)).
  destruct flat_sent as (hc0 & Hh0 & _). destruct (C83_nested_partial 1 false ltac:(lia) _ _ Hh0) as (e0 & (_ & _) & _).
  assert (I1 : In p1 (hf_positions g 0 b1)).
  { apply nth_In. destruct (hf_length _ _ _ 0%nat b1 (G e0) ltac:(lia) ltac:(cbn; lia)) as (L & _). change (63 * blocks8 (b_type b1)) with 63 in L. lia. }
  assert (I2 : In p2 (hf_positions g 1 b2)).
  { apply nth_In. destruct (hf_length _ _ _ 1%nat b2 (G e0) ltac:(lia) ltac:(cbn; lia)) as (L & _). change (63 * blocks8 (b_type b2)) with 126 in L. lia. }
  assert (NE : p1 <> p2).
  { intros K. destruct p1 as [u1 v1], p2 as [u2 v2]. injection K as <- <-. pose proof (hf_inside _ _ _ 0%nat b1 u1 v1 (G e0) ltac:(lia) ltac:(cbn; lia) I1) as C1. pose proof (hf_inside _ _ _ 1%nat b2 u1 v1 (G e0) ltac:(lia) ltac:(cbn; lia) I2) as C2.
    change (covers_cell g 0 b1 (u1 / 8) (v1 / 8)) with ((0 <=? u1 / 8)%nat && (Z.of_nat (u1 / 8) <? 1) && ((0 <=? v1 / 8)%nat && (Z.of_nat (v1 / 8) <? 1))) in C1.
    change (covers_cell g 1 b2 (u1 / 8) (v1 / 8)) with ((0 <=? u1 / 8)%nat && (Z.of_nat (u1 / 8) <? 2) && ((1 <=? v1 / 8)%nat && (Z.of_nat (v1 / 8) <? 2))) in C2. lia. }
  assert (IG : forall b, In b ex_pair -> in_group g b) by (intros b [<-|[<-|[]]]; split; cbn; lia).
  assert (TB : forall b, In b ex_pair -> in_group g b -> 0 <= b_type b <= 26 /\ 0 <= b_lf b < hb_numLFContexts (g_ctx g)) by (intros b [<-|[<-|[]]] _; cbn; lia).
  destruct (C101_sendable (ex_input ord e0) g (ex_coefs p1 p2) ex_pair 1 0 (G e0) ltac:(lia) eq_refl ltac:(cbn; lia)) as (l & hc & h & sc & x & S1 & S2 & S3 & S4 & S5 & S6 & S7); [|exact TB|].
  { intros c y z. destruct c as [|[|c]]; cbn [ex_coefs]; [destruct (_ && _); lia|destruct (_ && _); lia|lia]. }
  destruct (C83_nested_partial (495 * hb_numClusters (g_ctx g) * 1) false ltac:(cbn; lia) _ _ S2) as (e & (HE & _) & _).
  exists ord, p1, p2, e, l, sc, x. split; [intros o Ho; apply N; exact Ho|]. split; [exact NE|]. split; [exact S1|]. split; [exists h; split; assumption|].
  intros s d p Hr Hb Hk. destruct (C101_group_partial (ex_input ord e) g (ex_coefs p1 p2) ex_pair h 0 l sc x s d p (G e)) as (q & s' & E & _ & V & _); try assumption.
  - cbn. lia.
  - cbn. lia.
  - reflexivity.
  - reflexivity.
  - apply ex_given.
  - repeat constructor. intros _ _ c Hc _ _ y z. unfold covers_cell. change (cell_y g c (HB 0 0 0 1 0)) with (0 / 2 ^ 0)%nat. change (cell_x g c (HB 0 0 0 1 0)) with (0 / 2 ^ 0)%nat. change (cell_y g c (HB 6 0 1 3 0)) with (0 / 2 ^ 0)%nat. change (cell_x g c (HB 6 0 1 3 0)) with (1 / 2 ^ 0)%nat.
    cbn [b_type cells fst snd Nat.pow]. change (0 / 1)%nat with 0%nat. change (1 / 1)%nat with 1%nat. lia.
  - intros c y z HZ. destruct c as [|[|c]]; cbn [ex_coefs]; [| |reflexivity].
    + destruct (Nat.eqb_spec y (fst p1)), (Nat.eqb_spec z (snd p1)); cbn [andb]; try reflexivity. exfalso. subst. apply (HZ b1 (or_introl eq_refl)); [apply IG; left; reflexivity|split; reflexivity|]. rewrite <- surjective_pairing. exact I1.
    + destruct (Nat.eqb_spec y (fst p2)), (Nat.eqb_spec z (snd p2)); cbn [andb]; try reflexivity. exfalso. subst. apply (HZ b2 (or_intror (or_introl eq_refl))); [apply IG; right; left; reflexivity|split; reflexivity|]. rewrite <- surjective_pairing. exact I2.
  - change (Z.of_nat (length ex_pair)) with 2 in S7. lia.
  - exists q, s'. split; [exact E|]. destruct (V 0%nat ltac:(lia)) as [_ V0]. destruct (V 1%nat ltac:(lia)) as [_ V1]. destruct (V 2%nat ltac:(lia)) as [_ V2]. rewrite V0, V1, V2. cbn [ex_coefs]. rewrite !Nat.eqb_refl. repeat split; reflexivity.
Qed.

(* ---- C101: corrupt counts ---- *)
(* symbols read one after the other, in any contexts *)
Inductive symbols_read : list Z -> ES * BR -> ES * BR -> Prop :=
| sr_nil s : symbols_read [] s s
| sr_cons cx v l s s1 s2 : ReadSymbol cx s = (Ok v, s1) -> symbols_read l s1 s2 -> symbols_read (v :: l) s s2.
Definition how_many_nonzero (l : list Z) : Z := Z.of_nat (length (filter (fun v => negb (v =? 0)) l)).
Lemma nonzero_cons v l : how_many_nonzero (v :: l) = (if v =? 0 then 0 else 1) + how_many_nonzero l.
Proof. unfold how_many_nonzero. cbn [filter]. destruct (v =? 0); cbn [negb length]; lia. Qed.
Lemma coeffs_counted e : forall n k nonZero prevU q s r q' s', 0 < nonZero < 2 ^ 31 ->
  readCoeffs n e k nonZero prevU q s = (Ok (r, q'), s') ->
  exists l, symbols_read l s s' /\ (length l <= n)%nat /\ r = nonZero - how_many_nonzero l /\ (r = 0 -> last l 0 <> 0).
Proof.
  induction n as [|n IH]; intros k nonZero prevU q s r q' s' Hn E; cbn [readCoeffs] in E.
  - unfold eret in E. injection E as <- <- <-. exists []. repeat split; [constructor|cbn; lia|cbn; lia|lia].
  - unfold ebind at 1, hlift at 1 in E. destruct (getCoefficientContext _ _ _ _) as [c| |]; try discriminate.
    unfold ebind at 1 in E. destruct (ReadSymbol _ s) as [[uc| |] s1] eqn:R; try discriminate.
    unfold ebind at 1, hlift at 1 in E. destruct (slice_get _ _) as [o| |]; try discriminate.
    unfold ebind at 1, hlift at 1 in E. destruct (set2 _ _ _ _) as [q1| |]; try discriminate.
    rewrite (i32_id (nonZero - 1)) in E by lia.
    destruct (Z.eqb_spec uc 0) as [U|U]; cbn [negb andb] in E.
    + destruct (IH _ _ _ _ _ _ _ _ Hn E) as (l & L1 & L2 & L3 & L4). exists (uc :: l).
      split; [econstructor; eauto|]. split; [cbn [length]; lia|]. rewrite nonzero_cons. replace (uc =? 0) with true by lia. split; [lia|].
      intros K. destruct l as [|x l]; [exfalso; unfold how_many_nonzero in L3; cbn in L3; lia|]. exact (L4 K).
    + destruct (Z.eqb_spec (nonZero - 1) 0) as [T|T].
      * unfold eret in E. injection E as <- <- <-. exists [uc]. split; [econstructor; [exact R|constructor]|].
        split; [cbn [length]; lia|]. rewrite nonzero_cons. destruct (Z.eqb_spec uc 0); [contradiction|]. unfold how_many_nonzero. cbn. split; [lia|auto].
      * assert (Hn2 : 0 < nonZero - 1 < 2 ^ 31) by lia. destruct (IH _ _ _ _ _ _ _ _ Hn2 E) as (l & L1 & L2 & L3 & L4). exists (uc :: l).
        split; [econstructor; eauto|]. split; [cbn [length]; lia|]. rewrite nonzero_cons. destruct (Z.eqb_spec uc 0); [contradiction|]. split; [lia|].
        intros K. destruct l as [|x l]; [exact U|]. exact (L4 K).
Qed.
(* A block is accepted only if it holds as many coefficients other than 0 as
   its count says, the last one being such a coefficient. *)
Theorem C101_counts : forall hc t order offset c hfMult lfIndex y x shift nz q s nz' q' s',
  readBlock hc t order offset c hfMult lfIndex y x shift nz q s = (Ok (nz', q'), s') ->
  exists cx count s1, ReadSymbol cx s = (Ok count, s1) /\
    (count <= 0 -> s' = s1 /\ q' = q) /\
    (0 < count < 2 ^ 31 -> exists l, symbols_read l s1 s' /\ how_many_nonzero l = count /\ last l 0 <> 0 /\
       Z.of_nat (length l) <= Z.max 0 (Z.of_nat (length order) - tt_dctSelectHeight t * tt_dctSelectWidth t)).
Proof.
  intros hc t order offset c hfMult lfIndex y x shift nz q s nz' q' s' E. unfold readBlock in E. cbv zeta in E.
  unfold ebind at 1, hlift at 1 in E. destruct (getPredictedNonZeros nz y x) as [pr| |]; try discriminate.
  unfold ebind at 1, hlift at 1 in E. destruct (getBlockContext _ _ _ _ _) as [b| |]; try discriminate.
  unfold ebind at 1 in E. destruct (ReadSymbol _ s) as [[cnt| |] s1] eqn:R; try discriminate.
  unfold ebind at 1, hlift at 1 in E. destruct (fillCounts t y x cnt nz) as [nz1| |]; try discriminate.
  match type of R with ReadSymbol ?cx _ = _ => exists cx, cnt, s1 end. split; [exact R|].
  destruct (Z.leb_spec cnt 0) as [L|L].
  - unfold eret in E. injection E as _ <- <-. split; [auto|lia].
  - unfold ebind in E. destruct (readCoeffs _ _ _ _ _ _ s1) as [[[r q1]| |] s2] eqn:EC; try discriminate. cbn [fst snd] in E.
    destruct (Z.eqb_spec r 0) as [->|]; [|discriminate]. unfold eret in E. injection E as _ _ <-. split; [lia|]. intros B.
    destruct (coeffs_counted _ _ _ _ _ _ _ _ _ _ B EC) as (l & L1 & L2 & L3 & L4).
    exists l. split; [exact L1|]. split; [lia|]. split; [apply L4; reflexivity|].
    unfold be_orderSize in L2. cbn [be_order] in L2. lia.
Qed.
Print Assumptions C101_counts.
(* A stream in which every symbol is 3: the count 3, and three coefficients 3. *)
Definition ex_threes : ES := mkES (fun _ => 0) (repeat 0 (Z.to_nat (495 * 15))) [(PrefixDist None 3, mkHIC 4 0 0)] (mkHIC 0 0 0) (mkANS 0 false) 5 0 0 0 0 0 false.
Example C101_counts_example : exists t order nz' q' s', nth_error allDCT 0 = Some t /\ getNaturalOrder isort 0 = Ok order /\
  let s := (ex_threes, mkBR [] 0 0 0 0) in
  readBlock ex_hc t order 0 0 1 0 0 0 0 [[0]] (repeat (repeat 0 8) 8) s = (Ok (nz', q'), s') /\ symbols_read [3; 3; 3; 3] s s' /\
  nz' = [[3]] /\ how_many_nonzero (concat q') = 3.
Proof.
  do 5 eexists. split; [reflexivity|]. split; [vm_compute; reflexivity|]. cbv zeta. split; [vm_compute; reflexivity|]. split.
  - do 4 (apply (sr_cons 0) with (s1 := (ex_threes, mkBR [] 0 0 0 0)); [vm_compute; reflexivity|]). apply sr_nil.
  - split; vm_compute; reflexivity.
Qed.
