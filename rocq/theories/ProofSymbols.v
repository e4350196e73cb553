(* Reading the symbols of an entropy-coded stream. *)
From Coq Require Import ZArith List Bool Lia ZifyBool ZifyNat.
From Verif Require Import GoBase GoLoop Bits ModelBitReader ModelUtil ModelEntropy SpecBitReader SpecEntropy SpecAlias SpecLZ SpecDist SpecPrefix SpecStream SpecSymbols.
From Verif Require Import SpecCodes SpecGrammar ProofBitReader ProofBitReader2 ProofReads ProofCodes ProofHybrid ProofAlias ProofANS ProofAliasStd ProofStream ProofLZ.
Import ListNotations.
Open Scope Z_scope.

(* ---- tokens ---- *)
Definition ans_is (x : option Z) (st : ANSState) : Prop :=
  match x with None => ans_has st = false | Some n => 2 ^ 16 <= n < 2 ^ 32 /\ st = mkANS (i32 n) true end.

Lemma freqs_good las f v : 0 <= las <= 12 -> Forall (fun x => 0 <= x) (snd f) -> freqs_match las f v ->
  exists t, v = dist_of t /\ table_good t /\ at_freqs t = snd f /\ sumZ (snd f) = 4096 /\
    (0 <= snd (fst f) \/ ~ In 4096 (snd f) -> alias_standard las (snd f) (at_slot t)).
Proof.
  intros Hl Hf (cut & sym & off & -> & M). destruct (M Hf) as (Hs & H1 & H2 & H3 & H4 & H5 & H6).
  exists (ATable (12 - las) (snd f) cut sym off). split; [reflexivity|].
  split; [|split; [reflexivity|split; [exact Hs|exact H6]]].
  constructor; cbn [at_lb at_cut at_sym at_off at_freqs]; try (replace (12 - (12 - las)) with las by lia); try assumption; try lia.
  intros s. unfold at_freq. cbn [at_freqs]. pose proof (sumZ_bound (snd f) Hf s) as B. unfold g in B. lia.
Qed.

Lemma proper_two las f : proper_freqs las f -> Forall (fun x => 0 <= x) (snd f) /\ (0 <= snd (fst f) \/ ~ In 4096 (snd f)).
Proof. intros (H1 & _ & [(_ & _ & H)|[H _]]); auto. Qed.

Lemma ans_read t slot n c s n' st : table_good t -> (forall k, 0 <= k < 4096 -> at_slot t k = slot k) -> 2 ^ 16 <= n < 2 ^ 32 ->
  ans_code (at_freqs t) slot n c s n' -> st = mkANS (i32 n) true ->
  2 ^ 16 <= n' < 2 ^ 32 /\ 0 <= s < Z.of_nat (length (at_freqs t)) /\ reads (distReadSymbol (dist_of t) st) c (s, mkANS (i32 n') true).
Proof.
  intros G Hsl Hn (o & Eo & Hy) Hst. pose proof (Z.mod_pos_bound n 4096 ltac:(lia)) as Hk. rewrite <- Hsl in Eo by exact Hk.
  destruct (tg_bij t G) as (B1 & _ & B3). pose proof (B1 _ Hk) as R. rewrite Eo in R. destruct R as [Rs Ro].
  change (nth (Z.to_nat s) (at_freqs t) 0) with (at_freq t s) in *. set (f := at_freq t s) in *.
  pose proof (tg_f t G s) as Hf. fold f in Hf. cbv zeta in Hy. pose proof (Z.div_mod n 4096 ltac:(lia)) as En.
  set (q := n / 4096) in *. assert (Hq : 16 <= q < 2 ^ 20) by (subst q; split; [apply Z.div_le_lower_bound; lia|apply Z.div_lt_upper_bound; lia]).
  set (y := f * q + o) in *.
  assert (Eq : y / f = q) by (subst y; symmetry; apply (Z.div_unique _ f q o); lia).
  assert (Em : y mod f = o) by (subst y; symmetry; apply (Z.mod_unique _ f q o); lia).
  assert (Hyr : 16 <= y < 2 ^ 32) by (subst y; nia).
  destruct (find_slot_ok t s o G Rs Ro) as [Fk Fe].
  assert (Efs : find_slot t s o = n mod 4096) by (apply B3; [exact Fk|exact Hk|congruence]).
  assert (Ex : n = y / at_freq t s * 4096 + find_slot t s (y mod at_freq t s)) by (fold f; rewrite Eq, Em, Efs; lia).
  assert (Hr1 : 16 <= y / at_freq t s < 2 ^ 20) by (fold f; rewrite Eq; exact Hq).
  destruct (Z.ltb_spec y (2 ^ 16)) as [L|L].
  - destruct Hy as (w & Hw & -> & ->). destruct (ans_step t s y n w G Rs ltac:(fold f; lia) Hr1 ltac:(lia) Ex Hw) as [_ S].
    specialize (S st Hst). replace (y <? 2 ^ 16) with true in S by lia. split; [lia|]. split; [exact Rs|exact S].
  - destruct Hy as [-> ->]. destruct (ans_step t s y n 0 G Rs ltac:(fold f; lia) Hr1 ltac:(lia) Ex ltac:(lia)) as [_ S].
    specialize (S st Hst). replace (y <? 2 ^ 16) with false in S by lia. split; [lia|]. split; [exact Rs|exact S].
Qed.

Lemma Forall2_nth {A B} (R : A -> B -> Prop) l l' : Forall2 R l l' -> forall k a, nth_error l k = Some a -> exists b, nth_error l' k = Some b /\ R a b.
Proof.
  induction 1 as [|a b l l' H _ IH]; intros [|k] x E; try discriminate.
  - injection E as <-. exists b. split; [reflexivity|exact H].
  - exact (IH k x E).
Qed.

Lemma reads_ahead_le {A} k k' (m : RM A) c v : (k <= k')%nat -> reads_ahead k m c v -> reads_ahead k' m c v.
Proof. intros L H s d p H1 H2 H3. apply (H s d p H1 H2). lia. Qed.
Lemma reads_ahead0 {A} k (m : RM A) c v : reads m c v -> reads_ahead k m c v.
Proof. intros H s d p H1 H2 _. exact (H s d p H1 H2). Qed.

(* the distribution of a cluster *)
Definition dist_at (e : ES) (cl : nat) (d : SymDist) (cfg : hconf) : Prop := nth_error (es_dists e) cl = Some (d, conf_of cfg).
Lemma token_read h e cl cfg x t c x' st : proper_header h -> stream_of h e -> nth_error (hd_configs h) cl = Some cfg ->
  token_code h cl x t c x' -> ans_is x st ->
  exists d st', dist_at e cl d cfg /\ ans_is x' st' /\ reads_ahead (ahead h) (distReadSymbol d st) c (t, st').
Proof.
  intros (_ & Hlas & _ & _ & Hp) (_ & _ & Ec & Em & _) Hc Ht Hx.
  assert (Hd : forall d, nth_error (map fst (es_dists e)) cl = Some d -> dist_at e cl d cfg).
  { intros d E. unfold dist_at. pose proof (map_nth_error (fun c => mkHIC (h_e c) (h_i c) (h_j c)) _ _ Hc) as C. rewrite <- Ec in C.
    rewrite nth_error_map in E, C. destruct (nth_error (es_dists e) cl) as [[d0 c0]|]; [|discriminate]. cbn in E, C. unfold conf_of. congruence. }
  unfold ahead in *.
  destruct Ht as [ts T w t x Eh ET Hi|fs f slot n c t n' Eh Ef Hs Hn Ha|fs f slot n c t n' Eh Ef Hs Ha]; rewrite Eh in *; cbn [codes_match] in Em.
  - destruct (Forall2_nth _ _ _ Em _ _ ET) as (d & Ed & M). exists d, st. split; [exact (Hd d Ed)|]. split; [exact Hx|].
    apply (proj1 (M st)). cbn [fst snd]. auto.
  - destruct (Forall2_nth _ _ _ Em _ _ Ef) as (d & Ed & M). destruct Hp as [Hl2 Hp]. rewrite Forall_forall in Hp.
    destruct (proper_two _ _ (Hp f (nth_error_In _ _ Ef))) as [P1 P2]. destruct (freqs_good _ _ _ (conj Hlas Hl2) P1 M) as (tb & -> & G & Efs & Hsum & St).
    specialize (St P2).
    assert (Esl : forall k, 0 <= k < 4096 -> at_slot tb k = slot k) by (apply (standard_det (hd_las h) (snd f)); auto).
    rewrite <- Efs in Ha. destruct (ans_read tb slot n c t n' _ G Esl Hn Ha eq_refl) as (R1 & R2 & R3).
    exists (dist_of tb), (mkANS (i32 n') true). split; [exact (Hd _ Ed)|]. split; [split; [exact R1|reflexivity]|].
    apply reads_ahead0. cbn [ans_is] in Hx. apply ans_first; [eexists; reflexivity|exact Hx|lia|exact R3].
  - destruct (Forall2_nth _ _ _ Em _ _ Ef) as (d & Ed & M). destruct Hp as [Hl2 Hp]. rewrite Forall_forall in Hp.
    destruct (proper_two _ _ (Hp f (nth_error_In _ _ Ef))) as [P1 P2]. destruct (freqs_good _ _ _ (conj Hlas Hl2) P1 M) as (tb & -> & G & Efs & Hsum & St).
    specialize (St P2). destruct Hx as [Hn Hst].
    assert (Esl : forall k, 0 <= k < 4096 -> at_slot tb k = slot k) by (apply (standard_det (hd_las h) (snd f)); auto).
    rewrite <- Efs in Ha. destruct (ans_read tb slot n c t n' st G Esl Hn Ha Hst) as (R1 & R2 & R3).
    exists (dist_of tb), (mkANS (i32 n') true). split; [exact (Hd _ Ed)|]. split; [split; [exact R1|reflexivity]|].
    apply reads_ahead0. exact R3.
Qed.

Lemma hyb_token_range c v : hconf_ok c -> 0 <= v < 2 ^ 31 -> 0 <= hyb_token c v < 2 ^ 22.
Proof.
  intros Hc Hv. unfold hyb_token. pose proof Hc as (Hi & Hj & He).
  assert (Pe : 2 ^ h_e c <= 2 ^ 15) by (apply Z.pow_le_mono_r; lia).
  destruct (Z.ltb_spec v (2 ^ h_e c)) as [H|H]; [lia|].
  destruct (hybrid_pieces c v Hc H) as (A & x & Hm & Hn & EA & HA & _). cbv zeta. rewrite <- EA.
  assert (Lm : Z.log2 v < 31) by (apply Z.log2_lt_pow2; [pose proof (pow2_pos (h_e c) ltac:(lia)); lia|lia]).
  set (m := Z.log2 v) in *. pose proof (Z.mod_pos_bound v (2 ^ h_j c) (pow2_pos _ Hj)) as Hmod.
  pose proof (pow2_pos (h_i c) Hi) as Pi. pose proof (pow2_pos (h_j c) Hj) as Pj. pose proof (pow2_pos (h_e c) ltac:(lia)) as Pe0.
  assert (Pij : 2 ^ h_i c * 2 ^ h_j c = 2 ^ (h_i c + h_j c)) by (rewrite Z.pow_add_r by lia; reflexivity).
  assert (Pe2 : 2 ^ (h_i c + h_j c) <= 2 ^ 15) by (apply Z.pow_le_mono_r; lia).
  assert (A * 2 ^ h_j c + v mod 2 ^ h_j c < 2 ^ h_i c * 2 ^ h_j c).
  { assert ((A + 1) * 2 ^ h_j c <= 2 ^ h_i c * 2 ^ h_j c) by (apply Z.mul_le_mono_nonneg_r; lia). lia. }
  assert (0 <= A * 2 ^ h_j c) by (apply Z.mul_nonneg_nonneg; lia).
  assert (0 <= (m - h_e c) * 2 ^ (h_i c + h_j c) <= 31 * 2 ^ 15) by (split; [apply Z.mul_nonneg_nonneg; lia|apply Z.mul_le_mono_nonneg; lia]).
  lia.
Qed.

(* ---- symbols ---- *)
Definition inv (h : header) (e0 e : ES) (x : sst) : Prop :=
  ans_is (ss_x x) (es_ans e) /\ 0 <= ss_n x < 2 ^ 31 /\
  match hd_lz h with
  | Some _ => repr e0 e (LZ (ss_hist x) (ss_n x) (ss_d x))
  | None => es_clusterMap e = es_clusterMap e0 /\ es_dists e = es_dists e0 /\ es_usesLZ77 e = false /\ es_numToCopy77 e = 0 /\ ss_n x = 0
  end.

Lemma last_cluster h e0 ctx cl : proper_header h -> stream_of h e0 -> 0 <= ctx -> nth_error (es_clusterMap e0) (Z.to_nat ctx) = Some cl ->
  exists cl' d cfg, nth_error (es_clusterMap e0) (length (es_clusterMap e0) - 1) = Some cl' /\ 0 <= cl' /\ nth_error (es_dists e0) (Z.to_nat cl') = Some (d, cfg).
Proof.
  intros (_ & _ & Hmap & _) (Ecm & _ & Ec & _) Hc E. rewrite Ecm in *.
  assert (L : (Z.to_nat ctx < length (hd_map h))%nat) by (apply nth_error_Some; congruence).
  destruct (nth_error (hd_map h) (length (hd_map h) - 1)) as [cl'|] eqn:F; [|apply nth_error_None in F; lia].
  rewrite Forall_forall in Hmap. pose proof (Hmap _ (nth_error_In _ _ F)) as B.
  assert (Ld : length (es_dists e0) = length (hd_configs h)) by (rewrite <- (map_length snd), Ec, map_length; reflexivity).
  destruct (nth_error (es_dists e0) (Z.to_nat cl')) as [[d cfg]|] eqn:G; [|apply nth_error_None in G; lia].
  exists cl', d, cfg. split; [reflexivity|]. split; [lia|exact G].
Qed.

Lemma symbol_read h m e0 x ctx v c x' : proper_header h -> stream_of h e0 -> (hd_lz h <> None -> mult_ok m) -> symbol h m x ctx v c x' ->
  forall e s D p, inv h e0 e x -> Z.of_nat (length (ss_hist x)) < 2 ^ 31 - 1 -> reader_at s D p -> bits_at D p c ->
  (p + length c + ahead h <= 8 * length D)%nat ->
  exists e' s', ReadSymbolWithMultiplier ctx m (e, s) = (Ok v, (e', s')) /\ inv h e0 e' x' /\ reader_at s' D (p + length c).
Proof.
  intros Hp Hst Hm Hs e s D p (I1 & I2 & I3) Hl Hr Hb Hk.
  pose proof Hp as (Hcf & _ & Hmap & Hlz & _). rewrite Forall_forall in Hcf. pose proof Hst as (Ecm & _ & _ & _ & Elz).
  destruct Hs as [hist d x ctx cl cfg v c x' (C1 & C2 & C3) Hv Hlit Ht|hist d x ctx s0 l lc len n cl cfg cl' cfg' c1 x1 c2 x2 Eh (C1 & C2 & C3) (C1' & C2' & C3') Hlen Hn Ht Ht' d'|hist n d x ctx Hn].
  - apply bits_at_app in Hb. destruct Hb as [Hb1 Hb2]. rewrite app_length in Hk. cbn [ss_x ss_n ss_hist ss_d] in *.
    destruct (token_read h e0 cl cfg x _ c x' (es_ans e) Hp Hst C3 Ht I1) as (d0 & st' & Hd & Hx' & R).
    destruct (R s D p Hr Hb1 ltac:(lia)) as (s1 & E1 & Hr1).
    pose proof (hybrid_roundtrip cfg v (Hcf _ (nth_error_In _ _ C3)) ltac:(lia) s1 D _ Hr1 Hb2) as (s2 & E2 & Hr2).
    rewrite (i32_small v) in E2 by lia. rewrite <- Nat.add_assoc, <- app_length in Hr2.
    pose proof (hyb_token_range cfg v (Hcf _ (nth_error_In _ _ C3)) Hv) as Htok. rewrite <- Ecm in C2. unfold dist_at in Hd.
    destruct (hd_lz h) as [[[s0 l] lc]|] eqn:Eh.
    + destruct Elz as (L1 & L2 & L3 & L4). unfold literal_below in Hlit. rewrite Eh in Hlit. destruct Hlz as (Z1 & Z2 & Z3).
      destruct (last_cluster h e0 ctx _ Hp Hst C1 C2) as (cl' & d1 & cfg1 & Q1 & Q2 & Q3).
      destruct (readSym_ok e0 (S (S (8 * length (br_data s)))) ctx m e (LZ hist 0 d) s v (LZ (v :: hist) 0 d) st' s2) as (e' & E' & I' & Ea); try assumption; try (apply Hm; congruence).
      * split; rewrite ?L2, ?L3; lia.
      * lia.
      * cbn. lia.
      * intros d2 cfg2 cl2 t a1 s3 F1 F2 F3. rewrite C2 in F1. injection F1 as <-. rewrite Nat2Z.id, Hd in F2. injection F2 as <- <-.
        rewrite E1 in F3. injection F3 as <- <- <-. lia.
      * unfold ref_read, read_event. cbn [lz_n lz_h lz_d]. change (0 <? 0) with false. cbv iota. rewrite C2, Q1.
        replace ((ctx <? 0) || (Z.of_nat cl <? 0) || (cl' <? 0)) with false by lia. rewrite Nat2Z.id, Hd, Q3.
        rewrite E1. cbn [get]. rewrite L2. replace (hyb_token cfg v <? s0) with true by lia. rewrite E2. reflexivity.
      * exists e', s2. split; [exact E'|]. split; [|exact Hr2]. unfold inv. rewrite Eh. cbn [ss_x ss_n ss_hist ss_d]. rewrite Ea. split; [exact Hx'|]. split; [lia|exact I'].
    + destruct I3 as (J1 & J2 & J3 & J4 & J5). exists (set_ans st' e), s2.
      split; [|split; [unfold inv; rewrite Eh; cbn [ss_x ss_n set_ans es_ans es_clusterMap es_dists es_usesLZ77 es_numToCopy77]; repeat split; try assumption; lia|exact Hr2]].
      unfold ReadSymbolWithMultiplier. cbn [readSymbolFuel]. unfold ebind at 1, eget at 1. rewrite J4. change (0 <? 0) with false. cbv iota.
      destruct (nth_error_slice _ ctx _ C1 C2) as [Sc Lc]. rewrite <- (Nat2Z.id cl) in Hd. destruct (nth_error_slice _ (Z.of_nat cl) _ ltac:(lia) Hd) as [Sd Ld].
      unfold ebind at 1, eget at 1. unfold ebind at 1, eget at 1. rewrite J1, J2.
      destruct (Z.leb_spec (Z.of_nat (length (es_clusterMap e0))) ctx); [lia|].
      unfold ebind at 1. unfold rd at 1. unfold rlift at 1. rewrite Sc.
      destruct (Z.leb_spec (Z.of_nat (length (es_dists e0))) (Z.of_nat cl)); [lia|].
      unfold ebind at 1. unfold rd at 1. unfold rlift at 1. rewrite Sd. cbn [fst snd].
      unfold ebind at 1. unfold distRead at 1. unfold ebind at 1, eget at 1. unfold ebind at 1, rd at 1. rewrite E1.
      unfold ebind at 1, emod at 1. cbn [fst snd]. unfold eret at 1.
      unfold ebind at 1, eget at 1. cbn [es_usesLZ77 set_ans]. rewrite J3.
      unfold ebind at 1, eget at 1. cbn [andb]. unfold ebind at 1, rd at 1. rewrite E2. reflexivity.
  - rewrite Eh in *. destruct Elz as (L1 & L2 & L3 & L4). destruct Hlz as (Z1 & Z2 & Z3). cbn [ss_x ss_n ss_hist ss_d] in *.
    apply bits_at_app in Hb. destruct Hb as [Hb1 Hb]. apply bits_at_app in Hb. destruct Hb as [Hb2 Hb]. apply bits_at_app in Hb. destruct Hb as [Hb3 Hb4].
    rewrite !app_length in *.
    destruct (token_read h e0 cl cfg x _ c1 x1 (es_ans e) Hp Hst C3 Ht I1) as (d0 & st1 & Hd & Hx1 & R).
    destruct (R s D p Hr Hb1 ltac:(lia)) as (s1 & E1 & Hr1).
    pose proof (hybrid_roundtrip lc (len - l) Z3 ltac:(lia) s1 D _ Hr1 Hb2) as (s2 & E2 & Hr2). rewrite (i32_small (len - l)) in E2 by lia.
    destruct (token_read h e0 cl' cfg' x1 _ c2 x2 st1 Hp Hst C3' Ht' Hx1) as (d0' & st2 & Hd' & Hx2 & R').
    destruct (R' s2 D _ Hr2 Hb3 ltac:(lia)) as (s3 & E3 & Hr3).
    pose proof (hybrid_roundtrip cfg' n (Hcf _ (nth_error_In _ _ C3')) ltac:(lia) s3 D _ Hr3 Hb4) as (s4 & E4 & Hr4). rewrite (i32_small n) in E4 by lia.
    rewrite <- !Nat.add_assoc in Hr4. pose proof (hyb_token_range lc (len - l) Z3 ltac:(lia)) as Htok.
    rewrite <- Ecm in C2, C2'. unfold dist_at in Hd, Hd'.
    destruct (readSym_ok e0 (S (S (8 * length (br_data s)))) ctx m e (LZ hist 0 d) s (copied hist d') (LZ (copied hist d' :: hist) (len - 1) d') st2 s4) as (e' & E' & I' & Ea); try assumption; try (apply Hm; congruence).
    + split; rewrite ?L2, ?L3; lia.
    + lia.
    + cbn. lia.
    + intros d2 cfg2 cl2 t a1 s5 F1 F2 F3. rewrite C2 in F1. injection F1 as <-. rewrite Nat2Z.id, Hd in F2. injection F2 as <- <-.
      rewrite E1 in F3. injection F3 as <- <- <-. lia.
    + unfold ref_read, read_event. cbn [lz_n lz_h lz_d]. change (0 <? 0) with false. cbv iota. rewrite C2.
      replace (nth_error (es_clusterMap e0) (length (es_clusterMap e0) - 1)) with (Some (Z.of_nat cl')) by (rewrite <- C2', Ecm; f_equal; lia).
      replace ((ctx <? 0) || (Z.of_nat cl <? 0) || (Z.of_nat cl' <? 0)) with false by lia. rewrite !Nat2Z.id, Hd, Hd'.
      rewrite E1. cbn [get]. rewrite L2. replace (s0 + hyb_token lc (len - l) <? s0) with false by lia.
      replace (s0 + hyb_token lc (len - l) - s0) with (hyb_token lc (len - l)) by lia. rewrite L4. change (mkHIC (h_e lc) (h_i lc) (h_j lc)) with (conf_of lc). rewrite E2. cbn [get].
      rewrite E3. cbn [get]. rewrite E4. cbn [get]. rewrite L3. replace ((len - l <? 0) || (2147483647 <? l + (len - l)) || (n <? 0) || (2147483646 <? n)) with false by lia.
      replace (l + (len - l)) with len by lia. reflexivity.
    + exists e', s4. split; [exact E'|]. split; [|exact Hr4]. unfold inv. rewrite Eh. cbn [ss_x ss_n ss_hist ss_d]. rewrite Ea. split; [exact Hx2|]. split; [lia|exact I'].
  - cbn [ss_x ss_n ss_hist ss_d] in *. destruct (hd_lz h) as [lzp|] eqn:Eh; [|exfalso; destruct I3 as (_ & _ & _ & _ & Q); cbn [ss_n] in Q; lia].
    destruct (copy_ok e0 e _ s I3 ltac:(cbn [lz_n]; lia) Hl) as (e' & E' & I' & Ea).
    exists e', s. unfold copy_step in *. cbn [lz_h lz_n lz_d fst snd length] in *. rewrite Nat.add_0_r. split; [|split; [|exact Hr]].
    + unfold ReadSymbolWithMultiplier. cbn [readSymbolFuel]. unfold ebind at 1, eget at 1. rewrite (rp_n _ _ _ I3). cbn [lz_n].
      replace (0 <? n) with true by lia. exact E'.
    + unfold inv. rewrite Eh. cbn [ss_x ss_n ss_hist ss_d]. rewrite Ea. split; [exact I1|]. split; [lia|exact I'].
Qed.

Lemma symbols_read h m e0 x l c x' : proper_header h -> stream_of h e0 -> (hd_lz h <> None -> mult_ok m) -> symbols h m x l c x' ->
  forall e s D p, inv h e0 e x -> Z.of_nat (length (ss_hist x) + length l) <= 2 ^ 31 - 1 -> reader_at s D p -> bits_at D p c ->
  (p + length c + ahead h <= 8 * length D)%nat ->
  exists ss : nat -> ES * BR, ss 0%nat = (e, s) /\
    (forall k ctx v, nth_error l k = Some (ctx, v) -> ReadSymbolWithMultiplier ctx m (ss k) = (Ok v, ss (S k))) /\
    inv h e0 (fst (ss (length l))) x' /\ reader_at (snd (ss (length l))) D (p + length c).
Proof.
  intros Hp Hst Hm H. induction H as [x|x ctx v c x1 l c' x2 Hs H IH]; intros e s D p HI Hl Hr Hb Hk.
  - exists (fun _ => (e, s)). split; [reflexivity|]. split; [intros [|k] ? ? E; discriminate E|]. cbn [fst snd length]. rewrite Nat.add_0_r. auto.
  - apply bits_at_app in Hb. destruct Hb as [Hb1 Hb2]. rewrite app_length in *. cbn [length] in Hl.
    destruct (symbol_read h m e0 x ctx v c x1 Hp Hst Hm Hs e s D p HI ltac:(lia) Hr Hb1 ltac:(lia)) as (e1 & s1 & E1 & I1 & R1).
    assert (Hh : length (ss_hist x1) = S (length (ss_hist x))) by (destruct Hs; reflexivity).
    destruct (IH e1 s1 D _ I1 ltac:(rewrite Hh; lia) R1 Hb2 ltac:(lia)) as (ss & F0 & F1 & F2 & F3).
    exists (fun k => match k with O => (e, s) | S k => ss k end). split; [reflexivity|]. split; [|cbn [length]; rewrite Nat.add_assoc; auto].
    intros [|k] ctx' v' E; cbn [nth_error] in E.
    + injection E as <- <-. rewrite F0. exact E1.
    + exact (F1 k ctx' v' E).
Qed.

(* ---- every sequence can be sent ---- *)
Lemma ans_write fs slot t n' : slot_bijection 4096 fs slot -> 0 <= t -> 0 < nth (Z.to_nat t) fs 0 <= 4096 -> 2 ^ 16 <= n' < 2 ^ 32 ->
  exists n c, 2 ^ 16 <= n < 2 ^ 32 /\ ans_code fs slot n c t n'.
Proof.
  intros (_ & B & _) Ht Hf Hn. set (f := nth (Z.to_nat t) fs 0) in *.
  assert (Lt : t < Z.of_nat (length fs)).
  { destruct (Z.lt_ge_cases t (Z.of_nat (length fs))); [assumption|]. subst f. rewrite nth_overflow in Hf by lia. lia. }
  assert (Y : exists y, 16 <= y / f < 2 ^ 20 /\ 0 <= y /\
    (if y <? 2 ^ 16 then exists w, 0 <= w < 2 ^ 16 /\ n' = y * 2 ^ 16 + w else n' = y)).
  { destruct (Z.le_gt_cases (f * 2 ^ 20) n') as [L|L].
    - exists (n' / 2 ^ 16). pose proof (Z.div_mod n' (2 ^ 16) ltac:(lia)) as E. pose proof (Z.mod_pos_bound n' (2 ^ 16) ltac:(lia)) as M.
      assert (H1 : f * 16 <= n' / 2 ^ 16) by (apply Z.div_le_lower_bound; lia). assert (H2 : n' / 2 ^ 16 < 2 ^ 16) by (apply Z.div_lt_upper_bound; lia).
      split; [split; [apply Z.div_le_lower_bound; lia|apply Z.div_lt_upper_bound; nia]|]. split; [lia|].
      replace (n' / 2 ^ 16 <? 2 ^ 16) with true by lia. exists (n' mod 2 ^ 16). split; [exact M|lia].
    - exists n'. split; [split; [apply Z.div_le_lower_bound; nia|apply Z.div_lt_upper_bound; lia]|]. split; [lia|].
      replace (n' <? 2 ^ 16) with false by lia. reflexivity. }
  destruct Y as (y & Hq & Hy0 & Hy). pose proof (Z.mod_pos_bound y f ltac:(lia)) as Hm. pose proof (Z.div_mod y f ltac:(lia)) as Ey.
  destruct (B t (y mod f) ltac:(lia) Hm) as (k & Hk & Ek).
  assert (En : (y / f * 4096 + k) / 4096 = y / f) by (symmetry; apply (Z.div_unique _ 4096 _ k); lia).
  assert (Em : (y / f * 4096 + k) mod 4096 = k) by (symmetry; apply (Z.mod_unique _ 4096 (y / f) k); lia).
  assert (G : exists c, ans_code fs slot (y / f * 4096 + k) c t n').
  { unfold ans_code. fold f. rewrite En, Em. replace (f * (y / f) + y mod f) with y in * by lia.
    destruct (y <? 2 ^ 16) eqn:Ely.
    - destruct Hy as (w & Hw & ->). exists (zbits 16 w), (y mod f). split; [exact Ek|]. replace (f * (y / f) + y mod f) with y by lia. rewrite Ely. exists w. auto.
    - exists [], (y mod f). split; [exact Ek|]. replace (f * (y / f) + y mod f) with y by lia. rewrite Ely. auto. }
  destruct G as (c & G). exists (y / f * 4096 + k), c. split; [lia|exact G].
Qed.

Lemma standard_slots las f : 0 <= las <= 12 -> proper_freqs las f -> exists slot, alias_standard las (snd f) slot /\ slot_bijection 4096 (snd f) slot /\
  forall t, nth (Z.to_nat t) (snd f) 0 <= 4096.
Proof.
  intros Hl (H1 & H2 & H3). set (u := snd (fst f)) in *.
  assert (Fo : freqs_ok las u (snd f)).
  { split; [exact Hl|]. split; [exact H1|]. split; [exact H2|]. destruct H3 as [(-> & A & _)|[A B]]; [left; auto|right].
    split; [split; [exact A|]|apply nth_error_nth; exact B]. assert (Z.to_nat u < length (snd f))%nat by (apply nth_error_Some; congruence). lia. }
  destruct (alias_all las 0 u (snd f) Fo) as (t & E & El & Ef & G).
  assert (St : alias_standard las (snd f) (at_slot t)).
  { destruct H3 as [(Hu & A & B)|[A B]].
    - rewrite Hu in E. destruct (standard_table las 0 (snd f) Hl H1 H2 A B) as (cut & sym & off & E' & S). rewrite E in E'. injection E' as F1 F2 F3 F4 F5.
      unfold at_slot. rewrite F1, F3, F4, F5. exact S.
    - destruct (single_table las 0 (Z.to_nat u) (snd f) Hl B) as (cut & sym & off & E' & S). rewrite Z2Nat.id, E in E' by lia. injection E' as F1 F2 F3 F4 F5.
      unfold at_slot. rewrite F1, F3, F4, F5. exact S. }
  exists (at_slot t). split; [exact St|]. split; [rewrite <- Ef; apply (tg_bij t G)|]. intros i. rewrite <- Ef. apply (tg_f t G i).
Qed.

Lemma token_write h cl t n' fs : proper_header h -> hd_codes h = Frequencies fs -> codable h cl t -> 2 ^ 16 <= n' < 2 ^ 32 ->
  exists n c, 2 ^ 16 <= n < 2 ^ 32 /\ token_code h cl (Some n) t c (Some n') /\ token_code h cl None t (zbits 32 n ++ c) (Some n').
Proof.
  intros (_ & Hlas & _ & _ & Hp) Eh Hc Hn. unfold codable in Hc. rewrite Eh in *. destruct Hc as (f & Ef & Ht & Hf). destruct Hp as [Hl2 Hp]. rewrite Forall_forall in Hp.
  destruct (standard_slots (hd_las h) f (conj Hlas Hl2) (Hp f (nth_error_In _ _ Ef))) as (slot & S1 & S2 & S3).
  destruct (ans_write (snd f) slot t n' S2 Ht (conj Hf (S3 t)) Hn) as (n & c & Hr & Ha). exists n, c. split; [exact Hr|].
  split; [eapply token_next; eauto|eapply token_first; eauto].
Qed.

Lemma symbols_write h m fs l : proper_header h -> hd_codes h = Frequencies fs -> Forall (sendable h) l -> forall hist d n', 2 ^ 16 <= n' < 2 ^ 32 ->
  exists n c hist', 2 ^ 16 <= n < 2 ^ 32 /\ symbols h m (SST hist 0 d (Some n)) l c (SST hist' 0 d (Some n')) /\
    (l <> [] -> symbols h m (SST hist 0 d None) l (zbits 32 n ++ c) (SST hist' 0 d (Some n'))).
Proof.
  intros Hp Eh H. induction H as [|[ctx v] l (cl & cfg & C1 & C2 & C3 & C4) H IH]; intros hist d n' Hn.
  - exists n', [], hist. split; [exact Hn|]. split; [constructor|congruence].
  - cbn [fst snd] in *. destruct (IH (v :: hist) d n' Hn) as (n1 & c1 & hist' & R1 & S1 & _).
    destruct (token_write h cl _ n1 fs Hp Eh C4 R1) as (n & c & Hr & T1 & T2). exists n, ((c ++ hyb_extra cfg v) ++ c1), hist'. split; [exact Hr|]. split.
    + eapply symbols_cons; [|exact S1]. eapply symbol_literal; eauto.
    + intros _. replace (zbits 32 n ++ (c ++ hyb_extra cfg v) ++ c1) with (((zbits 32 n ++ c) ++ hyb_extra cfg v) ++ c1) by (now rewrite <- !app_assoc).
      eapply symbols_cons; [|exact S1]. eapply symbol_literal; eauto.
Qed.
Lemma symbols_write_prefix h m ts l : hd_codes h = Prefixes ts -> Forall (sendable h) l -> forall hist d x,
  exists c hist', symbols h m (SST hist 0 d x) l c (SST hist' 0 d x).
Proof.
  intros Eh H. induction H as [|[ctx v] l (cl & cfg & C1 & C2 & C3 & C4) H IH]; intros hist d x; [exists [], hist; constructor|].
  cbn [fst snd] in *. destruct (IH (v :: hist) d x) as (c1 & hist' & S1). unfold codable in C4. rewrite Eh in C4. destruct C4 as (T & w & E & Hi).
  exists ((w ++ hyb_extra cfg v) ++ c1), hist'. eapply symbols_cons; [|exact S1]. eapply symbol_literal; eauto. eapply token_prefix; eauto.
Qed.

(* ---- headers ---- *)
Lemma config_ok las c v : 0 <= las <= 15 -> config_code las c v -> hconf_ok v.
Proof.
  intros Hl (c1 & c2 & e & -> & [_ He] & H). rewrite Z2Nat.id in He by apply Z.log2_up_nonneg.
  assert (He15 : e <= 15).
  { assert (Z.log2_up (las + 1) <= 4) by (apply Z.log2_up_le_pow2; lia). assert (2 ^ Z.log2_up (las + 1) <= 2 ^ 4) by (apply Z.pow_le_mono_r; lia). lia. }
  destruct (Z.eqb_spec e las) as [->|_].
  - destruct H as [_ ->]. unfold hconf_ok. cbn. lia.
  - destruct H as (c3 & c4 & i & _ & [_ Hi] & Hie & c5 & c6 & j & _ & [_ Hj] & Hij & _ & ->). unfold hconf_ok. cbn. lia.
Qed.
Lemma c_list_all {A} (R : code A) (P : A -> Prop) : (forall c v, R c v -> P v) -> forall n c l, c_list n R c l -> Forall P l /\ length l = n.
Proof.
  intros H. induction n as [|n IH]; intros c l Hl; cbn [c_list] in Hl.
  - destruct Hl as [_ ->]. split; [constructor|reflexivity].
  - destruct Hl as (c1 & c2 & a & _ & Ha & c3 & c4 & t & _ & Ht & _ & ->). destruct (IH _ _ Ht). split; [constructor; eauto|cbn; lia].
Qed.
Lemma header_proper maps n b c h : good_maps maps -> header_code maps proper_dist n b c h -> described h -> proper_header h.
Proof.
  intros Hmap (c1 & c2 & lz & -> & _ & c3 & c4 & lzp & -> & Hlz & c5 & c6 & cm & -> & Hcm & c7 & c8 & pf & -> & _ & c9 & c10 & las & -> & Hlas & c11 & c12 & cfs & -> & Hcf & c13 & c14 & cs & -> & Hcs & _ & ->) Hd.
  assert (Bl : 0 <= las <= 15 /\ (pf = false -> las <= 8)).
  { destruct pf; [destruct Hlas as [_ ->]; split; [lia|discriminate]|]. destruct Hlas as (d1 & d2 & x & _ & [_ Hx] & _ & ->). cbn in Hx. lia. }
  destruct Bl as [Bl Bl8]. destruct (Hmap _ _ _ Hcm) as [Hpos Hm]. destruct (c_list_all _ hconf_ok (fun c v => config_ok las c v Bl) _ _ _ Hcf) as [Hcf1 Hcf2].
  unfold proper_header. cbn [hd_configs hd_las hd_map hd_lz hd_codes]. split; [exact Hcf1|]. split; [lia|].
  split. { eapply Forall_impl; [|exact Hm]. cbn. intros x Hx. lia. }
  split.
  - destruct lz.
    + destruct Hlz as (_ & d1 & d2 & s & -> & Hs & d3 & d4 & l & -> & Hl & d5 & d6 & cf & -> & Hcfg & _ & ->).
      split; [|split; [|apply (config_ok 8 _ _ ltac:(lia) Hcfg)]].
      * destruct Hs as (i & x & Hi & Hx & _ & ->). cbv zeta in Hx. do 4 (destruct i as [|i]; [cbn [nth] in *; match type of Hx with _ <= _ < 2 ^ ?e => let v := eval vm_compute in (2 ^ e) in change (2 ^ e) with v in Hx end; lia|]); lia.
      * destruct Hl as (i & x & Hi & Hx & _ & ->). cbv zeta in Hx. do 4 (destruct i as [|i]; [cbn [nth] in *; match type of Hx with _ <= _ < 2 ^ ?e => let v := eval vm_compute in (2 ^ e) in change (2 ^ e) with v in Hx end; lia|]); lia.
    + destruct Hlz as [_ ->]. exact I.
  - destruct pf.
    + destruct Hcs as (d1 & d2 & sz & _ & _ & d3 & d4 & ts & _ & _ & _ & ->). exact I.
    + destruct Hcs as (d1 & d2 & fs & _ & Hfs & _ & ->). split; [lia|]. cbn [described hd_codes] in Hd.
      destruct (c_list_all _ (fun f => freqs_ok las (snd (fst f)) (snd f)) (fun c v => match v with (a, u, fs0) => fun H => freqs_of_dist las c a u fs0 ltac:(lia) (proj1 H) (proj2 H) end) _ _ _ Hfs) as [Hfo _].
      unfold described in Hd. cbn [hd_codes] in Hd. rewrite Forall_forall in *. intros f Hf. specialize (Hfo f Hf). specialize (Hd f Hf). destruct Hfo as (_ & F1 & F2 & F3).
      split; [exact F1|]. split; [exact F2|]. destruct F3 as [[E F3]|[F3 F4]]; [left|right].
      * split; [exact E|]. split; [exact F3|]. destruct Hd as [Hd|Hd]; [lia|exact Hd].
      * split; [lia|]. rewrite (nth_error_nth' (snd f)) with (d := 0) by lia. now rewrite F4.
Qed.
Lemma good_plain : good_maps plain_map.
Proof.
  intros n c v H. unfold plain_map in H. destruct (n =? 1).
  - destruct H as [_ ->]. cbn. split; [lia|]. repeat constructor; lia.
  - destruct H as (w & l & _ & _ & _ & Hl & _ & ->). cbn [fst snd].
    assert (M : forall l, - 1 <= fold_right Z.max (-1) l /\ forall x, In x l -> x <= fold_right Z.max (-1) l).
    { clear. induction l as [|a l [IH1 IH2]]; cbn; [split; [lia|tauto]|]. split; [lia|]. intros x [->|Hx]; [lia|]. specialize (IH2 x Hx). lia. }
    destruct (M l) as [M1 M2]. split; [lia|]. rewrite Forall_forall in *. intros x Hx. specialize (Hl x Hx). specialize (M2 x Hx). lia.
Qed.
Lemma fresh_inv h e : stream_of h e -> fresh e -> inv h e e sst0.
Proof.
  intros (_ & _ & _ & _ & Hz) (F1 & F2 & F3 & _ & F5). unfold inv, sst0. cbn [ss_x ss_n ss_hist ss_d ans_is]. split; [exact F1|]. split; [lia|].
  destruct (hd_lz h) as [[[s l] c]|].
  - destruct Hz as (Hz & _). exact (fresh_repr e Hz F3 F2 F5).
  - auto.
Qed.
Lemma final_inv h e0 e x : inv h e0 e x -> ValidateFinalState e = match ss_x x with None => true | Some n => n =? 1245184 end.
Proof.
  intros (I & _). unfold ValidateFinalState, ans_is in *. destruct (ss_x x) as [n|].
  - destruct I as [Hn ->]. cbn [ans_has ans_state negb orb]. unfold i32. 
    destruct (Z.eqb_spec n 1245184) as [->|N]; [reflexivity|]. 
    match goal with |- (?a =? _) = _ => assert (a <> 1245184) end; [|lia].
    intros E. apply N. pose proof (i32_mod_low n 32 ltac:(lia)) as M. unfold i32 in M. rewrite E in M. rewrite (Z.mod_small n) in M by lia. rewrite <- M. reflexivity.
  - rewrite I. reflexivity.
Qed.
