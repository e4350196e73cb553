(* C21: ANS decoding inverts ANS encoding. *)
From Coq Require Import ZArith List Bool Lia ZifyBool ZifyNat.
From Verif Require Import GoBase GoLoop Bits ModelBitReader ModelUtil ModelEntropy SpecBitReader SpecEntropy.
From Verif Require Import ProofBitReader ProofBitReader2 ProofReads ProofCodes ProofHybrid ProofAlias.
Import ListNotations.
Open Scope Z_scope.

Lemma only_one freqs u : Forall (fun f => 0 <= f) freqs -> sumZ freqs = nth u freqs 0 -> (u < length freqs)%nat ->
  forall i, i <> u -> nth i freqs 0 = 0.
Proof.
  intros H. revert u. induction H as [|f fs Hf H IH]; intros u Hs Hu i Hi; [cbn in Hu; lia|].
  assert (Hnn : 0 <= sumZ fs) by (clear - H; induction H; rewrite ?sumZ_nil, ?sumZ_cons; lia).
  rewrite sumZ_cons in Hs. destruct u as [|u]; cbn [nth] in Hs.
  - destruct i as [|i]; [congruence|]. cbn [nth]. pose proof (sumZ_bound fs H (Z.of_nat i)) as Hb. unfold g in Hb.
    rewrite Nat2Z.id in Hb. lia.
  - pose proof (sumZ_bound fs H (Z.of_nat u)) as Hb. unfold g in Hb. rewrite Nat2Z.id in Hb.
    destruct i as [|i]; cbn [nth]; [lia|]. apply (IH u); cbn [length] in Hu; lia.
Qed.

Definition dist_of (t : atable) : SymDist := AnsDist (at_lb t) (at_freqs t) (at_cut t) (at_sym t) (at_off t).

(* A frequency table a reader can produce for table size 2^las: either it
   fits the table, or a single symbol has everything. *)
Definition freqs_ok (las u : Z) (freqs : list Z) : Prop :=
  0 <= las <= 12 /\ Forall (fun f => 0 <= f) freqs /\ sumZ freqs = 4096 /\
  ((u = -1 /\ Z.of_nat (length freqs) <= 2 ^ las) \/
   (0 <= u < Z.of_nat (length freqs) /\ nth (Z.to_nat u) freqs 0 = 4096)).

Record table_good (t : atable) : Prop := {
  tg_lb : 0 <= at_lb t <= 12;
  tg_lc : length (at_cut t) = Z.to_nat (2 ^ (12 - at_lb t));
  tg_ls : length (at_sym t) = Z.to_nat (2 ^ (12 - at_lb t));
  tg_lo : length (at_off t) = Z.to_nat (2 ^ (12 - at_lb t));
  tg_off : forall i, 0 <= i < 2 ^ (12 - at_lb t) -> - 4096 <= nth (Z.to_nat i) (at_off t) 0 <= 4096;
  tg_f : forall s, 0 <= at_freq t s <= 4096;
  tg_bij : slot_bijection 4096 (at_freqs t) (at_slot t)
}.

Lemma alias_all las a u freqs : freqs_ok las u freqs ->
  exists t, generateAliasMapping las a u freqs = Ok (dist_of t) /\ at_lb t = 12 - las /\ at_freqs t = freqs /\ table_good t.
Proof.
  intros (Hlas & Hf & Hs & Hc). pose proof (sumZ_bound freqs Hf) as Hb. rewrite Hs in Hb.
  destruct Hc as [[-> Hl]|[Hu Hn]].
  - destruct (alias_ok las freqs a Hlas Hf Hs Hl) as (cut & sym & off & E & L1 & L2 & L3 & Hoff & Hbij).
    exists (ATable (12 - las) freqs cut sym off). split; [exact E|]. split; [reflexivity|]. split; [reflexivity|].
    constructor; cbn [at_lb at_freqs at_cut at_sym at_off]; replace (12 - (12 - las)) with las by lia; try assumption; try lia.
    + intros i Hi. apply (Hoff i Hi).
    + intros s. unfold at_freq. cbn [at_freqs]. pose proof (Hb s). unfold g in *. lia.
  - destruct (alias_uniq las freqs u a Hlas ltac:(lia)) as (cut & sym & off & E & L1 & L2 & L3 & Hoff & Hsl).
    exists (ATable (12 - las) freqs cut sym off). split; [exact E|]. split; [reflexivity|]. split; [reflexivity|].
    constructor; cbn [at_lb at_freqs at_cut at_sym at_off]; replace (12 - (12 - las)) with las by lia; try assumption; try lia.
    + intros i Hi. apply (Hoff i Hi).
    + intros s. unfold at_freq. cbn [at_freqs]. pose proof (Hb s). unfold g in *. lia.
    + unfold at_slot. cbn [at_lb at_cut at_sym at_off].
      split; [|split].
      * intros k Hk. rewrite Hsl by assumption. rewrite Hn. lia.
      * intros s o Hs0 Ho. destruct (Z.eq_dec s u) as [->|E1].
        -- rewrite Hn in Ho. exists o. split; [assumption|]. apply Hsl. assumption.
        -- rewrite (only_one freqs (Z.to_nat u)) in Ho; try assumption; try lia.
      * intros k k' Hk Hk'. rewrite !Hsl by assumption. congruence.
Qed.

Lemma find_slot_ok t s o : table_good t -> 0 <= s < Z.of_nat (length (at_freqs t)) -> 0 <= o < at_freq t s ->
  0 <= find_slot t s o < 4096 /\ at_slot t (find_slot t s o) = (s, o).
Proof.
  intros G Hs Ho. destruct (tg_bij t G) as (_ & Hex & _). destruct (Hex s o Hs Ho) as (k & Hk & Ek).
  unfold find_slot. destruct (find _ (seq 0 4096)) as [j|] eqn:E.
  - apply find_some in E. destruct E as [Hj E]. apply in_seq in Hj. destruct (at_slot t (Z.of_nat j)) as [s' o'].
    split; [lia|]. f_equal; lia.
  - exfalso. apply find_none with (x := Z.to_nat k) in E; [|apply in_seq; lia].
    rewrite Z2Nat.id in E by lia. rewrite Ek in E. lia.
Qed.

Lemma land4095 a : Z.land a 4095 = a mod 4096.
Proof. apply (land_ones_mod a 12). lia. Qed.
Lemma i32_mod_low x n : 0 <= n <= 32 -> i32 x mod 2 ^ n = x mod 2 ^ n.
Proof.
  intros Hn. apply Z.bits_inj'. intros k Hk. destruct (Z_lt_dec k n).
  - rewrite !Z.mod_pow2_bits_low by lia. rewrite i32_testbit by lia. f_equal. lia.
  - rewrite !Z.mod_pow2_bits_high by lia. reflexivity.
Qed.
Lemma u32_i32 x : u32 (i32 x) = u32 x.
Proof. unfold u32. apply i32_mod_low. lia. Qed.
Lemma i32_add_l a b : i32 (i32 a + b) = i32 (a + b).
Proof.
  apply i32_mod. rewrite Zplus_mod, (Zplus_mod a). f_equal. f_equal. apply (i32_mod_low a 32). lia.
Qed.
Lemma i32_mul_r a b : i32 (a * i32 b) = i32 (a * b).
Proof. rewrite (Z.mul_comm a), (Z.mul_comm a). apply i32_i32_mul. Qed.

Lemma high16_zero y : 0 <= y < 2 ^ 32 -> (Z.land y 4294901760 =? 0) = (y <? 2 ^ 16).
Proof.
  intros Hy.
  assert (E : Z.land y 4294901760 = y / 2 ^ 16 * 2 ^ 16).
  { change 4294901760 with (Z.ones 16 * 2 ^ 16). rewrite <- !Z.shiftl_mul_pow2, <- Z.shiftr_div_pow2 by lia.
    apply Z.bits_inj'. intros k Hk. rewrite Z.land_spec. destruct (Z_lt_dec k 16).
    - rewrite !Z.shiftl_spec_low by lia. apply andb_false_r.
    - rewrite !Z.shiftl_spec by lia. rewrite Z.shiftr_spec by lia. replace (k - 16 + 16) with k by lia.
      destruct (Z_lt_dec k 32).
      + rewrite Z.ones_spec_low by lia. apply andb_true_r.
      + rewrite Z.ones_spec_high by lia. rewrite andb_false_r. symmetry.
        destruct (Z.eq_dec y 0) as [->|]; [apply Z.testbit_0_l|].
        apply Z.bits_above_log2; [lia|]. apply Z.lt_le_trans with 32; [|lia]. apply Z.log2_lt_pow2; lia. }
  rewrite E. pose proof (Z.div_mod y (2 ^ 16) ltac:(lia)). pose proof (Z.mod_pos_bound y (2 ^ 16) ltac:(lia)).
  assert (0 <= y / 2 ^ 16) by (apply Z.div_pos; lia).
  destruct (Z.eqb_spec (y / 2 ^ 16 * 2 ^ 16) 0), (Z.ltb_spec y (2 ^ 16)); try reflexivity; lia.
Qed.

(* One symbol *)
Lemma ans_step t s y x w : table_good t -> 0 <= s < Z.of_nat (length (at_freqs t)) -> 0 < at_freq t s ->
  16 <= y / at_freq t s < 2 ^ 20 -> 0 <= y < 2 ^ 32 ->
  x = y / at_freq t s * 4096 + find_slot t s (y mod at_freq t s) -> 0 <= w < 2 ^ 16 ->
  2 ^ 16 <= x < 2 ^ 32 /\
  forall st, (st = mkANS (i32 x) true) ->
  reads (distReadSymbol (dist_of t) st) (if y <? 2 ^ 16 then zbits 16 w else [])
        (s, mkANS (i32 (if y <? 2 ^ 16 then y * 2 ^ 16 + w else y)) true).
Proof.
  intros G Hs Hf Hq Hy Hx Hw. set (f := at_freq t s) in *.
  pose proof (Z.mod_pos_bound y f Hf) as Ho. pose proof (Z.div_mod y f ltac:(lia)) as Ey.
  destruct (find_slot_ok t s (y mod f) G Hs Ho) as [Hk Ek]. set (k := find_slot t s (y mod f)) in *.
  pose proof (tg_f t G s) as Hf4. fold f in Hf4.
  assert (Hxr : 2 ^ 16 <= x < 2 ^ 32) by lia. split; [assumption|].
  intros st ->. unfold dist_of, distReadSymbol, ansReadSymbol. cbn [ans_has ans_state].
  set (lb := at_lb t) in *. pose proof (tg_lb t G) as Hlb. fold lb in Hlb.
  assert (PB : 0 < 2 ^ lb) by (apply pow2_pos; lia). assert (PT : 0 < 2 ^ (12 - lb)) by (apply pow2_pos; lia).
  assert (PBT : 2 ^ lb * 2 ^ (12 - lb) = 4096) by (rewrite <- Z.pow_add_r by lia; replace (lb + (12 - lb)) with 12 by lia; reflexivity).
  eapply (reads_bind _ _ [] _); [apply reads_ret|]. cbv zeta beta.
  assert (Ei : i32 x mod 4096 = x mod 4096) by (apply (i32_mod_low x 12); lia).
  rewrite land4095. rewrite Ei.
  assert (Em : x mod 4096 = k) by (rewrite Hx; apply mod_step; lia).
  assert (Ed : x / 4096 = y / f) by (rewrite Hx; apply div_step; lia).
  rewrite !Em. rewrite (u32_small k) by lia. rewrite Z.shiftr_div_pow2 by lia.
  rewrite Z.shiftl_mul_pow2, Z.mul_1_l by lia. rewrite land_ones_mod by lia.
  assert (Hi : 0 <= k / 2 ^ lb < 2 ^ (12 - lb)).
  { split; [apply Z.div_pos; lia|]. apply Z.div_lt_upper_bound; lia. }
  unfold at_slot, alias_slot in Ek. fold lb in Ek.
  pose proof (tg_lc t G) as L1. pose proof (tg_ls t G) as L2. pose proof (tg_lo t G) as L3. fold lb in L1, L2, L3.
  pose proof (tg_off t G (k / 2 ^ lb) Hi) as Hoff.
  pose proof (Z.mod_pos_bound k (2 ^ lb) PB) as Hpos.
  assert (Hpos2 : k mod 2 ^ lb <= 4096) by (pose proof (Z.mod_le k (2 ^ lb) ltac:(lia) PB); lia).
  assert (Lf : forall (A : Type) (o : Outcome A) v, o = Ok v -> reads (rlift o) [] v).
  { intros A o v ->. apply (reads_ret v). }
  eapply (reads_bind _ _ [] _).
  { apply Lf. apply (slice_get_ok _ _ 0). rewrite L1. lia. }
  eapply (reads_bind _ _ [] _ (s, y mod f)).
  { destruct (Z.leb_spec (nth (Z.to_nat (k / 2 ^ lb)) (at_cut t) 0) (k mod 2 ^ lb)) as [Hc|Hc].
    - assert (E1 : nth (Z.to_nat (k / 2 ^ lb)) (at_sym t) 0 = s) by congruence.
      assert (E2 : nth (Z.to_nat (k / 2 ^ lb)) (at_off t) 0 + k mod 2 ^ lb = y mod f) by congruence.
      eapply (reads_bind _ _ [] []).
      { apply Lf. apply (slice_get_ok _ _ 0). rewrite L2. lia. }
      eapply (reads_bind _ _ [] []).
      { apply Lf. apply (slice_get_ok _ _ 0). rewrite L3. lia. }
      rewrite E1, i32_small by lia. rewrite E2. apply reads_ret.
    - assert (E1 : k / 2 ^ lb = s) by congruence. assert (E2 : k mod 2 ^ lb = y mod f) by congruence.
      rewrite E1, E2. apply reads_ret. }
  eapply (reads_bind _ _ [] _).
  { apply Lf. apply (slice_get_ok _ _ 0). assumption. }
  fold (at_freq t s). fold f.
  rewrite (u32_i32 x), (u32_small x) by lia. rewrite Z.shiftr_div_pow2 by lia. change (2 ^ 12) with 4096. rewrite Ed.
  rewrite i32_mul_r, i32_add_l. replace (f * (y / f) + y mod f) with y by lia.
  rewrite (u32_i32 y), (u32_small y) by lia. rewrite high16_zero by lia.
  destruct (Z.ltb_spec y (2 ^ 16)) as [Hlow|Hhigh].
  - eapply reads_bind0; [|apply reads_ret].
    eapply reads_bind0; [apply (reads_zbits 16); [reflexivity|lia|assumption]|].
    replace (i32 (y * 2 ^ 16 + w)) with (Z.lor (i32 (Z.shiftl (i32 y) 16)) (i32 w)); [apply reads_ret|].
    rewrite Z.shiftl_mul_pow2 by lia. rewrite i32_i32_mul, lor_i32, lor_add_mul by lia. reflexivity.
  - eapply reads_bind0; apply reads_ret.
Qed.

(* Reading one symbol after the other *)
Fixpoint readAll (ds : list SymDist) (st : ANSState) : RM (list Z * ANSState) :=
  match ds with
  | [] => rret ([], st)
  | d :: t => r <- distReadSymbol d st ;; q <- readAll t (snd r) ;; rret (fst r :: fst q, snd q)
  end.

Definition msg_ok (msg : list (atable * Z)) : Prop :=
  Forall (fun p => table_good (fst p) /\ 0 <= snd p < Z.of_nat (length (at_freqs (fst p))) /\ 0 < at_freq (fst p) (snd p)) msg.

Lemma rans_ok msg : msg_ok msg -> forall x0, 2 ^ 16 <= x0 < 2 ^ 32 ->
  let '(x, ws) := rans_encode msg x0 in
  2 ^ 16 <= x < 2 ^ 32 /\ Forall (fun w => 0 <= w < 2 ^ 16) ws /\
  reads (readAll (map (fun p => dist_of (fst p)) msg) (mkANS (i32 x) true)) (flat_map (zbits 16) ws)
        (map snd msg, mkANS (i32 x0) true).
Proof.
  induction msg as [|[t s] msg IH]; intros H x0 Hx0; cbn [rans_encode map].
  - split; [assumption|]. split; [constructor|]. apply (reads_ret ([], mkANS (i32 x0) true)).
  - pose proof (Forall_inv H) as (G & Hs & Hf). pose proof (Forall_inv_tail H) as H'. cbn [fst snd] in *.
    specialize (IH H' x0 Hx0). destruct (rans_encode msg x0) as [x ws]. destruct IH as (Hx & Hws & Hr).
    set (f := at_freq t s) in *. pose proof (tg_f t G s) as Hf4. fold f in Hf4.
    destruct (Z.leb_spec (f * 2 ^ 20) x) as [Hbig|Hsm].
    + set (y := x / 2 ^ 16). set (w := x mod 2 ^ 16).
      assert (Hw : 0 <= w < 2 ^ 16) by (apply Z.mod_pos_bound; lia).
      assert (Exy : x = y * 2 ^ 16 + w) by (unfold y, w; pose proof (Z.div_mod x (2 ^ 16) ltac:(lia)); lia).
      assert (Hy : f * 2 ^ 4 <= y < 2 ^ 16) by lia.
      assert (Hq : 16 <= y / f < 2 ^ 20).
      { split; [apply Z.div_le_lower_bound; lia|]. apply Z.div_lt_upper_bound; [lia|]. nia. }
      destruct (ans_step t s y (y / f * 4096 + find_slot t s (y mod f)) w G Hs Hf Hq ltac:(lia) eq_refl Hw) as [Hr1 Hr2].
      specialize (Hr2 _ eq_refl). destruct (Z.ltb_spec y (2 ^ 16)); [|lia]. rewrite <- Exy in Hr2.
      split; [assumption|]. split; [constructor; assumption|]. cbn [readAll flat_map].
      eapply reads_bind; [exact Hr2|]. cbn [fst snd]. eapply reads_bind0; [exact Hr|]. apply reads_ret.
    + assert (Hq : 16 <= x / f < 2 ^ 20).
      { split; [apply Z.div_le_lower_bound; nia|]. apply Z.div_lt_upper_bound; lia. }
      destruct (ans_step t s x (x / f * 4096 + find_slot t s (x mod f)) 0 G Hs Hf Hq ltac:(lia) eq_refl ltac:(lia)) as [Hr1 Hr2].
      specialize (Hr2 _ eq_refl). destruct (Z.ltb_spec x (2 ^ 16)); [lia|].
      split; [assumption|]. split; [assumption|]. cbn [readAll].
      rewrite <- (app_nil_l (flat_map _ _)). eapply reads_bind; [exact Hr2|]. cbn [fst snd]. eapply reads_bind0; [exact Hr|]. apply reads_ret.
Qed.

(* The first symbol fetches the state *)
Lemma ans_first d st x : (exists t, d = dist_of t) -> ans_has st = false -> 0 <= x < 2 ^ 32 -> forall c v,
  reads (distReadSymbol d (mkANS (i32 x) true)) c v -> reads (distReadSymbol d st) (zbits 32 x ++ c) v.
Proof.
  intros (t & ->) Hh Hx c v Hr. unfold dist_of, distReadSymbol, ansReadSymbol in *. rewrite Hh. cbn [ans_has ans_state] in Hr.
  eapply reads_bind.
  - eapply reads_bind0; [apply (reads_zbits 32); [reflexivity|lia|assumption]|]. apply reads_ret.
  - intros s d0 p H1 H2. exact (Hr s d0 p H1 H2).
Qed.

Lemma rans_roundtrip msg x0 st : msg_ok msg -> msg <> [] -> 2 ^ 16 <= x0 < 2 ^ 32 -> ans_has st = false ->
  reads (readAll (map (fun p => dist_of (fst p)) msg) st) (rans_stream msg x0) (map snd msg, mkANS (i32 x0) true).
Proof.
  intros H Hne Hx0 Hh. destruct msg as [|[t s] msg]; [congruence|]. unfold rans_stream.
  pose proof (rans_ok msg (Forall_inv_tail H) x0 Hx0) as HR.
  cbn [rans_encode map]. destruct (rans_encode msg x0) as [x ws]. destruct HR as (Hx & Hws & Hr).
  pose proof (Forall_inv H) as (G & Hs & Hf). cbn [fst snd] in *.
  set (f := at_freq t s) in *. pose proof (tg_f t G s) as Hf4. fold f in Hf4.
  destruct (Z.leb_spec (f * 2 ^ 20) x) as [Hbig|Hsm].
  - set (y := x / 2 ^ 16). set (w := x mod 2 ^ 16).
    assert (Hw : 0 <= w < 2 ^ 16) by (apply Z.mod_pos_bound; lia).
    assert (Exy : x = y * 2 ^ 16 + w) by (unfold y, w; pose proof (Z.div_mod x (2 ^ 16) ltac:(lia)); lia).
    assert (Hy : f * 2 ^ 4 <= y < 2 ^ 16) by lia.
    assert (Hq : 16 <= y / f < 2 ^ 20).
    { split; [apply Z.div_le_lower_bound; lia|]. apply Z.div_lt_upper_bound; [lia|]. nia. }
    destruct (ans_step t s y (y / f * 4096 + find_slot t s (y mod f)) w G Hs Hf Hq ltac:(lia) eq_refl Hw) as [Hr1 Hr2].
    specialize (Hr2 _ eq_refl). destruct (Z.ltb_spec y (2 ^ 16)); [|lia]. rewrite <- Exy in Hr2.
    cbn [readAll flat_map]. rewrite app_assoc.
    eapply reads_bind; [apply ans_first; [eexists; reflexivity|assumption| |exact Hr2]; lia|]. cbn [fst snd].
    eapply reads_bind0; [exact Hr|]. apply reads_ret.
  - assert (Hq : 16 <= x / f < 2 ^ 20).
    { split; [apply Z.div_le_lower_bound; nia|]. apply Z.div_lt_upper_bound; lia. }
    destruct (ans_step t s x (x / f * 4096 + find_slot t s (x mod f)) 0 G Hs Hf Hq ltac:(lia) eq_refl ltac:(lia)) as [Hr1 Hr2].
    specialize (Hr2 _ eq_refl). destruct (Z.ltb_spec x (2 ^ 16)); [lia|].
    cbn [readAll]. 
    eapply reads_bind; [rewrite <- (app_nil_r (zbits 32 _)); apply ans_first; [eexists; reflexivity|assumption| |exact Hr2]; lia|].
    cbn [fst snd]. eapply reads_bind0; [exact Hr|]. apply reads_ret.
Qed.
