(* C19: prefix-code tables. *)
From Coq Require Import ZArith List Bool Lia ZifyBool ZifyNat.
From Verif Require Import GoBase GoLoop Bits ModelBitReader ModelUtil ModelEntropy SpecBitReader SpecEntropy.
From Verif Require Import ProofBitReader ProofBitReader2 ProofReads ProofCodes ProofHybrid.
Import ListNotations.
Open Scope Z_scope.

Lemma rev_zbits_bz L (l : list bool) : length l = L -> rev l = zbits L (bz (rev l)).
Proof. intros <-. pose proof (zbits_bz (rev l)) as H. rewrite rev_length in H. symmetry. exact H. Qed.

(* The first L of the B bits of x, read as a number most significant first *)
Definition V (B : nat) (x : Z) : Z := bz (rev (zbits B x)).
Lemma V_bound B x : 0 <= V B x < 2 ^ Z.of_nat B.
Proof.
  unfold V. split; [apply bz_nonneg|]. pose proof (bz_bound (rev (zbits B x))) as H.
  rewrite rev_length, zbits_length in H. exact H.
Qed.
Lemma V_prefix B L x : (L <= B)%nat -> V B x / 2 ^ Z.of_nat (B - L) = bz (rev (zbits L x)).
Proof.
  intros HL. unfold V. rewrite <- (firstn_skipn L (zbits B x)).
  rewrite firstn_zbits by lia. rewrite rev_app_distr, bz_app, rev_length, skipn_length, zbits_length.
  pose proof (bz_nonneg (rev (skipn L (zbits B x)))).
  pose proof (bz_bound (rev (skipn L (zbits B x)))) as Hb. rewrite rev_length, skipn_length, zbits_length in Hb.
  rewrite Z.add_comm, Z.mul_comm. apply div_step; [apply pow2_pos; lia|lia].
Qed.
Lemma V_iff B L c x : (L <= B)%nat -> 0 <= c < 2 ^ Z.of_nat L ->
  (V B x / 2 ^ Z.of_nat (B - L) = c <-> zbits L x = rev (zbits L c)).
Proof.
  intros HL Hc. rewrite V_prefix by assumption. split.
  - intros <-. rewrite <- (rev_zbits_bz L (zbits L x)) by apply zbits_length. now rewrite rev_involutive.
  - intros ->. rewrite rev_involutive. now apply bz_zbits_small.
Qed.
Lemma zbits_inj_mod L a b : zbits L a = zbits L b -> a mod 2 ^ Z.of_nat L = b mod 2 ^ Z.of_nat L.
Proof. intros H. rewrite <- !bz_zbits. now rewrite H. Qed.

Lemma zbits_zero n : zbits n 0 = repeat false n.
Proof. induction n; cbn; [reflexivity|]. f_equal. assumption. Qed.
Lemma bz_zeros n : bz (repeat false n) = 0.
Proof. induction n; cbn; [reflexivity|]. rewrite IHn. reflexivity. Qed.
Lemma zbits_shift n k c : zbits (n + k) (c * 2 ^ Z.of_nat n) = repeat false n ++ zbits k c.
Proof.
  rewrite <- (firstn_skipn n (zbits (n + k) _)). rewrite firstn_zbits by lia. rewrite skipn_zbits by lia.
  replace (n + k - n)%nat with k by lia. f_equal.
  - rewrite <- zbits_zero. apply zbits_eq_mod. rewrite Z.mod_mul by (pose proof (pow2_pos (Z.of_nat n)); lia).
    reflexivity.
  - f_equal. apply Z.div_mul. pose proof (pow2_pos (Z.of_nat n)); lia.
Qed.
Lemma rev_repeat {A} (x : A) n : rev (repeat x n) = repeat x n.
Proof.
  induction n; cbn [repeat rev]; [reflexivity|]. rewrite IHn. clear.
  induction n; cbn; [reflexivity|]. now rewrite IHn.
Qed.
Lemma Reverse32_code L c : (L <= 32)%nat -> 0 <= c < 2 ^ Z.of_nat L ->
  Reverse32 (u32 (c * 2 ^ (32 - Z.of_nat L))) = bz (rev (zbits L c)).
Proof.
  intros HL Hc. unfold Reverse32.
  replace (32 - Z.of_nat L) with (Z.of_nat (32 - L)) by lia.
  rewrite u32_small.
  2:{ pose proof (pow2_pos (Z.of_nat (32 - L)) ltac:(lia)). split; [nia|].
      replace (2 ^ 32) with (2 ^ Z.of_nat L * 2 ^ Z.of_nat (32 - L)) by (rewrite <- Z.pow_add_r by lia; f_equal; lia). nia. }
  replace 32%nat with (32 - L + L)%nat at 1 by lia. rewrite zbits_shift, rev_app_distr, bz_app, rev_repeat, bz_zeros. lia.
Qed.

(* Filling one code *)
Lemma vlcFill_ok B L c sym table : (L <= B <= 31)%nat -> 0 <= c < 2 ^ Z.of_nat L ->
  length table = Z.to_nat (2 ^ Z.of_nat B) ->
  (forall x, 0 <= x < 2 ^ Z.of_nat B -> V B x / 2 ^ Z.of_nat (B - L) = c -> nth (Z.to_nat x) table (0, 0) = (0, 0)) ->
  exists table', vlcFill (Z.of_nat B) (Z.of_nat L, sym, c * 2 ^ (32 - Z.of_nat L)) table = Ok table' /\
    length table' = length table /\
    (forall x, 0 <= x < 2 ^ Z.of_nat B ->
       nth (Z.to_nat x) table' (0, 0) =
       if V B x / 2 ^ Z.of_nat (B - L) =? c then (sym, Z.of_nat L) else nth (Z.to_nat x) table (0, 0)).
Proof.
  intros HL Hc Hlen Hzero. unfold vlcFill.
  destruct (Z.leb_spec (Z.of_nat L) (Z.of_nat B)); [|lia]. cbv zeta.
  rewrite Reverse32_code by (assumption || lia).
  rewrite !Z.shiftl_mul_pow2, !Z.mul_1_l by lia.
  replace (Z.of_nat B - Z.of_nat L) with (Z.of_nat (B - L)) by lia.
  set (r := bz (rev (zbits L c))).
  pose proof (pow2_pos (Z.of_nat L) ltac:(lia)) as PL. pose proof (pow2_pos (Z.of_nat (B - L)) ltac:(lia)) as PBL.
  assert (Hr : 0 <= r < 2 ^ Z.of_nat L).
  { unfold r. split; [apply bz_nonneg|]. pose proof (bz_bound (rev (zbits L c))) as Hb.
    rewrite rev_length, zbits_length in Hb. exact Hb. }
  assert (PB : 2 ^ Z.of_nat B = 2 ^ Z.of_nat (B - L) * 2 ^ Z.of_nat L) by (rewrite <- Z.pow_add_r by lia; f_equal; lia).
  assert (PB31 : 2 ^ Z.of_nat B <= 2 ^ 31) by (apply Z.pow_le_mono_r; lia).
  assert (PLB : 2 ^ Z.of_nat L <= 2 ^ Z.of_nat B) by (apply Z.pow_le_mono_r; lia).
  rewrite (u32_small (2 ^ Z.of_nat L)) by lia.
  assert (Key : forall x, V B x / 2 ^ Z.of_nat (B - L) = c <-> x mod 2 ^ Z.of_nat L = r).
  { intros x. rewrite V_iff by (assumption || lia). split.
    - intros E. apply (f_equal bz) in E. rewrite bz_zbits in E. exact E.
    - intros E. rewrite (zbits_eq_mod L x r).
      + unfold r. rewrite <- (zbits_length L c) at 1. rewrite <- rev_length. apply zbits_bz.
      + rewrite E. symmetry. apply Z.mod_small. lia. }
  clear HL Hc. clearbody r.
  set (NB := 2 ^ Z.of_nat B) in *. set (NL := 2 ^ Z.of_nat L) in *. set (NBL := 2 ^ Z.of_nat (B - L)) in *.
  clearbody NB NL NBL.
  destruct (oloop_inv (fun j t => length t = length table /\
     forall x, 0 <= x < NB -> nth (Z.to_nat x) t (0, 0) =
       if (x mod NL =? r) && (x / NL <? Z.of_nat j) then (sym, Z.of_nat L)
       else nth (Z.to_nat x) table (0, 0))
    (fun j table => obind (slice_get table (u32 (r + Z.of_nat j * NL))) (fun '(oldSymbol, oldLen) =>
      if ((0 <? oldLen) || (0 <? oldSymbol)) && (negb (oldLen =? Z.of_nat L) || negb (oldSymbol =? sym)) then Err
      else slice_set table (u32 (r + Z.of_nat j * NL)) (sym, Z.of_nat L)))
    (Z.to_nat (NBL)) 0 table) as (t' & Ht' & Hl' & Hn').
  - split; [reflexivity|]. intros x Hx. rewrite (proj2 (Z.ltb_ge _ _)).
    + now rewrite andb_false_r.
    + apply Z.div_pos; lia.
  - intros j t Hj [Hlt Hnt].
    assert (Hj' : 0 <= Z.of_nat j < NBL) by (clear - Hj PBL; lia).
    assert (Hjm : Z.of_nat j * NL <= (NBL - 1) * NL)
      by (apply Z.mul_le_mono_nonneg_r; lia).
    assert (Hj0 : 0 <= Z.of_nat j * NL) by (apply Z.mul_nonneg_nonneg; lia).
    assert (Hbig : r + Z.of_nat j * NL < NB) by (rewrite PB; lia).
    set (x0 := r + Z.of_nat j * NL) in *.
    assert (Hx0 : 0 <= x0) by (unfold x0; lia). rewrite u32_small by lia.
    assert (Em : x0 mod NL = r) by (unfold x0; rewrite Z.mod_add by lia; apply Z.mod_small; lia).
    assert (Ed : x0 / NL = Z.of_nat j) by (unfold x0; rewrite Z.div_add by lia; rewrite Z.div_small by lia; lia).
    rewrite (slice_get_ok _ _ (0, 0)) by lia. cbn [obind].
    rewrite Hnt by lia. rewrite Em, Ed, Z.ltb_irrefl, andb_false_r.
    rewrite Hzero by (try lia; apply Key; assumption). cbn [Z.ltb Z.compare orb andb].
    rewrite slice_set_ok by lia. eexists. split; [reflexivity|]. rewrite list_set_length. split; [assumption|].
    intros x Hx. rewrite nth_list_set by lia.
    destruct (Nat.eqb_spec (Z.to_nat x) (Z.to_nat x0)) as [E|E].
    + assert (x = x0) by lia. subst x. rewrite Em, Ed, Z.eqb_refl.
      destruct (Z.ltb_spec (Z.of_nat j) (Z.of_nat (S j))); [reflexivity|lia].
    + rewrite Hnt by assumption. destruct (Z.eqb_spec (x mod NL) r) as [Er|Er]; [|reflexivity].
      cbn [andb]. assert (x / NL <> Z.of_nat j).
      { intros Ex. apply E. f_equal. rewrite (Z.div_mod x (NL)) by lia. rewrite Er, Ex. unfold x0. lia. }
      destruct (Z.ltb_spec (x / NL) (Z.of_nat j)), (Z.ltb_spec (x / NL) (Z.of_nat (S j))); try lia; reflexivity.
  - exists t'. split; [exact Ht'|]. split; [exact Hl'|]. intros x Hx. rewrite Hn' by assumption.
    destruct (Z.eqb_spec (V B x / NBL) c) as [E|E].
    + apply Key in E. rewrite E, Z.eqb_refl. cbn [andb].
      rewrite (proj2 (Z.ltb_lt _ _)); [reflexivity|]. rewrite Nat.add_0_l, Z2Nat.id by lia.
      apply Z.div_lt_upper_bound; lia.
    + destruct (Z.eqb_spec (x mod NL) r) as [Er|Er]; [|reflexivity]. exfalso. apply E, Key, Er.
Qed.

(* What the first loop computes: (length, symbol, left-aligned code) *)
Fixpoint codes_from (S : Z) (ps : list (Z * Z)) : list (Z * Z * Z) :=
  match ps with [] => [] | (l, sym) :: t => (l, sym, S) :: codes_from (S + 2 ^ (32 - l)) t end.

Lemma kraft_nonneg b ls : 0 <= kraft b ls.
Proof.
  induction ls; cbn [kraft fold_right]; [lia|]. fold (kraft b ls).
  assert (0 <= 2 ^ (b - a)) by (apply Z.pow_nonneg; lia). lia.
Qed.

Lemma coded_cons l sym lens syms : coded (l :: lens) (sym :: syms) =
  if 0 <? l then (l, sym) :: coded lens syms else coded lens syms.
Proof. reflexivity. Qed.

Definition all_syms (i : Z) (n : nat) (syms : list Z) : list Z :=
  match syms with [] => map (fun k => i + Z.of_nat k) (seq 0 n) | _ => syms end.

Lemma vlcCodes_spec full : forall lens pre syms code, full = pre ++ syms -> length syms = length lens -> full <> [] ->
  Forall (fun l => 0 <= l <= 32) lens -> code <= 2 ^ 32 ->
  vlcCodes (Z.of_nat (length pre)) lens full code =
    if code + kraft 32 (map fst (coded lens syms)) <=? 2 ^ 32
    then Ok (codes_from code (coded lens syms), code + kraft 32 (map fst (coded lens syms)))
    else Err.
Proof.
  induction lens as [|l lens IH]; intros pre syms code Ef Hlen Hne Hl Hc.
  - cbn [vlcCodes]. destruct syms; [|discriminate]. cbn [coded combine filter map kraft fold_right codes_from].
    rewrite Z.add_0_r. destruct (Z.leb_spec code (2 ^ 32)); [reflexivity|lia].
  - destruct syms as [|sym syms]; [discriminate|]. inversion Hl as [|? ? Hl0 Hl1]; subst.
    cbn [vlcCodes]. rewrite coded_cons.
    assert (Ei : Z.of_nat (length pre) + 1 = Z.of_nat (length (pre ++ [sym]))) by (rewrite app_length; cbn [length]; lia).
    assert (Ea : pre ++ sym :: syms = (pre ++ [sym]) ++ syms) by (rewrite <- app_assoc; reflexivity).
    cbn [length] in Hlen.
    destruct (Z.eqb_spec l 0) as [->|Hnz].
    { cbn [Z.ltb Z.compare]. rewrite Ei. apply IH; auto. }
    assert (0 <? l = true) as -> by lia.
    destruct (Z.ltb_spec 32 l); [lia|].
    rewrite (Z.shiftl_mul_pow2 1 (32 - l)), Z.mul_1_l by lia.
    destruct (pre ++ sym :: syms) as [|f0 ft] eqn:Ef0; [congruence|]. rewrite <- Ef0 at 1.
    rewrite (slice_get_ok _ _ 0) by (rewrite app_length; cbn [length]; lia).
    rewrite Nat2Z.id, nth_middle. cbn [obind].
    cbn [map fst kraft fold_right codes_from]. fold (kraft 32 (map fst (coded lens syms))).
    pose proof (pow2_pos (32 - l) ltac:(lia)). pose proof (kraft_nonneg 32 (map fst (coded lens syms))).
    change (Z.shiftl 1 32) with (2 ^ 32).
    destruct (Z.ltb_spec (2 ^ 32) (code + 2 ^ (32 - l))) as [Hov|Hok].
    { destruct (Z.leb_spec (code + (2 ^ (32 - l) + kraft 32 (map fst (coded lens syms)))) (2 ^ 32)); [lia|reflexivity]. }
    rewrite Ei. rewrite (IH (pre ++ [sym]) syms); auto; try congruence.
    rewrite Z.add_assoc.
    destruct (Z.leb_spec (code + 2 ^ (32 - l) + kraft 32 (map fst (coded lens syms))) (2 ^ 32)); reflexivity.
Qed.

(* Interval of V-values of the k-th code, at scale B *)
Fixpoint slots (B : Z) (S : Z) (ps : list (Z * Z)) : list (Z * Z * Z) :=
  match ps with [] => [] | (l, sym) :: t => (S, sym, l) :: slots B (S + 2 ^ (B - l)) t end.

Lemma fillAll_ok B : (B <= 31)%nat -> forall ps lo S table,
  nondecreasing lo (map fst ps) -> 0 <= lo -> Forall (fun p => 1 <= fst p <= Z.of_nat B) ps ->
  0 <= S -> (2 ^ (Z.of_nat B - lo) | S) -> lo <= Z.of_nat B -> S + kraft (Z.of_nat B) (map fst ps) <= 2 ^ Z.of_nat B ->
  length table = Z.to_nat (2 ^ Z.of_nat B) ->
  (forall x, 0 <= x < 2 ^ Z.of_nat B -> S <= V B x -> nth (Z.to_nat x) table (0, 0) = (0, 0)) ->
  exists table', vlcFillAll (Z.of_nat B) (codes_from (S * 2 ^ (32 - Z.of_nat B)) ps) table = Ok table' /\
    length table' = length table /\
    (forall x, 0 <= x < 2 ^ Z.of_nat B -> V B x < S -> nth (Z.to_nat x) table' (0, 0) = nth (Z.to_nat x) table (0, 0)) /\
    (forall k s0 sym l, nth_error (slots (Z.of_nat B) S ps) k = Some (s0, sym, l) ->
       forall x, 0 <= x < 2 ^ Z.of_nat B -> s0 <= V B x < s0 + 2 ^ (Z.of_nat B - l) -> nth (Z.to_nat x) table' (0, 0) = (sym, l)).
Proof.
  intros HB. induction ps as [|[l sym] ps IH]; intros lo S table Hnd Hlo Hps HS Hdiv HloB Hsum Hlen Hz.
  - exists table. cbn. repeat split; auto. intros [|k]; discriminate.
  - cbn [map fst nondecreasing] in Hnd. destruct Hnd as [Hll Hnd]. inversion Hps as [|? ? Hl0 Hps']; subst. cbn [fst] in Hl0.
    cbn [map fst kraft fold_right] in Hsum. fold (kraft (Z.of_nat B) (map fst ps)) in Hsum.
    pose proof (kraft_nonneg (Z.of_nat B) (map fst ps)) as Hk.
    assert (PBl := pow2_pos (Z.of_nat B - l) ltac:(lia)).
    assert (Hd2 : (2 ^ (Z.of_nat B - l) | S)).
    { destruct Hdiv as [q Hq]. exists (q * 2 ^ (l - lo)). rewrite Hq, <- Z.mul_assoc, <- Z.pow_add_r by lia. f_equal. f_equal. lia. }
    destruct Hd2 as [c Hc].
    assert (PB : 2 ^ Z.of_nat B = 2 ^ l * 2 ^ (Z.of_nat B - l)) by (rewrite <- Z.pow_add_r by lia; f_equal; lia).
    assert (Hc0 : 0 <= c < 2 ^ l) by nia.
    assert (ElL : Z.of_nat (Z.to_nat l) = l) by lia.
    assert (EBl : Z.of_nat (B - Z.to_nat l) = Z.of_nat B - l) by lia.
    cbn [codes_from vlcFillAll].
    replace (S * 2 ^ (32 - Z.of_nat B)) with (c * 2 ^ (32 - l)).
    2:{ rewrite Hc, <- Z.mul_assoc, <- Z.pow_add_r by lia. f_equal. f_equal. lia. }
    destruct (vlcFill_ok B (Z.to_nat l) c sym table) as (t1 & H1 & Hl1 & Hn1); try lia.
    { rewrite ElL. assumption. }
    { intros x Hx HV. apply Hz; [assumption|]. rewrite EBl in HV. rewrite Hc.
      pose proof (Z.mul_div_le (V B x) (2 ^ (Z.of_nat B - l)) PBl). rewrite HV in *. lia. }
    rewrite ElL, EBl in *. rewrite H1. cbn [obind].
    assert (Hint : forall x, V B x / 2 ^ (Z.of_nat B - l) = c <-> S <= V B x < S + 2 ^ (Z.of_nat B - l)).
    { intros x. rewrite Hc. set (v := V B x). set (P := 2 ^ (Z.of_nat B - l)) in *.
      pose proof (Z.div_mod v P ltac:(lia)). pose proof (Z.mod_pos_bound v P ltac:(lia)). split; [intros <-; lia|].
      intros Hv. symmetry. apply Z.div_unique with (v - c * P); lia. }
    destruct (IH l (S + 2 ^ (Z.of_nat B - l)) t1) as (t2 & H2 & Hl2 & Hlow & Hslot); try assumption; try lia.
    { exists (c + 1). lia. }
    { intros x Hx HV. rewrite Hn1 by assumption. destruct (Z.eqb_spec (V B x / 2 ^ (Z.of_nat B - l)) c) as [E|E].
      - apply Hint in E. lia.
      - apply Hz; [assumption|lia]. }
    exists t2. split.
    { rewrite <- H2. f_equal. f_equal. rewrite Z.mul_add_distr_r, <- Z.pow_add_r by lia.
      replace (Z.of_nat B - l + (32 - Z.of_nat B)) with (32 - l) by lia. rewrite Hc, <- Z.mul_assoc, <- Z.pow_add_r by lia.
      f_equal. f_equal. f_equal. lia. }
    split; [lia|]. split.
    + intros x Hx HV. rewrite Hlow by (assumption || lia). rewrite Hn1 by assumption.
      destruct (Z.eqb_spec (V B x / 2 ^ (Z.of_nat B - l)) c) as [E|E]; [apply Hint in E; lia|reflexivity].
    + intros [|k] s0 sym0 l0 Hk0 x Hx HV.
      * cbn in Hk0. assert (S = s0 /\ sym = sym0 /\ l = l0) as (-> & -> & ->) by (repeat split; congruence).
        rewrite Hlow by (assumption || lia). rewrite Hn1 by assumption.
        destruct (Z.eqb_spec (V B x / 2 ^ (Z.of_nat B - l0)) c) as [E|E]; [reflexivity|]. exfalso. apply E, Hint, HV.
      * cbn [slots nth_error] in Hk0. eapply Hslot; eauto.
Qed.

(* slots and canonical codewords *)
Lemma slots_canonical B ps : forall S next len, Forall (fun p => 1 <= fst p <= Z.of_nat B) ps -> nondecreasing len (map fst ps) ->
  0 <= len <= Z.of_nat B -> 0 <= S -> S = next * 2 ^ (Z.of_nat B - len) -> S + kraft (Z.of_nat B) (map fst ps) <= 2 ^ Z.of_nat B ->
  forall k s0 sym l, nth_error (slots (Z.of_nat B) S ps) k = Some (s0, sym, l) ->
  nth_error ps k = Some (l, sym) /\ 1 <= l <= Z.of_nat B /\ exists c, 0 <= c < 2 ^ l /\ s0 = c * 2 ^ (Z.of_nat B - l) /\
    nth_error (canonical next len (map fst ps)) k = Some (rev (zbits (Z.to_nat l) c)).
Proof.
  induction ps as [|[l1 sym1] ps IH]; intros S next len Hps Hnd Hlen HS0 HS Hsum k s0 sym l Hk; [destruct k; discriminate|].
  pose proof (Forall_inv Hps) as Hl. pose proof (Forall_inv_tail Hps) as Hps'. cbn [fst] in Hl. cbn [map fst nondecreasing] in Hnd. destruct Hnd as [Hll Hnd].
  cbn [map fst kraft fold_right] in Hsum. fold (kraft (Z.of_nat B) (map fst ps)) in Hsum.
  pose proof (kraft_nonneg (Z.of_nat B) (map fst ps)) as Hkr.
  pose proof (pow2_pos (Z.of_nat B - l1) ltac:(lia)) as PBl.
  assert (HS' : S = next * 2 ^ (l1 - len) * 2 ^ (Z.of_nat B - l1)).
  { rewrite HS, <- Z.mul_assoc, <- Z.pow_add_r by lia. f_equal. f_equal. lia. }
  destruct k as [|k]; cbn [slots nth_error map fst canonical] in *.
  - assert (S = s0 /\ sym1 = sym /\ l1 = l) as (<- & <- & <-) by (repeat split; congruence).
    split; [reflexivity|]. split; [assumption|]. exists (next * 2 ^ (l1 - len)).
    assert (PB : 2 ^ Z.of_nat B = 2 ^ l1 * 2 ^ (Z.of_nat B - l1)) by (rewrite <- Z.pow_add_r by lia; f_equal; lia).
    split; [|split; [assumption|reflexivity]]. nia.
  - eapply (IH (S + 2 ^ (Z.of_nat B - l1)) (next * 2 ^ (l1 - len) + 1) l1); try assumption; lia.
Qed.
Lemma slots_length B : forall ps S, length (slots B S ps) = length ps.
Proof. induction ps as [|[l s] ps IH]; intros S; cbn; auto. Qed.
Lemma canonical_length : forall ls next len, length (canonical next len ls) = length ls.
Proof. induction ls; intros; cbn; auto. Qed.
(* The slots tile *)
Lemma slots_tile B ps : forall S v, S <= v < S + kraft B (map fst ps) ->
  exists k s0 sym l, nth_error (slots B S ps) k = Some (s0, sym, l) /\ s0 <= v < s0 + 2 ^ (B - l).
Proof.
  induction ps as [|[l sym] ps IH]; intros S v Hv; cbn [map fst kraft fold_right] in Hv; [lia|].
  fold (kraft B (map fst ps)) in Hv. destruct (Z_lt_dec v (S + 2 ^ (B - l))).
  - exists 0%nat, S, sym, l. split; [reflexivity|lia].
  - destruct (IH (S + 2 ^ (B - l)) v ltac:(lia)) as (k & s0 & sy & l' & H1 & H2). exists (Datatypes.S k), s0, sy, l'. split; assumption.
Qed.
Lemma slots_ge B ps : forall S k s0 a l, nth_error (slots B S ps) k = Some (s0, a, l) -> S <= s0.
Proof.
  induction ps as [|[l sym] ps IH]; intros S k s0 a l0 H; [destruct k; discriminate|].
  destruct k; cbn [slots nth_error] in H.
  - assert (S = s0) by congruence. lia.
  - apply IH in H. assert (0 <= 2 ^ (B - l)) by (apply Z.pow_nonneg; lia). lia.
Qed.
Lemma slots_order B ps : forall S i j si ai li sj aj lj, (i < j)%nat ->
  nth_error (slots B S ps) i = Some (si, ai, li) -> nth_error (slots B S ps) j = Some (sj, aj, lj) ->
  si + 2 ^ (B - li) <= sj.
Proof.
  induction ps as [|[l sym] ps IH]; intros S i j si ai li sj aj lj Hij Hi Hj; [destruct i; discriminate|].
  destruct j as [|j]; [lia|]. destruct i as [|i]; cbn [slots nth_error] in *.
  - assert (S = si /\ l = li) as [<- <-] by (split; congruence). eapply slots_ge. exact Hj.
  - eapply (IH _ i j); eauto. lia.
Qed.

Lemma kraft_scale b e ls : Forall (fun l => l <= b) ls -> 0 <= e -> kraft (b + e) ls = kraft b ls * 2 ^ e.
Proof.
  intros H He. induction H as [|l ls Hl H IH]; [cbn; lia|].
  cbn [kraft fold_right]. fold (kraft (b + e) ls). fold (kraft b ls). rewrite IH.
  replace (b + e - l) with (b - l + e) by lia. rewrite Z.pow_add_r by lia. ring.
Qed.

Lemma coded_pos lens syms : Forall (fun p => 0 < fst p) (coded lens syms).
Proof.
  unfold coded. apply Forall_forall. intros p Hp. apply filter_In in Hp. destruct Hp. lia.
Qed.
Lemma coded_from lens : forall syms (P : Z -> Prop), Forall P lens -> Forall (fun p => P (fst p)) (coded lens syms).
Proof.
  unfold coded. intros syms P H. apply Forall_forall. intros [a b] Hp. apply filter_In in Hp. destruct Hp as [Hp _].
  apply in_combine_l in Hp. cbn [fst]. revert a Hp. apply Forall_forall. assumption.
Qed.
Lemma repeat_zero_nth n k : nth k (repeat (0, 0) n) (0, 0) = (0, 0).
Proof. revert k. induction n; intros [|k]; cbn; auto. Qed.

(* The table built from a complete canonical code *)
Lemma table_ok B lens syms : (B <= 31)%nat -> length lens = length syms -> syms <> [] ->
  Forall (fun l => 0 <= l <= Z.of_nat B) lens ->
  nondecreasing 0 (map fst (coded lens syms)) -> kraft (Z.of_nat B) (map fst (coded lens syms)) = 2 ^ Z.of_nat B ->
  exists table, NewVLCTableWithSymbols (Z.of_nat B) lens syms = Ok (mkVLC (Z.of_nat B) table) /\
    length table = Z.to_nat (2 ^ Z.of_nat B) /\
    (forall k s0 sym l, nth_error (slots (Z.of_nat B) 0 (coded lens syms)) k = Some (s0, sym, l) ->
       forall x, 0 <= x < 2 ^ Z.of_nat B -> s0 <= V B x < s0 + 2 ^ (Z.of_nat B - l) ->
       nth (Z.to_nat x) table (0, 0) = (sym, l)).
Proof.
  intros HB Hlen Hne Hl Hnd Hk. unfold NewVLCTableWithSymbols.
  assert (Hc1 : Forall (fun p => 1 <= fst p <= Z.of_nat B) (coded lens syms)).
  { pose proof (coded_pos lens syms) as H1. pose proof (coded_from lens syms _ Hl) as H2.
    apply Forall_forall. intros p Hp. rewrite Forall_forall in H1, H2. specialize (H1 p Hp). specialize (H2 p Hp). cbv beta in *. lia. }
  assert (Hk32 : kraft 32 (map fst (coded lens syms)) = 2 ^ 32).
  { replace 32 with (Z.of_nat B + (32 - Z.of_nat B)) at 1 by lia. rewrite kraft_scale; [|apply Forall_map|lia].
    - rewrite Hk, <- Z.pow_add_r by lia. f_equal. lia.
    - eapply Forall_impl; [|exact Hc1]. cbv beta. intros; lia. }
  pose proof (vlcCodes_spec syms lens [] syms 0 eq_refl (eq_sym Hlen) Hne) as Hv. cbn [length Z.of_nat] in Hv.
  rewrite Hv; clear Hv.
  2:{ eapply Forall_impl; [|exact Hl]. cbv beta. intros; lia. }
  2: lia.
  rewrite Hk32, Z.add_0_l, Z.leb_refl. cbn [obind]. change (Z.shiftl 1 32) with (2 ^ 32). rewrite Z.eqb_refl. cbn [negb].
  rewrite Z.shiftl_mul_pow2, Z.mul_1_l by lia.
  destruct (fillAll_ok B HB (coded lens syms) 0 0 (repeat (0, 0) (Z.to_nat (2 ^ Z.of_nat B))))
    as (t' & Ht & Hlt & _ & Hs); try assumption; try lia.
  { apply Z.divide_0_r. }
  { apply repeat_length. }
  { intros. apply repeat_zero_nth. }
  change (0 * 2 ^ (32 - Z.of_nat B)) with 0 in Ht. rewrite Ht. cbn [obind].
  rewrite repeat_length in Hlt.
  eexists. split; [reflexivity|]. rewrite map_length. split; [assumption|].
  intros k s0 sym l Hk0 x Hx HV.
  assert (Hnz : 1 <= l).
  { destruct (slots_canonical B (coded lens syms) 0 0 0 Hc1 Hnd ltac:(lia) ltac:(lia) ltac:(lia) ltac:(lia) k s0 sym l Hk0) as (_ & H & _). lia. }
  match goal with |- nth _ (map ?f _) _ = _ =>
    rewrite (nth_indep _ _ (f (0, 0))) by (rewrite map_length; lia);
    etransitivity; [exact (map_nth f t' (0, 0) (Z.to_nat x))|] end.
  rewrite (Hs k s0 sym l Hk0 x Hx HV).
  destruct (Z.eqb_spec l 0); [lia|reflexivity].
Qed.

(* Looking up *)
Lemma showbits_field s d p n : reader_at s d p -> (n <= 64)%nat -> (p + n <= 8 * length d)%nat ->
  exists v, ShowBits (Z.of_nat n) s = (Ok v, s) /\ field_at d p n v.
Proof.
  intros Hr Hn Hp. destruct (readbits_field s d p n Hr Hn Hp) as (v & s' & H & Hf & _ & _).
  exists v. split; [|assumption]. destruct (reader_at_good _ _ _ Hr) as (Hg & Hd & El).
  assert (E := ShowBits_ok s (Z.of_nat n) Hg ltac:(lia)).
  rewrite (reader_at_left_len _ _ _ Hr) in E. pose proof Hr as (_ & _ & Hle & _). specialize (E ltac:(lia)).
  rewrite E. f_equal. f_equal. unfold ShowBits in E. rewrite u32_small in E by lia. rewrite H in E. congruence.
Qed.

Lemma lookup_ok B table d p s w sym : (B <= 31)%nat -> length table = Z.to_nat (2 ^ Z.of_nat B) -> (length w <= B)%nat ->
  (forall x, 0 <= x < 2 ^ Z.of_nat B -> zbits (length w) x = w -> nth (Z.to_nat x) table (0, 0) = (sym, Z.of_nat (length w))) ->
  reader_at s d p -> bits_at d p w -> (p + B <= 8 * length d)%nat ->
  exists s', GetVLC (mkVLC (Z.of_nat B) table) s = (Ok sym, s') /\ reader_at s' d (p + length w).
Proof.
  intros HB Hlen HwB Ht Hr Hb Hp. unfold GetVLC. cbn [vt_bits vt_table].
  destruct (showbits_field s d p B Hr ltac:(lia) Hp) as (x & Hx & [Hx1 Hx2]).
  unfold rbind at 1. rewrite Hx.
  assert (PB31 : 2 ^ Z.of_nat B <= 2 ^ 31) by (apply Z.pow_le_mono_r; lia).
  rewrite i64_small by lia.
  assert (Ew : zbits (length w) x = w).
  { apply (nth_ext_len _ _ false); rewrite zbits_length; [reflexivity|]. intros n Hn.
    rewrite nth_zbits by assumption. rewrite Hx2 by lia. apply Hb. assumption. }
  unfold rbind at 1, rlift. rewrite (slice_get_ok _ _ (0, 0)) by lia. rewrite (Ht x Hx1 Ew). cbn [fst snd].
  rewrite u32_small by lia.
  destruct (SkipBits_at s d p (length w) Hr ltac:(lia) ltac:(lia)) as (s' & Hs & Hr').
  unfold rbind. rewrite Hs. exists s'. split; [reflexivity|assumption].
Qed.
Lemma lookup_short B table d p s : (B <= 31)%nat -> reader_at s d p -> (8 * length d < p + B)%nat ->
  exists s', GetVLC (mkVLC (Z.of_nat B) table) s = (Err, s').
Proof.
  intros HB Hr Hp. unfold GetVLC. cbn [vt_bits]. unfold rbind at 1.
  destruct (readbits_short s d p B Hr ltac:(lia) Hp) as (s' & E).
  unfold ShowBits. rewrite u32_small by lia. rewrite E. eexists; reflexivity.
Qed.

(* C19 *)
Lemma vlc_decodes B lens syms : (B <= 31)%nat -> length lens = length syms -> syms <> [] ->
  Forall (fun l => 0 <= l <= Z.of_nat B) lens ->
  nondecreasing 0 (map fst (coded lens syms)) -> kraft (Z.of_nat B) (map fst (coded lens syms)) = 2 ^ Z.of_nat B ->
  exists t, NewVLCTableWithSymbols (Z.of_nat B) lens syms = Ok t /\
    (forall k w l sym, nth_error (codewords (map fst (coded lens syms))) k = Some w ->
       nth_error (coded lens syms) k = Some (l, sym) ->
       Z.of_nat (length w) = l /\
       forall s d p, reader_at s d p -> bits_at d p w -> (p + B <= 8 * length d)%nat ->
       exists s', GetVLC t s = (Ok sym, s') /\ reader_at s' d (p + length w)) /\
    (forall x : list bool, length x = B -> exists k w, nth_error (codewords (map fst (coded lens syms))) k = Some w /\ prefix_of w x /\
       forall k' w', nth_error (codewords (map fst (coded lens syms))) k' = Some w' -> prefix_of w' x -> k' = k).
Proof.
  intros HB Hlen Hne Hl Hnd Hk.
  destruct (table_ok B lens syms HB Hlen Hne Hl Hnd Hk) as (table & HT & Htl & Hs).
  assert (Hc1 : Forall (fun p => 1 <= fst p <= Z.of_nat B) (coded lens syms)).
  { pose proof (coded_pos lens syms) as H1. pose proof (coded_from lens syms _ Hl) as H2.
    apply Forall_forall. intros p Hp. rewrite Forall_forall in H1, H2. specialize (H1 p Hp). specialize (H2 p Hp). cbv beta in *. lia. }
  assert (Slot : forall k w, nth_error (codewords (map fst (coded lens syms))) k = Some w ->
     exists s0 sym l c, nth_error (slots (Z.of_nat B) 0 (coded lens syms)) k = Some (s0, sym, l) /\
       nth_error (coded lens syms) k = Some (l, sym) /\ 1 <= l <= Z.of_nat B /\ 0 <= c < 2 ^ l /\ s0 = c * 2 ^ (Z.of_nat B - l) /\
       w = rev (zbits (Z.to_nat l) c)).
  { intros k w Hw.
    assert (Hlt : (k < length (slots (Z.of_nat B) 0 (coded lens syms)))%nat).
    { rewrite slots_length. assert (nth_error (codewords (map fst (coded lens syms))) k <> None) as Hn by congruence.
      apply nth_error_Some in Hn. unfold codewords in Hn. rewrite canonical_length, map_length in Hn. exact Hn. }
    apply nth_error_Some in Hlt. destruct (nth_error (slots _ _ _) k) as [[[s0 sym] l]|] eqn:E; [|congruence].
    destruct (slots_canonical B (coded lens syms) 0 0 0 Hc1 Hnd ltac:(lia) ltac:(lia) ltac:(lia) ltac:(lia) k s0 sym l E)
      as (H1 & H2 & c & H3 & H4 & H5).
    exists s0, sym, l, c. unfold codewords in Hw. rewrite H5 in Hw. repeat split; try assumption; try lia. congruence. }
  assert (Iff : forall l c x, 1 <= l <= Z.of_nat B -> 0 <= c < 2 ^ l ->
     (c * 2 ^ (Z.of_nat B - l) <= V B x < c * 2 ^ (Z.of_nat B - l) + 2 ^ (Z.of_nat B - l)
       <-> zbits (Z.to_nat l) x = rev (zbits (Z.to_nat l) c))).
  { intros l c x Hl1 Hc. rewrite <- (V_iff B) by (rewrite ?Z2Nat.id by lia; lia || assumption).
    replace (Z.of_nat (B - Z.to_nat l)) with (Z.of_nat B - l) by lia.
    pose proof (pow2_pos (Z.of_nat B - l) ltac:(lia)) as PP. set (P := 2 ^ (Z.of_nat B - l)) in *. clearbody P. set (v := V B x).
    pose proof (Z.div_mod v P ltac:(lia)). pose proof (Z.mod_pos_bound v P ltac:(lia)). split.
    - intros Hv. symmetry. apply Z.div_unique with (v - c * P); lia.
    - intros <-. lia. }
  exists (mkVLC (Z.of_nat B) table). split; [assumption|]. split.
  - intros k w l sym Hw Hp. destruct (Slot k w Hw) as (s0 & sym' & l' & c & H1 & H2 & H3 & H4 & H5 & H6).
    assert (l' = l /\ sym' = sym) as [-> ->] by (split; congruence).
    assert (Ew : length w = Z.to_nat l) by (rewrite H6, rev_length, zbits_length; reflexivity).
    split; [lia|]. intros s d p Hr Hb Hpb. apply (lookup_ok B table d p s w sym); try assumption; try lia.
    intros x Hx Hz. rewrite Ew in *. rewrite Z2Nat.id by lia. apply (Hs k s0 sym l H1 x Hx). rewrite H5.
    apply Iff; try assumption. rewrite Hz. exact H6.
  - intros x Hx. pose proof (zbits_bz x) as Ez. rewrite Hx in Ez.
    assert (Hpre : forall k w, nth_error (codewords (map fst (coded lens syms))) k = Some w -> prefix_of w x ->
       exists s0 sym l, nth_error (slots (Z.of_nat B) 0 (coded lens syms)) k = Some (s0, sym, l) /\
         s0 <= V B (bz x) < s0 + 2 ^ (Z.of_nat B - l)).
    { intros k w Hw Hp. destruct (Slot k w Hw) as (s0 & sym' & l' & c & H1 & H2 & H3 & H4 & H5 & H6).
      exists s0, sym', l'. split; [assumption|]. rewrite H5. apply Iff; try assumption.
      rewrite <- H6. unfold prefix_of in Hp. rewrite <- Hp.
      assert (Ew : length w = Z.to_nat l') by (rewrite H6, rev_length, zbits_length; reflexivity).
      rewrite Ew. rewrite <- (firstn_zbits (Z.to_nat l') B) by lia. now rewrite Ez. }
    destruct (slots_tile (Z.of_nat B) (coded lens syms) 0 (V B (bz x))) as (k & s0 & sym & l & H1 & H2).
    { pose proof (V_bound B (bz x)). lia. }
    destruct (slots_canonical B (coded lens syms) 0 0 0 Hc1 Hnd ltac:(lia) ltac:(lia) ltac:(lia) ltac:(lia) k s0 sym l H1)
      as (H3 & H4 & c & H5 & H6 & H7).
    exists k, (rev (zbits (Z.to_nat l) c)). split; [exact H7|]. split.
    + rewrite H6 in H2. apply Iff in H2; try assumption. unfold prefix_of. rewrite rev_length, zbits_length, <- H2.
      rewrite <- (firstn_zbits (Z.to_nat l) B) by lia. now rewrite Ez.
    + intros k' w' Hw' Hp'. destruct (Hpre k' w' Hw' Hp') as (s1 & sym1 & l1 & E1 & E2).
      destruct (lt_eq_lt_dec k k') as [[Hlt|Heq]|Hgt]; [|lia|].
      * pose proof (slots_order _ _ _ _ _ _ _ _ _ _ _ Hlt H1 E1). lia.
      * pose proof (slots_order _ _ _ _ _ _ _ _ _ _ _ Hgt E1 H1). lia.
Qed.

Lemma vlc_incomplete B lens syms : length lens = length syms -> syms <> [] ->
  Forall (fun l => 0 <= l <= 32) lens -> kraft 32 (map fst (coded lens syms)) <> 2 ^ 32 ->
  NewVLCTableWithSymbols B lens syms = Err.
Proof.
  intros Hlen Hne Hl Hk. unfold NewVLCTableWithSymbols.
  pose proof (vlcCodes_spec syms lens [] syms 0 eq_refl (eq_sym Hlen) Hne Hl ltac:(lia)) as Hv. cbn [length Z.of_nat] in Hv.
  rewrite Hv. rewrite Z.add_0_l. change (Z.shiftl 1 32) with (2 ^ 32).
  destruct (Z.leb_spec (kraft 32 (map fst (coded lens syms))) (2 ^ 32)); [|reflexivity].
  cbn [obind]. destruct (Z.eqb_spec (kraft 32 (map fst (coded lens syms))) (2 ^ 32)); [contradiction|reflexivity].
Qed.
