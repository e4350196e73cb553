(* C18: hybrid integers; C24: inverse move-to-front. *)
From Coq Require Import ZArith List Bool Lia ZifyBool ZifyNat.
From Verif Require Import GoBase GoLoop Bits ModelBitReader ModelUtil ModelEntropy SpecBitReader SpecEntropy.
From Verif Require Import ProofBitReader ProofBitReader2 ProofReads ProofCodes ProofUtil.
Import ListNotations.
Open Scope Z_scope.


Lemma signed_testbit b k : - 2 ^ 31 <= b < 2 ^ 31 -> 31 <= k -> Z.testbit b k = (b <? 0).
Proof.
  intros Hb Hk. destruct (Z.ltb_spec b 0).
  - rewrite <- (Z.lnot_involutive b). rewrite Z.lnot_spec by lia.
    rewrite Z.bits_above_log2; try reflexivity; unfold Z.lnot, Z.pred; try lia.
    destruct (Z.eq_dec b (-1)) as [->|]; [cbn; lia|].
    apply Z.lt_le_trans with 31; [|lia]. apply Z.log2_lt_pow2; lia.
  - destruct (Z.eq_dec b 0) as [->|]; [apply Z.testbit_0_l|].
    apply Z.bits_above_log2; [lia|]. apply Z.lt_le_trans with 31; [|lia]. apply Z.log2_lt_pow2; lia.
Qed.

Lemma i32_testbit a k : 0 <= k -> Z.testbit (i32 a) k = Z.testbit a (Z.min k 31).
Proof.
  intros Hk. unfold i32.
  set (q := (a + 2 ^ 31) / 2 ^ 32).
  assert (E : (a + 2 ^ 31) mod 2 ^ 32 - 2 ^ 31 = a - q * 2 ^ 32).
  { unfold q. pose proof (Z.div_mod (a + 2 ^ 31) (2 ^ 32) ltac:(lia)). lia. }
  rewrite E.
  assert (Hb : - 2 ^ 31 <= a - q * 2 ^ 32 < 2 ^ 31).
  { rewrite <- E. pose proof (Z.mod_pos_bound (a + 2 ^ 31) (2 ^ 32) ltac:(lia)). lia. }
  assert (L : forall j, 0 <= j < 32 -> Z.testbit (a - q * 2 ^ 32) j = Z.testbit a j).
  { intros j Hj. rewrite <- (Z.mod_pow2_bits_low (a - q * 2 ^ 32) 32) by lia.
    rewrite <- (Z.mod_pow2_bits_low a 32) by lia. f_equal.
    rewrite Zminus_mod, Z.mod_mul, Z.sub_0_r, Z.mod_mod by lia. reflexivity. }
  destruct (Z_lt_dec k 31) as [H|H].
  - rewrite Z.min_l by lia. apply L. lia.
  - rewrite Z.min_r by lia. rewrite <- L by lia. rewrite !signed_testbit by lia. reflexivity.
Qed.

Lemma lor_i32 a b : Z.lor (i32 a) (i32 b) = i32 (Z.lor a b).
Proof.
  apply Z.bits_inj'. intros k Hk. rewrite Z.lor_spec, !i32_testbit, Z.lor_spec by lia. reflexivity.
Qed.
Lemma i32_mod a b : a mod 2 ^ 32 = b mod 2 ^ 32 -> i32 a = i32 b.
Proof.
  intros H. unfold i32. f_equal. rewrite (Zplus_mod a), (Zplus_mod b), H. reflexivity.
Qed.
Lemma i32_i32_mul a n : i32 (i32 a * n) = i32 (a * n).
Proof.
  apply i32_mod. rewrite (Zmult_mod (i32 a)), (Zmult_mod a). f_equal. f_equal.
  unfold i32. rewrite Zminus_mod, Z.mod_mod, <- Zminus_mod by lia. f_equal. lia.
Qed.
Lemma shl32_eq a n : 0 <= n -> shl32 (i32 a) n = i32 (a * 2 ^ n).
Proof.
  intros Hn. unfold shl32. destruct (Z.leb_spec 32 n).
  - symmetry. replace (a * 2 ^ n) with (a * 2 ^ (n - 32) * 2 ^ 32).
    + unfold i32. rewrite Z.add_comm, Z.mod_add by lia. reflexivity.
    + rewrite <- Z.mul_assoc, <- Z.pow_add_r by lia. f_equal. f_equal. lia.
  - rewrite Z.shiftl_mul_pow2 by lia. apply i32_i32_mul.
Qed.
Lemma lor_add_mul x y n : 0 <= n -> 0 <= x -> 0 <= y < 2 ^ n -> Z.lor (x * 2 ^ n) y = x * 2 ^ n + y.
Proof.
  intros Hn Hx Hy. rewrite Z.lor_comm, <- Z.shiftl_mul_pow2 by lia. rewrite lor_shift_add by lia.
  rewrite ?Z.shiftl_mul_pow2 by lia. lia.
Qed.

Definition conf_of (c : hconf) : HIC := mkHIC (h_e c) (h_i c) (h_j c).

Lemma div_step a b n : 0 < n -> 0 <= b < n -> (a * n + b) / n = a.
Proof. intros. rewrite Z.div_add_l by lia. rewrite Z.div_small by lia. lia. Qed.
Lemma mod_step a b n : 0 < n -> 0 <= b < n -> (a * n + b) mod n = b.
Proof. intros. rewrite Z.add_comm, Z.mod_add by lia. apply Z.mod_small; lia. Qed.

(* Decoding any non-literal token *)
Lemma hybrid_token c q A L k x : hconf_ok c -> 0 <= q -> 0 <= A < 2 ^ h_i c -> 0 <= L < 2 ^ h_j c ->
  2 ^ h_e c + q * 2 ^ (h_i c + h_j c) + A * 2 ^ h_j c + L < 2 ^ 31 ->
  Z.of_nat k = q + h_e c - h_i c - h_j c -> (k <= 32)%nat -> 0 <= x < 2 ^ Z.of_nat k ->
  reads (ReadHybridInteger (conf_of c) (2 ^ h_e c + q * 2 ^ (h_i c + h_j c) + A * 2 ^ h_j c + L))
        (zbits k x) (i32 (((2 ^ h_i c + A) * 2 ^ Z.of_nat k + x) * 2 ^ h_j c + L)).
Proof.
  intros Hc Hq HA HL Ht Hk Hk32 Hx. destruct c as [e i j]. destruct Hc as (Hi & Hj & He).
  unfold conf_of, ReadHybridInteger. cbn [h_e h_i h_j hic_split hic_msb hic_lsb] in *.
  pose proof (pow2_pos e ltac:(lia)). pose proof (pow2_pos i Hi). pose proof (pow2_pos j Hj).
  assert (Eij : 2 ^ (i + j) = 2 ^ i * 2 ^ j) by (apply Z.pow_add_r; lia).
  assert (HB : 0 <= A * 2 ^ j + L < 2 ^ (i + j)) by (rewrite Eij; assert (0 <= A * 2 ^ j <= (2 ^ i - 1) * 2 ^ j) by nia; lia).
  assert (H0q : 0 <= q * 2 ^ (i + j)) by nia.
  set (t := 2 ^ e + q * 2 ^ (i + j) + A * 2 ^ j + L) in *.
  rewrite !Z.shiftl_mul_pow2, !Z.mul_1_l by lia.
  assert (Pe : 2 ^ e <= 2 ^ 15) by (apply Z.pow_le_mono_r; lia).
  assert (Pi : 2 ^ i <= 2 ^ 15) by (apply Z.pow_le_mono_r; lia).
  assert (Pj : 2 ^ j <= 2 ^ 15) by (apply Z.pow_le_mono_r; lia).
  rewrite (i32_small (2 ^ e)), (i32_small (2 ^ i)), (i32_small (2 ^ j)) by lia.
  destruct (Z.ltb_spec t (2 ^ e)); [lia|].
  rewrite (i32_small (t - 2 ^ e)) by lia.
  rewrite Z.shiftr_div_pow2 by lia.
  replace (t - 2 ^ e) with (q * 2 ^ (i + j) + (A * 2 ^ j + L)) by (unfold t; lia).
  rewrite div_step by lia.
  rewrite i32_small by lia. replace (e - j - i + q) with (Z.of_nat k) by lia.
  destruct (Z.ltb_spec 32 (Z.of_nat k)); [lia|].
  rewrite !land_ones_mod by lia.
  assert (Eej : 2 ^ e = 2 ^ (e - j - i) * 2 ^ i * 2 ^ j) by (rewrite <- !Z.pow_add_r by lia; f_equal; lia).
  assert (T1 : t = ((2 ^ (e - j - i) + q) * 2 ^ i + A) * 2 ^ j + L) by (unfold t; rewrite Eij, Eej; ring).
  assert (El : t mod 2 ^ j = L) by (rewrite T1; apply mod_step; lia).
  rewrite El. rewrite (u32_small t) by lia. rewrite Z.shiftr_div_pow2 by lia.
  assert (Ed : t / 2 ^ j = (2 ^ (e - j - i) + q) * 2 ^ i + A) by (rewrite T1; apply div_step; lia).
  rewrite Ed.
  assert (Hd : (2 ^ (e - j - i) + q) * 2 ^ i + A <= t).
  { rewrite <- Ed. apply Z.div_le_upper_bound; [lia|]. nia. }
  assert (Hd0 : 0 <= (2 ^ (e - j - i) + q) * 2 ^ i + A) by (rewrite <- Ed; apply Z.div_pos; lia).
  rewrite (i32_small (_ + A)) by lia.
  rewrite mod_step by lia.
  replace (Z.lor A (2 ^ i)) with (2 ^ i + A).
  2:{ rewrite Z.lor_comm. rewrite <- (Z.mul_1_l (2 ^ i)). rewrite lor_add_mul by lia. lia. }
  rewrite u32_small by lia.
  eapply reads_bind0.
  { apply reads_zbits; try reflexivity; lia. }
  replace (i32 (((2 ^ i + A) * 2 ^ Z.of_nat k + x) * 2 ^ j + L)) with (Z.lor (shl32 (Z.lor (shl32 (2 ^ i + A) (Z.of_nat k)) (i32 x)) j) L).
  { apply reads_ret. }
  rewrite <- (i32_small (2 ^ i + A)) at 1 by lia. rewrite shl32_eq by lia.
  rewrite lor_i32. rewrite lor_add_mul by lia. rewrite shl32_eq by lia.
  rewrite <- (i32_small L) at 1 by lia. rewrite lor_i32. rewrite lor_add_mul by nia. reflexivity.
Qed.

Lemma hybrid_literal c t : hconf_ok c -> t < 2 ^ h_e c -> reads (ReadHybridInteger (conf_of c) t) [] t.
Proof.
  intros (Hi & Hj & He) Ht. unfold ReadHybridInteger, conf_of. cbn [hic_split].
  assert (Pe : 2 ^ h_e c <= 2 ^ 15) by (apply Z.pow_le_mono_r; lia).
  pose proof (pow2_pos (h_e c) ltac:(lia)).
  rewrite Z.shiftl_mul_pow2, Z.mul_1_l by lia. rewrite i32_small by lia.
  destruct (Z.ltb_spec t (2 ^ h_e c)); [|lia]. apply reads_ret.
Qed.

Lemma log2_split e v : 0 <= e -> 2 ^ e <= v -> e <= Z.log2 v.
Proof.
  intros He H. pose proof (pow2_pos e He). apply Z.log2_le_pow2; lia.
Qed.

(* The pieces of a large value *)
Lemma hybrid_pieces c v : hconf_ok c -> 2 ^ h_e c <= v -> exists A x,
  let m := Z.log2 v in let n := m - h_i c - h_j c in
  h_e c <= m /\ 0 <= n /\ A = (v - 2 ^ m) / 2 ^ (m - h_i c) /\ 0 <= A < 2 ^ h_i c /\ 0 <= x < 2 ^ n /\
  (v / 2 ^ h_j c) mod 2 ^ n = x /\
  v = ((2 ^ h_i c + A) * 2 ^ n + x) * 2 ^ h_j c + v mod 2 ^ h_j c.
Proof.
  intros (Hi & Hj & He) Hv. set (m := Z.log2 v). set (n := m - h_i c - h_j c).
  assert (Hm : h_e c <= m) by (apply log2_split; lia).
  pose proof (pow2_pos (h_e c) ltac:(lia)).
  assert (Hlog : 2 ^ m <= v < 2 ^ (m + 1)) by (apply Z.log2_spec; lia).
  assert (Hn : 0 <= n) by lia.
  pose proof (pow2_pos n Hn). pose proof (pow2_pos (h_j c) Hj). pose proof (pow2_pos (h_i c) Hi).
  exists ((v - 2 ^ m) / 2 ^ (m - h_i c)), ((v / 2 ^ h_j c) mod 2 ^ n). cbv zeta.
  assert (E1 : 2 ^ (m - h_i c) = 2 ^ n * 2 ^ h_j c) by (rewrite <- Z.pow_add_r by lia; f_equal; lia).
  assert (E2 : 2 ^ m = 2 ^ h_i c * (2 ^ n * 2 ^ h_j c)) by (rewrite <- !Z.pow_add_r by lia; f_equal; lia).
  assert (E3 : 2 ^ (m + 1) = 2 ^ m * 2) by (rewrite Z.pow_add_r by lia; reflexivity).
  rewrite E1.
  assert (HA : 0 <= (v - 2 ^ m) / (2 ^ n * 2 ^ h_j c) < 2 ^ h_i c).
  { split; [apply Z.div_pos; nia|]. apply Z.div_lt_upper_bound; nia. }
  split; [assumption|]. split; [assumption|]. split; [reflexivity|]. split; [assumption|].
  split; [apply Z.mod_pos_bound; lia|]. split; [reflexivity|].
  pose proof (Z.div_mod v (2 ^ h_j c) ltac:(lia)) as D1.
  pose proof (Z.div_mod (v / 2 ^ h_j c) (2 ^ n) ltac:(lia)) as D2.
  assert (D3 : v / 2 ^ h_j c / 2 ^ n = 2 ^ h_i c + (v - 2 ^ m) / (2 ^ n * 2 ^ h_j c)).
  { rewrite Z.div_div by lia. rewrite (Z.mul_comm (2 ^ h_j c)).
    rewrite <- Z.div_add_l by nia. f_equal. lia. }
  rewrite D3 in D2. fold n.
  replace ((2 ^ h_i c + (v - 2 ^ m) / (2 ^ n * 2 ^ h_j c)) * 2 ^ n + (v / 2 ^ h_j c) mod 2 ^ n) with (v / 2 ^ h_j c).
  - rewrite (Z.mul_comm _ (2 ^ h_j c)). exact D1.
  - rewrite D2 at 1. rewrite (Z.mul_comm (2 ^ n)). reflexivity.
Qed.

Lemma hybrid_roundtrip c v : hconf_ok c -> 0 <= v < 2 ^ 32 ->
  reads (ReadHybridInteger (conf_of c) (hyb_token c v)) (hyb_extra c v) (i32 v).
Proof.
  intros Hc Hv. unfold hyb_token, hyb_extra. destruct (Z.ltb_spec v (2 ^ h_e c)) as [H|H].
  - assert (Pe : 2 ^ h_e c <= 2 ^ 15) by (destruct Hc as (?&?&?); apply Z.pow_le_mono_r; lia).
    rewrite i32_small by lia. now apply hybrid_literal.
  - destruct (hybrid_pieces c v Hc H) as (A & x & Hm & Hn & EA & HA & Hx & Ex & Ev).
    cbv zeta. set (m := Z.log2 v) in *. set (n := m - h_i c - h_j c) in *.
    pose proof Hc as (Hi & Hj & He).
    assert (Hm32 : m < 32) by (apply Z.log2_lt_pow2; lia).
    pose proof (pow2_pos (h_j c) Hj). pose proof (pow2_pos (h_i c) Hi).
    pose proof (Z.mod_pos_bound v (2 ^ h_j c) ltac:(lia)).
    rewrite <- EA.
    rewrite (zbits_eq_mod _ (v / 2 ^ h_j c) x).
    2:{ rewrite Z2Nat.id by lia. rewrite <- Ex. rewrite Z.mod_mod by (pose proof (pow2_pos n Hn); lia). reflexivity. }
    replace (i32 v) with (i32 (((2 ^ h_i c + A) * 2 ^ n + x) * 2 ^ h_j c + v mod 2 ^ h_j c)) by (f_equal; symmetry; exact Ev).
    replace (2 ^ n) with (2 ^ Z.of_nat (Z.to_nat n)) by (rewrite Z2Nat.id by lia; reflexivity).
    apply hybrid_token; try assumption; try lia.
    + assert (Eij : 2 ^ (h_i c + h_j c) = 2 ^ h_i c * 2 ^ h_j c) by (apply Z.pow_add_r; lia).
      assert (2 ^ (h_i c + h_j c) <= 2 ^ h_e c) by (apply Z.pow_le_mono_r; lia).
      assert (2 ^ h_e c <= 2 ^ 15) by (apply Z.pow_le_mono_r; lia).
      assert (A * 2 ^ h_j c <= 2 ^ h_i c * 2 ^ h_j c) by (apply Z.mul_le_mono_nonneg_r; lia).
      assert ((m - h_e c) * 2 ^ (h_i c + h_j c) <= 32 * 2 ^ (h_i c + h_j c)) by (apply Z.mul_le_mono_nonneg_r; lia).
      assert (2 ^ h_j c <= 2 ^ 15) by (apply Z.pow_le_mono_r; lia).
      lia.
    + rewrite Z2Nat.id by lia. assumption.
Qed.

Lemma hybrid_reject c t s : hconf_ok c -> t < 2 ^ 31 -> 32 < hyb_need c t ->
  ReadHybridInteger (conf_of c) t s = (Err, s).
Proof.
  intros (Hi & Hj & He) Ht Hn. unfold hyb_need in Hn. unfold ReadHybridInteger, conf_of.
  cbn [hic_split hic_msb hic_lsb].
  pose proof (pow2_pos (h_e c) ltac:(lia)). assert (2 ^ h_e c <= 2 ^ 15) by (apply Z.pow_le_mono_r; lia).
  rewrite !Z.shiftl_mul_pow2, !Z.mul_1_l by lia. rewrite (i32_small (2 ^ h_e c)) by lia.
  destruct (Z.ltb_spec t (2 ^ h_e c)); [lia|].
  rewrite (i32_small (t - _)) by lia. rewrite Z.shiftr_div_pow2 by lia.
  pose proof (pow2_pos (h_i c + h_j c) ltac:(lia)).
  assert (0 <= (t - 2 ^ h_e c) / 2 ^ (h_i c + h_j c) <= t - 2 ^ h_e c).
  { split; [apply Z.div_pos; lia|]. apply Z.div_le_upper_bound; nia. }
  pose proof (Z.pow_gt_lin_r 2 (h_e c) ltac:(lia) ltac:(lia)).
  rewrite i32_small by lia.
  destruct (Z.ltb_spec 32 (h_e c - h_j c - h_i c + (t - 2 ^ h_e c) / 2 ^ (h_i c + h_j c))); [reflexivity|lia].
Qed.

(* Any token either is rejected for asking too many bits or decodes *)
Lemma hybrid_yields c t : hconf_ok c -> t < 2 ^ 31 ->
  yields (ReadHybridInteger (conf_of c) t) (fun v => - 2 ^ 31 <= v < 2 ^ 31 \/ t < - 2 ^ 31).
Proof.
  intros Hc Ht. pose proof Hc as (Hi & Hj & He).
  pose proof (pow2_pos (h_e c) ltac:(lia)). assert (P : 2 ^ h_e c <= 2 ^ 15) by (apply Z.pow_le_mono_r; lia).
  destruct (Z_lt_dec t (2 ^ h_e c)) as [Hl|Hl].
  - unfold ReadHybridInteger, conf_of. cbn [hic_split].
    rewrite Z.shiftl_mul_pow2, Z.mul_1_l by lia. rewrite i32_small by lia.
    destruct (Z.ltb_spec t (2 ^ h_e c)); [|lia]. apply yields_ret. lia.
  - destruct (Z_lt_dec 32 (hyb_need c t)) as [Hn|Hn].
    + intros s d p Hr. rewrite hybrid_reject by assumption. exact I.
    + intros s d p Hr.
      unfold hyb_need in Hn. destruct (Z.ltb_spec t (2 ^ h_e c)); [lia|].
      pose proof (pow2_pos (h_j c) Hj). pose proof (pow2_pos (h_i c) Hi).
      set (M := 2 ^ (h_i c + h_j c)) in *. set (q := (t - 2 ^ h_e c) / M) in *.
      assert (EM : M = 2 ^ h_i c * 2 ^ h_j c) by (apply Z.pow_add_r; lia).
      assert (HM : 0 < M) by nia.
      set (r := (t - 2 ^ h_e c) mod M).
      assert (Hr' : 0 <= r < M) by (apply Z.mod_pos_bound; lia).
      assert (Hq : 0 <= q) by (apply Z.div_pos; lia).
      assert (Et : t - 2 ^ h_e c = M * q + r) by (apply Z.div_mod; lia).
      set (A := r / 2 ^ h_j c). set (L := r mod 2 ^ h_j c).
      assert (Er : r = 2 ^ h_j c * A + L) by (apply Z.div_mod; lia).
      assert (HL : 0 <= L < 2 ^ h_j c) by (apply Z.mod_pos_bound; lia).
      assert (HA : 0 <= A < 2 ^ h_i c).
      { split; [apply Z.div_pos; lia|]. apply Z.div_lt_upper_bound; nia. }
      set (k := Z.to_nat (q + h_e c - h_i c - h_j c)).
      assert (Ek : Z.of_nat k = q + h_e c - h_i c - h_j c) by lia.
      replace t with (2 ^ h_e c + q * 2 ^ (h_i c + h_j c) + A * 2 ^ h_j c + L) by (fold M; lia).
      destruct (le_lt_dec (p + k) (8 * length d)) as [Hfit|Hno].
      * destruct (readbits_field s d p k Hr ltac:(lia) Hfit) as (x & s' & Hread & [Hx Hfx] & Hr2 & _).
        destruct (hybrid_token c q A L k x Hc Hq HA HL ltac:(fold M; lia) Ek ltac:(lia) Hx s d p Hr) as (s2 & E2 & R2).
        { apply field_bits_at; [assumption|]. split; assumption. }
        rewrite E2. split.
        -- left. unfold i32. match goal with |- context [?z mod 2 ^ 32] => pose proof (Z.mod_pos_bound z (2 ^ 32) ltac:(lia)) end. lia.
        -- eexists. split; [|exact R2]. lia.
      * (* not enough bits *)
        assert (Eerr : exists s', ReadHybridInteger (conf_of c) (2 ^ h_e c + q * 2 ^ (h_i c + h_j c) + A * 2 ^ h_j c + L) s = (Err, s')).
        { unfold ReadHybridInteger, conf_of. cbn [hic_split hic_msb hic_lsb]. fold M.
          rewrite !Z.shiftl_mul_pow2, !Z.mul_1_l by lia. rewrite (i32_small (2 ^ h_e c)) by lia.
          destruct (Z.ltb_spec (2 ^ h_e c + q * M + A * 2 ^ h_j c + L) (2 ^ h_e c)); [nia|].
          rewrite (i32_small (_ - 2 ^ h_e c)) by nia. rewrite Z.shiftr_div_pow2 by lia. fold M.
          replace (2 ^ h_e c + q * M + A * 2 ^ h_j c + L - 2 ^ h_e c) with (q * M + r) by nia.
          rewrite div_step by lia. rewrite (i32_small (h_e c - _ - _ + q)) by lia.
          replace (h_e c - h_j c - h_i c + q) with (Z.of_nat k) by lia.
          destruct (Z.ltb_spec 32 (Z.of_nat k)); [eexists; reflexivity|].
          rewrite (u32_small (Z.of_nat k)) by lia.
          destruct (readbits_short s d p k Hr ltac:(lia) ltac:(lia)) as (s' & E). unfold rbind. rewrite E. eexists; reflexivity. }
        destruct Eerr as (s' & E). rewrite E. exact I.
Qed.


Lemma CeilLog1p_small v k : 0 <= v < 2 ^ k -> 0 <= k <= 60 -> 0 <= CeilLog1p v <= k.
Proof.
  intros Hv Hk. assert (2 ^ k <= 2 ^ 60) by (apply Z.pow_le_mono_r; lia).
  rewrite CeilLog1p_len by lia. destruct (Z.eqb_spec v 0); [lia|].
  pose proof (Z.log2_nonneg v). assert (Z.log2 v < k) by (apply Z.log2_lt_pow2; lia). lia.
Qed.
Lemma yields_bits_lt n m : 0 <= n <= m -> m <= 30 -> yields (ReadBits (u32 n)) (fun v => 0 <= v < 2 ^ m).
Proof.
  intros Hn Hm. rewrite u32_small by lia. eapply yields_weaken; [apply yields_bits; lia|].
  intros v [Hv _]. assert (2 ^ n <= 2 ^ m) by (apply Z.pow_le_mono_r; lia). lia.
Qed.
Definition hic_ok (h : HIC) : Prop := exists c, hconf_ok c /\ h = conf_of c.
Lemma config_ok las : 0 <= las <= 15 -> yields (NewHybridIntegerConfigWithReader las) hic_ok.
Proof.
  intros Hl. unfold NewHybridIntegerConfigWithReader.
  assert (H1 := CeilLog1p_small las 4 ltac:(lia) ltac:(lia)).
  eapply yields_bind; [apply (yields_bits_lt _ 4); lia|]. intros e He. cbv beta in He. change (2 ^ 4) with 16 in He.
  rewrite (i32_small e) by lia. cbv zeta. destruct (Z.eqb_spec e las) as [->|].
  { apply yields_ret. exists (HConf las 0 0). split; [|reflexivity]. unfold hconf_ok; cbn [h_e h_i h_j]. lia. }
  assert (H2 := CeilLog1p_small e 4 ltac:(lia) ltac:(lia)).
  eapply yields_bind; [apply (yields_bits_lt _ 4); lia|]. intros i Hi. cbv beta in Hi. change (2 ^ 4) with 16 in Hi.
  rewrite (i32_small i) by lia. destruct (Z.ltb_spec e i); [apply yields_err|].
  rewrite (i32_small (e - i)) by lia.
  assert (H3 := CeilLog1p_small (e - i) 4 ltac:(lia) ltac:(lia)).
  eapply yields_bind; [apply (yields_bits_lt _ 4); lia|]. intros j Hj. cbv beta in Hj. change (2 ^ 4) with 16 in Hj.
  rewrite (i32_small j) by lia. rewrite (i32_small (i + j)) by lia. destruct (Z.ltb_spec e (i + j)); [apply yields_err|].
  apply yields_ret. exists (HConf e i j). split; [|reflexivity]. unfold hconf_ok; cbn [h_e h_i h_j]. lia.
Qed.

(* ---- C24 ---- *)
Lemma position_lt x l : In x l -> (position x l < length l)%nat /\ nth (position x l) l 0 = x.
Proof.
  induction l as [|y t IH]; intros H; [destruct H|]. cbn [position length nth].
  destruct (Z.eqb_spec y x) as [->|E]; [split; [lia|reflexivity]|].
  destruct H as [->|H]; [congruence|]. destruct (IH H). split; [lia|]. cbn [nth]. assumption.
Qed.
Lemma without_firstn x l : In x l -> without x l = firstn (position x l) l ++ skipn (S (position x l)) l.
Proof.
  induction l as [|y t IH]; intros H; [destruct H|]. cbn [position without].
  destruct (Z.eqb_spec y x) as [->|E]; [reflexivity|].
  destruct H as [->|H]; [congruence|]. cbn [firstn skipn app]. now rewrite IH.
Qed.
Lemma mtfShift_nth j : forall l k, (j < length l)%nat ->
  nth k (mtfShift j l) 0 = if (k =? 0)%nat then nth 0 l 0 else if (k <=? j)%nat then nth (k - 1) l 0 else nth k l 0.
Proof.
  induction j as [|j IH]; intros l k Hj; cbn [mtfShift].
  - destruct k; cbn; [reflexivity|]. reflexivity.
  - rewrite IH by (rewrite list_set_length; lia). rewrite !nth_list_set by lia.
    destruct (Nat.eqb_spec k 0) as [->|]; [reflexivity|].
    destruct (Nat.leb_spec k j), (Nat.leb_spec k (S j)); try lia.
    + destruct (Nat.eqb_spec (k - 1) (S j)); [lia|reflexivity].
    + destruct (Nat.eqb_spec k (S j)); [|lia]. f_equal. lia.
    + destruct (Nat.eqb_spec k (S j)); [lia|reflexivity].
Qed.
Lemma mtfShift_length j : forall l, length (mtfShift j l) = length l.
Proof. induction j; intros l; cbn [mtfShift]; [reflexivity|]. now rewrite IHj, list_set_length. Qed.
Lemma mtf_step l j : (j < length l)%nat ->
  (if (Z.of_nat j =? 0) then l else list_set (mtfShift j l) 0 (nth j l 0))
  = nth j l 0 :: firstn j l ++ skipn (S j) l.
Proof.
  intros Hj. destruct (Z.eqb_spec (Z.of_nat j) 0).
  - assert (j = 0)%nat by lia. subst. destruct l; [cbn in Hj; lia|reflexivity].
  - apply (nth_ext_len _ _ 0).
    + rewrite list_set_length, mtfShift_length. cbn [length]. rewrite app_length, firstn_length, skipn_length. lia.
    + rewrite list_set_length, mtfShift_length. intros k Hk. rewrite nth_list_set by (rewrite mtfShift_length; lia).
      destruct k as [|k]; [reflexivity|]. destruct (Nat.eqb_spec (S k) 0); [lia|].
      rewrite mtfShift_nth by assumption. destruct (Nat.eqb_spec (S k) 0); [lia|].
      cbn [nth]. destruct (Nat.leb_spec (S k) j).
      * rewrite app_nth1 by (rewrite firstn_length; lia). rewrite nth_firstn by lia. f_equal. lia.
      * rewrite app_nth2 by (rewrite firstn_length; lia). rewrite firstn_length, nth_skipn. f_equal. lia.
Qed.

Lemma invMTF_correct l : forall order, Forall (fun x => In x order) l -> invMTF (move_to_front order l) order = Ok l.
Proof.
  induction l as [|x t IH]; intros order H; [reflexivity|].
  cbn [move_to_front invMTF]. inversion H; subst.
  destruct (position_lt x order H2) as [Hp Hn].
  rewrite (slice_get_ok _ _ 0) by lia. rewrite Nat2Z.id, Hn. cbn [obind].
  pose proof (mtf_step order (position x order) Hp) as Hs. rewrite Hn in Hs. cbv zeta. rewrite Hs.
  rewrite <- without_firstn by assumption.
  rewrite IH; [reflexivity|]. eapply Forall_impl; [|exact H3]. intros a Ha.
  destruct (Z.eq_dec a x) as [->|E]; [now left|]. right.
  clear - Ha E. induction order as [|y o IHo]; [destruct Ha|]. cbn [without].
  destruct (Z.eqb_spec y x) as [->|]; destruct Ha as [Ha|Ha]; try congruence; try assumption; [left; congruence|right; auto].
Qed.
