(* float32 arithmetic.

   A finite float32 is an integer multiple of 2^-149; it is represented by
   that integer.  Each operation rounds the exact result to the nearest
   float32, ties to even.  Infinities, NaN and the sign of zero are not
   modelled: a result beyond the largest float32 is kept as a number. *)
From Coq Require Import ZArith List Bool Lia.
From Verif Require Import GoBase.
Open Scope Z_scope.

Definition F_ONE : Z := 2 ^ 149.
Definition F_HALF : Z := 2 ^ 148.

(* n/d to the nearest integer, ties to even *)
Definition rdiv (n d : Z) : Z :=
  let q := n / d in
  let r := n mod d in
  if 2 * r <? d then q else if d <? 2 * r then q + 1 else if Z.even q then q else q + 1.
(* n/d (in units of 2^-149) to the nearest float32: 24 significant bits *)
Definition rnd_pos (n d : Z) : Z :=
  let e := Z.max 0 (Z.log2 (n / d) - 23) in rdiv n (d * 2 ^ e) * 2 ^ e.
Definition f_round (n d : Z) : Z := Z.sgn n * rnd_pos (Z.abs n) d.

Definition f_of_int (v : Z) : Z := f_round (v * F_ONE) 1.
Definition f_mul (a b : Z) : Z := f_round (a * b) F_ONE.
Definition f_add (a b : Z) : Z := f_round (a + b) 1.
Definition f_sub (a b : Z) : Z := f_round (a - b) 1.
(* b <> 0 *)
Definition f_div (a b : Z) : Z := f_round (Z.sgn b * a * F_ONE) (Z.abs b).
(* int32(f): truncation; out of range the result is implementation defined,
   here that of amd64 *)
Definition f_to_i32 (a : Z) : Z :=
  let t := Z.quot a F_ONE in if (t <? - 2 ^ 31) || (2 ^ 31 <=? t) then - 2 ^ 31 else t.

(* representable: at most 24 significant bits *)
Definition is_f32 (a : Z) : Prop := exists m e, 0 <= e /\ Z.abs m <= 2 ^ 24 /\ a = m * 2 ^ e.

Lemma rdiv_err n d : 0 < d -> 2 * Z.abs (rdiv n d * d - n) <= d.
Proof.
  intros Hd. pose proof (Z.div_mod n d ltac:(lia)) as E. pose proof (Z.mod_pos_bound n d Hd) as B. unfold rdiv.
  cbv zeta. set (q := n / d) in *. set (r := n mod d) in *. clearbody q r.
  destruct (2 * r <? d) eqn:E1; [apply Z.ltb_lt in E1|apply Z.ltb_ge in E1].
  - replace (q * d - n) with (- r) by (rewrite E; ring). lia.
  - assert (H : 2 * Z.abs ((q + 1) * d - n) <= d). { replace ((q + 1) * d - n) with (d - r) by (rewrite E; ring). lia. }
    destruct (d <? 2 * r) eqn:E2; [exact H|]. apply Z.ltb_ge in E2. destruct (Z.even q); [|exact H].
    replace (q * d - n) with (- r) by (rewrite E; ring). lia.
Qed.
Lemma rdiv_exact k d : 0 < d -> rdiv (k * d) d = k.
Proof.
  intros Hd. unfold rdiv. rewrite Z.div_mul, Z.mod_mul by lia. cbv zeta.
  destruct (2 * 0 <? d) eqn:E; [reflexivity|]. apply Z.ltb_ge in E. lia.
Qed.
Lemma rdiv_nonneg n d : 0 < d -> 0 <= n -> 0 <= rdiv n d.
Proof.
  intros Hd Hn. pose proof (Z.div_pos n d Hn Hd). unfold rdiv. cbv zeta.
  destruct (2 * (n mod d) <? d); [lia|]. destruct (d <? 2 * (n mod d)); [lia|]. destruct (Z.even (n / d)); lia.
Qed.
Lemma rnd_nonneg n d : 0 < d -> 0 <= n -> 0 <= rnd_pos n d.
Proof.
  intros Hd Hn. unfold rnd_pos. cbv zeta. set (e := Z.max 0 _). assert (0 < 2 ^ e) by (apply Z.pow_pos_nonneg; lia).
  pose proof (rdiv_nonneg n (d * 2 ^ e) ltac:(nia) Hn). nia.
Qed.
(* relative error at most 2^-24 for results that are not subnormal *)
Lemma rnd_err n d : 0 < d -> 2 ^ 23 * d <= n -> 2 ^ 24 * Z.abs (rnd_pos n d * d - n) <= n.
Proof.
  intros Hd Hn. unfold rnd_pos. cbv zeta.
  assert (Hq : 2 ^ 23 <= n / d) by (apply Z.div_le_lower_bound; lia).
  assert (Hl : 23 <= Z.log2 (n / d)) by (rewrite <- (Z.log2_pow2 23) by lia; apply Z.log2_le_mono; exact Hq).
  replace (Z.max 0 (Z.log2 (n / d) - 23)) with (Z.log2 (n / d) - 23) by lia.
  set (e := Z.log2 (n / d) - 23) in *.
  assert (He : 0 < 2 ^ e) by (apply Z.pow_pos_nonneg; lia).
  assert (Hb : 2 ^ 23 * 2 ^ e <= n / d).
  { rewrite <- Z.pow_add_r by lia. replace (23 + e) with (Z.log2 (n / d)) by lia. apply Z.log2_spec. lia. }
  assert (Hbd : 2 ^ 23 * 2 ^ e * d <= n). { pose proof (Z.mul_div_le n d Hd). nia. }
  pose proof (rdiv_err n (d * 2 ^ e) ltac:(nia)) as E.
  replace (rdiv n (d * 2 ^ e) * 2 ^ e * d - n) with (rdiv n (d * 2 ^ e) * (d * 2 ^ e) - n) by ring.
  set (z := Z.abs _) in *. clearbody z. change (2 ^ 24) with (2 * 2 ^ 23). set (p := 2 ^ e) in *. clearbody p.
  nia.
Qed.
(* representable values are not changed *)
Lemma rnd_exact m e d : 0 < d -> 0 <= e -> 0 <= m <= 2 ^ 24 -> rnd_pos (m * 2 ^ e * d) d = m * 2 ^ e.
Proof.
  intros Hd He Hm. unfold rnd_pos. rewrite Z.div_mul by lia. cbv zeta. set (f := Z.max 0 _).
  assert (Pf : 0 < 2 ^ f) by (apply Z.pow_pos_nonneg; lia).
  assert (Hk : exists k, m * 2 ^ e = k * 2 ^ f).
  { destruct (Z.eq_dec m 0) as [->|Hm0]; [exists 0; ring|]. destruct (Z.eq_dec m (2 ^ 24)) as [->|Hm1].
    - assert (L : Z.log2 (2 ^ 24 * 2 ^ e) = 24 + e) by (rewrite <- Z.pow_add_r by lia; apply Z.log2_pow2; lia).
      subst f. rewrite L in *. exists (2 ^ 23). replace (Z.max 0 (24 + e - 23)) with (1 + e) by lia.
      rewrite Z.pow_add_r by lia. change (2 ^ 24) with (2 ^ 23 * 2 ^ 1). ring.
    - assert (L : Z.log2 (m * 2 ^ e) < 24 + e).
      { apply Z.log2_lt_pow2; [apply Z.mul_pos_pos; [lia|apply Z.pow_pos_nonneg; lia]|]. rewrite Z.pow_add_r by lia.
        apply Z.mul_lt_mono_pos_r; [apply Z.pow_pos_nonneg; lia|lia]. }
      exists (m * 2 ^ (e - f)). assert (f <= e) by lia. rewrite <- Z.mul_assoc, <- Z.pow_add_r by lia. f_equal. f_equal. lia. }
  destruct Hk as [k Hk]. rewrite Hk. replace (k * 2 ^ f * d) with (k * (d * 2 ^ f)) by ring.
  rewrite rdiv_exact by nia. reflexivity.
Qed.
Lemma f_round_exact a d : 0 < d -> is_f32 a -> f_round (a * d) d = a.
Proof.
  intros Hd (m & e & He & Hm & ->). assert (P : 0 < 2 ^ e) by (apply Z.pow_pos_nonneg; lia). unfold f_round.
  replace (Z.abs (m * 2 ^ e * d)) with (Z.abs m * 2 ^ e * d).
  2:{ rewrite !Z.abs_mul, (Z.abs_eq d), (Z.abs_eq (2 ^ e)) by lia. reflexivity. }
  rewrite rnd_exact by lia. rewrite !Z.sgn_mul, (Z.sgn_pos d), (Z.sgn_pos (2 ^ e)) by lia.
  rewrite !Z.mul_1_r, Z.mul_assoc.
  replace (Z.sgn m * Z.abs m) with m by (rewrite Z.mul_comm; symmetry; apply Z.abs_sgn). reflexivity.
Qed.
Lemma f_of_int_exact v : Z.abs v <= 2 ^ 24 -> f_of_int v = v * F_ONE.
Proof.
  intros H. unfold f_of_int. rewrite <- (Z.mul_1_r (v * F_ONE)) at 1. apply f_round_exact; [lia|].
  exists v, 149. split; [lia|]. split; [lia|reflexivity].
Qed.
Lemma f_round_pos n d : 0 < n -> f_round n d = rnd_pos n d.
Proof. intros H. unfold f_round. rewrite Z.sgn_pos, Z.abs_eq by lia. apply Z.mul_1_l. Qed.

(* v/max*max + 0.5 truncates to v: three multiplications and one addition
   with error 2^-24 each *)
Lemma scale_roundtrip v mx : 0 <= v <= mx -> 1 <= mx <= 2 ^ 20 ->
  f_to_i32 (f_add (f_mul (f_mul (f_of_int v) (f_div F_ONE (f_of_int mx))) (f_of_int mx)) F_HALF) = v.
Proof.
  intros Hv Hm. change (2 ^ 20) with 1048576 in Hm. rewrite !f_of_int_exact by (change (2 ^ 24) with 16777216; lia).
  set (U := F_ONE). assert (HU : 2 ^ 100 <= U) by (unfold U, F_ONE; apply Z.pow_le_mono_r; lia).
  assert (HH : 2 * F_HALF = U) by reflexivity.
  set (s := f_div U (mx * U)).
  assert (Es : s = rnd_pos (U * U) (mx * U)).
  { unfold s, f_div. assert (Pm : 0 < mx * U) by (apply Z.mul_pos_pos; lia). rewrite Z.sgn_pos by exact Pm. rewrite (Z.abs_eq (mx * U)) by lia.
    fold U. rewrite Z.mul_1_l. apply f_round_pos. apply Z.mul_pos_pos; lia. }
  assert (B1 : 2 ^ 24 * Z.abs (s * mx - U) <= U).
  { pose proof (rnd_err (U * U) (mx * U) ltac:(apply Z.mul_pos_pos; lia)) as E. rewrite <- Es in E.
    assert (2 ^ 23 * (mx * U) <= U * U).
    { rewrite Z.mul_assoc. apply Z.mul_le_mono_nonneg_r; [lia|]. change (2 ^ 23) with 8388608. change (2 ^ 100) with 1267650600228229401496703205376 in HU. lia. }
    specialize (E H). replace (s * (mx * U) - U * U) with ((s * mx - U) * U) in E by ring.
    rewrite Z.abs_mul, (Z.abs_eq U) in E by lia. apply (Z.mul_le_mono_pos_r _ _ U); [lia|]. lia. }
  clearbody s. change (2 ^ 100) with 1267650600228229401496703205376 in HU.
  change (2 ^ 24) with 16777216 in B1.
  assert (Hs : 2 ^ 23 <= s). { change (2 ^ 23) with 8388608. clear - B1 HU Hm. clearbody U. nia. }
  destruct (Z.eq_dec v 0) as [->|Hv0].
  - rewrite Z.mul_0_l. replace (f_mul 0 s) with 0 by reflexivity. replace (f_mul 0 (mx * U)) with 0 by reflexivity.
    unfold f_add. rewrite Z.add_0_l.
    replace (f_round F_HALF 1) with F_HALF. { reflexivity. }
    rewrite <- (Z.mul_1_r F_HALF) at 2. symmetry. apply f_round_exact; [lia|]. exists 1, 148. repeat split; lia.
  - set (f := f_mul (v * U) s).
    assert (Ef : f = rnd_pos (v * U * s) U). { apply f_round_pos. apply Z.mul_pos_pos; [apply Z.mul_pos_pos; lia|]. clear - Hs. change (2 ^ 23) with 8388608 in Hs. lia. }
    assert (B2 : 16777216 * Z.abs (f - v * s) <= v * s).
    { pose proof (rnd_err (v * U * s) U ltac:(lia)) as E. rewrite <- Ef in E.
      assert (H : 2 ^ 23 * U <= v * U * s). { replace (v * U * s) with (v * s * U) by ring. apply Z.mul_le_mono_nonneg_r; [lia|]. clear - Hs Hv Hv0. change (2 ^ 23) with 8388608 in *. nia. } specialize (E H).
      replace (f * U - v * U * s) with ((f - v * s) * U) in E by ring. rewrite Z.abs_mul, (Z.abs_eq U) in E by lia.
      change (2 ^ 24) with 16777216 in E. apply (Z.mul_le_mono_pos_r _ _ U); [lia|]. lia. }
    clearbody f. set (X := v * (s * mx)).
    assert (X1 : 16777216 * Z.abs (X - v * U) <= v * U).
    { unfold X. replace (v * (s * mx) - v * U) with (v * (s * mx - U)) by ring. rewrite Z.abs_mul, (Z.abs_eq v) by lia. clear - B1 Hv. set (z := Z.abs _) in *. clearbody z. clearbody U. nia. }
    set (Y := f * mx).
    assert (Y1 : 16777216 * Z.abs (Y - X) <= X).
    { unfold X, Y. replace (f * mx - v * (s * mx)) with ((f - v * s) * mx) by ring. rewrite Z.abs_mul, (Z.abs_eq mx) by lia. clear - B2 Hm. set (z := Z.abs _) in *. clearbody z. nia. }
    set (V := v * U) in *.
    assert (HV : U <= V <= 1048576 * U) by (unfold V; clear - HU Hv Hv0 Hm; clearbody U; nia).
    assert (HX : 0 < X) by lia. assert (HY : 8388608 <= Y) by lia.
    set (g := f_mul f (mx * U)).
    assert (Eg : g = rnd_pos (Y * U) U). { unfold g, f_mul. fold U. replace (f * (mx * U)) with (Y * U) by (unfold Y; ring). apply f_round_pos. apply Z.mul_pos_pos; lia. }
    assert (B3 : 16777216 * Z.abs (g - Y) <= Y).
    { pose proof (rnd_err (Y * U) U ltac:(lia)) as E. rewrite <- Eg in E.
      assert (H : 2 ^ 23 * U <= Y * U) by (apply Z.mul_le_mono_nonneg_r; [lia|exact HY]). specialize (E H).
      replace (g * U - Y * U) with ((g - Y) * U) in E by ring. rewrite Z.abs_mul, (Z.abs_eq U) in E by lia.
      change (2 ^ 24) with 16777216 in E. apply (Z.mul_le_mono_pos_r _ _ U); [lia|]. lia. }
    clearbody X Y g. set (h := f_add g F_HALF).
    assert (Eh : h = rnd_pos (g + F_HALF) 1) by (apply f_round_pos; lia).
    assert (B4 : 16777216 * Z.abs (h - (g + F_HALF)) <= g + F_HALF).
    { pose proof (rnd_err (g + F_HALF) 1 ltac:(lia)) as E. rewrite <- Eh in E. rewrite !Z.mul_1_r in E.
      change (2 ^ 24) with 16777216 in E. apply E. change (2 ^ 23) with 8388608. lia. }
    clearbody h. assert (Hh : V <= h < V + U) by lia.
    unfold f_to_i32. fold U. assert (Q : Z.quot h U = v).
    { symmetry. apply (Z.quot_unique h U v (h - V)); unfold V in *; lia. }
    rewrite Q. cbv zeta. change (2 ^ 31) with 2147483648.
    destruct (v <? - (2147483648)) eqn:E1; [apply Z.ltb_lt in E1; lia|]. destruct (2147483648 <=? v) eqn:E2; [apply Z.leb_le in E2; lia|]. reflexivity.
Qed.
