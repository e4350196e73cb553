(* Specification vocabulary: bit lists, least significant bit first.        *)
From Coq Require Import ZArith List Bool Lia.
Import ListNotations.
Open Scope Z_scope.

(* The unsigned integer whose i-th bit is the i-th element. *)
Fixpoint bz (l : list bool) : Z :=
  match l with
  | [] => 0
  | b :: t => (if b then 1 else 0) + 2 * bz t
  end.

(* The k low bits of z, least significant first. *)
Fixpoint zbits (k : nat) (z : Z) : list bool :=
  match k with
  | O => []
  | S k' => Z.odd z :: zbits k' (z / 2)
  end.

(* The bits of a byte string, bytes in order, each byte LSB first. *)
Definition bytes_bits (l : list Z) : list bool := flat_map (zbits 8) l.

Lemma zbits_length k z : length (zbits k z) = k.
Proof. revert z; induction k; intros; simpl; auto. Qed.

Lemma bz_nonneg l : 0 <= bz l.
Proof. induction l as [|[] l IH]; cbn [bz]; lia. Qed.

Lemma bz_bound l : bz l < 2 ^ Z.of_nat (length l).
Proof.
  induction l as [|b l IH].
  - reflexivity.
  - cbn [bz length]. rewrite Nat2Z.inj_succ, Z.pow_succ_r by lia. destruct b; lia.
Qed.

Lemma bz_app a b : bz (a ++ b) = bz a + 2 ^ Z.of_nat (length a) * bz b.
Proof.
  induction a as [|x a IH]; cbn [bz app length].
  - rewrite Z.pow_0_r. lia.
  - rewrite IH, Nat2Z.inj_succ, Z.pow_succ_r by lia. lia.
Qed.

Lemma pow2_pos n : 0 <= n -> 0 < 2 ^ n.
Proof. intros; apply Z.pow_pos_nonneg; lia. Qed.

Lemma odd_half z : (if Z.odd z then 1 else 0) + 2 * (z / 2) = z.
Proof.
  rewrite <- Z.div2_div. pose proof (Z.div2_odd z) as H.
  unfold Z.b2z in H. destruct (Z.odd z); lia.
Qed.

Lemma mod_pow_succ z k : 0 <= k ->
  z mod 2 ^ Z.succ k = (if Z.odd z then 1 else 0) + 2 * ((z / 2) mod 2 ^ k).
Proof.
  intros Hk. rewrite Z.pow_succ_r by lia.
  rewrite Z.rem_mul_r by (try apply Z.pow_nonzero; lia).
  rewrite Zmod_odd. reflexivity.
Qed.

Lemma bz_zbits k z : bz (zbits k z) = z mod 2 ^ Z.of_nat k.
Proof.
  revert z; induction k; intros z.
  - cbn. now rewrite Z.mod_1_r.
  - cbn [zbits bz]. rewrite IHk, Nat2Z.inj_succ, mod_pow_succ by lia. reflexivity.
Qed.

Lemma bz_zbits_small k z : 0 <= z < 2 ^ Z.of_nat k -> bz (zbits k z) = z.
Proof. intros. rewrite bz_zbits. apply Z.mod_small; auto. Qed.

Lemma zbits_bz l : zbits (length l) (bz l) = l.
Proof.
  induction l as [|b l IH]; cbn [length zbits bz]; auto.
  assert (Z.odd ((if b then 1 else 0) + 2 * bz l) = b) as ->.
  { rewrite Z.odd_add_mul_2. destruct b; reflexivity. }
  replace (((if b then 1 else 0) + 2 * bz l) / 2) with (bz l).
  { now rewrite IH. }
  destruct b; [apply (Z.div_unique _ 2 _ 1)|apply (Z.div_unique _ 2 _ 0)]; lia.
Qed.

Lemma firstn_zbits n k z : (n <= k)%nat -> firstn n (zbits k z) = zbits n z.
Proof.
  revert k z; induction n; intros k z H; [reflexivity|].
  destruct k; [lia|]. cbn [zbits firstn]. rewrite IHn by lia. reflexivity.
Qed.

Lemma skipn_zbits n k z : (n <= k)%nat ->
  skipn n (zbits k z) = zbits (k - n) (z / 2 ^ Z.of_nat n).
Proof.
  revert k z; induction n; intros k z H.
  - cbn [skipn]. rewrite Nat.sub_0_r. cbn [Z.of_nat Z.pow Z.pow_pos]. now rewrite Z.div_1_r.
  - destruct k; [lia|]. cbn [zbits skipn]. rewrite IHn by lia.
    rewrite Nat2Z.inj_succ, Z.pow_succ_r by lia.
    rewrite Z.div_div by (try apply pow2_pos; lia). reflexivity.
Qed.

Lemma zbits_app n m z :
  zbits (n + m) z = zbits n z ++ zbits m (z / 2 ^ Z.of_nat n).
Proof.
  rewrite <- (firstn_skipn n (zbits (n + m) z)).
  rewrite firstn_zbits, skipn_zbits by lia.
  now replace (n + m - n)%nat with m by lia.
Qed.

Lemma zbits_eq_mod k a b : a mod 2 ^ Z.of_nat k = b mod 2 ^ Z.of_nat k -> zbits k a = zbits k b.
Proof.
  intros H. rewrite <- (zbits_bz (zbits k a)), <- (zbits_bz (zbits k b)).
  rewrite !zbits_length, !bz_zbits, H. reflexivity.
Qed.

(* OR of a low part with a shifted high part is addition. *)
Lemma lor_shift_add a b n : 0 <= n -> 0 <= a < 2 ^ n -> 0 <= b ->
  Z.lor a (Z.shiftl b n) = a + 2 ^ n * b.
Proof.
  intros Hn Ha Hb. rewrite Z.shiftl_mul_pow2 by lia.
  assert (H0 : Z.land a (b * 2 ^ n) = 0).
  { apply Z.bits_inj'; intros i Hi. rewrite Z.land_spec, Z.bits_0.
    destruct (Z.ltb_spec i n).
    + rewrite Z.mul_pow2_bits_low by lia. apply andb_false_r.
    + rewrite <- (Z.mod_small a (2 ^ n)) by lia.
      rewrite Z.mod_pow2_bits_high by lia. reflexivity. }
  rewrite <- Z.lxor_lor by exact H0. rewrite <- Z.add_nocarry_lxor by exact H0. lia.
Qed.

Lemma land_ones_mod a n : 0 <= n -> Z.land a (2 ^ n - 1) = a mod 2 ^ n.
Proof.
  intros. rewrite <- Z.land_ones by lia. f_equal. rewrite Z.ones_equiv. lia.
Qed.

Lemma bytes_bits_length l : length (bytes_bits l) = (8 * length l)%nat.
Proof.
  induction l; [reflexivity|].
  unfold bytes_bits in *. cbn [flat_map]. rewrite app_length, zbits_length, IHl. cbn [length]. lia.
Qed.

Lemma bytes_bits_app a b : bytes_bits (a ++ b) = bytes_bits a ++ bytes_bits b.
Proof. apply flat_map_app. Qed.
