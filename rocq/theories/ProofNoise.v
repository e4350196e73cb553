(* The noise generator. *)
From Coq Require Import ZArith List Bool Lia Arith ZifyBool ZifyNat.
From Verif Require Import GoBase GoLoop GoMatrix ModelNoise SpecNoise.
Import ListNotations.
Open Scope Z_scope.

Local Notation "x <o- m ;; k" := (obind m (fun x => k)) (at level 61, m at next level, right associativity).

(* ---- words ---- *)
Definition word (z : Z) : Prop := 0 <= z < 2 ^ 64.
Lemma word_high z i : word z -> 64 <= i -> Z.testbit z i = false.
Proof. intros Hz Hi. rewrite <- (Z.mod_small z (2 ^ 64)) by exact Hz. apply Z.mod_pow2_bits_high. lia. Qed.
Lemma word_of_bits z : 0 <= z -> (forall i, 64 <= i -> Z.testbit z i = false) -> word z.
Proof.
  intros H0 H. split; [exact H0|]. replace z with (z mod 2 ^ 64); [apply Z.mod_pos_bound; lia|].
  apply Z.bits_inj. intros i. destruct (Z.ltb_spec i 0); [rewrite !Z.testbit_neg_r by assumption; reflexivity|].
  destruct (Z.ltb_spec i 64); [apply Z.mod_pow2_bits_low; lia|]. rewrite H by lia. apply Z.mod_pow2_bits_high. lia.
Qed.
Lemma word_ext a b : word a -> word b -> (forall i, (i < 64)%nat -> bit a i = bit b i) -> a = b.
Proof.
  intros Ha Hb H. apply Z.bits_inj. intros i. destruct (Z.ltb_spec i 0); [rewrite !Z.testbit_neg_r by assumption; reflexivity|].
  destruct (Z.ltb_spec i 64); [|rewrite !word_high by assumption; reflexivity]. specialize (H (Z.to_nat i) ltac:(lia)). unfold bit in H. rewrite Z2Nat.id in H by lia. exact H.
Qed.
Lemma has_bits_word v f : has_bits v f -> word v.
Proof. intros [H _]. exact H. Qed.
Lemma has_bits_det v w f g : has_bits v f -> has_bits w g -> (forall i, (i < 64)%nat -> f i = g i) -> v = w.
Proof. intros [Hv Fv] [Hw Fw] H. apply word_ext; [exact Hv|exact Hw|]. intros i Hi. unfold bit. rewrite Fv, Fw by exact Hi. apply H, Hi. Qed.
Lemma word_lxor a b : word a -> word b -> word (Z.lxor a b).
Proof.
  intros Ha Hb. apply word_of_bits; [apply Z.lxor_nonneg; unfold word in *; lia|]. intros i Hi. rewrite Z.lxor_spec, !word_high by assumption. reflexivity.
Qed.
Lemma word_shr a k : word a -> 0 <= k -> word (Z.shiftr a k).
Proof.
  intros Ha Hk. apply word_of_bits; [apply Z.shiftr_nonneg; unfold word in *; lia|]. intros i Hi. rewrite Z.shiftr_spec by lia. apply word_high; [exact Ha|lia].
Qed.
Lemma word_u64 a : word (u64 a).
Proof. apply Z.mod_pos_bound. lia. Qed.
Lemma bit_shr a k i : word a -> (i < 64)%nat -> Z.testbit (Z.shiftr a (Z.of_nat k)) (Z.of_nat i) = shr_bit a k i.
Proof.
  intros Ha Hi. rewrite Z.shiftr_spec by lia. unfold shr_bit, bit. destruct (Nat.ltb_spec (i + k) 64); [f_equal; lia|]. apply word_high; [exact Ha|lia].
Qed.
Lemma bit_shl a k i : word a -> (i < 64)%nat -> Z.testbit (u64 (Z.shiftl a (Z.of_nat k))) (Z.of_nat i) = shl_bit a k i.
Proof.
  intros Ha Hi. unfold u64. rewrite Z.mod_pow2_bits_low by lia. rewrite Z.shiftl_spec by lia. unfold shl_bit, bit.
  destruct (Nat.leb_spec k i); [f_equal; lia|]. apply Z.testbit_neg_r. lia.
Qed.
Lemma shr_bit_local a b k i : (forall j, (i < j < 64)%nat -> bit a j = bit b j) -> (0 < k)%nat -> shr_bit a k i = shr_bit b k i.
Proof. intros H Hk. unfold shr_bit. destruct (Nat.ltb_spec (i + k) 64); [apply H; lia|reflexivity]. Qed.
(* a word is determined by its exclusive or with itself shifted *)
Lemma xor_shr_inj a b k : word a -> word b -> (0 < k)%nat -> (forall i, (i < 64)%nat -> xorb (bit a i) (shr_bit a k i) = xorb (bit b i) (shr_bit b k i)) -> a = b.
Proof.
  intros Ha Hb Hk H. apply word_ext; [exact Ha|exact Hb|].
  assert (G : forall n i, (64 - i <= n)%nat -> (i < 64)%nat -> bit a i = bit b i).
  { induction n as [|n IH]; intros i Hn Hi; [lia|]. specialize (H i Hi). rewrite (shr_bit_local a b k i) in H by (try assumption; intros; apply IH; lia).
    destruct (bit a i), (bit b i), (shr_bit b k i); cbn in H; congruence. }
  intros i Hi. apply (G 64%nat); lia.
Qed.
Lemma xor_shl_inj a b k : word a -> word b -> (0 < k)%nat -> (forall i, (i < 64)%nat -> xorb (bit a i) (shl_bit a k i) = xorb (bit b i) (shl_bit b k i)) -> a = b.
Proof.
  intros Ha Hb Hk H. apply word_ext; [exact Ha|exact Hb|]. intros i. induction i as [i IH] using lt_wf_ind. intros Hi. specialize (H i Hi).
  assert (E : shl_bit a k i = shl_bit b k i) by (unfold shl_bit; destruct (Nat.leb_spec k i); [apply IH; lia|reflexivity]). rewrite E in H.
  destruct (bit a i), (bit b i), (shl_bit b k i); cbn in H; congruence.
Qed.
Lemma mul_inj m n a b : (m * n) mod 2 ^ 64 = 1 -> word a -> word b -> (a * m) mod 2 ^ 64 = (b * m) mod 2 ^ 64 -> a = b.
Proof.
  intros Hm Ha Hb H. assert (G : forall z, word z -> ((z * m) mod 2 ^ 64 * n) mod 2 ^ 64 = z).
  { intros z Hz. rewrite Zmult_mod_idemp_l, <- Z.mul_assoc, <- Zmult_mod_idemp_r, Hm, Z.mul_1_r. apply Z.mod_small, Hz. }
  rewrite <- (G a Ha), <- (G b Hb), H. reflexivity.
Qed.

(* ---- splitmix64 ---- *)
Lemma xor_shifted_ok z k : word z -> xor_shifted z k (Z.lxor z (Z.shiftr z (Z.of_nat k))).
Proof.
  intros Hz. split; [apply word_lxor; [exact Hz|apply word_shr; [exact Hz|lia]]|]. intros i Hi. rewrite Z.lxor_spec, bit_shr by assumption. reflexivity.
Qed.
Lemma splitMix_ok z : word z -> splitmix z (splitMix64 z) /\ word (splitMix64 z).
Proof.
  intros Hz. pose proof (xor_shifted_ok z 30 Hz) as A. set (a := Z.lxor z (Z.shiftr z (Z.of_nat 30))) in *.
  pose proof (xor_shifted_ok (u64 (a * 13787848793156543929)) 27 (word_u64 _)) as B. set (b := Z.lxor (u64 (a * 13787848793156543929)) _) in *.
  pose proof (xor_shifted_ok (u64 (b * 10723151780598845931)) 31 (word_u64 _)) as C.
  split; [exists a, b; split; [exact A|]; split; [exact B|exact C]|]. exact (has_bits_word _ _ C).
Qed.
Lemma splitmix_det z r r' : splitmix z r -> splitmix z r' -> r = r'.
Proof.
  intros (a & b & A & B & C) (a' & b' & A' & B' & C'). assert (a = a') by (eapply has_bits_det; [exact A|exact A'|reflexivity]). subst a'.
  assert (b = b') by (eapply has_bits_det; [exact B|exact B'|reflexivity]). subst b'. eapply has_bits_det; [exact C|exact C'|reflexivity].
Qed.
Lemma xor_shifted_inj z z' k r : (0 < k)%nat -> word z -> word z' -> xor_shifted z k r -> xor_shifted z' k r -> z = z'.
Proof. intros Hk Hz Hz' [_ A] [_ B]. apply (xor_shr_inj z z' k); try assumption. intros i Hi. rewrite <- A, <- B by exact Hi. reflexivity. Qed.
Lemma splitmix_inj z z' r : word z -> word z' -> splitmix z r -> splitmix z' r -> z = z'.
Proof.
  intros Hz Hz' (a & b & A & B & C) (a' & b' & A' & B' & C').
  assert (W : forall q, word (q mod 2 ^ 64)) by (intros; apply word_u64).
  assert (b = b') by (apply (mul_inj 10723151780598845931 3573116690164977347); [reflexivity|eapply has_bits_word; exact B|eapply has_bits_word; exact B'|];
    eapply (xor_shifted_inj _ _ 31); [lia|apply W|apply W|exact C|exact C']). subst b'.
  assert (a = a') by (apply (mul_inj 13787848793156543929 10871156337175269513); [reflexivity|eapply has_bits_word; exact A|eapply has_bits_word; exact A'|];
    eapply (xor_shifted_inj _ _ 27); [lia|apply W|apply W|exact B|exact B']). subst a'.
  eapply (xor_shifted_inj _ _ 30); [lia|exact Hz|exact Hz'|exact A|exact A'].
Qed.
Lemma splitmix_word z r : splitmix z r -> word r.
Proof. intros (a & b & A & B & C). exact (has_bits_word _ _ C). Qed.

(* ---- one step ---- *)
Definition stepf (s : Z * Z) : Z * Z :=
  let b := Z.lxor (fst s) (u64 (Z.shiftl (fst s) 23)) in
  (snd s, Z.lxor (Z.lxor (Z.lxor b (snd s)) (Z.shiftr b 18)) (Z.shiftr (snd s) 5)).
Definition words (s : Z * Z) : Prop := word (fst s) /\ word (snd s).
Lemma stepf_ok s : words s -> step s (stepf s) /\ words (stepf s).
Proof.
  intros [H0 H1]. unfold stepf. set (b := Z.lxor (fst s) (u64 (Z.shiftl (fst s) 23))).
  assert (Hb : word b) by (apply word_lxor; [exact H0|apply word_u64]).
  assert (Hr : word (Z.lxor (Z.lxor (Z.lxor b (snd s)) (Z.shiftr b 18)) (Z.shiftr (snd s) 5))) by (apply word_lxor; [apply word_lxor; [apply word_lxor; assumption|apply word_shr; [assumption|lia]]|apply word_shr; [assumption|lia]]).
  split; [|split; assumption]. split; [reflexivity|]. exists b. split.
  - split; [exact Hb|]. intros i Hi. unfold b. rewrite Z.lxor_spec. rewrite (bit_shl (fst s) 23) by assumption. reflexivity.
  - split; [exact Hr|]. intros i Hi. cbn [snd]. rewrite !Z.lxor_spec. rewrite (bit_shr b 18), (bit_shr (snd s) 5) by assumption. unfold bit. rewrite !xorb_assoc. reflexivity.
Qed.
Lemma step_det s t t' : step s t -> step s t' -> t = t'.
Proof.
  destruct t as [t0 t1], t' as [u0 u1]. intros [A (b & B & C)] [A' (b' & B' & C')]. cbn [fst snd] in *. assert (b = b') by (eapply has_bits_det; [exact B|exact B'|reflexivity]). subst b'.
  f_equal; [congruence|]. eapply has_bits_det; [exact C|exact C'|reflexivity].
Qed.
Lemma step_inj s s' t : words s -> words s' -> step s t -> step s' t -> s = s'.
Proof.
  destruct s as [a c], s' as [a' c']. intros [Wa Wc] [Wa' Wc'] [A (b & B & C)] [A' (b' & B' & C')]. cbn [fst snd] in *. assert (c = c') by congruence. subst c'. f_equal.
  assert (b = b').
  { apply (xor_shr_inj b b' 18); [exact (has_bits_word _ _ B)|exact (has_bits_word _ _ B')|lia|]. intros i Hi. destruct C as [_ C], C' as [_ C']. specialize (C i Hi). specialize (C' i Hi). cbv beta in C, C'. rewrite C in C'. try rewrite A in C'. try rewrite A' in C'.
    clear -C'. destruct (bit b i), (bit b' i), (bit c i), (shr_bit b 18 i), (shr_bit b' 18 i), (shr_bit c 5 i); cbn in C' |- *; congruence. }
  subst b'. destruct B as [_ B], B' as [_ B']. apply (xor_shl_inj a a' 23); [exact Wa|exact Wa'|lia|]. intros i Hi. rewrite <- B, <- B' by exact Hi. reflexivity. congruence.
Qed.

(* ---- seeds of the lanes ---- *)
Fixpoint laneSeed (seed : Z) (i : nat) : Z := match i with O => splitMix64 (u64 (seed + 11400714819323198485)) | S j => splitMix64 (laneSeed seed j) end.
Lemma laneSeed_ok seed i : lane_seed seed i (laneSeed seed i) /\ word (laneSeed seed i).
Proof.
  induction i as [|i [IH W]]; cbn [lane_seed laneSeed]; [apply splitMix_ok, word_u64|]. destruct (splitMix_ok (laneSeed seed i) W) as [A B]. split; [exists (laneSeed seed i); auto|exact B].
Qed.
Lemma lane_seed_det seed i : forall r r', lane_seed seed i r -> lane_seed seed i r' -> r = r'.
Proof.
  induction i as [|i IH]; cbn [lane_seed]; intros r r'; [apply splitmix_det|]. intros (q & A & B) (q' & A' & B'). rewrite (IH _ _ A A') in B. eapply splitmix_det; eassumption.
Qed.
Definition stf (seed0 seed1 : Z) (n i : nat) : Z * Z := Nat.iter n stepf (laneSeed seed0 i, laneSeed seed1 i).
Lemma stf_words a b n i : words (stf a b n i).
Proof. induction n as [|n IH]; [split; apply laneSeed_ok|]. exact (proj2 (stepf_ok _ IH)). Qed.
Lemma stf_generator a b : generator a b (stf a b).
Proof. split; [intros i _; split; apply laneSeed_ok|]. intros n i _. exact (proj1 (stepf_ok _ (stf_words a b n i))). Qed.
Lemma generator_det a b st : generator a b st -> forall n i, (i < 8)%nat -> st n i = stf a b n i.
Proof.
  intros [G0 G1] n i Hi. induction n as [|n IH].
  - destruct (G0 i Hi) as [A B]. destruct (st 0%nat i) as [s0 s1]. cbn [fst snd] in *. change (stf a b 0 i) with (laneSeed a i, laneSeed b i). f_equal; eapply lane_seed_det; (eassumption || apply laneSeed_ok).
  - eapply step_det; [apply (G1 n i Hi)|]. rewrite IH. exact (proj1 (stepf_ok _ (stf_words a b n i))).
Qed.

(* ---- the code ---- *)
Definition lanes (f : nat -> Z) : list Z := map f (seq 0 8).
Lemma u64_word z : word z -> u64 z = z.
Proof. intros H. apply Z.mod_small, H. Qed.
Lemma seed_ok i f g : (i < 7)%nat -> (forall j, word (f j)) -> (forall j, word (g j)) ->
  seedLane (S i) (map f (seq 0 (S i)) ++ repeat 0 (7 - i), map g (seq 0 (S i)) ++ repeat 0 (7 - i)) =
  Ok (map f (seq 0 (S i)) ++ splitMix64 (f i) :: repeat 0 (6 - i), map g (seq 0 (S i)) ++ splitMix64 (g i) :: repeat 0 (6 - i)).
Proof.
  intros Hi Hf Hg. do 7 (destruct i as [|i]; [cbv -[splitMix64 u64]; rewrite !u64_word by auto; reflexivity|]). lia.
Qed.
Lemma new_ok a b : NewXorShiroWith2Seeds a b = Ok (mkXS (lanes (laneSeed a)) (lanes (laneSeed b)) (repeat 0 8) 8).
Proof.
  unfold NewXorShiroWith2Seeds.
  assert (E : forall z, u64 (u64 z + 0x9e3779b97f4a7c15) = u64 (z + 11400714819323198485)) by (intros z; unfold u64; rewrite Zplus_mod_idemp_l; reflexivity).
  rewrite !E. change (slice_set (repeat 0 8) 0 (splitMix64 (u64 (a + 11400714819323198485)))) with (Ok (map (laneSeed a) (seq 0 1) ++ repeat 0 7)).
  change (slice_set (repeat 0 8) 0 (splitMix64 (u64 (b + 11400714819323198485)))) with (Ok (map (laneSeed b) (seq 0 1) ++ repeat 0 7)). cbn [obind].
  assert (L : oloop 7 1 seedLane (map (laneSeed a) (seq 0 1) ++ repeat 0 7, map (laneSeed b) (seq 0 1) ++ repeat 0 7) = Ok (lanes (laneSeed a), lanes (laneSeed b))).
  { assert (W : forall z i, word (laneSeed z i)) by (intros; apply laneSeed_ok). assert (S0 : forall i, (i < 7)%nat -> seedLane (S i) (map (laneSeed a) (seq 0 (S i)) ++ repeat 0 (7 - i), map (laneSeed b) (seq 0 (S i)) ++ repeat 0 (7 - i)) =
      Ok (map (laneSeed a) (seq 0 (S (S i))) ++ repeat 0 (7 - S i), map (laneSeed b) (seq 0 (S (S i))) ++ repeat 0 (7 - S i))).
    { intros i Hi. rewrite seed_ok by auto. rewrite (seq_S (S i)), !map_app, <- !app_assoc. replace (7 - S i)%nat with (6 - i)%nat by lia. reflexivity. }
    cbn [oloop]. assert (Q0 := S0 0%nat ltac:(lia)); cbn [Nat.sub] in Q0; rewrite Q0; cbn [obind]. assert (Q1 := S0 1%nat ltac:(lia)); cbn [Nat.sub] in Q1; rewrite Q1; cbn [obind]. assert (Q2 := S0 2%nat ltac:(lia)); cbn [Nat.sub] in Q2; rewrite Q2; cbn [obind]. assert (Q3 := S0 3%nat ltac:(lia)); cbn [Nat.sub] in Q3; rewrite Q3; cbn [obind]. assert (Q4 := S0 4%nat ltac:(lia)); cbn [Nat.sub] in Q4; rewrite Q4; cbn [obind]. assert (Q5 := S0 5%nat ltac:(lia)); cbn [Nat.sub] in Q5; rewrite Q5; cbn [obind]. assert (Q6 := S0 6%nat ltac:(lia)); cbn [Nat.sub] in Q6; rewrite Q6; cbn [obind]. cbn [repeat]. rewrite !app_nil_r. reflexivity. }
  rewrite L. reflexivity.
Qed.
Lemma lanes_get f i : (i < 8)%nat -> slice_get (lanes f) (Z.of_nat i) = Ok (f i).
Proof. intros Hi. do 8 (destruct i as [|i]; [reflexivity|]). lia. Qed.
Lemma fill_lanes s batch : length batch = 8%nat ->
  oloop (length batch) 0 fillLane (lanes (fun i => fst (s i)), lanes (fun i => snd (s i)), batch) =
  Ok (lanes (fun i => fst (stepf (s i))), lanes (fun i => snd (stepf (s i))), lanes (fun i => output (s i))).
Proof.
  intros L. destruct batch as [|b0 [|b1 [|b2 [|b3 [|b4 [|b5 [|b6 [|b7 [|]]]]]]]]]; try discriminate.
  unfold output. cbn [length oloop].
  cbv -[u64 Z.lxor Z.shiftl Z.shiftr Z.add Z.modulo Z.pow fst snd]. unfold u64. cbn [fst snd]. repeat match goal with |- context[snd (s ?i) + fst (s ?i)] => rewrite (Z.add_comm (snd (s i)) (fst (s i))) end. reflexivity.
Qed.

Lemma slice_set_mid {A} (pre rest : list A) r v : slice_set (pre ++ r :: rest) (Z.of_nat (length pre)) v = Ok (pre ++ v :: rest).
Proof.
  rewrite slice_set_ok by (rewrite app_length; cbn [length]; lia). f_equal. rewrite Nat2Z.id. induction pre as [|q pre IH]; cbn [app length list_set]; [reflexivity|f_equal; exact IH].
Qed.
Lemma lor_add a b k : 0 <= k -> 0 <= a < 2 ^ k -> Z.lor (b * 2 ^ k) a = b * 2 ^ k + a.
Proof.
  intros Hk Ha. assert (L : Z.land (b * 2 ^ k) a = 0).
  { apply Z.bits_inj. intros i. rewrite Z.land_spec, Z.bits_0. destruct (Z.ltb_spec i 0); [rewrite !Z.testbit_neg_r by assumption; reflexivity|].
    destruct (Z.ltb_spec i k); [rewrite Z.mul_pow2_bits_low by lia; reflexivity|].
    rewrite (proj2 (Z.testbit_false a i ltac:(lia))); [apply andb_false_r|]. rewrite Z.div_small; [reflexivity|]. assert (2 ^ k <= 2 ^ i) by (apply Z.pow_le_mono_r; lia). lia. }
  rewrite <- Z.lxor_lor by exact L. symmetry. apply Z.add_nocarry_lxor, L.
Qed.
Lemma noise_bits b : 0 <= b < 2 ^ 32 -> one_to_two (noiseBits b) (b / 2 ^ 9).
Proof.
  intros H. split; [split; [apply Z.div_pos; lia|apply Z.div_lt_upper_bound; lia]|]. unfold noiseBits, u32. rewrite Z.mod_small by exact H.
  rewrite Z.lor_comm. change 0x3f800000 with (127 * 2 ^ 23). rewrite Z.shiftr_div_pow2 by lia. apply lor_add; [lia|]. split; [apply Z.div_pos; lia|apply Z.div_lt_upper_bound; lia].
Qed.

Section run.
  Context (a b : Z).
  Notation st := (stf a b).
  (* k numbers have been drawn *)
  Definition drawn (k : nat) (xs : XorShiro) : Prop :=
    exists n batch p, xs = mkXS (lanes (fun i => fst (st n i))) (lanes (fun i => snd (st n i))) batch (Z.of_nat p) /\ length batch = 8%nat /\
      (p <= 8)%nat /\ (8 * n + p = k + 8)%nat /\ ((p < 8)%nat -> exists m, n = S m /\ batch = lanes (fun i => output (st m i))).
  Lemma drawn_0 : drawn 0 (mkXS (lanes (laneSeed a)) (lanes (laneSeed b)) (repeat 0 8) 8).
  Proof. exists 0%nat, (repeat 0 8), 8%nat. split; [reflexivity|]. split; [reflexivity|]. split; [lia|]. split; [lia|lia]. Qed.
  Lemma next_ok k xs : drawn k xs -> exists xs', nextLong xs = Ok (long st k, xs') /\ drawn (S k) xs'.
  Proof.
    intros (n & batch & p & -> & L & Hp & Hk & HB). unfold nextLong, fillBatch. cbn [xs_batch xs_batchPos xs_state0 xs_state1]. rewrite L.
    destruct (Z.ltb_spec (Z.of_nat p) (Z.of_nat 8)) as [C|C].
    - destruct (HB ltac:(lia)) as (m & -> & ->). cbn [obind xs_batch xs_batchPos xs_state0 xs_state1]. rewrite lanes_get by lia. cbn [obind]. eexists. split.
      + unfold long. replace (k / 8)%nat with m by (apply (Nat.div_unique k 8 m p); lia). replace (k mod 8)%nat with p by (apply (Nat.mod_unique k 8 m p); lia). reflexivity.
      + exists (S m), (lanes (fun i => output (st m i))), (S p). split; [f_equal; lia|]. split; [reflexivity|]. split; [lia|]. split; [lia|]. intros _. exists m. auto.
    - assert (p = 8%nat) by lia. subst p. rewrite <- L. rewrite (fill_lanes (st n) batch L). cbn [obind xs_batch xs_batchPos xs_state0 xs_state1].
      change 0 with (Z.of_nat 0). rewrite lanes_get by lia. cbn [obind]. eexists. split.
      + unfold long. replace (k / 8)%nat with n by (apply (Nat.div_unique k 8 n 0); lia). replace (k mod 8)%nat with 0%nat by (apply (Nat.mod_unique k 8 n 0); lia). reflexivity.
      + exists (S n), (lanes (fun i => output (st n i))), 1%nat. split; [reflexivity|]. split; [reflexivity|]. split; [lia|]. split; [lia|]. intros _. exists n. auto.
  Qed.
  Lemma long_word k : word (long st k).
  Proof. apply Z.mod_pos_bound. lia. Qed.
  Lemma half_even k : Z.land (long st k) 0xffffffff = half st (2 * k).
  Proof.
    unfold half. rewrite Nat.even_mul. change (Nat.even 2) with true. cbn [orb]. replace (2 * k / 2)%nat with k by (rewrite Nat.mul_comm, Nat.div_mul by lia; reflexivity).
    change 0xffffffff with (Z.ones 32). apply Z.land_ones. lia.
  Qed.
  Lemma half_odd k : Z.land (Z.shiftr (long st k) 32) 0xffffffff = half st (S (2 * k)).
  Proof.
    unfold half. replace (Nat.even (S (2 * k))) with false by (rewrite Nat.even_succ, <- Nat.negb_even, Nat.even_mul; reflexivity).
    replace (S (2 * k) / 2)%nat with k by (apply (Nat.div_unique (S (2 * k)) 2 k 1); lia). change 0xffffffff with (Z.ones 32). rewrite Z.land_ones, Z.shiftr_div_pow2 by lia.
    pose proof (long_word k) as W. unfold word in W. apply Z.mod_small. split; [apply Z.div_pos; lia|apply Z.div_lt_upper_bound; lia].
  Qed.
  Lemma half_range n : 0 <= half st n < 2 ^ 32.
  Proof.
    unfold half. pose proof (long_word (n / 2)) as W. unfold word in W. destruct (Nat.even n); [apply Z.mod_pos_bound; lia|]. split; [apply Z.div_pos; lia|apply Z.div_lt_upper_bound; lia].
  Qed.
  Lemma fillFrom_ok m : forall k pre rest xs, drawn k xs -> length rest = (2 * m)%nat ->
    exists xs', fillFrom m (Z.of_nat (length pre)) xs (pre ++ rest) = Ok (pre ++ map (half st) (seq (2 * k) (2 * m)), xs') /\ drawn (k + m) xs'.
  Proof.
    induction m as [|m IH]; intros k pre rest xs D L; cbn [fillFrom].
    - exists xs. rewrite Nat.add_0_r. destruct rest; [|cbn in L; lia]. split; [reflexivity|exact D].
    - destruct (next_ok k xs D) as (x1 & E & D1). rewrite E. cbn [obind]. destruct rest as [|r0 [|r1 rest]]; try (cbn in L; lia).
      rewrite half_even, half_odd. rewrite slice_set_mid. cbn [obind].
      replace (pre ++ half st (2 * k) :: r1 :: rest) with ((pre ++ [half st (2 * k)]) ++ r1 :: rest) by (rewrite <- app_assoc; reflexivity).
      replace (Z.of_nat (length pre) + 1) with (Z.of_nat (length (pre ++ [half st (2 * k)]))) by (rewrite app_length; cbn [length]; lia).
      rewrite slice_set_mid. cbn [obind].
      destruct (IH (S k) (pre ++ [half st (2 * k); half st (S (2 * k))]) rest x1 D1 ltac:(cbn [length] in L; lia)) as (x2 & E2 & D2).
      exists x2. split; [|replace (k + S m)%nat with (S k + m)%nat by lia; exact D2].
      replace (Z.of_nat (length pre) + 2) with (Z.of_nat (length (pre ++ [half st (2 * k); half st (S (2 * k))]))) by (rewrite app_length; cbn [length]; lia).
      replace ((pre ++ [half st (2 * k)]) ++ half st (S (2 * k)) :: rest) with ((pre ++ [half st (2 * k); half st (S (2 * k))]) ++ rest) by (rewrite <- !app_assoc; reflexivity).
      rewrite E2. f_equal. f_equal. rewrite <- app_assoc. f_equal. replace (2 * S m)%nat with (S (S (2 * m))) by lia. cbn [seq map app].
      replace (2 * S k)%nat with (S (S (2 * k))) by lia. reflexivity.
  Qed.
  Lemma fill_ok m k xs bits : drawn k xs -> length bits = (2 * m)%nat ->
    exists xs', fill xs bits = Ok (map (half st) (seq (2 * k) (2 * m)), xs') /\ drawn (k + m) xs'.
  Proof.
    intros D L. unfold fill. rewrite L. replace (Z.to_nat ((Z.of_nat (2 * m) + 1) / 2)) with m.
    - exact (fillFrom_ok m k [] bits xs D L).
    - replace ((Z.of_nat (2 * m) + 1) / 2) with (Z.of_nat m) by (apply (Z.div_unique _ 2 _ 1); lia). lia.
  Qed.
  Lemma fillFrom_odd m : forall k i xs bits, drawn k xs -> 0 <= i -> i + 2 * Z.of_nat m = Z.of_nat (length bits) + 1 -> (1 <= m)%nat -> fillFrom m i xs bits = Panic.
  Proof.
    induction m as [|m IH]; intros k i xs bits D Hi HL Hm; [lia|]. cbn [fillFrom]. destruct (next_ok k xs D) as (x1 & E & D1). rewrite E. cbn [obind].
    rewrite slice_set_ok by lia. cbn [obind]. destruct m as [|m].
    - rewrite slice_set_panic by (rewrite list_set_length; lia). reflexivity.
    - rewrite slice_set_ok by (rewrite list_set_length; lia). cbn [obind]. apply (IH (S k)); [exact D1|lia|rewrite !list_set_length; lia|lia].
  Qed.
End run.

(* ---- groups ---- *)
Lemma i32_id z : - 2 ^ 31 <= z < 2 ^ 31 -> i32 z = z.
Proof. intros H. unfold i32. rewrite Z.mod_small by lia. lia. Qed.
Section group.
  Context (a b : Z) (H W h w y0 x0 : nat).
  Notation st := (stf a b).
  Hypothesis HH : Z.of_nat H < 2 ^ 31. Hypothesis HW : Z.of_nat W < 2 ^ 31.
  Hypothesis FH : (y0 + h <= H)%nat. Hypothesis FW : (x0 + w <= W)%nat.
  Lemma put_ok x y bits m : (x < w)%nat -> (y < h)%nat -> length bits = 16%nat -> rect H W m ->
    exists m', putRun (Z.of_nat y0) (Z.of_nat x0) w x y bits m = Ok m' /\ rect H W m' /\
      (forall y' x', (y' <> y0 + y \/ x' < x0 + x \/ x0 + w <= x')%nat -> px m' y' x' = px m y' x') /\
      px m' (y0 + y) (x0 + x) = noiseBits (nth 0 bits 0).
  Proof.
    intros Hx Hy L R. unfold putRun.
    destruct (oloop_inv (fun i m' => rect H W m' /\ (forall y' x', (y' <> y0 + y \/ x' < x0 + x \/ x0 + w <= x')%nat -> px m' y' x' = px m y' x') /\
       ((0 < i)%nat -> px m' (y0 + y)%nat (x0 + x)%nat = noiseBits (nth 0 bits 0)))
       (fun i m => b <o- slice_get bits (Z.of_nat i) ;; set2 m (i32 (Z.of_nat y0 + Z.of_nat y)) (i32 (Z.of_nat x0 + Z.of_nat x + Z.of_nat i)) (noiseBits b)) (Nat.min 16 (w - x)) 0 m) as (m' & E & R' & O & V).
    - split; [exact R|]. split; [reflexivity|lia].
    - intros i m1 Hi (R1 & O1 & V1). rewrite (slice_get_ok bits (Z.of_nat i) 0) by lia. cbn [obind]. rewrite !i32_id by lia. rewrite Nat2Z.id.
      destruct (set2_ok H W m1 (Z.of_nat y0 + Z.of_nat y) (Z.of_nat x0 + Z.of_nat x + Z.of_nat i) (noiseBits (nth i bits 0)) R1 ltac:(lia) ltac:(lia)) as (m2 & E2 & R2 & P2).
      exists m2. split; [exact E2|]. split; [exact R2|]. replace (Z.to_nat (Z.of_nat y0 + Z.of_nat y)) with (y0 + y)%nat in P2 by lia. replace (Z.to_nat (Z.of_nat x0 + Z.of_nat x + Z.of_nat i)) with (x0 + x + i)%nat in P2 by lia.
      split.
      + intros y' x' Ho. rewrite P2. destruct (Nat.eqb_spec y' (y0 + y)), (Nat.eqb_spec x' (x0 + x + i)); cbn [andb]; try (apply O1; exact Ho). lia.
      + intros _. rewrite P2, Nat.eqb_refl. cbn [andb]. destruct (Nat.eqb_spec (x0 + x) (x0 + x + i)); [replace i with 0%nat by lia; reflexivity|apply V1; lia].
    - exists m'. split; [exact E|]. split; [exact R'|]. split; [exact O|]. apply V. lia.
  Qed.

  (* the sample the code leaves at row y and column x of channel c *)
  Definition left (c y x : nat) : Z := noiseBits (half st (16 * ((c * h + y) * w + x))).
  Definition within (y' x' : nat) : Prop := (y0 <= y' < y0 + h)%nat /\ (x0 <= x' < x0 + w)%nat.
  Lemma channel_ok c rng bits m : drawn a b (8 * (c * h * w)) rng -> length bits = 16%nat -> rect H W m ->
    exists rng' bits' m', noiseChannel (Z.of_nat y0) (Z.of_nat x0) h w (rng, bits, m) = Ok (rng', bits', m') /\
      drawn a b (8 * (S c * h * w)) rng' /\ length bits' = 16%nat /\ rect H W m' /\
      (forall y x, (y < h)%nat -> (x < w)%nat -> px m' (y0 + y) (x0 + x) = left c y x) /\
      (forall y' x', ~ within y' x' -> px m' y' x' = px m y' x').
  Proof.
    intros D L R. unfold noiseChannel.
    set (Inv := fun (y x : nat) (s : XorShiro * list Z * list (list Z)) => let '(r, bs, m') := s in
      drawn a b (8 * ((c * h + y) * w + x)) r /\ length bs = 16%nat /\ rect H W m' /\
      (forall y1 x1, (y1 < h)%nat -> (x1 < w)%nat -> (y1 < y \/ y1 = y /\ x1 < x)%nat -> px m' (y0 + y1)%nat (x0 + x1)%nat = left c y1 x1) /\
      (forall y' x', ~ within y' x' -> px m' y' x' = px m y' x')).
    match goal with |- context[oloop h 0 ?g _] => destruct (oloop_inv (fun y s => Inv y 0%nat s) g h 0 (rng, bits, m)) as ([[r1 b1] m1] & E & I1) end.
    - cbn [Inv]. split; [replace ((c * h + 0) * w + 0)%nat with (c * h * w)%nat by lia; exact D|]. split; [exact L|]. split; [exact R|]. split; [intros; lia|reflexivity].
    - intros y s Hy Hs.
      match goal with |- context[oloop w 0 ?g _] => destruct (oloop_inv (fun x s => Inv y x s) g w 0 s Hs) as (s' & E & I1) end.
      + intros x [[r bs] m1] Hx (D1 & L1 & R1 & V1 & O1). destruct (fill_ok a b 8 _ r bs D1 L1) as (r2 & E2 & D2). rewrite E2. cbn [obind].
        set (bits2 := map (half st) _) in *. assert (L2 : length bits2 = 16%nat) by (unfold bits2; rewrite map_length, seq_length; reflexivity).
        destruct (put_ok x y bits2 m1 ltac:(lia) ltac:(lia) L2 R1) as (m2 & E3 & R3 & O3 & V3). rewrite E3. cbn [obind]. eexists. split; [reflexivity|].
        split; [replace (8 * ((c * h + y) * w + S x))%nat with (8 * ((c * h + y) * w + x) + 8)%nat by lia; exact D2|]. split; [exact L2|]. split; [exact R3|]. split.
        * intros y1 x1 Hy1 Hx1 Hb. destruct (Nat.eq_dec y1 y) as [->|Ny]; [destruct (Nat.eq_dec x1 x) as [->|Nx]|].
          -- rewrite V3. unfold left, bits2. change (2 * 8)%nat with 16%nat. cbn [seq map nth]. f_equal. f_equal. lia.
          -- rewrite O3 by lia. apply V1; lia.
          -- rewrite O3 by lia. apply V1; lia.
        * intros y' x' Hn. rewrite O3; [apply O1; exact Hn|]. unfold within in Hn. lia.
      + exists s'. split; [exact E|]. destruct s' as [[r bs] m1]. cbn [Inv plus] in I1 |- *. destruct I1 as (D1 & L1 & R1 & V1 & O1).
        split; [replace ((c * h + S y) * w + 0)%nat with ((c * h + y) * w + w)%nat by lia; exact D1|]. split; [exact L1|]. split; [exact R1|]. split; [|exact O1].
        intros y1 x1 Hy1 Hx1 Hb. apply V1; lia.
    - exists r1, b1, m1. split; [exact E|]. cbn [Inv plus] in I1. destruct I1 as (D1 & L1 & R1 & V1 & O1).
      split; [replace (S c * h * w)%nat with ((c * h + h) * w + 0)%nat by lia; exact D1|]. split; [exact L1|]. split; [exact R1|]. split; [|exact O1]. intros y x Hy Hx. apply V1; lia.
  Qed.
End group.

Lemma group_ok gd width height seed0 m0 m1 m2 x0 y0 H W h w :
  Z.of_nat H < 2 ^ 31 -> Z.of_nat W < 2 ^ 31 -> (1 <= h)%nat -> (1 <= w)%nat -> (y0 + h <= H)%nat -> (x0 + w <= W)%nat ->
  Z.of_nat x0 <= width < 2 ^ 32 -> Z.of_nat y0 <= height < 2 ^ 32 -> Z.of_nat w = Z.min gd (width - Z.of_nat x0) -> Z.of_nat h = Z.min gd (height - Z.of_nat y0) ->
  rect H W m0 -> rect H W m1 -> rect H W m2 ->
  let seed1 := Z.of_nat x0 * 2 ^ 32 + Z.of_nat y0 in
  exists rng n0 n1 n2, NewNoiseGroupWithHeader gd width height seed0 [m0; m1; m2] (Z.of_nat x0) (Z.of_nat y0) = Ok (rng, [n0; n1; n2]) /\
    drawn seed0 seed1 (8 * (3 * h * w)) rng /\
    forall c m n, nth_error [m0; m1; m2] c = Some m -> nth_error [n0; n1; n2] c = Some n ->
      rect H W n /\ (forall y x, (y < h)%nat -> (x < w)%nat -> px n (y0 + y) (x0 + x) = left seed0 seed1 h w c y x) /\
      (forall y' x', ~ within h w y0 x0 y' x' -> px n y' x' = px m y' x').
Proof.
  intros HH HW Hh Hw FH FW Bw Bh Ew Eh R0 R1 R2 seed1. unfold NewNoiseGroupWithHeader.
  assert (U : forall z v, 0 <= z <= v -> v < 2 ^ 32 -> u32 (v - u32 z) = v - z) by (intros z v Hz Hv; unfold u32; rewrite (Z.mod_small z) by lia; apply Z.mod_small; lia).
  rewrite !U by lia. rewrite <- Ew, <- Eh. cbv zeta.
  assert (ES : Z.lor (i64 (Z.shiftl (Z.of_nat x0) 32)) (Z.of_nat y0) = seed1).
  { rewrite Z.shiftl_mul_pow2 by lia. unfold i64. rewrite Z.mod_small by lia. replace (Z.of_nat x0 * 2 ^ 32 + 2 ^ 63 - 2 ^ 63) with (Z.of_nat x0 * 2 ^ 32) by lia. apply lor_add; lia. }
  rewrite ES. rewrite new_ok. cbn [obind]. replace (Z.of_nat h =? 0) with false by lia. replace (Z.of_nat w =? 0) with false by lia. cbn [orb]. rewrite !Nat2Z.id. cbn [oloop].
  change (slice_get [m0; m1; m2] (Z.of_nat 0)) with (Ok m0). cbn [obind].
  destruct (channel_ok seed0 seed1 H W h w y0 x0 HH HW FH FW 0 _ (repeat 0 16) m0 (drawn_0 seed0 seed1) eq_refl R0) as (r0 & b0 & n0 & E0 & D0 & L0 & Q0 & V0 & O0). rewrite E0. cbn [obind].
  change (slice_set [m0; m1; m2] (Z.of_nat 0) n0) with (Ok [n0; m1; m2]). cbn [obind]. change (slice_get [n0; m1; m2] (Z.of_nat 1)) with (Ok m1). cbn [obind].
  destruct (channel_ok seed0 seed1 H W h w y0 x0 HH HW FH FW 1 r0 b0 m1 D0 L0 R1) as (r1 & b1 & n1 & E1 & D1 & L1 & Q1 & V1 & O1). rewrite E1. cbn [obind].
  change (slice_set [n0; m1; m2] (Z.of_nat 1) n1) with (Ok [n0; n1; m2]). cbn [obind]. change (slice_get [n0; n1; m2] (Z.of_nat 2)) with (Ok m2). cbn [obind].
  destruct (channel_ok seed0 seed1 H W h w y0 x0 HH HW FH FW 2 r1 b1 m2 D1 L1 R2) as (r2 & b2 & n2 & E2 & D2 & L2 & Q2 & V2 & O2). rewrite E2. cbn [obind].
  change (slice_set [n0; n1; m2] (Z.of_nat 2) n2) with (Ok [n0; n1; n2]). cbn [obind]. exists r2, n0, n1, n2. split; [reflexivity|]. split; [exact D2|].
  intros c m n Em En. destruct c as [|[|[|c]]]; cbn in Em, En; [injection Em as <-; injection En as <-; auto|injection Em as <-; injection En as <-; auto|injection Em as <-; injection En as <-; auto|destruct c; discriminate].
Qed.
