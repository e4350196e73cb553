(* Lemmas: ICC profiles sent as tags and data commands are decoded. *)
From Coq Require Import ZArith List Bool Lia Arith ZifyBool ZifyNat.
From Verif Require Import GoBase GoLoop Bits ModelBitReader ModelUtil ModelICC SpecBitReader SpecCodes SpecICC SpecICCTags
  ProofBitReader ProofBitReader2 ProofCodes ProofUtil ProofICC.
Import ListNotations.
Open Scope Z_scope.

(* ---- state: output O of N bytes ---- *)
Definition st (c d : BR) (O : list Z) (N : nat) : ICS := mkICS c d (O ++ repeat 0 (N - length O)) (Z.of_nat (length O)).

Lemma ibind_ok {A B} (m : IM A) (f : A -> IM B) s a s' : m s = (Ok a, s') -> ibind m f s = f a s'.
Proof. intros H. unfold ibind. now rewrite H. Qed.

Lemma put_st c d O N v : (length O < N)%nat -> Z.of_nat N < 2 ^ 31 ->
  put v (st c d O N) = (Ok tt, st c d (O ++ [u8 v]) N).
Proof.
  intros H1 H2. unfold put, st. cbn [ic_c ic_d ic_buf ic_pos].
  rewrite slice_set_ok by (rewrite app_length, repeat_length; lia).
  rewrite Nat2Z.id. replace (N - length O)%nat with (S (N - length (O ++ [u8 v]))) by (rewrite app_length; cbn [length]; lia).
  cbn [repeat]. rewrite list_set_app. rewrite i32_small by lia. rewrite <- app_assoc. cbn [app].
  do 2 f_equal. rewrite app_length. cbn [length]. lia.
Qed.
Lemma putAll_st c d N l : forall O, (length O + length l <= N)%nat -> Z.of_nat N < 2 ^ 31 ->
  putAll l (st c d O N) = (Ok tt, st c d (O ++ map u8 l) N).
Proof.
  induction l as [|v l IH]; intros O H1 H2; cbn [putAll map].
  - now rewrite app_nil_r.
  - cbn [length] in H1. erewrite ibind_ok by (apply put_st; lia).
    rewrite IH by (try rewrite app_length; cbn [length]; lia). now rewrite <- app_assoc.
Qed.
Lemma u8_byte v : is_byte v -> u8 v = v.
Proof. intros H. unfold u8. apply Z.mod_small. exact H. Qed.
Lemma map_u8 l : Forall is_byte l -> map u8 l = l.
Proof. induction 1; cbn [map]; [reflexivity|]. now rewrite u8_byte, IHForall. Qed.
Lemma bytes4_u8 v : map u8 [Z.shiftr v 24; Z.shiftr v 16; Z.shiftr v 8; v] = bytes4 v.
Proof. unfold bytes4. cbn [map]. unfold u8. rewrite !Z.shiftr_div_pow2 by lia. reflexivity. Qed.
Lemma div_eqm z k w : 0 <= w <= 24 -> (z + k * 2 ^ 32) / 2 ^ w mod 256 = z / 2 ^ w mod 256.
Proof.
  intros H. replace (z + k * 2 ^ 32) with (z + (k * 2 ^ (24 - w) * 256) * 2 ^ w).
  - rewrite Z.div_add by (apply Z.pow_nonzero; lia). apply Z.mod_add. lia.
  - replace (2 ^ 32) with (2 ^ (24 - w) * 2 ^ w * 256); [ring|].
    rewrite <- Z.pow_add_r by lia. replace (24 - w + w) with 24 by lia. reflexivity.
Qed.
Lemma bytes4_i32 v : bytes4 (i32 v) = bytes4 v.
Proof.
  destruct (i32_eqm v) as (k & ->). unfold bytes4.
  rewrite !div_eqm by lia. pose proof (div_eqm v k 0 ltac:(lia)) as E. rewrite Z.pow_0_r, !Z.div_1_r in E. now rewrite E.
Qed.
Lemma put32_st c d O N v : (length O + 4 <= N)%nat -> Z.of_nat N < 2 ^ 31 ->
  put32 v (st c d O N) = (Ok tt, st c d (O ++ bytes4 v) N).
Proof. intros H1 H2. unfold put32. rewrite putAll_st by (cbn [length]; lia). now rewrite bytes4_u8. Qed.
Lemma advance_st c d O N : (length O + 4 <= N)%nat -> Z.of_nat N < 2 ^ 31 ->
  advance 4 (st c d O N) = (Ok tt, st c d (O ++ [0; 0; 0; 0]) N).
Proof.
  intros H1 H2. unfold advance, st. cbn [ic_c ic_d ic_buf ic_pos]. rewrite i32_small by lia. rewrite <- app_assoc.
  replace (N - length O)%nat with (S (S (S (S (N - length (O ++ [0%Z; 0%Z; 0%Z; 0%Z])))))) by (rewrite app_length; cbn [length]; lia).
  cbn [repeat app]. do 2 f_equal. rewrite app_length. cbn [length]. lia.
Qed.
Lemma copyInto_st c d O N b : (length O + length b <= N)%nat -> Z.of_nat N < 2 ^ 31 ->
  copyInto b (st c d O N) = (Ok tt, st c d (O ++ b) N).
Proof.
  intros H1 H2. unfold copyInto, st. cbn [ic_c ic_d ic_buf ic_pos].
  rewrite app_length, repeat_length.
  replace ((Z.of_nat (length O) <? 0) || (Z.of_nat (length O + (N - length O)) <? Z.of_nat (length O))) with false by lia.
  rewrite Nat2Z.id. replace (Nat.min (length b) (length O + (N - length O) - length O)) with (length b) by lia.
  rewrite (i32_small (Z.of_nat (length b))) by lia. rewrite i32_small by lia.
  rewrite firstn_app, firstn_all, Nat.sub_diag. cbn [firstn]. rewrite app_nil_r. rewrite firstn_all.
  rewrite skipn_app, skipn_all2 by lia. cbn [app]. rewrite <- app_assoc.
  do 3 f_equal; [f_equal|]; rewrite ?app_length; try lia.
  replace (N - length O)%nat with ((length O + length b - length O) + (N - (length O + length b)))%nat at 1 by lia.
  rewrite repeat_app, skipn_app, skipn_all2 by (rewrite repeat_length; lia).
  rewrite repeat_length, Nat.sub_diag. reflexivity.
Qed.

(* ---- readers ---- *)
Lemma cmd8 E a x z d O N : E = a ++ x :: z -> Forall is_byte E -> Z.of_nat (length E) < 2 ^ 31 ->
  cmd (ReadBits 8) (st (brk E (length a)) d O N) = (Ok x, st (brk E (length (a ++ [x]))) d O N).
Proof.
  intros HE Hb Hl. unfold cmd, st. cbn [ic_c ic_d ic_buf ic_pos].
  assert (Hx : nth (length a) E 0 = x) by (rewrite HE, app_nth2, Nat.sub_diag by lia; reflexivity).
  rewrite rb8; [|rewrite HE, app_length; cbn [length]; lia|now apply byte_nth|subst E; rewrite app_length in Hl; lia].
  rewrite Hx. do 2 f_equal. rewrite app_length. cbn [length]. now rewrite Nat.add_1_r.
Qed.
Lemma cmdv E a l z v d O N : E = a ++ l ++ z -> varint l v -> v < 2 ^ 31 -> Forall is_byte E -> Z.of_nat (length E) < 2 ^ 31 ->
  cmd ReadICCVarint (st (brk E (length a)) d O N) = (Ok v, st (brk E (length (a ++ l))) d O N).
Proof.
  intros HE Hv Hv2 Hb Hl. unfold cmd, st. cbn [ic_c ic_d ic_buf ic_pos]. subst E.
  rewrite (varint_brk l v a z) by (auto; lia). now rewrite app_length.
Qed.
Lemma datBytes_st c D N O x : forall b z, D = b ++ x ++ z -> Forall is_byte D -> Z.of_nat (length D) < 2 ^ 31 ->
  datBytes (length x) (st c (brk D (length b)) O N) = (Ok x, st c (brk D (length (b ++ x))) O N).
Proof.
  induction x as [|v x IH]; intros b z HD Hb Hl; cbn [length datBytes].
  - rewrite app_nil_r. reflexivity.
  - assert (Hx : nth (length b) D 0 = v) by (rewrite HD, app_nth2, Nat.sub_diag by lia; reflexivity).
    assert (Hv : is_byte v) by (rewrite <- Hx; now apply byte_nth).
    assert (R : dat (ReadBits 8) (st c (brk D (length b)) O N) = (Ok v, st c (brk D (length (b ++ [v]))) O N)).
    { unfold dat, st. cbn [ic_c ic_d ic_buf ic_pos].
      rewrite rb8; [|rewrite HD, app_length; cbn [length app]; lia|now apply byte_nth|].
      - rewrite Hx. do 2 f_equal. rewrite app_length. cbn [length]. now rewrite Nat.add_1_r.
      - rewrite HD, !app_length in Hl. cbn [length] in Hl. lia. }
    erewrite ibind_ok by exact R.
    assert (HD2 : D = (b ++ [v]) ++ x ++ z) by (rewrite HD, <- app_assoc; reflexivity).
    erewrite ibind_ok by (eapply IH; eauto). rewrite <- app_assoc. cbn [app]. now rewrite u8_byte.
Qed.
Lemma copyData_st c D N x : forall O b z, D = b ++ x ++ z -> Forall is_byte D -> Z.of_nat (length D) < 2 ^ 31 ->
  (length O + length x <= N)%nat -> Z.of_nat N < 2 ^ 31 ->
  copyData (length x) (st c (brk D (length b)) O N) = (Ok tt, st c (brk D (length (b ++ x))) (O ++ x) N).
Proof.
  induction x as [|v x IH]; intros O b z HD Hb Hl HN HN2; cbn [length copyData].
  - rewrite !app_nil_r. reflexivity.
  - assert (R : datBytes 1 (st c (brk D (length b)) O N) = (Ok [v], st c (brk D (length (b ++ [v]))) O N))
      by (apply (datBytes_st c D N O [v] b (x ++ z)); auto).
    assert (Hv : is_byte v).
    { assert (Hx : nth (length b) D 0 = v) by (rewrite HD, app_nth2, Nat.sub_diag by lia; reflexivity).
      rewrite <- Hx. now apply byte_nth. }
    assert (R2 : dat (ReadBits 8) (st c (brk D (length b)) O N) = (Ok v, st c (brk D (length (b ++ [v]))) O N)).
    { cbn [datBytes] in R. unfold ibind, iret in R. destruct (dat (ReadBits 8) _) as [[y| |] s'] eqn:E; try discriminate.
      injection R as Ey Es. f_equal; [|exact Es]. f_equal. rewrite <- Ey. symmetry. apply u8_byte.
      revert E. unfold dat, st. cbn [ic_c ic_d ic_buf ic_pos].
      rewrite rb8; [|rewrite HD, app_length; cbn [length app]; lia|now apply byte_nth|].
      - intros E. injection E as <- _. now apply byte_nth.
      - rewrite HD, !app_length in Hl. cbn [length] in Hl. lia. }
    erewrite ibind_ok by exact R2. cbn [length] in HN.
    erewrite ibind_ok by (apply put_st; lia). rewrite u8_byte by auto.
    assert (HD2 : D = (b ++ [v]) ++ x ++ z) by (rewrite HD, <- app_assoc; reflexivity).
    rewrite (IH (O ++ [v]) (b ++ [v]) z) by (auto; rewrite ?app_length; cbn [length]; lia).
    now rewrite <- !app_assoc.
Qed.
Lemma more_st E a cs z d O N : E = a ++ cs ++ z -> Forall is_byte E -> Z.of_nat (length E) < 2 ^ 31 ->
  moreCommands (Z.of_nat (length (a ++ cs))) (st (brk E (length a)) d O N) =
  (Ok (negb (length cs =? 0)%nat), st (brk E (length a)) d O N).
Proof.
  intros HE Hb Hl. unfold st. rewrite more_ok; auto; try (rewrite HE, !app_length; lia).
  do 2 f_equal. rewrite app_length. lia.
Qed.

(* ---- shuffles ---- *)
Lemma deinterleaved_unique b r r' w h : deinterleaved b r w h -> deinterleaved b r' w h -> r = r'.
Proof.
  intros [L1 N1] [L2 N2]. apply (nth_ext _ _ 0 0); [congruence|]. intros n Hn.
  rewrite N1, N2 by lia. reflexivity.
Qed.
Lemma shuffled_length x w r : shuffled x w r -> length r = length x.
Proof. intros H. destruct H as [|r [L _]|r _ [L _]]; auto. Qed.
Lemma shuffle_sent x w r : shuffled x w r -> w <> 1%nat -> Z.of_nat (length x) < 2 ^ 29 -> shuffle x (Z.of_nat w) = Ok r.
Proof.
  intros H Hw Hl. destruct H as [|r D|r K D]; [now elim Hw| |].
  - destruct (shuffle_width2 x Hl) as (r' & E & D' & _). change (Z.of_nat 2) with 2. rewrite E. f_equal.
    eapply deinterleaved_unique; eauto.
  - destruct (shuffle_width4 x Hl) as (r' & E & D' & _); [tauto|]. change (Z.of_nat 4) with 4. rewrite E. f_equal.
    eapply deinterleaved_unique; eauto.
Qed.
Lemma shuffled_bytes x w r : shuffled x w r -> Forall is_byte x -> Forall is_byte r.
Proof.
  intros H Hb. destruct H as [|r [L H]|r _ [L H]]; auto;
  apply Forall_forall; intros v Hv; apply (In_nth _ _ 0) in Hv; destruct Hv as (n & Hn & <-);
  rewrite H by lia; now apply byte_nth.
Qed.

(* ---- prediction ---- *)
Lemma i32_shift_add a v : is_byte v -> Z.lor (i32 (Z.shiftl (i32 a) 8)) (Z.land v 255) = i32 (256 * a + v).
Proof.
  intros H. unfold is_byte in H. change 255 with (Z.ones 8). rewrite Z.land_ones by lia. rewrite Z.mod_small by lia.
  rewrite Z.shiftl_mul_pow2 by lia. change (2 ^ 8) with 256.
  set (b := i32 (i32 a * 256)).
  assert (Eb : exists q, b = q * 2 ^ 8 /\ - 2 ^ 23 <= q < 2 ^ 23 /\ exists k, q * 256 = 256 * a + k * 2 ^ 32).
  { destruct (i32_eqm a) as (k1 & E1). destruct (i32_eqm (i32 a * 256)) as (k2 & E2).
    exists (i32 a + k2 * 2 ^ 24). unfold b. split; [lia|]. split.
    - assert (- 2 ^ 31 <= i32 (i32 a * 256) < 2 ^ 31).
      { unfold i32 at 1 3. pose proof (Z.mod_pos_bound (i32 a * 256 + 2 ^ 31) (2 ^ 32) ltac:(lia)). lia. }
      lia.
    - exists (256 * k1 + k2). rewrite E1. lia. }
  destruct Eb as (q & E & Hq & k & Ek). rewrite E.
  assert (A : Z.lor (q * 2 ^ 8) v = q * 2 ^ 8 + v).
  { assert (L : Z.land (q * 2 ^ 8) v = 0).
    { apply Z.bits_inj'. intros n Hn. rewrite Z.land_spec, Z.bits_0.
      rewrite <- Z.shiftl_mul_pow2 by lia. destruct (Z.lt_ge_cases n 8).
      - rewrite Z.shiftl_spec_low by lia. reflexivity.
      - rewrite andb_comm. rewrite <- (Z.mod_small v (2 ^ 8)) by lia. rewrite Z.mod_pow2_bits_high by lia. reflexivity. }
    rewrite <- Z.lxor_lor by exact L. symmetry. apply Z.add_nocarry_lxor, L. }
  rewrite A. change (2 ^ 8) with 256. unfold i32.
  replace (256 * a + v + 2 ^ 31) with (q * 256 + v + 2 ^ 31 + (- k) * 2 ^ 32) by lia.
  rewrite Z.mod_add by lia. rewrite Z.mod_small by lia. lia.
Qed.

Lemma prevValue_ok l p : Forall is_byte l -> Z.of_nat (length l) < 2 ^ 31 -> forall w k a,
  (p + k + w <= length l)%nat ->
  prevValue w (Z.of_nat k) (Z.of_nat p) (i32 a) l =
  Ok (i32 (fold_left (fun a b => 256 * a + b) (firstn w (skipn (p + k) l)) a)).
Proof.
  intros Hb Hl. induction w as [|w IH]; intros k a H; cbn [prevValue]; [reflexivity|].
  rewrite i32_small by lia. rewrite (slice_get_ok l _ 0) by lia.
  replace (Z.to_nat (Z.of_nat p + Z.of_nat k)) with (p + k)%nat by lia. cbn [obind].
  rewrite i32_shift_add by (now apply byte_nth). replace (Z.of_nat k + 1) with (Z.of_nat (S k)) by lia.
  rewrite IH by lia. do 2 f_equal.
  assert (E : skipn (p + k) l = nth (p + k) l 0 :: skipn (p + S k) l).
  { replace (p + S k)%nat with (S (p + k)) by lia.
    assert (Hpk : (p + k < length l)%nat) by lia. revert Hpk. generalize (p + k)%nat. clear.
    induction l as [|x l IH]; intros n Hn; cbn [length] in Hn; [lia|]. destruct n; cbn [skipn nth]; [reflexivity|].
    apply IH. lia. }
  rewrite E. reflexivity.
Qed.

Lemma zeros_bytes n : Forall is_byte (repeat 0 n).
Proof. induction n; cbn; constructor; auto. unfold is_byte; lia. Qed.
Lemma prevAt_st c d O N w stride k : Forall is_byte O -> Z.of_nat N < 2 ^ 29 -> (length O <= N)%nat ->
  (w <= stride)%nat -> (4 * stride < length O)%nat -> (k < 3)%nat ->
  prevAt (Z.of_nat w) (Z.of_nat stride) (Z.of_nat k) (st c d O N) = Ok (i32 (behind O w stride (S k))).
Proof.
  intros Hb HN HO Hw Hs Hk. unfold prevAt, st. cbn [ic_pos ic_buf]. rewrite Nat2Z.id.
  replace (Z.of_nat stride * (Z.of_nat k + 1)) with (Z.of_nat (S k * stride)) by lia.
  assert (B : (S k * stride <= 3 * stride)%nat) by (apply Nat.mul_le_mono_r; lia).
  rewrite (i32_small (Z.of_nat (S k * stride))) by lia. rewrite i32_small by lia.
  replace (Z.of_nat (length O) - Z.of_nat (S k * stride)) with (Z.of_nat (length O - S k * stride)) by lia.
  change 0 with (Z.of_nat 0) at 1. replace 0 with (i32 0) at 1 by reflexivity.
  assert (B2 : (stride <= S k * stride)%nat) by (cbn; lia).
  rewrite prevValue_ok.
  - rewrite Nat.add_0_r. unfold behind, number. do 3 f_equal.
    rewrite skipn_app. replace (length O - S k * stride - length O)%nat with 0%nat by lia. cbn [skipn].
    rewrite firstn_app. rewrite skipn_length. replace (w - (length O - (length O - S k * stride)))%nat with 0%nat by lia.
    cbn [firstn]. now rewrite app_nil_r.
  - apply Forall_app. split; [exact Hb|apply zeros_bytes].
  - rewrite app_length, repeat_length. lia.
  - rewrite app_length, repeat_length. lia.
Qed.

Lemma putPredicted_st c d N w i p p' b : (w <= 4)%nat -> Z.of_nat N < 2 ^ 31 -> (exists k, p = p' + k * 2 ^ 32) ->
  forall n j O, (n + j = w)%nat ->
  (length O + Nat.min n (length b - i - j) <= N)%nat ->
  putPredicted n (Z.of_nat j) (Z.of_nat i) (Z.of_nat w) p b (st c d O N) =
  (Ok tt, st c d (O ++ map (fun t => (nth (i + t) b 0 + p' / 256 ^ Z.of_nat (w - 1 - t)) mod 256)
                           (seq j (Nat.min n (length b - i - j)))) N).
Proof.
  intros Hw HN (k & Ep). induction n as [|n IH]; intros j O Hn HO; cbn [putPredicted].
  - cbn [Nat.min seq map]. now rewrite app_nil_r.
  - destruct (Z.leb_spec (Z.of_nat (length b)) (Z.of_nat i + Z.of_nat j)) as [E|E].
    + replace (length b - i - j)%nat with 0%nat by lia. cbn [Nat.min seq map]. now rewrite app_nil_r.
    + assert (M : Nat.min (S n) (length b - i - j) = S (Nat.min n (length b - i - S j))) by lia.
      rewrite M in HO |- *. cbn [seq map].
      erewrite ibind_ok by (unfold ilift; rewrite (slice_get_ok b _ 0) by lia; reflexivity).
      erewrite ibind_ok by (apply put_st; lia).
      replace (Z.to_nat (Z.of_nat i + Z.of_nat j)) with (i + j)%nat by lia.
      assert (V : u8 (u8 (nth (i + j) b 0 + u8 (Z.shiftr p (8 * (Z.of_nat w - 1 - Z.of_nat j))))) =
                  (nth (i + j) b 0 + p' / 256 ^ Z.of_nat (w - 1 - j)) mod 256).
      { unfold u8. change (2 ^ 8) with 256. rewrite Z.mod_mod by lia. rewrite Zplus_mod_idemp_r.
        rewrite Z.shiftr_div_pow2 by lia. replace (Z.of_nat w - 1 - Z.of_nat j) with (Z.of_nat (w - 1 - j)) by lia.
        rewrite <- (Zplus_mod_idemp_r (p / _)), <- (Zplus_mod_idemp_r (p' / _)). f_equal. f_equal. rewrite Ep.
        rewrite div_eqm by lia. f_equal. f_equal. rewrite Z.pow_mul_r by lia. reflexivity. }
      rewrite V. replace (Z.of_nat j + 1) with (Z.of_nat (S j)) by lia.
      rewrite IH; [|lia|rewrite app_length; cbn [length]; lia].
      now rewrite <- app_assoc.
Qed.

Lemma eqm_i32_lin : forall order v1 v2 v3, (order <= 2)%nat ->
  exists k, (if Z.of_nat order =? 0 then i32 v1
             else if Z.of_nat order =? 1 then i32 (i32 (2 * i32 v1) - i32 v2)
             else i32 (i32 (i32 (3 * i32 v1) - i32 (3 * i32 v2)) + i32 v3)) = extrapolated order v1 v2 v3 + k * 2 ^ 32.
Proof.
  intros order v1 v2 v3 H.
  destruct (i32_eqm v1) as (k1 & ->). destruct (i32_eqm v2) as (k2 & ->). destruct (i32_eqm v3) as (k3 & ->).
  destruct order as [|[|[|n]]]; [| | |lia]; cbn [extrapolated];
    [change (Z.of_nat 0 =? 0) with true|change (Z.of_nat 1 =? 0) with false; change (Z.of_nat 1 =? 1) with true|
     change (Z.of_nat 2 =? 0) with false; change (Z.of_nat 2 =? 1) with false]; cbv iota.
  - exists k1. reflexivity.
  - destruct (i32_eqm (2 * (v1 + k1 * 2 ^ 32))) as (k4 & ->). destruct (i32_eqm (2 * (v1 + k1 * 2 ^ 32) + k4 * 2 ^ 32 - (v2 + k2 * 2 ^ 32))) as (k5 & ->).
    exists (2 * k1 + k4 - k2 + k5). lia.
  - destruct (i32_eqm (3 * (v1 + k1 * 2 ^ 32))) as (k4 & ->). destruct (i32_eqm (3 * (v2 + k2 * 2 ^ 32))) as (k5 & ->).
    match goal with |- exists k, i32 (i32 ?a + ?b) = _ => destruct (i32_eqm a) as (k6 & E6); rewrite E6; destruct (i32_eqm (a + k6 * 2 ^ 32 + b)) as (k7 & ->) end.
    exists (3 * k1 + k4 - 3 * k2 - k5 + k6 + k3 + k7). lia.
Qed.

Lemma corrected_length w p e : length (corrected w p e) = length e.
Proof. unfold corrected. now rewrite map_length, seq_length. Qed.
Lemma corrected_bytes w p e : Forall is_byte (corrected w p e).
Proof.
  unfold corrected. apply Forall_forall. intros v Hv. apply in_map_iff in Hv. destruct Hv as (j & <- & _).
  unfold is_byte. apply Z.mod_pos_bound. lia.
Qed.
Lemma predicted_grows w stride order O r O' : predicted w stride order O r O' ->
  (length O' = length O + length r)%nat /\ (Forall is_byte O -> Forall is_byte O').
Proof.
  induction 1 as [O|O e He|O e r P He H [IL IB]].
  - cbn [length]. split; [lia|auto].
  - rewrite app_length, corrected_length. split; [lia|]. intros. apply Forall_app. split; auto using corrected_bytes.
  - rewrite IL, !app_length, corrected_length. split; [lia|]. intros. apply IB. apply Forall_app.
    split; auto using corrected_bytes.
Qed.

(* one number *)
Lemma predict_step c d N w stride order O pre e post f :
  (1 <= w <= 4)%nat -> (order <= 2)%nat -> Forall is_byte O -> Z.of_nat N < 2 ^ 29 ->
  (w <= stride)%nat -> (4 * stride < length O)%nat ->
  (length O + length e + length post <= N)%nat -> (length pre + length e + length post <= N)%nat -> (0 < length e <= w)%nat -> (length e < w -> post = [])%nat ->
  predictLoop (S f) (Z.of_nat (length pre)) (Z.of_nat w) (Z.of_nat stride) (Z.of_nat order) (pre ++ e ++ post) (st c d O N) =
  predictLoop f (Z.of_nat (length pre + w)) (Z.of_nat w) (Z.of_nat stride) (Z.of_nat order) (pre ++ e ++ post)
    (st c d (O ++ corrected w (expected O w stride order) e) N).
Proof.
  intros Hw Ho Hb HN Hs1 Hs2 HO Hp He Hpost. cbn [predictLoop].
  replace (Z.of_nat (length (pre ++ e ++ post)) <=? Z.of_nat (length pre)) with false by (rewrite !app_length; lia).
  set (s := st c d O N).
  assert (A : forall k, (k < 3)%nat -> prevAt (Z.of_nat w) (Z.of_nat stride) (Z.of_nat k) s = Ok (i32 (behind O w stride (S k)))).
  { intros k Hk. apply prevAt_st; auto. lia. }
  pose proof (A 0%nat ltac:(lia)) as A0. change (Z.of_nat 0) with 0 in A0.
  erewrite ibind_ok by (unfold ilift; rewrite A0; reflexivity).
  set (v1 := behind O w stride 1). set (v2 := behind O w stride 2). set (v3 := behind O w stride 3).
  assert (A1 : exists q1, (if 1 <=? Z.of_nat order then ilift (prevAt (Z.of_nat w) (Z.of_nat stride) 1) else iret 0) s = (Ok q1, s) /\
     ((1 <= order)%nat -> q1 = i32 v2)).
  { destruct (Z.leb_spec 1 (Z.of_nat order)) as [K|K].
    - exists (i32 v2). split; [|auto]. unfold ilift. pose proof (A 1%nat ltac:(lia)) as E. change (Z.of_nat 1) with 1 in E. now rewrite E.
    - exists 0. split; [reflexivity|lia]. }
  destruct A1 as (q1 & E1 & V1). erewrite ibind_ok by exact E1.
  assert (A2 : exists q2, (if 2 <=? Z.of_nat order then ilift (prevAt (Z.of_nat w) (Z.of_nat stride) 2) else iret 0) s = (Ok q2, s) /\
     ((2 <= order)%nat -> q2 = i32 v3)).
  { destruct (Z.leb_spec 2 (Z.of_nat order)) as [K|K].
    - exists (i32 v3). split; [|auto]. unfold ilift. pose proof (A 2%nat ltac:(lia)) as E. change (Z.of_nat 2) with 2 in E. now rewrite E.
    - exists 0. split; [reflexivity|lia]. }
  destruct A2 as (q2 & E2 & V2). erewrite ibind_ok by exact E2. cbv zeta.
  assert (EP : exists k, (if Z.of_nat order =? 0 then i32 v1
             else if Z.of_nat order =? 1 then i32 (i32 (2 * i32 v1) - q1)
             else i32 (i32 (i32 (3 * i32 v1) - i32 (3 * q1)) + q2)) = expected O w stride order + k * 2 ^ 32).
  { destruct (eqm_i32_lin order v1 v2 v3 Ho) as (k & E). exists k. unfold expected. fold v1 v2 v3. rewrite <- E.
    destruct (Z.eqb_spec (Z.of_nat order) 0); [reflexivity|]. rewrite (V1 ltac:(lia)).
    destruct (Z.eqb_spec (Z.of_nat order) 1); [reflexivity|]. now rewrite (V2 ltac:(lia)). }
  fold v1. set (pm := if Z.of_nat order =? 0 then i32 v1 else _) in *.
  rewrite Nat2Z.id.
  assert (LM : Nat.min w (length (pre ++ e ++ post) - length pre - 0) = length e).
  { rewrite !app_length. destruct (Nat.lt_ge_cases (length e) w) as [L|L]; [rewrite (Hpost L); cbn [length]; lia|lia]. }
  change (predictLoop f (i32 (Z.of_nat (length pre) + Z.of_nat w))) with (predictLoop f (i32 (Z.of_nat (length pre) + Z.of_nat w))).
  erewrite ibind_ok.
  2:{ change 0 with (Z.of_nat 0). unfold s. apply (putPredicted_st c d N w (length pre) pm (expected O w stride order)); try lia; auto. }
  rewrite i32_small by lia. replace (Z.of_nat (length pre) + Z.of_nat w) with (Z.of_nat (length pre + w)) by lia.
  f_equal. f_equal. f_equal. rewrite LM. unfold corrected. apply map_ext_in. intros t Ht. apply in_seq in Ht.
  f_equal. f_equal. rewrite app_nth2 by lia. replace (length pre + t - length pre)%nat with t by lia. apply app_nth1. lia.
Qed.

Lemma predict_st c d N w stride order : (1 <= w <= 4)%nat -> (order <= 2)%nat -> Z.of_nat N < 2 ^ 29 -> (w <= stride)%nat ->
  forall O r O', predicted w stride order O r O' -> forall pre f, Forall is_byte O -> (4 * stride < length O)%nat ->
  (length O' <= N)%nat -> (length pre + length r <= N)%nat -> (length r < f)%nat ->
  predictLoop f (Z.of_nat (length pre)) (Z.of_nat w) (Z.of_nat stride) (Z.of_nat order) (pre ++ r) (st c d O N) =
  (Ok tt, st c d O' N).
Proof.
  intros Hw Ho HN Hs O r O' H. induction H as [O|O e He|O e r P He H IH]; intros pre f Hb HO HP Hpre Hf.
  - destruct f as [|f]; [cbn in Hf; lia|]. cbn [predictLoop]. rewrite app_nil_r, Z.leb_refl. reflexivity.
  - destruct f as [|f]; [lia|]. rewrite app_length, corrected_length in HP.
    rewrite <- (app_nil_r e) at 1. rewrite predict_step; auto; cbn [length]; try lia.
    destruct f as [|f]; [lia|]. cbn [predictLoop].
    replace (Z.of_nat (length (pre ++ e ++ [])) <=? Z.of_nat (length pre + w)) with true by (rewrite !app_length; cbn [length]; lia).
    reflexivity.
  - destruct f as [|f]; [lia|]. rewrite app_length in *.
    destruct (predicted_grows _ _ _ _ _ _ H) as [LG _]. rewrite app_length, corrected_length in LG.
    rewrite predict_step; auto; try lia.
    replace (length pre + w)%nat with (length (pre ++ e)) by (rewrite app_length; lia). rewrite app_assoc.
    apply IH; rewrite ?app_length, ?corrected_length; try lia.
    apply Forall_app. split; [auto|apply corrected_bytes].
Qed.

(* ---- data commands ---- *)
Lemma data_grows O cs ds P : data_sent O cs ds P -> (length O <= length P)%nat.
Proof.
  induction 1; rewrite ?app_length in *; try lia.
  destruct (predicted_grows _ _ _ _ _ _ H5). lia.
Qed.
Lemma app_bytes_l a b : Forall is_byte (a ++ b) -> Forall is_byte a.
Proof. intros H. now apply Forall_app in H. Qed.
Lemma known_type_bytes k : Forall is_byte (nth k known_types []) /\ ((k < 8)%nat -> length (nth k known_types []) = 4%nat).
Proof.
  do 8 (destruct k as [|k]; [split; [cbn; repeat constructor; unfold is_byte; lia|reflexivity]|]).
  split; [|lia]. cbn. destruct k; constructor.
Qed.
Lemma makeBytes_st c D N O x b z : D = b ++ x ++ z -> Forall is_byte D -> Z.of_nat (length D) < 2 ^ 31 ->
  makeBytes (Z.of_nat (length x)) (st c (brk D (length b)) O N) = (Ok x, st c (brk D (length (b ++ x))) O N).
Proof.
  intros. unfold makeBytes. replace (Z.of_nat (length x) <? 0) with false by lia. rewrite Nat2Z.id.
  eapply datBytes_st; eauto.
Qed.
Lemma shuffled_width x w r : shuffled x w r -> (w = 1 \/ w = 2 \/ w = 4)%nat.
Proof. intros H. destruct H; auto. Qed.

Lemma given_st E a z d O N dflt g l v (m : IM Z) : given dflt g l v -> E = a ++ l ++ z -> Forall is_byte E -> Z.of_nat (length E) < 2 ^ 31 ->
  (g = false -> m (st (brk E (length a)) d O N) = (Ok v, st (brk E (length a)) d O N)) ->
  (if g then cmd ReadICCVarint else m) (st (brk E (length a)) d O N) = (Ok v, st (brk E (length (a ++ l))) d O N).
Proof.
  intros Hg HE Hb Hl Hm. destruct Hg as [|l v Hv Hv2].
  - rewrite app_nil_r. now apply Hm.
  - eapply cmdv; eauto.
Qed.
Lemma given_default dflt l v : given dflt false l v -> v = dflt.
Proof. intros H. now inversion H. Qed.
(* bits of the flags *)
Lemma flags_bits w order (g : bool) : (w = 1 \/ w = 2 \/ w = 4)%nat -> (order <= 2)%nat ->
  let fl := Z.of_nat w - 1 + 4 * Z.of_nat order + (if g then 16 else 0) in
  Z.land fl 3 + 1 = Z.of_nat w /\ Z.shiftr (Z.land fl 12) 2 = Z.of_nat order /\ (0 <? Z.land fl 16) = g.
Proof.
  intros Hw Ho. destruct Hw as [-> |[-> | ->]]; destruct order as [|[|[|n]]]; try lia; destruct g; repeat split.
Qed.

Lemma data_loop E D : Forall is_byte E -> Forall is_byte D -> Z.of_nat (length E) < 2 ^ 31 -> Z.of_nat (length D) < 2 ^ 31 ->
  forall O cs ds P, data_sent O cs ds P -> Forall is_byte O -> Z.of_nat (length P) < 2 ^ 29 ->
  forall a z b f dstart, E = a ++ cs ++ z -> D = b ++ ds -> dstart = length (a ++ cs) -> (length cs < f)%nat ->
  exists c d, dataLoop f (Z.of_nat dstart) (st (brk E (length a)) (brk D (length b)) O (length P)) = (Ok tt, st c d P (length P)).
Proof.
  intros HE HD LE LD O cs ds P H.
  induction H as [P|O num x cs ds P Hn H IH|O w num x r cs ds P Hw Hn Hsh H IH
    |O w order ws sl stride num x r O' cs ds P Ho Hg Hs1 Hs2 Hn Hsh Hp H IH|O x cs ds P Hx H IH|O k cs ds P Hk H IH];
    intros HO HP a z b f dstart EE ED Ed Hf; (destruct f as [|f]; [lia|]); cbn [dataLoop].
  - subst dstart. erewrite ibind_ok by (eapply more_st; eauto). cbn [length Nat.eqb negb]. unfold iret. eauto.
  - pose proof (data_grows _ _ _ _ H) as G. rewrite app_length in G. subst dstart.
    erewrite ibind_ok by (eapply more_st; eauto). cbn [length Nat.eqb negb].
    erewrite ibind_ok by (eapply cmd8; eauto; rewrite EE; reflexivity).
    change (1 =? 1) with true. cbv iota.
    assert (LX : Z.of_nat (length x) < 2 ^ 29) by lia.
    assert (EE2 : E = (a ++ [1]) ++ num ++ (cs ++ z)) by (rewrite EE, <- !app_assoc; cbn [app]; rewrite <- app_assoc; reflexivity).
    erewrite ibind_ok.
    2:{ erewrite ibind_ok by (eapply cmdv; [exact EE2|exact Hn|lia|exact HE|exact LE]).
        rewrite Nat2Z.id. eapply (copyData_st _ D (length P) x O b ds); auto; lia. }
    apply (IH ltac:(apply Forall_app; split; [exact HO|]; rewrite ED in HD; apply Forall_app in HD; destruct HD as [_ HD]; now apply app_bytes_l in HD) HP _ z).
    + rewrite EE2, <- !app_assoc. reflexivity.
    + rewrite ED, <- app_assoc. reflexivity.
    + rewrite !app_length. cbn [length]. rewrite app_length. lia.
    + cbn [length] in Hf. rewrite app_length in Hf. lia.
  - pose proof (data_grows _ _ _ _ H) as G. pose proof (shuffled_length _ _ _ Hsh) as LR. rewrite app_length in G. subst dstart.
    erewrite ibind_ok by (eapply more_st; eauto). cbn [length Nat.eqb negb].
    erewrite ibind_ok by (eapply cmd8; eauto; rewrite EE; reflexivity).
    replace (1 + Z.of_nat w =? 1) with false by lia.
    replace ((1 + Z.of_nat w =? 2) || (1 + Z.of_nat w =? 3)) with true by lia.
    assert (LX : Z.of_nat (length x) < 2 ^ 29) by lia.
    assert (EE2 : E = (a ++ [1 + Z.of_nat w]) ++ num ++ (cs ++ z)) by (rewrite EE, <- !app_assoc; cbn [app]; rewrite <- app_assoc; reflexivity).
    assert (Bx : Forall is_byte x) by (rewrite ED in HD; apply Forall_app in HD; destruct HD as [_ HD]; now apply app_bytes_l in HD).
    erewrite ibind_ok.
    2:{ erewrite ibind_ok by (eapply cmdv; [exact EE2|exact Hn|lia|exact HE|exact LE]).
        erewrite ibind_ok by (eapply makeBytes_st; eauto).
        erewrite ibind_ok.
        2:{ unfold ilift. replace (if 1 + Z.of_nat w =? 2 then 2 else 4) with (Z.of_nat (2 * w)) by (destruct Hw as [-> | ->]; reflexivity).
            rewrite (shuffle_sent x (2 * w) r) by (auto; lia). reflexivity. }
        apply copyInto_st; lia. }
    apply (IH ltac:(apply Forall_app; split; [exact HO|]; eapply shuffled_bytes; eauto) HP _ z).
    + rewrite EE2, <- !app_assoc. reflexivity.
    + rewrite ED, <- app_assoc. reflexivity.
    + rewrite !app_length. cbn [length]. rewrite app_length. lia.
    + cbn [length] in Hf. rewrite app_length in Hf. lia.
  - pose proof (data_grows _ _ _ _ H) as G. pose proof (shuffled_length _ _ _ Hsh) as LR.
    destruct (predicted_grows _ _ _ _ _ _ Hp) as [LG BG]. subst dstart.
    pose proof (shuffled_width _ _ _ Hsh) as Hw.
    set (fl := Z.of_nat w - 1 + 4 * Z.of_nat order + (if ws then 16 else 0)) in *.
    destruct (flags_bits w order ws Hw Ho) as (F1 & F2 & F3). fold fl in F1, F2, F3.
    erewrite ibind_ok by (eapply more_st; eauto). cbn [length Nat.eqb negb].
    erewrite ibind_ok by (eapply cmd8; eauto; rewrite EE; reflexivity).
    change (4 =? 1) with false. change ((4 =? 2) || (4 =? 3)) with false. change (4 =? 4) with true. cbv iota.
    assert (LX : Z.of_nat (length x) < 2 ^ 29) by lia.
    assert (EE2 : E = (a ++ [4]) ++ fl :: (sl ++ num ++ cs ++ z))
      by (rewrite EE, <- !app_assoc; cbn [app]; rewrite <- !app_assoc; reflexivity).
    assert (EE3 : E = ((a ++ [4]) ++ [fl]) ++ sl ++ (num ++ cs ++ z)) by (rewrite EE2, <- !app_assoc; reflexivity).
    assert (EE4 : E = (((a ++ [4]) ++ [fl]) ++ sl) ++ num ++ (cs ++ z)) by (rewrite EE3, <- !app_assoc; reflexivity).
    assert (Bx : Forall is_byte x) by (rewrite ED in HD; apply Forall_app in HD; destruct HD as [_ HD]; now apply app_bytes_l in HD).
    erewrite ibind_ok.
    2:{ erewrite ibind_ok by (eapply cmd8; eauto). cbv zeta. rewrite F1, F2, F3.
        replace (Z.of_nat w =? 3) with false by lia. replace (Z.of_nat order =? 3) with false by lia.
        erewrite ibind_ok.
        2:{ instantiate (1 := st (brk E (length (((a ++ [4]) ++ [fl]) ++ sl))) (brk D (length b)) O (length P)).
            instantiate (1 := Z.of_nat stride). eapply given_st; eauto. intros K. revert Hg. rewrite K. intros Hg. rewrite (given_default _ _ _ Hg). reflexivity. }
        erewrite ibind_ok by reflexivity. unfold st at 1. cbn [ic_pos].
        rewrite (i32_small (Z.of_nat stride * 4)) by lia.
        replace (Z.of_nat (length O) <=? Z.of_nat stride * 4) with false by lia.
        replace (Z.of_nat stride <? Z.of_nat w) with false by lia.
        erewrite ibind_ok by (eapply cmdv; [exact EE4|exact Hn|lia|exact HE|exact LE]).
        erewrite ibind_ok by (eapply makeBytes_st; eauto).
        erewrite ibind_ok.
        2:{ instantiate (1 := st (brk E (length ((((a ++ [4]) ++ [fl]) ++ sl) ++ num))) (brk D (length (b ++ x))) O (length P)).
            instantiate (1 := r). destruct Hw as [-> |Hw].
            - change ((Z.of_nat 1 =? 2) || (Z.of_nat 1 =? 4)) with false. inversion Hsh. reflexivity.
            - replace ((Z.of_nat w =? 2) || (Z.of_nat w =? 4)) with true by lia. unfold ilift.
              rewrite (shuffle_sent x w r) by (auto; lia). reflexivity. }
        change 0 with (Z.of_nat (length (@nil Z))). change r with ([] ++ r) at 1.
        eapply (predict_st _ _ (length P) w stride order); eauto; try lia; cbn [length]; lia. }
    apply (IH (BG HO) HP _ z).
    + rewrite EE4, <- !app_assoc. reflexivity.
    + rewrite ED, <- app_assoc. reflexivity.
    + rewrite !app_length. cbn [length]. rewrite !app_length. lia.
    + cbn [length] in Hf. rewrite !app_length in Hf. lia.
  - pose proof (data_grows _ _ _ _ H) as G. rewrite !app_length in G. cbn [length] in G. subst dstart.
    erewrite ibind_ok by (eapply more_st; eauto). cbn [length Nat.eqb negb].
    erewrite ibind_ok by (eapply cmd8; eauto; rewrite EE; reflexivity).
    change (10 =? 1) with false. change ((10 =? 2) || (10 =? 3)) with false. change (10 =? 4) with false. change (10 =? 10) with true. cbv iota.
    assert (Bx : Forall is_byte x) by (rewrite ED in HD; apply Forall_app in HD; destruct HD as [_ HD]; now apply app_bytes_l in HD).
    erewrite ibind_ok.
    2:{ erewrite ibind_ok by (apply putAll_st; cbn [length XYZ_ t4]; lia).
        change (map u8 XYZ_) with [88; 89; 90; 32].
        erewrite ibind_ok by (apply advance_st; rewrite ?app_length; cbn [length]; lia).
        rewrite <- Hx. eapply (copyData_st _ D (length P) x _ b ds); auto; rewrite ?app_length; cbn [length]; lia. }
    rewrite <- !app_assoc.
    apply (IH ltac:(repeat (apply Forall_app; split); auto; repeat constructor; unfold is_byte; lia) HP _ z).
    + rewrite EE, <- app_assoc. reflexivity.
    + rewrite ED, <- app_assoc. reflexivity.
    + rewrite !app_length. cbn [length]. lia.
    + cbn [length] in Hf. lia.
  - pose proof (data_grows _ _ _ _ H) as G. destruct (known_type_bytes k) as [BK LK]. specialize (LK Hk).
    rewrite !app_length, LK in G. cbn [length] in G. subst dstart.
    erewrite ibind_ok by (eapply more_st; eauto). cbn [length Nat.eqb negb].
    erewrite ibind_ok by (eapply cmd8; eauto; rewrite EE; reflexivity).
    replace (16 + Z.of_nat k =? 1) with false by lia.
    replace ((16 + Z.of_nat k =? 2) || (16 + Z.of_nat k =? 3)) with false by lia.
    replace (16 + Z.of_nat k =? 4) with false by lia. replace (16 + Z.of_nat k =? 10) with false by lia.
    replace ((16 <=? 16 + Z.of_nat k) && (16 + Z.of_nat k <? 24)) with true by lia.
    erewrite ibind_ok.
    2:{ erewrite ibind_ok.
        2:{ unfold ilift. change [XYZ_; desc; text; mluc; para; curv; sf32; gbd_] with known_types.
            rewrite (slice_get_ok known_types _ []) by (cbn [length known_types]; lia).
            replace (Z.to_nat (16 + Z.of_nat k - 16)) with k by lia. reflexivity. }
        erewrite ibind_ok by (apply putAll_st; lia). rewrite map_u8 by exact BK.
        apply advance_st; rewrite ?app_length; lia. }
    rewrite <- app_assoc.
    apply (IH ltac:(repeat (apply Forall_app; split); auto; repeat constructor; unfold is_byte; lia) HP _ z).
    + rewrite EE, <- app_assoc. reflexivity.
    + exact ED.
    + rewrite !app_length. cbn [length]. lia.
    + cbn [length] in Hf. lia.
Qed.

(* ---- tags ---- *)
Lemma ibind_same {A B} (m m' : IM A) (k : A -> IM B) s s' : m s = m' s' -> ibind m k s = ibind m' k s'.
Proof. intros H. unfold ibind. now rewrite H. Qed.
Lemma entry_length n s z : length n = 4%nat -> length (entry n s z) = 12%nat.
Proof. intros H. unfold entry. rewrite !app_length, H. reflexivity. Qed.
Lemma bytes4_bytes v : Forall is_byte (bytes4 v).
Proof. unfold bytes4. repeat constructor; unfold is_byte; apply Z.mod_pos_bound; lia. Qed.
Lemma entry_bytes n s z : Forall is_byte n -> Forall is_byte (entry n s z).
Proof. intros H. unfold entry. repeat (apply Forall_app; split); auto using bytes4_bytes. Qed.
Lemma entries_cons code n r s z :
  entries code (n :: r) s z = entry n s z ++ entries code r (if code =? 3 then s + z else s) z.
Proof.
  unfold entries. cbn [length seq map concat nth]. f_equal; [destruct (code =? 3); f_equal; lia|].
  f_equal. rewrite <- seq_shift, map_map. apply map_ext. intros i. cbn [nth].
  f_equal. destruct (code =? 3); lia.
Qed.
Lemma entries_bytes code names s z : Forall (fun n => Forall is_byte n) names -> Forall is_byte (entries code names s z).
Proof.
  intros H. revert s. induction H as [|n r Hn H IH]; intros s; [constructor|].
  rewrite entries_cons. apply Forall_app. split; [now apply entry_bytes|apply IH].
Qed.
Lemma i32_add2 a b : i32 (i32 a + i32 b) = i32 (a + b).
Proof.
  destruct (i32_eqm a) as (k1 & ->). destruct (i32_eqm b) as (k2 & ->). unfold i32.
  replace (a + k1 * 2 ^ 32 + (b + k2 * 2 ^ 32) + 2 ^ 31) with (a + b + 2 ^ 31 + (k1 + k2) * 2 ^ 32) by lia.
  now rewrite Z.mod_add by lia.
Qed.
Lemma putTags_st c d N code names z : Forall (fun n => Forall is_byte n /\ length n = 4%nat) names -> Z.of_nat N < 2 ^ 31 ->
  forall s O, (length O + length (entries code names s z) <= N)%nat ->
  putTags (code =? 3) names (i32 s) (i32 z) (st c d O N) = (Ok tt, st c d (O ++ entries code names s z) N).
Proof.
  intros H HN. induction H as [|n r [Hb Hl] H IH]; intros s O HO; cbn [putTags].
  - unfold entries. cbn. now rewrite app_nil_r.
  - rewrite entries_cons in HO |- *. rewrite app_length, entry_length in HO by auto.
    erewrite ibind_ok by (apply putAll_st; lia). rewrite map_u8 by auto.
    erewrite ibind_ok by (apply put32_st; rewrite ?app_length; lia). rewrite bytes4_i32.
    erewrite ibind_ok by (apply put32_st; rewrite ?app_length; cbn [length bytes4]; lia). rewrite bytes4_i32.
    replace (if code =? 3 then i32 (i32 s + i32 z) else i32 s) with (i32 (if code =? 3 then s + z else s))
      by (destruct (code =? 3); [now rewrite i32_add2|reflexivity]).
    rewrite IH by (rewrite !app_length; cbn [length bytes4]; lia).
    unfold entry. now rewrite <- !app_assoc.
Qed.

Lemma cmd_bits code (a b : bool) : 1 <= code <= 20 ->
  let x := code + (if a then 64 else 0) + (if b then 128 else 0) in
  Z.land x 63 = code /\ (0 <? Z.land x 64) = a /\ (0 <? Z.land x 128) = b.
Proof.
  intros H. replace code with (Z.of_nat (Z.to_nat code)) by lia. assert (K : (1 <= Z.to_nat code <= 20)%nat) by lia.
  revert K. generalize (Z.to_nat code) as n. clear. intros n K.
  do 21 (destruct n as [|n]; [try lia; destruct a, b; repeat split|]). lia.
Qed.
Lemma bytesEq_eq a : forall b, bytesEq a b = true <-> a = b.
Proof.
  induction a as [|x a IH]; intros [|y b]; cbn [bytesEq]; try (split; congruence).
  rewrite andb_true_iff, IH, Z.eqb_eq. split; [intros [-> ->]; reflexivity|intros E; injection E; auto].
Qed.
Lemma twenty_eq n : existsb (bytesEq n) [rXYZ; gXYZ; bXYZ; kXYZ; wtpt; bkpt; lumi] = true <-> twenty n.
Proof.
  unfold twenty. change [rXYZ; gXYZ; bXYZ; kXYZ; wtpt; bkpt; lumi] with [known 3; known 4; known 5; known 6; known 1; known 2; known 16].
  rewrite existsb_exists. split.
  - intros (y & Hy & E). apply bytesEq_eq in E. now subst.
  - intros H. exists n. split; [exact H|]. now apply bytesEq_eq.
Qed.
Lemma known_bytes k : Forall is_byte (known k) /\ ((k < 17)%nat -> length (known k) = 4%nat).
Proof.
  unfold known. do 17 (destruct k as [|k]; [split; [cbn; repeat constructor; unfold is_byte; lia|reflexivity]|]).
  split; [|lia]. cbn. destruct k; constructor.
Qed.
Lemma tag_names_ok code x names : tag_names code x names -> Forall is_byte x ->
  1 <= code <= 20 /\ Forall (fun n => Forall is_byte n /\ length n = 4%nat) names.
Proof.
  intros H Hx. assert (K : forall k, (k < 17)%nat -> Forall is_byte (known k) /\ length (known k) = 4%nat).
  { intros k Hk. destruct (known_bytes k) as [A B]. split; auto. }
  destruct H; (split; [lia|]).
  - constructor; [|constructor]. split; [exact Hx|reflexivity].
  - repeat (constructor; [apply K; lia|]). constructor.
  - repeat (constructor; [apply K; lia|]). constructor.
  - constructor; [apply K; lia|constructor].
Qed.
Lemma tags_grows O ps pz cs ds P : tags_sent O ps pz cs ds P -> (length O <= length P)%nat.
Proof.
  induction 1; rewrite ?app_length in *; try lia. eauto using data_grows.
Qed.
Lemma varint_nonneg l v : varint l v -> 0 <= v.
Proof. induction 1; lia. Qed.
Lemma given_i32 dflt g l v : given dflt g l v -> g = true -> i32 v = v.
Proof. intros H K. destruct H as [|l v Hv Hv2]; [discriminate|]. apply varint_nonneg in Hv. apply i32_small. lia. Qed.
Lemma given_st_i32 E a z d O N dflt g l v (m : IM Z) : given dflt g l v -> E = a ++ l ++ z -> Forall is_byte E -> Z.of_nat (length E) < 2 ^ 31 ->
  (g = false -> m (st (brk E (length a)) d O N) = (Ok (i32 dflt), st (brk E (length a)) d O N)) ->
  (if g then cmd ReadICCVarint else m) (st (brk E (length a)) d O N) = (Ok (i32 v), st (brk E (length (a ++ l))) d O N).
Proof.
  intros Hg HE Hb Hl Hm. destruct Hg as [|l v Hv Hv2].
  - rewrite app_nil_r. now apply Hm.
  - pose proof (varint_nonneg _ _ Hv). rewrite i32_small by lia. eapply cmdv; eauto.
Qed.

Lemma tag_loop E D : Forall is_byte E -> Forall is_byte D -> Z.of_nat (length E) < 2 ^ 31 -> Z.of_nat (length D) < 2 ^ 31 ->
  forall O ps pz cs ds P, tags_sent O ps pz cs ds P -> Forall is_byte O -> Z.of_nat (length P) < 2 ^ 29 ->
  forall a z b f g dstart, E = a ++ cs ++ z -> D = b ++ ds -> dstart = length (a ++ cs) -> (length cs < f)%nat -> (length cs < g)%nat ->
  exists c d, (_ <~ tagLoop f (Z.of_nat dstart) (i32 ps) (i32 pz) ;; dataLoop g (Z.of_nat dstart))
    (st (brk E (length a)) (brk D (length b)) O (length P)) = (Ok tt, st c d P (length P)).
Proof.
  intros HE HD LE LD O ps pz cs ds P H.
  induction H as [P ps pz|O ps pz y cs ds P Hy H|O ps pz code x names hs hz dsize sl zl start size cs ds P Hn Hs Hd1 Hd2 Hz H IH];
    intros HO HP a z b f g dstart EE ED Ed Hf Hg; (destruct f as [|f]; [lia|]).
  - erewrite ibind_ok.
    2:{ cbn [tagLoop]. subst dstart. erewrite ibind_ok by (eapply more_st; eauto). cbn [length Nat.eqb negb]. reflexivity. }
    apply (data_loop E D HE HD LE LD _ _ _ _ (da_end P) HO HP a z b g dstart); auto.
  - erewrite ibind_ok.
    2:{ cbn [tagLoop]. subst dstart. erewrite ibind_ok by (eapply more_st; eauto). cbn [length Nat.eqb negb].
        erewrite ibind_ok by (eapply cmd8; eauto; rewrite EE; reflexivity).
        replace (Z.land y 63 =? 0) with true by (cbn [In] in Hy; destruct Hy as [<- |[<- |[<- |[<- |[]]]]]; reflexivity).
        reflexivity. }
    apply (data_loop E D HE HD LE LD _ _ _ _ H HO HP _ z).
    + rewrite EE, <- app_assoc. reflexivity.
    + exact ED.
    + subst dstart. rewrite !app_length. cbn [length]. lia.
    + cbn [length] in Hg. lia.
  - pose proof (tags_grows _ _ _ _ _ _ H) as G. rewrite app_length in G.
    assert (Bx : Forall is_byte x) by (rewrite ED in HD; apply Forall_app in HD; destruct HD as [_ HD]; now apply app_bytes_l in HD).
    destruct (tag_names_ok _ _ _ Hn Bx) as [Hc Bn].
    set (y := code + (if hs then 64 else 0) + (if hz then 128 else 0)) in *.
    destruct (cmd_bits code hs hz Hc) as (F1 & F2 & F3). fold y in F1, F2, F3.
    assert (EE1 : E = a ++ y :: (sl ++ zl ++ cs ++ z)) by (rewrite EE; cbn [app]; rewrite <- !app_assoc; reflexivity).
    assert (EE2 : E = (a ++ [y]) ++ sl ++ (zl ++ cs ++ z)) by (rewrite EE1, <- !app_assoc; reflexivity).
    assert (EE3 : E = ((a ++ [y]) ++ sl) ++ zl ++ (cs ++ z)) by (rewrite EE2, <- !app_assoc; reflexivity).
    erewrite ibind_same.
    2:{ cbn [tagLoop]. subst dstart. erewrite ibind_ok by (eapply more_st; eauto). cbn [length Nat.eqb negb].
        erewrite ibind_ok by (eapply cmd8; eauto). cbv zeta. rewrite F1, F2, F3.
        replace (code =? 0) with false by lia.
        erewrite ibind_ok.
        2:{ instantiate (1 := st (brk E (length (a ++ [y]))) (brk D (length (b ++ x))) O (length P)).
            instantiate (1 := hd [] names). destruct Hn as [p q r s| | |k Hk].
            - change (1 =? 1) with true. cbv iota. apply (datBytes_st _ D (length P) O [p; q; r; s] b ds); auto.
            - rewrite app_nil_r. reflexivity.
            - rewrite app_nil_r. reflexivity.
            - rewrite app_nil_r. replace (4 + Z.of_nat k =? 1) with false by lia. replace (4 + Z.of_nat k =? 2) with false by lia.
              replace (4 + Z.of_nat k =? 3) with false by lia. replace ((4 <=? 4 + Z.of_nat k) && (4 + Z.of_nat k <=? 21)) with true by lia.
              unfold ilift. change iccTags with known_names. rewrite (slice_get_ok known_names _ []) by (cbn [length known_names]; lia).
              replace (Z.to_nat (4 + Z.of_nat k - 4)) with k by lia. reflexivity. }
        erewrite ibind_ok.
        2:{ eapply given_st_i32; [exact Hs|exact EE2|exact HE|exact LE|]. intros _. unfold iret. now rewrite i32_add2. }
        erewrite ibind_ok.
        2:{ eapply given_st_i32; [exact Hz|exact EE3|exact HE|exact LE|]. intros _.
            pose proof (twenty_eq (hd [] names)) as T.
            destruct (existsb (bytesEq (hd [] names)) [rXYZ; gXYZ; bXYZ; kXYZ; wtpt; bkpt; lumi]).
            - rewrite Hd1 by now apply T. reflexivity.
            - rewrite Hd2; [reflexivity|]. intros K. apply T in K. discriminate. }
        erewrite ibind_ok.
        2:{ replace (if code =? 2 then [rTRC; gTRC; bTRC] else if code =? 3 then [rXYZ; gXYZ; bXYZ] else [hd [] names]) with names.
            - apply putTags_st; auto; lia.
            - destruct Hn as [p q r s| | |k Hk]; try reflexivity.
              replace (4 + Z.of_nat k =? 2) with false by lia. replace (4 + Z.of_nat k =? 3) with false by lia. reflexivity. }
        reflexivity. }
    subst dstart. assert (BO : Forall is_byte (O ++ entries code names start size)).
    { apply Forall_app. split; [exact HO|]. apply entries_bytes. eapply Forall_impl; [|exact Bn]. cbn. tauto. }
    apply (IH BO HP _ z).
    + rewrite EE3, <- !app_assoc. reflexivity.
    + rewrite ED, <- app_assoc. reflexivity.
    + rewrite !app_length. cbn [length]. rewrite !app_length. lia.
    + cbn [length] in Hf. rewrite !app_length in Hf. lia.
    + cbn [length] in Hg. rewrite !app_length in Hg. lia.
Qed.

(* ---- the profile ---- *)
Lemma firstn_bytes n P : Forall is_byte P -> Forall is_byte (firstn n P).
Proof. intros H. rewrite <- (firstn_skipn n P) in H. now apply app_bytes_l in H. Qed.
Lemma be32_bytes4 l : Forall is_byte l -> (4 <= length l)%nat -> bytes4 (be32 l) = firstn 4 l.
Proof.
  intros H L. pose proof (fun k => be32_byte l k H) as B. unfold bytes4.
  pose proof (B 0%nat ltac:(lia)) as B0. pose proof (B 1%nat ltac:(lia)) as B1. pose proof (B 2%nat ltac:(lia)) as B2.
  pose proof (B 3%nat ltac:(lia)) as B3. clear B.
  change (8 * (3 - Z.of_nat 0)) with 24 in B0. change (8 * (3 - Z.of_nat 1)) with 16 in B1.
  change (8 * (3 - Z.of_nat 2)) with 8 in B2. change (8 * (3 - Z.of_nat 3)) with 0 in B3.
  unfold u8 in B0, B1, B2, B3. change (2 ^ 8) with 256 in B0, B1, B2, B3.
  rewrite Z.shiftr_div_pow2 in B0, B1, B2 by lia. rewrite Z.shiftr_0_r in B3.
  change (2 ^ 8) with 256 in *. rewrite B0, B1, B2, B3.
  destruct l as [|p [|q [|r [|s l]]]]; cbn [length] in L; try lia. reflexivity.
Qed.

Lemma profile_prologue P size csize tc cs ds : Forall is_byte P -> Forall is_byte (cs ++ ds) ->
  (132 <= length P)%nat -> Z.of_nat (length P) < 2 ^ 29 -> nth 128 P 0 < 127 ->
  Z.of_nat (length (size ++ csize ++ (tc ++ cs) ++ residuals P 128 ++ ds)) < 2 ^ 31 ->
  varint size (Z.of_nat (length P)) -> varint csize (Z.of_nat (length (tc ++ cs))) ->
  varint tc (be32 (skipn 128 P) + 1) ->
  let E := size ++ csize ++ (tc ++ cs) ++ residuals P 128 ++ ds in
  let D := residuals P 128 ++ ds in
  let a := size ++ csize ++ tc in
  E = a ++ cs ++ D /\ Forall is_byte E /\ Forall is_byte D /\
  GetDecodedICC E =
  match (_ <~ tagLoop (S (length E)) (Z.of_nat (length (a ++ cs))) (i32 (128 + 12 * be32 (skipn 128 P))) (i32 0) ;;
         dataLoop (S (length E)) (Z.of_nat (length (a ++ cs))))
        (st (brk E (length a)) (brk D (length (residuals P 128))) (firstn 132 P) (length P)) with
  | (Ok _, s) => Ok (ic_buf s) | (Err, _) => Err | (Panic, _) => Panic
  end.
Proof.
  intros HP Hb L1 L2 H128 LE Hs Hc Ht E D a. fold E in LE.
  apply Forall_app in Hb. destruct Hb as [Hcs Hds].
  assert (EE : E = a ++ cs ++ D) by (unfold E, a, D; rewrite <- !app_assoc; reflexivity).
  assert (BD : Forall is_byte D) by (apply Forall_app; split; [apply residuals_bytes|exact Hds]).
  assert (BE : Forall is_byte E).
  { rewrite EE. unfold a. repeat (apply Forall_app; split); eauto using varint_bytes; try apply residuals_bytes; auto. }
  split; [exact EE|]. split; [exact BE|]. split; [exact BD|].
  assert (HS : Forall is_byte (skipn 128 P)).
  { pose proof HP as HP'. rewrite <- (firstn_skipn 128 P) in HP'. now apply Forall_app in HP'. }
  assert (Hbe : 0 <= be32 (skipn 128 P) < 2 ^ 31 - 1).
  { unfold be32. rewrite nth_skipn. cbn [Nat.add].
    pose proof (byte_nth P 128 HP). pose proof (byte_nth _ 1 HS). pose proof (byte_nth _ 2 HS). pose proof (byte_nth _ 3 HS).
    unfold is_byte in *. lia. }
  assert (LL : length E = (length size + length csize + length (tc ++ cs) + length D)%nat)
    by (unfold E, D; rewrite !app_length; lia).
  match goal with |- _ = ?r => set (rhs := r) end.
  unfold E. fold D. rewrite (decoded_prologue size csize (tc ++ cs) D (length P)); auto; fold E; try lia.
  change (size ++ csize ++ (tc ++ cs) ++ D) with E.
  replace (length size + length csize + length (tc ++ cs))%nat with (length (a ++ cs)) by (unfold a; rewrite !app_length; lia).
  set (fuel := S (length E)).
  unfold iccBody. replace (Z.to_nat (Z.min 128 (Z.of_nat (length P)))) with 128%nat by lia.
  rewrite <- part_0.
  assert (LD : length D = (128 + length ds)%nat) by (unfold D; rewrite app_length, residuals_length; reflexivity).
  erewrite ibind_ok.
  2:{ apply header_ok0; auto; try lia.
      - left. lia.
      - intros j Hj. split; [lia|]. unfold D. rewrite app_nth1 by (rewrite residuals_length; lia). apply residuals_nth. lia. }
  replace (mkICS (brk E (length size + length csize)) (brk D 128) (part P 128) (Z.of_nat 128))
    with (st (brk E (length (size ++ csize))) (brk D (length (residuals P 128))) (firstn 128 P) (length P)).
  2:{ unfold st, part. rewrite firstn_length, Nat.min_l by lia. rewrite residuals_length, app_length. reflexivity. }
  set (s0 := st _ _ _ _).
  assert (Pos : ic_pos s0 = Z.of_nat 128) by (unfold s0, st; cbn [ic_pos]; rewrite firstn_length, Nat.min_l by lia; reflexivity).
  erewrite (ibind_ok (ilift _) _ s0) by reflexivity.
  rewrite Pos. replace (Z.of_nat 128 =? Z.of_nat (length P)) with false by lia. unfold s0.
  erewrite ibind_ok by (eapply cmdv; [|exact Ht|lia|exact BE|exact LE]; rewrite EE; unfold a; rewrite <- !app_assoc; reflexivity).
  rewrite Z.add_simpl_r. cbv zeta. rewrite (i32_small (be32 (skipn 128 P))) by lia.
  replace (0 <=? be32 (skipn 128 P)) with true by lia.
  erewrite ibind_ok by (apply put32_st; rewrite ?firstn_length; lia).
  rewrite be32_bytes4 by (auto; rewrite skipn_length; lia).
  replace (firstn 128 P ++ firstn 4 (skipn 128 P)) with (firstn 132 P).
  2:{ rewrite <- (firstn_skipn 128 P) at 1. rewrite firstn_app, firstn_length, Nat.min_l by lia.
      rewrite (firstn_all2 (n := 132) (firstn 128 P)) by (rewrite firstn_length; lia). reflexivity. }
  replace ((size ++ csize) ++ tc) with a by (unfold a; now rewrite app_assoc).
  replace (i32 (128 + i32 (be32 (skipn 128 P) * 12))) with (i32 (128 + 12 * be32 (skipn 128 P))).
  2:{ rewrite <- (i32_small 128) at 2 by lia. rewrite i32_add2. f_equal. lia. }
  reflexivity.
Qed.

Lemma profile_decoded P size csize tc cs ds : Forall is_byte P -> Forall is_byte (cs ++ ds) ->
  (132 <= length P)%nat -> Z.of_nat (length P) < 2 ^ 29 -> nth 128 P 0 < 127 ->
  Z.of_nat (length (size ++ csize ++ (tc ++ cs) ++ residuals P 128 ++ ds)) < 2 ^ 31 ->
  varint size (Z.of_nat (length P)) -> varint csize (Z.of_nat (length (tc ++ cs))) ->
  varint tc (be32 (skipn 128 P) + 1) ->
  tags_sent (firstn 132 P) (128 + 12 * be32 (skipn 128 P)) 0 cs ds P ->
  GetDecodedICC (size ++ csize ++ (tc ++ cs) ++ residuals P 128 ++ ds) = Ok P.
Proof.
  intros HP Hb L1 L2 H128 LE Hs Hc Ht H.
  destruct (profile_prologue P size csize tc cs ds HP Hb L1 L2 H128 LE Hs Hc Ht) as (EE & BE & BD & Eq).
  set (E := size ++ csize ++ (tc ++ cs) ++ residuals P 128 ++ ds) in *. set (D := residuals P 128 ++ ds) in *.
  rewrite Eq. clear Eq.
  assert (LL : (length D + length cs <= length E)%nat) by (rewrite EE, !app_length; lia).
  destruct (tag_loop E D BE BD LE ltac:(lia) _ _ _ _ _ _ H (firstn_bytes _ _ HP) L2 (size ++ csize ++ tc) D (residuals P 128)
     (S (length E)) (S (length E)) (length ((size ++ csize ++ tc) ++ cs)) EE eq_refl eq_refl ltac:(lia) ltac:(lia)) as (c & d & R).
  rewrite R. unfold st. cbn [ic_buf]. rewrite Nat.sub_diag. cbn [repeat]. now rewrite app_nil_r.
Qed.
