From Coq Require Import ZArith List Bool Lia Arith ZifyBool ZifyNat.
From Verif Require Import GoBase ModelBitReader ModelBitWriter SpecBitReader SpecCodes Bits
  ProofBitReader ProofBitReader2 ProofReads.
Import ListNotations.
Open Scope Z_scope.

(* ---- U32 ---- *)
Lemma u32_small z : 0 <= z < 2 ^ 32 -> u32 z = z.
Proof. intros; apply Z.mod_small; auto. Qed.
Lemma u64_small z : 0 <= z < 2 ^ 64 -> u64 z = z.
Proof. intros; apply Z.mod_small; auto. Qed.
Lemma i32_small z : - 2 ^ 31 <= z < 2 ^ 31 -> i32 z = z.
Proof. intros; unfold i32. rewrite Z.mod_small; lia. Qed.
Lemma i64_small z : - 2 ^ 63 <= z < 2 ^ 63 -> i64 z = z.
Proof. intros; unfold i64. rewrite Z.mod_small; lia. Qed.
Lemma land127 a : Z.land a 127 = a mod 2 ^ 7. Proof. apply (land_ones_mod a 7); lia. Qed.
Lemma land31 a : Z.land a 31 = a mod 2 ^ 5. Proof. apply (land_ones_mod a 5); lia. Qed.
Lemma land1 a : Z.land a 1 = a mod 2 ^ 1. Proof. apply (land_ones_mod a 1); lia. Qed.
Lemma land255 a : Z.land a 255 = a mod 2 ^ 8. Proof. apply (land_ones_mod a 8); lia. Qed.
Lemma u32_mod_add a b : u32 (u32 a + u32 b) = u32 (a + b).
Proof. unfold u32. now rewrite <- Zplus_mod. Qed.

Lemma ReadU32_reads c0 n0 c1 n1 c2 n2 c3 n3 i x :
  0 <= i < 4 ->
  let c := nth (Z.to_nat i) [c0; c1; c2; c3] 0 in
  let n := nth (Z.to_nat i) [n0; n1; n2; n3] 0 in
  0 <= n <= 64 -> 0 <= x < 2 ^ n ->
  reads (ReadU32 c0 n0 c1 n1 c2 n2 c3 n3) (zbits 2 i ++ zbits (Z.to_nat n) x) (u32 (c + x)).
Proof.
  intros Hi c n Hn Hx. unfold ReadU32. eapply reads_bind.
  - apply reads_zbits; [reflexivity|lia|exact Hi].
  - cbv zeta. fold c n. rewrite (u32_small n) by lia.
    eapply reads_bind0.
    + apply reads_zbits with (v := x); lia.
    + rewrite u32_mod_add. apply reads_ret.
Qed.

Lemma yields_u32 c0 n0 c1 n1 c2 n2 c3 n3 :
  yields (ReadU32 c0 n0 c1 n1 c2 n2 c3 n3) (fun v => 0 <= v < 2 ^ 32).
Proof.
  unfold ReadU32. eapply yields_bind; [apply yields_bits; lia|].
  intros i _. cbv zeta. eapply yields_bind.
  - apply yields_bits. unfold u32. apply Z.mod_pos_bound. lia.
  - intros b _. apply yields_ret. unfold u32. apply Z.mod_pos_bound. lia.
Qed.

(* Exact description of what U32 can return. *)
Lemma yields_u32_range c0 n0 c1 n1 c2 n2 c3 n3 :
  Forall (fun c => 0 <= c < 2 ^ 31) [c0; c1; c2; c3] ->
  Forall (fun n => 0 <= n <= 30) [n0; n1; n2; n3] ->
  yields (ReadU32 c0 n0 c1 n1 c2 n2 c3 n3) (fun v =>
    c0 <= v < c0 + 2 ^ n0 \/ c1 <= v < c1 + 2 ^ n1 \/ c2 <= v < c2 + 2 ^ n2 \/ c3 <= v < c3 + 2 ^ n3).
Proof.
  intros Hc Hn. unfold ReadU32. eapply yields_bind; [apply yields_bits; lia|].
  intros i [Hi _]. change (2 ^ 2) with 4 in Hi. cbv zeta.
  assert (Hc' : 0 <= nth (Z.to_nat i) [c0; c1; c2; c3] 0 < 2 ^ 31).
  { rewrite Forall_forall in Hc. apply Hc. apply nth_In. cbn [length]. lia. }
  assert (Hn' : 0 <= nth (Z.to_nat i) [n0; n1; n2; n3] 0 <= 30).
  { rewrite Forall_forall in Hn. apply Hn. apply nth_In. cbn [length]. lia. }
  rewrite (u32_small (nth (Z.to_nat i) [n0; n1; n2; n3] 0)) by lia.
  eapply yields_bind; [apply yields_bits; lia|].
  intros b [Hb _]. apply yields_ret. rewrite u32_mod_add.
  assert (2 ^ nth (Z.to_nat i) [n0; n1; n2; n3] 0 <= 2 ^ 30) by (apply Z.pow_le_mono_r; lia).
  rewrite u32_small by lia.
  assert (Hi4 : i = 0 \/ i = 1 \/ i = 2 \/ i = 3) by lia.
  destruct Hi4 as [Hi4|[Hi4|[Hi4|Hi4]]]; subst i; cbn [Z.to_nat nth Pos.to_nat Pos.iter_op Nat.add] in *;
    change (Pos.to_nat 1) with 1%nat in *; change (Pos.to_nat 2) with 2%nat in *;
    change (Pos.to_nat 3) with 3%nat in *; cbn [nth] in *; lia.
Qed.

(* ---- Enum ---- *)
Lemma ReadEnum_reads c v : 0 <= v <= 63 -> reads (ReadU32 0 0 1 0 2 4 18 6) c v -> reads ReadEnum c v.
Proof.
  intros Hv H. unfold ReadEnum. eapply reads_bind0; [exact H|].
  destruct (Z.ltb_spec 63 v); [lia|]. rewrite i32_small by lia. apply reads_ret.
Qed.

Lemma yields_enum : yields ReadEnum (fun v => 0 <= v <= 63).
Proof.
  unfold ReadEnum. eapply yields_bind; [apply yields_u32|]. intros v Hv.
  cbv beta in Hv. destruct (Z.ltb_spec 63 v); [apply yields_err|]. apply yields_ret. rewrite i32_small by lia. lia.
Qed.

(* ---- U64 ---- *)
Lemma lor_u64_add a x sh : 0 <= sh -> 0 <= a < 2 ^ sh -> 0 <= x -> a + x * 2 ^ sh < 2 ^ 64 ->
  Z.lor a (u64 (Z.shiftl x sh)) = a + x * 2 ^ sh.
Proof.
  intros Hs Ha Hx Hb. rewrite Z.shiftl_mul_pow2 by lia. rewrite u64_small by nia.
  rewrite <- (Z.shiftl_mul_pow2 x) by lia. rewrite lor_shift_add by lia.
  rewrite Z.shiftl_mul_pow2 by lia. lia.
Qed.


Definition sh_ok (sh : nat) : Prop := exists k, (k <= 6)%nat /\ sh = (12 + 8 * k)%nat.

Lemma sh_ok_cases sh : sh_ok sh ->
  sh = 12%nat \/ sh = 20%nat \/ sh = 28%nat \/ sh = 36%nat \/ sh = 44%nat \/ sh = 52%nat \/ sh = 60%nat.
Proof. intros (k & Hk & ->). lia. Qed.

Lemma u64_tail_bound sh c v : u64_tail sh c v -> sh_ok sh ->
  0 <= v /\ v + 2 ^ Z.of_nat sh <= 2 ^ 64.
Proof.
  induction 1; intros Hs.
  - apply sh_ok_cases in Hs.
    repeat (destruct Hs as [->|Hs]; [split; [lia|]; cbn; lia|]). subst sh. cbn; lia.
  - change (Z.of_nat 60) with 60. lia.
  - assert (Hs' : sh_ok (sh + 8)).
    { destruct Hs as (k & Hk & ->). exists (S k). lia. }
    specialize (IHu64_tail Hs').
    replace (Z.of_nat (sh + 8)) with (Z.of_nat sh + 8) in IHu64_tail by lia.
    rewrite Z.pow_add_r in IHu64_tail by lia. change (2 ^ 8) with 256 in IHu64_tail.
    assert (0 < 2 ^ Z.of_nat sh) by (apply pow2_pos; lia). nia.
Qed.

Lemma u64Loop_reads sh c v : u64_tail sh c v -> sh_ok sh -> forall fuel a,
  0 <= a < 2 ^ Z.of_nat sh -> (sh + 8 * fuel >= 68)%nat ->
  reads (u64Loop fuel (Z.of_nat sh) a) c (a + v).
Proof.
  induction 1; intros Hs fuel a Ha Hf.
  - assert (fuel <> O) by (apply sh_ok_cases in Hs; lia).
    destruct fuel; [lia|]. cbn [u64Loop].
    eapply reads_bind0; [apply reads_bool|]. cbn [negb]. rewrite Z.add_0_r. apply reads_ret.
  - destruct fuel; [lia|]. cbn [u64Loop]. change (true :: zbits 4 x) with ([true] ++ zbits 4 x).
    eapply reads_bind; [apply reads_bool|]. cbn [negb]. change (Z.of_nat 60 =? 60) with true. cbv iota.
    eapply reads_bind0; [apply reads_zbits with (v := x); [reflexivity|lia|exact H]|].
    change (Z.of_nat 60) with 60 in *. rewrite lor_u64_add by lia. apply reads_ret.
  - assert (Hs' : sh_ok (sh + 8)).
    { destruct Hs as (k & Hk & ->). exists (S k). lia. }
    destruct fuel; [apply sh_ok_cases in Hs; lia|]. cbn [u64Loop].
    change (true :: zbits 8 x ++ c) with ([true] ++ zbits 8 x ++ c).
    eapply reads_bind; [apply reads_bool|]. cbn [negb].
    destruct (Z.eqb_spec (Z.of_nat sh) 60); [lia|].
    eapply reads_bind; [apply reads_zbits with (v := x); [reflexivity|lia|exact H0]|].
    pose proof (u64_tail_bound _ _ _ H1 Hs') as Hb.
    replace (Z.of_nat (sh + 8)) with (Z.of_nat sh + 8) in Hb by lia.
    rewrite Z.pow_add_r in Hb by lia. change (2 ^ 8) with 256 in Hb.
    assert (0 < 2 ^ Z.of_nat sh) by (apply pow2_pos; lia).
    rewrite lor_u64_add by nia.
    replace (a + (x * 2 ^ Z.of_nat sh + v)) with ((a + x * 2 ^ Z.of_nat sh) + v) by lia.
    replace (Z.of_nat sh + 8) with (Z.of_nat (sh + 8)) by lia.
    apply IHu64_tail; auto; [|lia].
    rewrite Nat2Z.inj_add, Z.pow_add_r by lia. change (2 ^ Z.of_nat 8) with 256. nia.
Qed.

Lemma sh_ok_12 : sh_ok 12. Proof. exists O. lia. Qed.

Lemma ReadU64_reads c v : u64_code c v -> reads ReadU64 c v.
Proof.
  unfold ReadU64. destruct 1.
  - eapply reads_bind0; [apply reads_zbits; [reflexivity|lia|lia]|]. apply reads_ret.
  - eapply reads_bind; [apply reads_zbits; [reflexivity|lia|lia]|]. cbn [Z.eqb Pos.eqb].
    eapply reads_bind0; [apply reads_zbits with (v := x); [reflexivity|lia|lia]|].
    rewrite u64_small by lia. apply reads_ret.
  - eapply reads_bind; [apply reads_zbits; [reflexivity|lia|lia]|]. cbn [Z.eqb Pos.eqb].
    eapply reads_bind0; [apply reads_zbits with (v := x); [reflexivity|lia|lia]|].
    rewrite u64_small by lia. apply reads_ret.
  - eapply reads_bind; [apply reads_zbits; [reflexivity|lia|lia]|]. cbn [Z.eqb Pos.eqb].
    eapply reads_bind; [apply reads_zbits with (v := x); [reflexivity|lia|lia]|].
    apply (u64Loop_reads 12 c v H0 sh_ok_12); [|lia]. change (2 ^ Z.of_nat 12) with 4096. lia.
Qed.

Lemma u64_tail_exists sh v : sh_ok sh -> 0 <= v < 2 ^ (64 - Z.of_nat sh) ->
  exists c, u64_tail sh c (v * 2 ^ Z.of_nat sh).
Proof.
  intros (k & Hk & Es). remember (6 - k)%nat as j. revert k Hk sh Es v Heqj.
  induction j; intros k Hk sh Es v Hj Hv.
  - assert (sh = 60)%nat by lia. subst sh. exists (true :: zbits 4 v). rewrite H. change (Z.of_nat 60) with 60.
    constructor. rewrite H in Hv. exact Hv.
  - destruct (IHj (S k) ltac:(lia) (sh + 8)%nat ltac:(lia) (v / 256) ltac:(lia)) as (c & Hc).
    { replace (64 - Z.of_nat sh) with (8 + (64 - Z.of_nat (sh + 8))) in Hv by lia.
      rewrite Z.pow_add_r in Hv by lia. change (2 ^ 8) with 256 in Hv.
      split; [apply Z.div_pos; lia|]. apply Z.div_lt_upper_bound; lia. }
    exists (true :: zbits 8 (v mod 256) ++ c).
    assert (E : v * 2 ^ Z.of_nat sh = v mod 256 * 2 ^ Z.of_nat sh + v / 256 * 2 ^ Z.of_nat (sh + 8)).
    { rewrite Nat2Z.inj_add, Z.pow_add_r by lia. change (2 ^ Z.of_nat 8) with 256.
      pose proof (Z.div_mod v 256 ltac:(lia)). nia. }
    rewrite E. constructor; auto; [lia|]. apply Z.mod_pos_bound; lia.
Qed.

Lemma u64_code_exists v : 0 <= v < 2 ^ 64 -> exists c, u64_code c v.
Proof.
  intros Hv. destruct (u64_tail_exists 12 (v / 4096) sh_ok_12) as (c & Hc).
  { change (64 - Z.of_nat 12) with 52.
    split; [apply Z.div_pos; lia|]. apply Z.div_lt_upper_bound; lia. }
  change (2 ^ Z.of_nat 12) with 4096 in Hc.
  pose proof (Z.mod_pos_bound v 4096 ltac:(lia)).
  pose proof (Z.div_mod v 4096 ltac:(lia)).
  exists (zbits 2 3 ++ zbits 12 (v mod 4096) ++ c).
  assert (E : v = v mod 4096 + v / 4096 * 4096) by lia. rewrite E at 2. constructor; eauto.
Qed.

Lemma lor_bound64 a b : 0 <= a < 2 ^ 64 -> 0 <= b < 2 ^ 64 -> 0 <= Z.lor a b < 2 ^ 64.
Proof.
  intros Ha Hb. split; [apply Z.lor_nonneg; lia|].
  destruct (Z.eq_dec (Z.lor a b) 0) as [->|Hne]; [lia|].
  apply Z.log2_lt_pow2.
  - assert (0 <= Z.lor a b) by (apply Z.lor_nonneg; lia). lia.
  - rewrite Z.log2_lor by lia. apply Z.max_lub_lt.
    + destruct (Z.eq_dec a 0) as [->|]; [cbn; lia|]. apply Z.log2_lt_pow2; lia.
    + destruct (Z.eq_dec b 0) as [->|]; [cbn; lia|]. apply Z.log2_lt_pow2; lia.
Qed.

Lemma yields_u64Loop fuel : forall sh a, 0 <= a < 2 ^ 64 -> (exists k, 0 <= k <= 6 /\ sh = 12 + 8 * k) ->
  sh + 8 * Z.of_nat fuel >= 68 ->
  yields (u64Loop fuel sh a) (fun v => 0 <= v < 2 ^ 64).
Proof.
  induction fuel; intros sh a Ha (k & Hk & Es) Hf; [lia|].
  cbn [u64Loop]. eapply yields_bind; [apply yields_bool|]. intros b _.
  destruct b; cbn [negb]; [|apply yields_ret; auto].
  destruct (Z.eqb_spec sh 60).
  - eapply yields_bind; [apply yields_bits; lia|]. intros x _. apply yields_ret.
    apply lor_bound64; auto. apply u64_range.
  - eapply yields_bind; [apply yields_bits; lia|]. intros x _. apply IHfuel; [| |lia].
    + apply lor_bound64; auto. apply u64_range.
    + exists (k + 1). lia.
Qed.

Lemma yields_u64 : yields ReadU64 (fun v => 0 <= v < 2 ^ 64).
Proof.
  unfold ReadU64. eapply yields_bind; [apply yields_bits; lia|]. intros i _.
  destruct (i =? 0); [apply yields_ret; lia|].
  destruct (i =? 1). { eapply yields_bind; [apply yields_bits; lia|]. intros x _. apply yields_ret, u64_range. }
  destruct (i =? 2). { eapply yields_bind; [apply yields_bits; lia|]. intros x _. apply yields_ret, u64_range. }
  eapply yields_bind; [apply yields_bits; lia|]. intros x [Hx _]. apply yields_u64Loop; try lia.
  exists 0. lia.
Qed.

(* ---- U8 ---- *)
Lemma ReadU8_reads c v : u8_code c v -> reads ReadU8 c v.
Proof.
  unfold ReadU8. destruct 1 as [|n x Hn Hx].
  - eapply reads_bind0; [apply reads_bool|]. apply reads_ret.
  - change (true :: zbits 3 (Z.of_nat n) ++ zbits n x) with ([true] ++ zbits 3 (Z.of_nat n) ++ zbits n x).
    eapply reads_bind; [apply reads_bool|]. cbn [negb].
    eapply reads_bind; [apply reads_zbits with (v := Z.of_nat n); [reflexivity|lia|lia]|].
    destruct (Z.eqb_spec (Z.of_nat n) 0) as [E|E].
    + assert (n = O) by lia. subst n. cbn [zbits]. change (2 ^ Z.of_nat 0) with 1 in *.
      assert (x = 0) by lia. subst x. apply reads_ret.
    + rewrite (u32_small (Z.of_nat n)) by lia.
      eapply reads_bind0; [apply reads_zbits with (v := x); lia|].
      assert (2 ^ Z.of_nat n <= 2 ^ 7) by (apply Z.pow_le_mono_r; lia).
      assert (0 < 2 ^ Z.of_nat n) by (apply pow2_pos; lia).
      rewrite Z.shiftl_1_l, (u64_small (2 ^ Z.of_nat n)), u64_small, i64_small by lia.
      rewrite Z.add_comm. apply reads_ret.
Qed.

Lemma u8_code_exists v : 0 <= v <= 255 -> exists c, u8_code c v.
Proof.
  intros Hv. destruct (Z.eq_dec v 0) as [->|H]; [eexists; constructor|].
  pose proof (Z.log2_spec v ltac:(lia)) as [Hl Hu]. pose proof (Z.log2_nonneg v).
  assert (Z.log2 v < 8) by (apply Z.log2_lt_pow2; lia).
  rewrite Z.pow_succ_r in Hu by lia.
  pose proof (u8c_n (Z.to_nat (Z.log2 v)) (v - 2 ^ Z.log2 v) ltac:(lia)) as Hc.
  rewrite !Z2Nat.id in Hc by lia. specialize (Hc ltac:(lia)).
  replace (2 ^ Z.log2 v + (v - 2 ^ Z.log2 v)) with v in Hc by lia. eauto.
Qed.

Lemma yields_u8 : yields ReadU8 (fun v => 0 <= v <= 255).
Proof.
  unfold ReadU8. eapply yields_bind; [apply yields_bool|]. intros b _.
  destruct b; cbn [negb]; [|apply yields_ret; lia].
  eapply yields_bind; [apply yields_bits; lia|]. intros n [Hn _]. change (2 ^ 3) with 8 in Hn.
  destruct (Z.eqb_spec n 0); [apply yields_ret; lia|].
  rewrite (u32_small n) by lia.
  eapply yields_bind; [apply yields_bits; lia|]. intros x [Hx _]. apply yields_ret.
  assert (2 ^ n <= 2 ^ 7) by (apply Z.pow_le_mono_r; lia).
  rewrite Z.shiftl_1_l, (u64_small (2 ^ n)), u64_small, i64_small by lia. lia.
Qed.

(* ---- ICC varint ---- *)
Lemma varint_pos l v : varint l v -> 0 <= v /\ (1 <= length l)%nat.
Proof. induction 1; cbn [length]; lia. Qed.

Lemma iccLoop_reads l v : varint l v -> forall n sh a,
  0 <= sh -> 0 <= a < 2 ^ sh -> a + v * 2 ^ sh < 2 ^ 31 -> (length l <= n)%nat ->
  reads (iccLoop n sh a) (bytes_bits l) (a + v * 2 ^ sh).
Proof.
  induction 1; intros n sh a Hsh Ha Hb Hn; (destruct n; [cbn [length] in Hn; lia|]); cbn [iccLoop].
  - unfold bytes_bits. cbn [flat_map]. rewrite app_nil_r.
    eapply reads_bind0; [apply reads_zbits with (v := v); [reflexivity|lia|lia]|].
    cbv zeta. rewrite (i32_small v) by lia. rewrite land127.
    rewrite Z.mod_small by lia. rewrite i32_small by (rewrite Z.shiftl_mul_pow2 by lia; nia).
    rewrite lor_shift_add by lia. destruct (Z.leb_spec v 127); [|lia].
    rewrite (Z.mul_comm v). apply reads_ret.
  - assert (0 < 2 ^ sh) by (apply pow2_pos; lia).
    unfold bytes_bits. cbn [flat_map].
    eapply reads_bind; [apply reads_zbits with (v := 128 + b); [reflexivity|lia|lia]|].
    cbv zeta. rewrite (i32_small (128 + b)) by lia. rewrite land127.
    replace ((128 + b) mod 2 ^ 7) with b.
    2:{ replace (128 + b) with (b + 1 * 2 ^ 7) by lia. rewrite Z.mod_add by lia. rewrite Z.mod_small; lia. }
    rewrite i32_small by (rewrite Z.shiftl_mul_pow2 by lia; nia).
    rewrite lor_shift_add by lia. destruct (Z.leb_spec (128 + b) 127); [lia|].
    replace (a + (b + 128 * v) * 2 ^ sh) with ((a + 2 ^ sh * b) + v * 2 ^ (sh + 7)).
    2:{ rewrite Z.pow_add_r by lia. change (2 ^ 7) with 128. lia. }
    apply IHvarint; [lia| | |cbn [length] in Hn; lia].
    + rewrite Z.pow_add_r by lia. change (2 ^ 7) with 128. nia.
    + rewrite Z.pow_add_r by lia. change (2 ^ 7) with 128. nia.
Qed.

Lemma varint_len l v : varint l v -> forall k, v < 128 ^ Z.of_nat k -> (1 <= k)%nat -> (length l <= k)%nat.
Proof.
  induction 1; intros k Hk H1k; cbn [length]; [lia|].
  destruct k as [|[|k]]; [lia| |].
  - change (128 ^ Z.of_nat 1) with 128 in Hk. lia.
  - assert (length l <= S k)%nat; [|lia]. apply IHvarint; [|lia].
    replace (Z.of_nat (S (S k))) with (Z.succ (Z.of_nat (S k))) in Hk by lia.
    rewrite Z.pow_succ_r in Hk by lia. lia.
Qed.

Lemma ReadICCVarint_reads l v : varint l v -> v < 2 ^ 31 -> reads ReadICCVarint (bytes_bits l) v.
Proof.
  intros H Hv. unfold ReadICCVarint.
  replace v with (0 + v * 2 ^ 0) at 1 by lia. apply iccLoop_reads; try lia; auto.
  apply (varint_len l v H 9); [|lia]. change (128 ^ Z.of_nat 9) with (2 ^ 63). lia.
Qed.

Lemma varint_exists v : 0 <= v -> exists l, varint l v.
Proof.
  revert v. apply (well_founded_induction (Z.lt_wf 0) (fun v => 0 <= v -> exists l, varint l v)).
  intros v IH Hv. destruct (Z_lt_le_dec v 128).
  - exists [v]. constructor; lia.
  - assert (1 <= v / 128) by (apply Z.div_le_lower_bound; lia).
    assert (v / 128 < v) by (apply Z.div_lt; lia).
    destruct (IH (v / 128) ltac:(lia) ltac:(lia)) as (l' & Hl).
    pose proof (Z.div_mod v 128 ltac:(lia)). pose proof (Z.mod_pos_bound v 128 ltac:(lia)).
    exists (128 + v mod 128 :: l').
    assert (E : v = v mod 128 + 128 * (v / 128)) by lia. rewrite E at 2.
    constructor; auto.
Qed.

(* ---- zig-zag ---- *)
Lemma land1_even v : (Z.land v 1 =? 0) = Z.even v.
Proof.
  change 1 with (Z.ones 1). rewrite Z.land_ones by lia. change (2 ^ 1) with 2.
  rewrite Zmod_even. now destruct (Z.even v).
Qed.

Lemma odd_ex v : Z.even v = false -> exists k, v = 2 * k + 1.
Proof.
  intros H. exists (v / 2). pose proof (odd_half v) as Ho. rewrite <- Z.negb_even, H in Ho. cbn [negb] in Ho. lia.
Qed.

Lemma UnpackSigned_even v : 0 <= v < 2 ^ 32 -> Z.even v = true -> UnpackSigned v = unzigzag v.
Proof.
  intros Hv He. unfold UnpackSigned, unzigzag. rewrite land1_even, He.
  rewrite Z.shiftr_div_pow2 by lia. change (2 ^ 1) with 2. apply i32_small.
  assert (v / 2 < 2 ^ 31) by (apply Z.div_lt_upper_bound; lia).
  assert (0 <= v / 2) by (apply Z.div_pos; lia). lia.
Qed.

Lemma UnpackSigned_odd v : 0 <= v < 2 ^ 32 -> Z.even v = false ->
  UnpackSigned v = if v <? 2 ^ 31 then unzigzag v else unzigzag v + 2 ^ 31.
Proof.
  intros Hv He. unfold UnpackSigned, unzigzag. rewrite land1_even, He.
  destruct (odd_ex v He) as (k & ->).
  replace ((2 * k + 1 + 1) / 2) with (k + 1).
  2:{ replace (2 * k + 1 + 1) with ((k + 1) * 2) by lia. now rewrite Z.div_mul by lia. }
  rewrite Z.shiftr_div_pow2 by lia. change (2 ^ 1) with 2.
  destruct (Z.ltb_spec (2 * k + 1) (2 ^ 31)).
  - rewrite (i32_small (2 * k + 1)) by lia.
    destruct (Z.eq_dec (2 * k + 1 + 1) (2 ^ 31)) as [E|E].
    + assert (k = 2 ^ 30 - 1) by lia. subst k. reflexivity.
    + rewrite (i32_small (2 * k + 1 + 1)) by lia. rewrite i32_small by lia.
      replace (- (2 * k + 1 + 1)) with (- (k + 1) * 2) by lia. now rewrite Z.div_mul by lia.
  - assert (Ei : i32 (2 * k + 1) = 2 * k + 1 - 2 ^ 32).
    { unfold i32. replace (2 * k + 1 + 2 ^ 31) with ((2 * k + 1 + 2 ^ 31 - 2 ^ 32) + 1 * 2 ^ 32) by lia.
      rewrite Z.mod_add by lia. rewrite Z.mod_small by lia. lia. }
    rewrite Ei, (i32_small (2 * k + 1 - 2 ^ 32 + 1)) by lia. rewrite i32_small by lia.
    replace (- (2 * k + 1 - 2 ^ 32 + 1)) with ((- (k + 1) + 2 ^ 31) * 2) by lia. now rewrite Z.div_mul by lia.
Qed.

Lemma UnpackSigned64_even v : 0 <= v < 2 ^ 64 -> Z.even v = true -> UnpackSigned64 v = unzigzag v.
Proof.
  intros Hv He. unfold UnpackSigned64, unzigzag. rewrite land1_even, He.
  rewrite Z.shiftr_div_pow2 by lia. change (2 ^ 1) with 2. apply i64_small.
  assert (v / 2 < 2 ^ 63) by (apply Z.div_lt_upper_bound; lia).
  assert (0 <= v / 2) by (apply Z.div_pos; lia). lia.
Qed.

Lemma UnpackSigned64_odd v : 0 <= v < 2 ^ 64 -> Z.even v = false ->
  UnpackSigned64 v = if v <? 2 ^ 63 then unzigzag v else unzigzag v + 2 ^ 63.
Proof.
  intros Hv He. unfold UnpackSigned64, unzigzag. rewrite land1_even, He.
  destruct (odd_ex v He) as (k & ->).
  replace ((2 * k + 1 + 1) / 2) with (k + 1).
  2:{ replace (2 * k + 1 + 1) with ((k + 1) * 2) by lia. now rewrite Z.div_mul by lia. }
  rewrite Z.shiftr_div_pow2 by lia. change (2 ^ 1) with 2.
  destruct (Z.ltb_spec (2 * k + 1) (2 ^ 63)).
  - rewrite (i64_small (2 * k + 1)) by lia.
    destruct (Z.eq_dec (2 * k + 1 + 1) (2 ^ 63)) as [E|E].
    + assert (k = 2 ^ 62 - 1) by lia. subst k. reflexivity.
    + rewrite (i64_small (2 * k + 1 + 1)) by lia. rewrite i64_small by lia.
      replace (- (2 * k + 1 + 1)) with (- (k + 1) * 2) by lia. now rewrite Z.div_mul by lia.
  - assert (Ei : i64 (2 * k + 1) = 2 * k + 1 - 2 ^ 64).
    { unfold i64. replace (2 * k + 1 + 2 ^ 63) with ((2 * k + 1 + 2 ^ 63 - 2 ^ 64) + 1 * 2 ^ 64) by lia.
      rewrite Z.mod_add by lia. rewrite Z.mod_small by lia. lia. }
    rewrite Ei, (i64_small (2 * k + 1 - 2 ^ 64 + 1)) by lia. rewrite i64_small by lia.
    replace (- (2 * k + 1 - 2 ^ 64 + 1)) with ((- (k + 1) + 2 ^ 63) * 2) by lia. now rewrite Z.div_mul by lia.
Qed.

(* ---- F16 ---- *)
Lemma reads_err_bits16 c : length c = 16%nat -> half_exp_field (bz c) = 31 ->
  forall s d p, reader_at s d p -> bits_at d p c -> exists s', ReadF16 s = (Err, s').
Proof.
  intros Hl He s d p Hr Hb.
  destruct (reads_bits c 16 ltac:(lia) ltac:(lia) s d p Hr Hb) as (s' & H & _).
  exists s'. unfold ReadF16, rbind. rewrite H. cbv zeta.
  pose proof (bz_nonneg c). pose proof (bz_bound c) as Hbd. rewrite Hl in Hbd. change (2 ^ Z.of_nat 16) with 65536 in Hbd.
  rewrite u32_small by lia. rewrite Z.shiftr_div_pow2 by lia. rewrite land31.
  unfold half_exp_field in He. change (2 ^ 10) with 1024. change (2 ^ 5) with 32. now rewrite He.
Qed.

Lemma f16_total sg e m : 0 <= sg < 2 -> 0 < e < 31 -> 0 <= m < 1024 ->
  Z.lor (Z.lor (u32 (u64 (Z.shiftl sg 31))) (u32 (Z.shiftl (u32 (e + 112)) 23))) (u32 (u64 (Z.shiftl m 13)))
  = sg * 2 ^ 31 + (e + 112) * 2 ^ 23 + m * 2 ^ 13.
Proof.
  intros Hs He Hm. rewrite (u32_small (e + 112)) by lia.
  rewrite !Z.shiftl_mul_pow2 by lia.
  rewrite (u64_small (sg * _)), (u64_small (m * _)) by lia. rewrite !u32_small by lia.
  rewrite (Z.lor_comm (Z.lor _ _)).
  rewrite (Z.lor_comm (sg * _)). rewrite <- (Z.shiftl_mul_pow2 sg) by lia.
  rewrite lor_shift_add by lia.
  replace ((e + 112) * 2 ^ 23 + 2 ^ 31 * sg) with ((e + 112 + 2 ^ 8 * sg) * 2 ^ 23) by lia.
  rewrite <- (Z.shiftl_mul_pow2 (e + 112 + _)) by lia. rewrite lor_shift_add by lia. rewrite ?Z.shiftl_mul_pow2 by lia. lia.
Qed.

Lemma ReadF16_reads c : length c = 16%nat -> half_exp_field (bz c) <> 31 ->
  exists r, reads ReadF16 c r /\ f_neg r = half_sign (bz c) /\
    same_value (f_mant r) (f_exp r) (half_mant (bz c)) (half_exp (bz c)) /\
    r = (if half_exp_field (bz c) =? 0 then mkF32 (half_sign (bz c)) (bz c mod 1024) (-24)
         else mkF32 (half_sign (bz c)) ((1024 + bz c mod 1024) * 2 ^ 13) (half_exp_field (bz c) - 38)).
Proof.
  intros Hl He. pose proof (bz_nonneg c) as H0. pose proof (bz_bound c) as H1.
  rewrite Hl in H1. change (2 ^ Z.of_nat 16) with 65536 in H1.
  set (h := bz c) in *.
  assert (Hrd : reads (ReadBits 16) c h) by (apply reads_bits; lia).
  set (m := h mod 1024). set (e := (h / 1024) mod 32). set (sg := h / 32768).
  assert (Em : Z.land h 1023 = m) by (apply (land_ones_mod h 10); lia).
  assert (Ee : Z.land (Z.shiftr (u32 h) 10) 31 = e).
  { rewrite u32_small by lia. rewrite Z.shiftr_div_pow2 by lia. apply (land_ones_mod _ 5). lia. }
  assert (Hsg : 0 <= sg < 2).
  { unfold sg. split; [apply Z.div_pos; lia|apply Z.div_lt_upper_bound; lia]. }
  assert (Es : Z.land (Z.shiftr h 15) 1 = sg).
  { rewrite Z.shiftr_div_pow2 by lia. change (2 ^ 15) with 32768. fold sg.
    rewrite land1. apply Z.mod_small; lia. }
  assert (Ehs : half_sign h = (sg =? 1)).
  { unfold half_sign. rewrite Z.testbit_eqb by lia. change (2 ^ 15) with 32768. fold sg.
    rewrite Z.mod_small by lia. reflexivity. }
  assert (Hm : 0 <= m < 1024) by (apply Z.mod_pos_bound; lia).
  assert (Hee : 0 <= e < 32) by (apply Z.mod_pos_bound; lia).
  unfold half_exp_field in He. fold e in He.
  unfold half_mant, half_exp, half_exp_field. fold e m.
  destruct (Z.eqb_spec e 0) as [E0|E0].
  - exists (mkF32 (sg =? 1) m (-24)). split; [|split; [|split]].
    + unfold ReadF16. eapply reads_bind0; [exact Hrd|]. cbv zeta. rewrite Em, Ee, Es.
      destruct (Z.eqb_spec e 31); [lia|]. destruct (Z.eqb_spec e 0); [|lia]. apply reads_ret.
    + cbn [f_neg]. now rewrite Ehs.
    + unfold same_value. cbn [f_mant f_exp]. reflexivity.
    + rewrite Ehs. reflexivity.
  - exists (mkF32 (sg =? 1) (2 ^ 23 + m * 2 ^ 13) (e + 112 - 150)). split; [|split; [|split]].
    + unfold ReadF16. eapply reads_bind0; [exact Hrd|]. cbv zeta. rewrite Em, Ee, Es.
      destruct (Z.eqb_spec e 31); [lia|]. destruct (Z.eqb_spec e 0); [lia|].
      rewrite f16_total by lia. unfold Float32frombits.
      set (t := sg * 2 ^ 31 + (e + 112) * 2 ^ 23 + m * 2 ^ 13).
      assert (E1 : Z.odd (Z.shiftr t 31) = (sg =? 1)).
      { rewrite Z.shiftr_div_pow2 by lia.
        replace t with ((e + 112) * 2 ^ 23 + m * 2 ^ 13 + sg * 2 ^ 31) by (unfold t; lia).
        rewrite Z.div_add by lia. rewrite Z.div_small by lia. cbn [Z.add].
        assert (sg = 0 \/ sg = 1) as [->| ->] by lia; reflexivity. }
      assert (E2 : Z.land (Z.shiftr t 23) 255 = e + 112).
      { rewrite Z.shiftr_div_pow2 by lia. rewrite land255.
        replace t with (m * 2 ^ 13 + (e + 112 + sg * 2 ^ 8) * 2 ^ 23) by (unfold t; lia).
        rewrite Z.div_add by lia. rewrite (Z.div_small (m * 2 ^ 13)) by lia. cbn [Z.add].
        rewrite Z.mod_add by lia. apply Z.mod_small. lia. }
      assert (E3 : Z.land t (2 ^ 23 - 1) = m * 2 ^ 13).
      { rewrite land_ones_mod by lia.
        replace t with (m * 2 ^ 13 + (e + 112 + sg * 2 ^ 8) * 2 ^ 23) by (unfold t; lia).
        rewrite Z.mod_add by lia. apply Z.mod_small. lia. }
      rewrite E1, E2, E3. destruct (Z.eqb_spec (e + 112) 0); [lia|]. apply reads_ret.
    + cbn [f_neg]. now rewrite Ehs.
    + unfold same_value. cbn [f_mant f_exp].
      replace (e + 112 - 150 - Z.min (e + 112 - 150) (e - 25)) with 0 by lia.
      replace (e - 25 - Z.min (e + 112 - 150) (e - 25)) with 13 by lia. lia.
    + rewrite Ehs. f_equal; lia.
Qed.
