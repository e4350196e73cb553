From Coq Require Import ZArith List Bool Lia Arith ZifyBool ZifyNat.
From Verif Require Import GoBase Bits ModelUtil SpecUtil ProofBitReader ProofCodes.
Import ListNotations.
Open Scope Z_scope.

Lemma CeilLog1p_len x : 0 <= x < 2 ^ 64 -> CeilLog1p x = if x =? 0 then 0 else Z.log2 x + 1.
Proof. intros H. unfold CeilLog1p, LeadingZeros64, Len64. rewrite u64_small by auto. destruct (x =? 0); lia. Qed.

Lemma CeilLog1p_ok x : 0 <= x < 2 ^ 64 -> is_ceil_log2 (x + 1) (CeilLog1p x).
Proof.
  intros H. rewrite CeilLog1p_len by auto. unfold is_ceil_log2.
  destruct (Z.eqb_spec x 0) as [->|Hx]; [cbn; lia|].
  pose proof (Z.log2_spec x ltac:(lia)) as [Hl Hu]. pose proof (Z.log2_nonneg x).
  change (Z.succ (Z.log2 x)) with (Z.log2 x + 1) in Hu || rewrite <- Z.add_1_r in Hu.
  split; [lia|]. split; [lia|]. right. replace (Z.log2 x + 1 - 1) with (Z.log2 x) by lia. lia.
Qed.

(* x & (x+1) = 0 iff x+1 is a power of two *)
Lemma land_succ_pow x : 0 <= x -> Z.land (x + 1) x = 0 ->
  x + 1 = 2 ^ (if x =? 0 then 0 else Z.log2 x + 1).
Proof.
  intros Hx H. destruct (Z.eqb_spec x 0) as [->|Hne]; [reflexivity|].
  pose proof (Z.log2_spec x ltac:(lia)) as [Hl Hu]. pose proof (Z.log2_nonneg x) as Hn.
  rewrite <- Z.add_1_r in Hu.
  destruct (Z.eq_dec (x + 1) (2 ^ (Z.log2 x + 1))) as [E|E]; auto.
  exfalso.
  assert (L1 : Z.log2 (x + 1) = Z.log2 x).
  { apply Z.log2_unique; auto. rewrite <- Z.add_1_r. lia. }
  assert (T : Z.testbit (Z.land (x + 1) x) (Z.log2 x) = true).
  { rewrite Z.land_spec. rewrite <- L1 at 1. rewrite !Z.bit_log2 by lia. reflexivity. }
  rewrite H, Z.bits_0 in T. discriminate.
Qed.

Lemma land_pow_pred n : 0 <= n -> Z.land (2 ^ n) (2 ^ n - 1) = 0.
Proof.
  intros Hn. rewrite land_ones_mod by lia. apply Z.mod_same. apply Z.pow_nonzero; lia.
Qed.

Lemma floor_log_core x : 0 <= x < 2 ^ 64 ->
  is_floor_log2 (x + 1) (if negb (Z.land (x + 1) x =? 0) then CeilLog1p x - 1 else CeilLog1p x).
Proof.
  intros H. rewrite CeilLog1p_len by auto. unfold is_floor_log2.
  destruct (Z.eqb_spec (Z.land (x + 1) x) 0) as [E|E]; cbn [negb].
  - pose proof (land_succ_pow x ltac:(lia) E) as P.
    set (c := if x =? 0 then 0 else Z.log2 x + 1) in *.
    assert (0 <= c). { unfold c. pose proof (Z.log2_nonneg x). destruct (x =? 0); lia. }
    split; auto. rewrite P. rewrite Z.pow_add_r by lia.
    assert (0 < 2 ^ c) by (apply pow2_pos; lia). lia.
  - destruct (Z.eqb_spec x 0) as [->|Hne].
    { exfalso. apply E. reflexivity. }
    pose proof (Z.log2_spec x ltac:(lia)) as [Hl Hu]. pose proof (Z.log2_nonneg x) as Hn.
    rewrite <- Z.add_1_r in Hu.
    replace (Z.log2 x + 1 - 1) with (Z.log2 x) by lia. split; auto. split; [lia|].
    destruct (Z.eq_dec (x + 1) (2 ^ (Z.log2 x + 1))) as [E2|E2]; [|lia].
    exfalso. apply E. rewrite E2. replace x with (2 ^ (Z.log2 x + 1) - 1) at 2 by lia.
    apply land_pow_pred. lia.
Qed.

Lemma FloorLog1pUint64_ok x : 0 <= x < 2 ^ 64 -> is_floor_log2 (x + 1) (FloorLog1pUint64 x).
Proof.
  intros H. unfold FloorLog1pUint64. destruct (Z.eq_dec x (2 ^ 64 - 1)) as [->|Hne].
  - vm_compute. intuition discriminate.
  - rewrite u64_small by lia. now apply floor_log_core.
Qed.

Lemma FloorLog1p_i64_ok x : 0 <= x < 2 ^ 63 -> is_floor_log2 (x + 1) (FloorLog1p_i64 x).
Proof.
  intros H. unfold FloorLog1p_i64. destruct (Z.eq_dec x (2 ^ 63 - 1)) as [->|Hne].
  - vm_compute. intuition discriminate.
  - rewrite i64_small by lia. apply floor_log_core. lia.
Qed.

Lemma CeilLog2_u32_ok x : 1 <= x < 2 ^ 32 -> is_ceil_log2 x (CeilLog2_u32 x).
Proof.
  intros H. unfold CeilLog2_u32. rewrite u32_small by lia.
  replace x with (x - 1 + 1) at 1 by lia. apply CeilLog1p_ok. lia.
Qed.
Lemma CeilLog2_i64_ok x : 1 <= x < 2 ^ 63 -> is_ceil_log2 x (CeilLog2_i64 x).
Proof.
  intros H. unfold CeilLog2_i64. rewrite i64_small by lia.
  replace x with (x - 1 + 1) at 1 by lia. apply CeilLog1p_ok. lia.
Qed.

Lemma is_ceil_log2_unique x j k : is_ceil_log2 x j -> is_ceil_log2 x k -> j = k.
Proof.
  intros (Hj & Hj1 & Hj2) (Hk & Hk1 & Hk2).
  assert (forall a b, 0 <= a -> 0 <= b -> x <= 2 ^ a -> b = 0 \/ 2 ^ (b - 1) < x -> b <= a) as A.
  { intros a b Ha Hb H1 [H2|H2]; [lia|]. destruct (Z_le_gt_dec b a); auto.
    assert (2 ^ a <= 2 ^ (b - 1)) by (apply Z.pow_le_mono_r; lia). lia. }
  assert (j <= k) by (apply A; auto). assert (k <= j) by (apply A; auto). lia.
Qed.

Lemma upper_max a b : Z.lxor (Z.lxor (if a <? b then a else b) a) b = Z.max a b.
Proof.
  destruct (Z.ltb_spec a b).
  - rewrite Z.lxor_nilpotent, Z.lxor_0_l. lia.
  - rewrite (Z.lxor_comm b a), Z.lxor_assoc, Z.lxor_nilpotent, Z.lxor_0_r. lia.
Qed.

Lemma lower_min a b : (if a <? b then a else b) = Z.min a b.
Proof. destruct (Z.ltb_spec a b); lia. Qed.

Lemma Clamp3_ok v a b : Clamp3 v a b = Z.max (Z.min a b) (Z.min (Z.max a b) v).
Proof.
  unfold Clamp3. cbv zeta. rewrite upper_max, lower_min.
  destruct (Z.ltb_spec v (Z.min a b)); [lia|]. destruct (Z.ltb_spec (Z.max a b) v); lia.
Qed.

Lemma Clamp_ok v a b c : Clamp v a b c =
  Z.max (Z.min (Z.min a b) c) (Z.min (Z.max (Z.max a b) c) v).
Proof.
  unfold Clamp. cbv zeta. rewrite upper_max, lower_min.
  destruct (Z.leb_spec c (Z.min a b)), (Z.leb_spec (Z.max a b) c);
  repeat match goal with |- context [?x <? ?y] => destruct (Z.ltb_spec x y) end; lia.
Qed.

Lemma CeilDiv_ok n d : 1 <= n < 2 ^ 32 -> 1 <= d < 2 ^ 32 ->
  exists q, CeilDiv n d = Ok q /\ is_ceil_div n d q /\ 1 <= q <= n.
Proof.
  intros Hn Hd. unfold CeilDiv, is_ceil_div. destruct (Z.eqb_spec d 0); [lia|].
  rewrite (u32_small (n - 1)) by lia.
  pose proof (Z.div_mod (n - 1) d ltac:(lia)). pose proof (Z.mod_pos_bound (n - 1) d ltac:(lia)).
  assert (0 <= (n - 1) / d) by (apply Z.div_pos; lia).
  assert ((n - 1) / d <= n - 1) by (apply Z.div_le_upper_bound; nia).
  rewrite u32_small by lia. eexists. split; eauto. split; nia.
Qed.

(* ---- mirroring ---- *)
Lemma is_mirror_unique n c r r' : is_mirror n c r -> is_mirror n c r' -> r = r'.
Proof.
  intros [Hr [k Hk]] [Hr' [k' Hk']].
  assert (H : forall d, 0 < n -> (- (2 * n) < r - r' < 2 * n -> r - r' = 2 * n * d -> r = r') /\
                   (- (2 * n) < r + r' + 1 < 2 * n -> r + r' + 1 = 2 * n * d -> r + r' + 1 = 0)).
  { intros d Hn. split; intros; assert (d = 0) by nia; subst d; lia. }
  destruct Hk as [Hk|Hk], Hk' as [Hk'|Hk'].
  - apply (H (k' - k)); lia.
  - destruct (H (k' - k) ltac:(lia)) as [_ H2]. specialize (H2 ltac:(lia) ltac:(lia)). lia.
  - destruct (H (k - k') ltac:(lia)) as [_ H2]. specialize (H2 ltac:(lia) ltac:(lia)). lia.
  - apply (H (k - k')); lia.
Qed.

Lemma mirrorLoop_ok n : 1 <= n < 2 ^ 30 -> forall fuel c, int32 c ->
  (Z.of_nat fuel >= 2 * Z.abs c + 4 \/ (c >= 0 /\ Z.of_nat fuel >= 2 * c + 1)) ->
  exists r, mirrorLoop fuel c n = Ok r /\ is_mirror n c r.
Proof.
  intros Hn fuel. induction fuel as [fuel IH] using lt_wf_ind. intros c Hc Hf.
  destruct fuel as [|f]; [lia|].
  unfold mirrorLoop; fold mirrorLoop.
  destruct ((c <? 0) || (n <=? c)) eqn:E.
  2:{ exists c. split; auto. apply orb_false_iff in E. split; [lia|]. exists 0. lia. }
  unfold int32 in Hc. cbv zeta. destruct (Z.leb_spec 0 (-1 - c)).
  - destruct (IH f ltac:(lia) (-1 - c)) as (r & Hr & Hm); [unfold int32; lia|lia|].
    exists r. split; auto. destruct Hm as [Hm [k Hk]]. split; auto.
    exists (- k). destruct Hk; [right|left]; lia.
  - assert (n <= c) by lia. rewrite (i32_small (2 * n)) by lia.
    rewrite i32_small by lia.
    (* the next coordinate is c' = 2n-1-c; if negative one more step gives c-2n *)
    destruct f as [|f2]; [lia|].
    destruct (Z_lt_le_dec (2 * n + (-1 - c)) 0) as [Hneg|Hpos].
    + unfold mirrorLoop; fold mirrorLoop.
      assert (Et : ((2 * n + (-1 - c) <? 0) || (n <=? 2 * n + (-1 - c))) = true) by lia.
      rewrite Et. cbv zeta. destruct (Z.leb_spec 0 (-1 - (2 * n + (-1 - c)))); [|lia].
      destruct (IH f2 ltac:(lia) (-1 - (2 * n + (-1 - c)))) as (r & Hr & Hm);
        [unfold int32; lia|lia|].
      exists r. split; auto. destruct Hm as [Hm [k Hk]]. split; auto.
      exists (k + 1). destruct Hk; [left|right]; lia.
    + exists (2 * n + (-1 - c)). unfold mirrorLoop; fold mirrorLoop.
      assert (Et : ((2 * n + (-1 - c) <? 0) || (n <=? 2 * n + (-1 - c))) = false) by lia.
      rewrite Et. split; auto. split; [lia|]. exists 1. right. lia.
Qed.

Lemma MirrorCoordinate_ok n c : 1 <= n < 2 ^ 30 -> int32 c ->
  exists r, MirrorCoordinate c n = Ok r /\ is_mirror n c r.
Proof. intros Hn Hc. apply mirrorLoop_ok; auto. left. lia. Qed.

Lemma is_mirror_neg n c r : is_mirror n c r -> is_mirror n (-1 - c) r.
Proof. intros [Hr [k Hk]]. split; auto. exists (- k). destruct Hk; [right|left]; lia. Qed.
Lemma is_mirror_shift n c r k : is_mirror n c r -> is_mirror n (c + 2 * n * k) r.
Proof. intros [Hr [j Hj]]. split; auto. exists (j + k). destruct Hj; [left|right]; lia. Qed.

(* ---- slices ---- *)
Definition sl_ok {A} (s : GoSlice A) : Prop := (sl_off s + sl_len s <= length (sl_arr s))%nat.

Lemma contents_length {A} (s : GoSlice A) : sl_ok s -> length (contents s) = sl_len s.
Proof. unfold sl_ok, contents. intros. rewrite firstn_length, skipn_length. lia. Qed.

Lemma list_set_app {A} (a b : list A) x y : list_set (a ++ x :: b) (length a) y = a ++ y :: b.
Proof. induction a; cbn; auto. now f_equal. Qed.

Lemma overwrite_app {A} (xs : list A) : forall a b c, length b = length xs ->
  overwrite (a ++ b ++ c) (length a) xs = a ++ xs ++ c.
Proof.
  induction xs as [|x xs IH]; intros a b c Hl.
  - destruct b; [reflexivity|discriminate].
  - destruct b as [|y b]; [discriminate|]. cbn [overwrite app].
    rewrite list_set_app.
    replace (a ++ x :: b ++ c) with ((a ++ [x]) ++ b ++ c) by (now rewrite <- app_assoc).
    replace (S (length a)) with (length (a ++ [x])) by (rewrite app_length; cbn; lia).
    rewrite IH by (cbn in Hl; lia). now rewrite <- app_assoc.
Qed.

Lemma sl_decompose {A} (s : GoSlice A) : sl_ok s ->
  exists a c, sl_arr s = a ++ contents s ++ c /\ length a = sl_off s.
Proof.
  unfold sl_ok, contents. intros H.
  exists (firstn (sl_off s) (sl_arr s)), (skipn (sl_len s) (skipn (sl_off s) (sl_arr s))).
  split.
  - now rewrite firstn_skipn, firstn_skipn.
  - rewrite firstn_length. lia.
Qed.

Lemma contents_mk {A} (a l c : list A) n m : length a = n -> length l = m ->
  contents (mkSlice (a ++ l ++ c) n m) = l.
Proof.
  intros <- <-. unfold contents. cbn [sl_arr sl_off sl_len].
  rewrite skipn_app_exact. apply firstn_app_exact.
Qed.

Lemma append_ok {A} pad (s : GoSlice A) xs : sl_ok s ->
  sl_ok (append pad s xs) /\ contents (append pad s xs) = contents s ++ xs.
Proof.
  intros Hs. pose proof (contents_length s Hs) as Hc. unfold append.
  destruct (Nat.leb_spec (sl_off s + sl_len s + length xs) (length (sl_arr s))) as [H|H].
  - destruct (sl_decompose s Hs) as (a & c & E & Ha).
    assert (Hlc : (length xs <= length c)%nat).
    { rewrite E in H. rewrite !app_length in H. lia. }
    assert (Eo : overwrite (sl_arr s) (sl_off s + sl_len s) xs = a ++ (contents s ++ xs) ++ skipn (length xs) c).
    { rewrite E. rewrite <- (firstn_skipn (length xs) c) at 1.
      replace (a ++ contents s ++ firstn (length xs) c ++ skipn (length xs) c)
        with ((a ++ contents s) ++ firstn (length xs) c ++ skipn (length xs) c) by (now rewrite <- app_assoc).
      replace (sl_off s + sl_len s)%nat with (length (a ++ contents s)) by (rewrite app_length; lia).
      rewrite overwrite_app by (rewrite firstn_length; lia). now rewrite <- !app_assoc. }
    rewrite Eo. split.
    + unfold sl_ok. cbn [sl_arr sl_off sl_len]. rewrite !app_length. lia.
    + apply contents_mk; auto. rewrite app_length. lia.
  - split.
    + unfold sl_ok. cbn [sl_arr sl_off sl_len]. rewrite !app_length. lia.
    + rewrite app_assoc. apply (contents_mk [] (contents s ++ xs) pad); auto. rewrite app_length. lia.
Qed.

Lemma AddToSlice_ok {A} pad (s : GoSlice A) p item : sl_ok s -> (p <= sl_len s)%nat ->
  exists s', AddToSlice pad s (Z.of_nat p) item = Ok s' /\ sl_ok s' /\
    contents s' = firstn p (contents s) ++ item :: skipn p (contents s).
Proof.
  intros Hs Hp. pose proof (contents_length s Hs) as Hc. unfold AddToSlice.
  destruct (Nat.eqb_spec (sl_len s) 0) as [E0|E0].
  - eexists; split; eauto. assert (contents s = []) as -> by (apply length_zero_iff_nil; lia).
    split; [unfold sl_ok; cbn; lia|]. assert (p = O) by lia. now subst p.
  - destruct (Z.eqb_spec (Z.of_nat p) (Z.of_nat (sl_len s))) as [E|E].
    + eexists; split; eauto. destruct (append_ok pad s [item] Hs) as [H1 H2]. split; auto.
      rewrite H2. rewrite firstn_all2, skipn_all2 by lia. reflexivity.
    + assert (((Z.of_nat p <? 0) || (Z.of_nat (sl_len s) <? Z.of_nat p)) = false) as -> by lia.
      eexists; split; eauto. rewrite Nat2Z.id.
      set (l := firstn p (contents s) ++ item :: skipn p (contents s)).
      assert (length l = S (sl_len s)).
      { unfold l. rewrite app_length. cbn [length]. rewrite firstn_length, skipn_length. lia. }
      split; [unfold sl_ok; cbn [sl_arr sl_off sl_len]; lia|].
      rewrite <- (app_nil_r l) at 1. apply (contents_mk [] l []); auto.
Qed.

(* Add: at the end it is right, anywhere else the element at the insertion
   point is replaced by a second copy of the new one. *)
Lemma Add_ok {A} pad1 pad2 (s : GoSlice A) p item : sl_ok s -> (p <= sl_len s)%nat ->
  exists s', Add pad1 pad2 s p item = Ok s' /\
    contents s' = firstn p (contents s) ++ item ::
      (if (p =? sl_len s)%nat then [] else item :: skipn (S p) (contents s)).
Proof.
  intros Hs Hp. pose proof (contents_length s Hs) as Hc. unfold Add.
  destruct (Nat.ltb_spec (sl_len s) p); [lia|]. eexists; split; eauto.
  assert (Hs1 : sl_ok (slice_to s p)) by (unfold sl_ok, slice_to in *; cbn; lia).
  destruct (append_ok pad1 (slice_to s p) [item] Hs1) as [Hs2 E2].
  destruct (append_ok pad2 _ (contents (slice_from (mkSlice
     (if (sl_off s + p + 1 <=? length (sl_arr s))%nat then sl_arr (append pad1 (slice_to s p) [item]) else sl_arr s)
     (sl_off s) (sl_len s)) p)) Hs2) as [_ E3].
  rewrite E3, E2.
  assert (Ef : contents (slice_to s p) = firstn p (contents s)).
  { unfold contents, slice_to. cbn [sl_arr sl_off sl_len]. rewrite firstn_firstn. f_equal. lia. }
  rewrite Ef. rewrite <- app_assoc. f_equal. cbn [app]. f_equal.
  destruct (Nat.eqb_spec p (sl_len s)) as [->|Hne].
  - unfold contents, slice_from. cbn [sl_len]. now rewrite Nat.sub_diag.
  - assert (sl_off s + p + 1 <= length (sl_arr s))%nat by (unfold sl_ok in Hs; lia).
    destruct (Nat.leb_spec (sl_off s + p + 1) (length (sl_arr s))); [|lia].
    unfold append, slice_to. cbn [sl_arr sl_off sl_len length].
    destruct (Nat.leb_spec (sl_off s + p + 1) (length (sl_arr s))); [|lia].
    cbn [sl_arr overwrite].
    destruct (sl_decompose s Hs) as (a & c & E & Ha). rewrite E.
    rewrite <- (firstn_skipn p (contents s)) at 1.
    assert (Hsk : skipn p (contents s) = nth p (contents s) item :: skipn (S p) (contents s)).
    { apply skipn_nth_cons. apply nth_error_nth'. lia. }
    rewrite Hsk.
    replace (a ++ (firstn p (contents s) ++ nth p (contents s) item :: skipn (S p) (contents s)) ++ c)
      with ((a ++ firstn p (contents s)) ++ nth p (contents s) item :: (skipn (S p) (contents s) ++ c))
      by (now rewrite <- !app_assoc).
    assert (Hla : length (a ++ firstn p (contents s)) = (sl_off s + p)%nat).
    { rewrite app_length, firstn_length. lia. }
    rewrite <- Hla, list_set_app. unfold slice_from. cbn [sl_arr sl_off sl_len].
    change (item :: skipn (S p) (contents s) ++ c) with ((item :: skipn (S p) (contents s)) ++ c).
    apply contents_mk; auto. cbn [length]. rewrite skipn_length. lia.
Qed.

(* ---- deque ---- *)
Lemma dq_step_ok {A} pads n (dq : GoSlice A) o : sl_ok dq ->
  let '(dq', r) := dq_step pads n dq o in
  sl_ok dq' /\ dq_spec (contents dq) o = (contents dq', r).
Proof.
  intros Hs. pose proof (contents_length dq Hs) as Hc. destruct o; cbn [dq_step dq_spec].
  - unfold AddFirst. assert (H1 : sl_ok (mkSlice ([a] ++ pads n) 0 1)) by (unfold sl_ok; cbn; lia).
    destruct (append_ok (pads (S n)) _ (contents dq) H1) as [H2 ->]. split; auto.
  - unfold AddLast. destruct (append_ok (pads n) dq [a] Hs) as [H2 ->]. split; auto.
  - unfold RemoveFirst. destruct (Nat.eqb_spec (sl_len dq) 0) as [E|E].
    + split; auto. now assert (contents dq = []) as -> by (apply length_zero_iff_nil; lia).
    + split; [unfold sl_ok, slice_from in *; cbn; lia|].
      assert (Et : contents (slice_from dq 1) = tl (contents dq)).
      { unfold contents, slice_from. cbn [sl_arr sl_off sl_len].
        rewrite skipn_add. destruct (skipn (sl_off dq) (sl_arr dq)); cbn [skipn].
        - now rewrite !firstn_nil.
        - destruct (sl_len dq); [lia|]. cbn [Nat.sub firstn tl]. now rewrite Nat.sub_0_r. }
      rewrite Et. destruct (contents dq); [cbn in Hc; lia|]. reflexivity.
  - unfold RemoveLast. destruct (Nat.eqb_spec (sl_len dq) 0) as [E|E].
    + split; auto. now assert (contents dq = []) as -> by (apply length_zero_iff_nil; lia).
    + split; [unfold sl_ok, slice_to in *; cbn; lia|].
      assert (Et : contents (slice_to dq (sl_len dq - 1)) = firstn (sl_len dq - 1) (contents dq)).
      { unfold contents, slice_to. cbn [sl_arr sl_off sl_len]. rewrite firstn_firstn. f_equal. lia. }
      rewrite Et. destruct (contents dq) as [|x l] using rev_ind; [cbn in Hc; lia|]. clear IHl.
      rewrite app_length in Hc. cbn [length] in Hc. rewrite rev_app_distr. cbn [rev app].
      rewrite rev_involutive. replace (sl_len dq - 1)%nat with (length l) by lia.
      rewrite firstn_app_exact, nth_error_app2, Nat.sub_diag by lia. reflexivity.
  - split; auto. unfold IsEmpty. destruct (contents dq); cbn in Hc; rewrite <- Hc; reflexivity.
Qed.

Lemma dq_run_ok {A} pads os : forall n (dq : GoSlice A), sl_ok dq ->
  dq_run pads n dq os = dq_spec_run (contents dq) os.
Proof.
  induction os as [|o os IH]; intros n dq Hs; [reflexivity|].
  cbn [dq_run dq_spec_run]. pose proof (dq_step_ok pads n dq o Hs) as H.
  destruct (dq_step pads n dq o) as [dq' r]. destruct H as [H ->]. f_equal. now apply IH.
Qed.
