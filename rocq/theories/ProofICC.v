(* Lemmas about the ICC reconstruction and the upsampling weights. *)
From Coq Require Import ZArith List Bool Lia Arith ZifyBool ZifyNat Permutation FinFun.
From Verif Require Import GoBase GoLoop Bits ModelBitReader ModelUtil ModelICC SpecBitReader SpecCodes SpecICC
  ProofBitReader ProofBitReader2 ProofCodes.
Import ListNotations.
Open Scope Z_scope.

(* ---- the reader on whole bytes ---- *)
Definition brk (d : list Z) (k : nat) : BR := mkBR d k 0 0 (8 * Z.of_nat k).
Lemma readFull_S f bits bitsRead result s : readFull (S f) bits bitsRead result s =
  if bits - bitsRead <? 8 then (Ok (bitsRead, result), s)
  else match stream_read1 s with
       | (Ok b, s1) => readFull f bits (bitsRead + 8) (Z.lor result (u64 (Z.shiftl b bitsRead))) (add_count 8 s1)
       | (_, s1) => (Err, s1)
       end.
Proof. reflexivity. Qed.
Lemma rb8 d k : (k < length d)%nat -> is_byte (nth k d 0) -> 8 * Z.of_nat k + 8 < 2 ^ 64 ->
  ReadBits 8 (brk d k) = (Ok (nth k d 0), brk d (S k)).
Proof.
  intros H Hb Hk. unfold ReadBits. change (8 =? 0) with false. change (64 <? 8) with false. cbv iota.
  change (drainCur 8 (brk d k)) with ((0, 0), brk d k). cbv beta iota.
  rewrite readFull_S. change (8 - 0 <? 8) with false. cbv iota.
  unfold stream_read1, brk. cbn [br_data br_pos]. rewrite (nth_error_nth' d k 0) by lia.
  rewrite readFull_S. change (8 - (0 + 8) <? 8) with true. cbv iota beta.
  unfold readTail. change (0 <? 8 - (0 + 8)) with false. cbv iota beta zeta.
  unfold add_count. cbn [br_data br_pos br_index br_cur br_count].
  rewrite Z.shiftl_0_r. rewrite (u64_small (nth k d 0)) by (unfold is_byte in Hb; lia).
  rewrite Z.lor_0_l. rewrite u64_small by lia. f_equal. f_equal. lia.
Qed.
Lemma rb8_end d k : (length d <= k)%nat -> fst (ReadBits 8 (brk d k)) = Err.
Proof.
  intros H. unfold ReadBits. change (8 =? 0) with false. change (64 <? 8) with false. cbv iota.
  change (drainCur 8 (brk d k)) with ((0, 0), brk d k). cbv beta iota.
  rewrite readFull_S. change (8 - 0 <? 8) with false. cbv iota.
  unfold stream_read1, brk. cbn [br_data br_pos].
  assert (E : nth_error d k = None) by (apply nth_error_None; lia). now rewrite E.
Qed.
Lemma good_brk d k : Forall is_byte d -> (k <= length d)%nat -> 8 * Z.of_nat k < 2 ^ 64 -> reader_at (brk d k) d (8 * k).
Proof.
  intros H1 H2 H3. unfold reader_at, brk. cbn [br_data br_pos br_index br_cur br_count].
  assert (E : ((8 * k + 7) / 8 = k /\ (8 * k) mod 8 = 0)%nat).
  { split; [|rewrite Nat.mul_comm; apply Nat.mod_mul; lia].
    symmetry. apply (Nat.div_unique _ 8 k 7); lia. }
  destruct E as [E1 E2]. rewrite E1, E2. unfold is_byte.
  split; [auto|]. split; [auto|]. split; [lia|]. split; [auto|]. split; [auto|]. split; [lia|].
  split; [intros K; now elim K|lia].
Qed.
Lemma atend_brk d k : Forall is_byte d -> (k <= length d)%nat -> 8 * Z.of_nat k < 2 ^ 64 ->
  AtEnd (brk d k) = ((k =? length d)%nat, brk d k).
Proof.
  intros H1 H2 H3. pose proof (good_brk d k H1 H2 H3) as Hr.
  destruct (reader_at_good _ _ _ Hr) as (Hg & _). rewrite (AtEnd_spec _ Hg). f_equal.
  pose proof (reader_at_left_len _ _ _ Hr) as El.
  destruct (bits_left (brk d k)); cbn [length] in El; lia.
Qed.

(* a varint standing at byte k *)
Lemma iccLoop_brk l v : varint l v -> forall d k n sh a,
  Forall is_byte d -> 8 * Z.of_nat (length d) + 8 < 2 ^ 64 ->
  (forall i, (i < length l)%nat -> (k + i < length d)%nat /\ nth (k + i) d 0 = nth i l 0) ->
  0 <= sh -> 0 <= a < 2 ^ sh -> a + v * 2 ^ sh < 2 ^ 31 -> (length l <= n)%nat ->
  iccLoop n sh a (brk d k) = (Ok (a + v * 2 ^ sh), brk d (k + length l)).
Proof.
  induction 1; intros d k n sh a Hd Hl Hat Hsh Ha Hb Hn; (destruct n; [cbn [length] in Hn; lia|]); cbn [iccLoop].
  - destruct (Hat 0%nat ltac:(cbn; lia)) as [L0 E0]. rewrite Nat.add_0_r in L0, E0. cbn [nth] in E0.
    unfold rbind. rewrite rb8; [|lia|rewrite E0; unfold is_byte; lia|lia]. rewrite E0.
    cbv zeta. rewrite (i32_small v) by lia. rewrite land127.
    rewrite Z.mod_small by lia. rewrite i32_small by (rewrite Z.shiftl_mul_pow2 by lia; nia).
    rewrite lor_shift_add by lia. destruct (Z.leb_spec v 127); [|lia].
    rewrite (Z.mul_comm v). cbn [length]. now rewrite Nat.add_1_r.
  - assert (0 < 2 ^ sh) by (apply pow2_pos; lia).
    destruct (Hat 0%nat ltac:(cbn; lia)) as [L0 E0]. rewrite Nat.add_0_r in L0, E0. cbn [nth] in E0.
    unfold rbind at 1. rewrite rb8; [|lia|rewrite E0; unfold is_byte; lia|lia]. rewrite E0.
    cbv zeta. rewrite (i32_small (128 + b)) by lia. rewrite land127.
    replace ((128 + b) mod 2 ^ 7) with b.
    2:{ replace (128 + b) with (b + 1 * 2 ^ 7) by lia. rewrite Z.mod_add by lia. rewrite Z.mod_small; lia. }
    rewrite i32_small by (rewrite Z.shiftl_mul_pow2 by lia; nia).
    rewrite lor_shift_add by lia. destruct (Z.leb_spec (128 + b) 127); [lia|].
    replace (a + (b + 128 * v) * 2 ^ sh) with ((a + 2 ^ sh * b) + v * 2 ^ (sh + 7)).
    2:{ rewrite Z.pow_add_r by lia. change (2 ^ 7) with 128. lia. }
    cbn [length]. replace (k + S (length l))%nat with (S k + length l)%nat by lia.
    apply IHvarint; [auto|lia| |lia| | |cbn [length] in Hn; lia].
    + intros i Hi. destruct (Hat (S i) ltac:(cbn [length]; lia)) as [L E]. cbn [nth] in E.
      replace (S k + i)%nat with (k + S i)%nat by lia. auto.
    + rewrite Z.pow_add_r by lia. change (2 ^ 7) with 128. nia.
    + rewrite Z.pow_add_r by lia. change (2 ^ 7) with 128. nia.
Qed.

Lemma nth_mid {A} (a b c : list A) d i : (i < length b)%nat -> nth (length a + i) (a ++ b ++ c) d = nth i b d.
Proof.
  intros H. rewrite app_nth2 by lia. replace (length a + i - length a)%nat with i by lia.
  now rewrite app_nth1.
Qed.
Lemma varint_brk l v a c : varint l v -> v < 2 ^ 31 -> Forall is_byte (a ++ l ++ c) ->
  8 * Z.of_nat (length (a ++ l ++ c)) + 8 < 2 ^ 64 ->
  ReadICCVarint (brk (a ++ l ++ c) (length a)) = (Ok v, brk (a ++ l ++ c) (length a + length l)).
Proof.
  intros H Hv Hb Hl. unfold ReadICCVarint.
  replace v with (0 + v * 2 ^ 0) at 1 by lia. eapply iccLoop_brk; try lia; auto.
  - intros i Hi. split; [rewrite !app_length; lia|now apply nth_mid].
  - apply (varint_len l v H 9); [|lia]. change (128 ^ Z.of_nat 9) with (2 ^ 63). lia.
Qed.

(* ---- output buffer ---- *)
Definition part (P : list Z) (i : nat) : list Z := firstn i P ++ repeat 0 (length P - i).
Lemma part_length P i : (i <= length P)%nat -> length (part P i) = length P.
Proof. intros H. unfold part. rewrite app_length, firstn_length, repeat_length. lia. Qed.
Lemma part_nth P i j : (j < i)%nat -> (i <= length P)%nat -> nth j (part P i) 0 = nth j P 0.
Proof. intros H1 H2. unfold part. rewrite app_nth1 by (rewrite firstn_length; lia). now apply nth_firstn. Qed.
Lemma part_nth0 P i j : (i <= j)%nat -> (i <= length P)%nat -> nth j (part P i) 0 = 0.
Proof.
  intros H1 H2. unfold part. rewrite app_nth2 by (rewrite firstn_length; lia). apply nth_repeat.
Qed.
Lemma part_set P i : (i < length P)%nat -> list_set (part P i) i (nth i P 0) = part P (S i).
Proof.
  intros H. apply (nth_ext_len _ _ 0); [rewrite list_set_length, !part_length; lia|].
  intros n Hn. rewrite list_set_length, part_length in Hn by lia.
  rewrite nth_list_set by (rewrite part_length; lia).
  destruct (Nat.eqb_spec n i) as [->|E]; [symmetry; apply part_nth; lia|].
  destruct (Nat.lt_ge_cases n i).
  - rewrite !part_nth by lia. reflexivity.
  - rewrite !part_nth0 by lia. reflexivity.
Qed.
Lemma part_0 P : part P 0 = repeat 0 (length P).
Proof. unfold part. cbn. now rewrite Nat.sub_0_r. Qed.
Lemma part_full P : part P (length P) = P.
Proof. unfold part. rewrite firstn_all, Nat.sub_diag. cbn. apply app_nil_r. Qed.

Lemma put_part c d P i v : (i < length P)%nat -> Z.of_nat (length P) < 2 ^ 31 -> u8 v = nth i P 0 ->
  put v (mkICS c d (part P i) (Z.of_nat i)) = (Ok tt, mkICS c d (part P (S i)) (Z.of_nat (S i))).
Proof.
  intros Hi Hl Hv. unfold put. cbn [ic_buf ic_pos ic_c ic_d].
  rewrite slice_set_ok by (rewrite part_length; lia). rewrite Nat2Z.id, Hv, part_set by lia.
  rewrite i32_small by lia. do 2 f_equal. lia.
Qed.

(* ---- prediction ---- *)
Lemma prediction_part P i : (41 <= length P)%nat \/ (length P <= 4)%nat -> (i < length P)%nat ->
  Z.of_nat (length P) < 2 ^ 31 -> Forall is_byte P ->
  GetICCPrediction (part P i) (Z.of_nat i) = Ok (icc_predict (Z.of_nat (length P)) P i).
Proof.
  intros Hs Hi Hl HP. unfold GetICCPrediction, icc_predict.
  rewrite part_length by lia. rewrite (i32_small (Z.of_nat (length P))) by lia.
  destruct (Z.leb_spec (Z.of_nat i) 3).
  { destruct (Nat.ltb_spec i 4); [|lia]. f_equal. rewrite Z.shiftr_div_pow2 by lia.
    rewrite Z.pow_mul_r by lia. reflexivity. }
  destruct (Nat.ltb_spec i 4); [lia|].
  destruct Hs as [Hs|Hs]; [|lia].
  destruct (Z.eqb_spec (Z.of_nat i) 8); destruct (Nat.eqb_spec i 8); try lia; [reflexivity|].
  replace ((12 <=? Z.of_nat i) && (Z.of_nat i <=? 23)) with ((12 <=? i) && (i <? 24))%nat by lia.
  destruct ((12 <=? i) && (i <? 24))%nat eqn:E12.
  { rewrite (slice_get_ok _ _ 0) by (cbn [length MNTRGB]; lia). do 2 f_equal. lia. }
  replace ((36 <=? Z.of_nat i) && (Z.of_nat i <=? 39)) with ((36 <=? i) && (i <? 40))%nat by lia.
  destruct ((36 <=? i) && (i <? 40))%nat eqn:E36.
  { rewrite (slice_get_ok _ _ 0) by (cbn [length ACSP]; lia). do 2 f_equal. lia. }
  rewrite (slice_get_ok _ 40 0) by (rewrite part_length; lia). cbn [obind].
  change (Z.to_nat 40) with 40%nat.
  set (rest := if Z.of_nat i =? 70 then _ else _).
  assert (Er : (41 <= i < 44)%nat -> rest = Ok 0).
  { intros Hr. unfold rest.
    destruct (Z.eqb_spec (Z.of_nat i) 70); [lia|]. destruct (Z.eqb_spec (Z.of_nat i) 71); [lia|].
    destruct (Z.eqb_spec (Z.of_nat i) 73); [lia|]. destruct (Z.eqb_spec (Z.of_nat i) 78); [lia|].
    destruct (Z.eqb_spec (Z.of_nat i) 79); [lia|].
    replace ((80 <=? Z.of_nat i) && (Z.of_nat i <? 84)) with false by lia. reflexivity. }
  destruct ((41 <=? i) && (i <? 44))%nat eqn:E41.
  - specialize (Er ltac:(lia)). rewrite Er. clear Er rest.
    rewrite part_nth by lia. unfold platform.
    assert (B40 : is_byte (nth 40 P 0)).
    { rewrite Forall_forall in HP. apply HP, nth_In. lia. }
    assert (Hc : i = 41%nat \/ i = 42%nat \/ i = 43%nat) by lia.
    destruct (Z.eqb_spec (nth 40 P 0) 65) as [E|N65].
    { rewrite E. destruct Hc as [->|[->| ->]]; reflexivity. }
    destruct (Z.eqb_spec (nth 40 P 0) 77) as [E|N77].
    { rewrite E. destruct Hc as [->|[->| ->]]; reflexivity. }
    destruct (Z.eqb_spec (nth 40 P 0) 83) as [E|N83].
    { rewrite E. rewrite (slice_get_ok _ 41 0) by (rewrite part_length; lia). cbn [obind].
      change (Z.to_nat 41) with 41%nat.
      destruct (Nat.eq_dec i 41) as [->|Hne].
      - rewrite part_nth0 by lia. cbn. destruct (nth 41 P 0) as [|[ | | ]|]; try reflexivity.
        all: repeat match goal with |- context [match ?p with xI _ => _ | xO _ => _ | xH => _ end] => destruct p; try reflexivity end.
      - rewrite part_nth by lia.
        destruct (Z.eqb_spec (nth 41 P 0) 71) as [E1|N71].
        { rewrite E1. destruct Hc as [->|[->| ->]]; [lia|reflexivity..]. }
        destruct (Z.eqb_spec (nth 41 P 0) 85) as [E1|N85].
        { rewrite E1. destruct Hc as [->|[->| ->]]; [lia|reflexivity..]. }
        destruct (nth 41 P 0) as [|q|]; try reflexivity.
        do 7 (try (destruct q; try reflexivity; try congruence)). }
    destruct (nth 40 P 0) as [|q|]; try reflexivity.
    do 7 (try (destruct q; try reflexivity; try congruence)).
  - assert (E : rest = Ok (if (i =? 70)%nat then 246 else if (i =? 71)%nat then 214 else if (i =? 73)%nat then 1
       else if (i =? 78)%nat then 211 else if (i =? 79)%nat then 45
       else if ((80 <=? i) && (i <? 84))%nat then nth (i - 76) P 0 else 0)).
    { unfold rest.
      replace (Z.of_nat i =? 70) with (i =? 70)%nat by lia. destruct (i =? 70)%nat; [reflexivity|].
      replace (Z.of_nat i =? 71) with (i =? 71)%nat by lia. destruct (i =? 71)%nat; [reflexivity|].
      replace (Z.of_nat i =? 73) with (i =? 73)%nat by lia. destruct (i =? 73)%nat; [reflexivity|].
      replace (Z.of_nat i =? 78) with (i =? 78)%nat by lia. destruct (i =? 78)%nat; [reflexivity|].
      replace (Z.of_nat i =? 79) with (i =? 79)%nat by lia. destruct (i =? 79)%nat; [reflexivity|].
      replace ((80 <=? Z.of_nat i) && (Z.of_nat i <? 84)) with ((80 <=? i) && (i <? 84))%nat by lia.
      destruct ((80 <=? i) && (i <? 84))%nat eqn:E80; [|reflexivity].
      rewrite (slice_get_ok _ _ 0) by (rewrite part_length; lia).
      rewrite part_nth by lia. do 2 f_equal. lia. }
    rewrite E. clear E rest Er.
    assert (N : Z.of_nat i <> 41 /\ Z.of_nat i <> 42 /\ Z.of_nat i <> 43) by lia.
    destruct N as (N1 & N2 & N3). rewrite <- Z.eqb_neq in N1, N2, N3. rewrite N1, N2, N3. cbn [orb].
    destruct (nth 40 (part P i) 0 =? 65); [reflexivity|].
    destruct (nth 40 (part P i) 0 =? 77); [reflexivity|].
    destruct (Z.eqb_spec (nth 40 (part P i) 0) 83) as [E83|]; [|reflexivity].
    assert (L : (41 < length P)%nat).
    { destruct (Nat.lt_ge_cases 40 i) as [L|L]; [lia|]. rewrite part_nth0 in E83 by lia. discriminate. }
    rewrite (slice_get_ok _ 41 0) by (rewrite part_length; lia). cbn [obind].
    destruct (_ =? 71); [reflexivity|]. destruct (_ =? 85); reflexivity.
Qed.

(* ---- header and raw data ---- *)
Lemma i32_eqm z : exists k, i32 z = z + k * 2 ^ 32.
Proof. unfold i32. exists (- ((z + 2 ^ 31) / 2 ^ 32)). pose proof (Z.div_mod (z + 2 ^ 31) (2 ^ 32) ltac:(lia)). lia. Qed.
Lemma u8_i32 z : u8 (i32 z) = u8 z.
Proof.
  destruct (i32_eqm z) as (k & ->). unfold u8. replace (z + k * 2 ^ 32) with (z + (k * 2 ^ 24) * 2 ^ 8) by lia.
  apply Z.mod_add. lia.
Qed.
Lemma byte_nth P i : Forall is_byte P -> is_byte (nth i P 0).
Proof.
  intros H. destruct (Nat.lt_ge_cases i (length P)).
  - rewrite Forall_forall in H. now apply H, nth_In.
  - rewrite nth_overflow by lia. unfold is_byte. lia.
Qed.
Lemma residuals_length P k : length (residuals P k) = k.
Proof. unfold residuals. now rewrite map_length, seq_length. Qed.
Lemma residuals_nth P k i : (i < k)%nat ->
  nth i (residuals P k) 0 = (nth i P 0 - icc_predict (Z.of_nat (length P)) P i) mod 256.
Proof.
  intros H. change (nth i (tab k (fun i => (nth i P 0 - icc_predict (Z.of_nat (length P)) P i) mod 256)) 0 =
    (nth i P 0 - icc_predict (Z.of_nat (length P)) P i) mod 256).
  now rewrite nth_tab.
Qed.
Lemma residuals_bytes P k : Forall is_byte (residuals P k).
Proof.
  apply Forall_forall. intros x Hx. unfold residuals in Hx. apply in_map_iff in Hx.
  destruct Hx as (i & <- & _). unfold is_byte. apply Z.mod_pos_bound. lia.
Qed.
Lemma varint_bytes l v : varint l v -> Forall is_byte l.
Proof. induction 1; repeat constructor; unfold is_byte; try lia; auto. Qed.

Definition icc_size_ok (n : nat) : Prop := (41 <= n)%nat \/ (n <= 4)%nat.

Lemma header_ok P c D : icc_size_ok (length P) -> Z.of_nat (length P) < 2 ^ 31 -> Forall is_byte P ->
  Z.of_nat (length D) < 2 ^ 32 ->
  forall n i, (i + n <= length P)%nat ->
  (forall j, (j < i + n)%nat -> (j < length D)%nat /\
     nth j D 0 = (nth j P 0 - icc_predict (Z.of_nat (length P)) P j) mod 256) ->
  iccHeader n (Z.of_nat i) (mkICS c (brk D i) (part P i) (Z.of_nat i)) =
  (Ok tt, mkICS c (brk D (i + n)) (part P (i + n)) (Z.of_nat (i + n))).
Proof.
  intros Hs Hl HP HD. induction n as [|n IH]; intros i Hi Hat; cbn [iccHeader].
  - rewrite Nat.add_0_r. reflexivity.
  - destruct (Hat i ltac:(lia)) as [Li Ei].
    assert (Hb : is_byte (nth i D 0)) by (rewrite Ei; unfold is_byte; apply Z.mod_pos_bound; lia).
    unfold ibind at 1. unfold dat at 1. cbn [ic_d ic_c ic_buf ic_pos]. rewrite rb8 by (auto; lia).
    unfold ibind at 1. unfold ilift at 1. cbn [ic_d ic_c ic_buf ic_pos].
    rewrite prediction_part by (auto; lia).
    unfold ibind at 1. rewrite put_part; [|lia|lia|].
    2:{ rewrite u8_i32. rewrite i32_small by (unfold is_byte in Hb; lia). rewrite Ei. unfold u8. change (2 ^ 8) with 256.
        rewrite Zplus_mod_idemp_l. rewrite Z.sub_add. rewrite Z.mod_small; [reflexivity|].
        apply (byte_nth P i HP). }
    replace (Z.of_nat i + 1) with (Z.of_nat (S i)) by lia.
    replace (i + S n)%nat with (S i + n)%nat by lia. apply IH; [lia|].
    intros j Hj. apply Hat. lia.
Qed.

Lemma header_ok0 P c D n : icc_size_ok (length P) -> Z.of_nat (length P) < 2 ^ 31 -> Forall is_byte P ->
  Z.of_nat (length D) < 2 ^ 32 -> (n <= length P)%nat ->
  (forall j, (j < n)%nat -> (j < length D)%nat /\
     nth j D 0 = (nth j P 0 - icc_predict (Z.of_nat (length P)) P j) mod 256) ->
  iccHeader n 0 (mkICS c (brk D 0) (part P 0) 0) = (Ok tt, mkICS c (brk D n) (part P n) (Z.of_nat n)).
Proof. intros. apply (header_ok P c D H H0 H1 H2 n 0); auto. Qed.

Lemma copy_ok P c D : Z.of_nat (length P) < 2 ^ 31 -> Forall is_byte P -> Z.of_nat (length D) < 2 ^ 32 ->
  forall n i k, (i + n <= length P)%nat ->
  (forall j, (j < n)%nat -> (k + j < length D)%nat /\ nth (k + j) D 0 = nth (i + j) P 0) ->
  copyData n (mkICS c (brk D k) (part P i) (Z.of_nat i)) =
  (Ok tt, mkICS c (brk D (k + n)) (part P (i + n)) (Z.of_nat (i + n))).
Proof.
  intros Hl HP HD. induction n as [|n IH]; intros i k Hi Hat; cbn [copyData].
  - rewrite !Nat.add_0_r. reflexivity.
  - destruct (Hat 0%nat ltac:(lia)) as [Li Ei]. rewrite Nat.add_0_r in Li, Ei. rewrite Nat.add_0_r in Ei.
    pose proof (byte_nth P i HP) as Hb.
    unfold ibind at 1. unfold dat at 1. cbn [ic_d ic_c ic_buf ic_pos]. rewrite rb8 by (try rewrite Ei; auto; lia).
    unfold ibind at 1. rewrite put_part; [|lia|lia|].
    2:{ rewrite Ei. unfold u8. apply Z.mod_small. exact Hb. }
    replace (i + S n)%nat with (S i + n)%nat by lia. replace (k + S n)%nat with (S k + n)%nat by lia. apply IH; [lia|].
    intros j Hj. replace (S k + j)%nat with (k + S j)%nat by lia. replace (S i + j)%nat with (i + S j)%nat by lia.
    apply Hat. lia.
Qed.

Lemma more_ok E k d b p ds : Forall is_byte E -> (k <= length E)%nat -> Z.of_nat (length E) < 2 ^ 31 ->
  (ds <= length E)%nat ->
  moreCommands (Z.of_nat ds) (mkICS (brk E k) d b p) = (Ok ((k <? ds)%nat), mkICS (brk E k) d b p).
Proof.
  intros HE Hk Hl Hd. unfold moreCommands. cbn [ic_c ic_d ic_buf ic_pos]. rewrite atend_brk by (auto; lia).
  change (br_count (brk E k)) with (8 * Z.of_nat k). rewrite u64_small by lia.
  rewrite Z.shiftr_div_pow2 by lia. change (2 ^ 3) with 8. rewrite (Z.mul_comm 8), Z.div_mul by lia.
  do 2 f_equal. lia.
Qed.

Lemma shiftr_byte v k : 0 <= k -> u8 (Z.shiftr v (8 * k)) = v / 256 ^ k mod 256.
Proof. intros H. unfold u8. rewrite Z.shiftr_div_pow2 by lia. rewrite Z.pow_mul_r by lia. reflexivity. Qed.

Lemma be32_byte l k : Forall is_byte l -> (k < 4)%nat -> u8 (Z.shiftr (be32 l) (8 * (3 - Z.of_nat k))) = nth k l 0.
Proof.
  intros H Hk. rewrite shiftr_byte by lia.
  pose proof (byte_nth l 0 H) as H0. pose proof (byte_nth l 1 H) as H1.
  pose proof (byte_nth l 2 H) as H2. pose proof (byte_nth l 3 H) as H3.
  unfold be32, is_byte in *. set (a := nth 0 l 0) in *. set (b := nth 1 l 0) in *. set (c := nth 2 l 0) in *. set (e := nth 3 l 0) in *.
  destruct k as [|[|[|[|k]]]]; [| | | |lia].
  - change (3 - Z.of_nat 0) with 3. fold a. symmetry. apply (Z.mod_unique _ 256 0); [lia|].
    rewrite Z.mul_0_r, Z.add_0_l. symmetry. apply (Z.div_unique _ _ _ (b * 2 ^ 16 + c * 2 ^ 8 + e)); lia.
  - change (3 - Z.of_nat 1) with 2. fold b. symmetry. apply (Z.mod_unique _ 256 a); [lia|].
    symmetry. apply (Z.div_unique _ _ _ (c * 2 ^ 8 + e)); lia.
  - change (3 - Z.of_nat 2) with 1. fold c. symmetry. apply (Z.mod_unique _ 256 (a * 2 ^ 8 + b)); [lia|].
    symmetry. apply (Z.div_unique _ _ _ e); lia.
  - change (3 - Z.of_nat 3) with 0. fold e. symmetry. apply (Z.mod_unique _ 256 (a * 2 ^ 16 + b * 2 ^ 8 + c)); [lia|].
    rewrite Z.pow_0_r, Z.div_1_r. lia.
Qed.

Lemma put32_ok c d P i : (i + 4 <= length P)%nat -> Z.of_nat (length P) < 2 ^ 31 -> Forall is_byte P ->
  put32 (be32 (skipn i P)) (mkICS c d (part P i) (Z.of_nat i)) = (Ok tt, mkICS c d (part P (i + 4)) (Z.of_nat (i + 4))).
Proof.
  intros Hi Hl HP. unfold put32. cbn [putAll].
  assert (HS : Forall is_byte (skipn i P)).
  { rewrite <- (firstn_skipn i P) in HP. now apply Forall_app in HP. }
  assert (K : forall k, (k < 4)%nat -> u8 (Z.shiftr (be32 (skipn i P)) (8 * (3 - Z.of_nat k))) = nth (i + k) P 0).
  { intros k Hk. rewrite be32_byte by auto. apply nth_skipn. }
  unfold ibind at 1. rewrite put_part; [|lia|lia|rewrite <- (Nat.add_0_r i) at 2; exact (K 0%nat ltac:(lia))].
  unfold ibind at 1. rewrite put_part; [|lia|lia|rewrite <- Nat.add_1_r; exact (K 1%nat ltac:(lia))].
  unfold ibind at 1. rewrite put_part; [|lia|lia|replace (S (S i)) with (i + 2)%nat by lia; exact (K 2%nat ltac:(lia))].
  unfold ibind at 1. rewrite put_part; [|lia|lia|].
  2:{ replace (S (S (S i))) with (i + 3)%nat by lia. rewrite <- (K 3%nat ltac:(lia)).
      change (8 * (3 - Z.of_nat 3)) with 0. now rewrite Z.shiftr_0_r. }
  replace (i + 4)%nat with (S (S (S (S i)))) by lia. reflexivity.
Qed.

(* ---- GetDecodedICC ---- *)
Definition iccBody (fuel : nat) (dataStart outputSize : Z) : IM unit :=
  _ <~ iccHeader (Z.to_nat (Z.min 128 outputSize)) 0 ;;
  done <~ ilift (fun s => Ok (ic_pos s =? outputSize)) ;;
  if done : bool then iret tt
  else
    tc <~ cmd ReadICCVarint ;;
    let tagCount := i32 (tc - 1) in
    if 0 <=? tagCount then
      _ <~ put32 tagCount ;;
      _ <~ tagLoop fuel dataStart (i32 (128 + i32 (tagCount * 12))) 0 ;;
      dataLoop fuel dataStart
    else iret tt.

Lemma decoded_prologue size csize cmds data n : varint size (Z.of_nat n) -> varint csize (Z.of_nat (length cmds)) ->
  Forall is_byte (size ++ csize ++ cmds ++ data) ->
  Z.of_nat (length (size ++ csize ++ cmds ++ data)) < 2 ^ 31 -> Z.of_nat n < 2 ^ 31 ->
  let enc := size ++ csize ++ cmds ++ data in
  let ds := (length size + length csize + length cmds)%nat in
  GetDecodedICC enc =
  match iccBody (S (length enc)) (Z.of_nat ds) (Z.of_nat n)
          (mkICS (brk enc (length size + length csize)) (brk data 0) (repeat 0 n) 0) with
  | (Ok _, s) => Ok (ic_buf s) | (Err, _) => Err | (Panic, _) => Panic
  end.
Proof.
  intros Hs Hc Hb Hl Hn enc ds. unfold GetDecodedICC.
  assert (Le : length enc = (length size + length csize + length cmds + length data)%nat)
    by (unfold enc; rewrite !app_length; lia).
  change (NewBitStreamReader enc) with (brk enc (length (@nil Z))).
  pose proof (varint_brk size (Z.of_nat n) [] (csize ++ cmds ++ data) Hs ltac:(lia) Hb ltac:(cbn [app]; fold enc; fold enc in Hl; lia)) as R1.
  cbn [app] in R1. fold enc in R1. rewrite R1. cbn [length Nat.add]. clear R1.
  pose proof (varint_brk csize (Z.of_nat (length cmds)) size (cmds ++ data) Hc) as R2.
  fold enc in R2. rewrite R2; [|fold enc in Hl; lia|exact Hb|fold enc in Hl; lia]. clear R2.
  change (br_count (brk enc (length size + length csize))) with (8 * Z.of_nat (length size + length csize)).
  rewrite Z.shiftr_div_pow2 by lia. change (2 ^ 3) with 8. rewrite (Z.mul_comm 8), Z.div_mul by lia.
  fold enc in Hl.
  cbv zeta. rewrite (i32_small (Z.of_nat (length size + length csize))) by lia.
  rewrite (i32_small (Z.of_nat (length size + length csize) + Z.of_nat (length cmds))) by lia.
  replace (Z.of_nat (length size + length csize) + Z.of_nat (length cmds)) with (Z.of_nat ds) by (unfold ds; lia).
  replace ((Z.of_nat ds <? 0) || (Z.of_nat (length enc) <? Z.of_nat ds)) with false by (unfold ds; lia).
  replace (Z.of_nat n <? 0) with false by lia.
  rewrite !Nat2Z.id.
  assert (Es : skipn ds enc = data).
  { unfold enc, ds. rewrite !app_assoc. rewrite skipn_app.
    rewrite skipn_all2 by (rewrite !app_length; lia).
    replace (_ - _)%nat with O by (rewrite !app_length; lia). reflexivity. }
  rewrite Es. reflexivity.
Qed.

Lemma decoded_short P size zero : varint size (Z.of_nat (length P)) -> varint zero 0 ->
  (length P <= 128)%nat -> icc_size_ok (length P) -> Forall is_byte P ->
  GetDecodedICC (size ++ zero ++ residuals P (length P)) = Ok P.
Proof.
  intros Hs Hz Hl Hk HP.
  assert (L1 : (length size <= 9)%nat) by (apply (varint_len _ _ Hs); [change (128 ^ Z.of_nat 9) with (2 ^ 63); lia|lia]).
  assert (L2 : (length zero <= 9)%nat) by (apply (varint_len _ _ Hz); [change (128 ^ Z.of_nat 9) with (2 ^ 63); lia|lia]).
  change (residuals P (length P)) with ([] ++ residuals P (length P)).
  rewrite (decoded_prologue size zero [] (residuals P (length P)) (length P)); auto.
  2:{ apply Forall_app. split; [eapply varint_bytes; eauto|]. apply Forall_app. split; [eapply varint_bytes; eauto|].
      apply residuals_bytes. }
  2:{ rewrite !app_length, residuals_length. cbn [length]. lia. }
  2:{ lia. }
  unfold iccBody. replace (Z.to_nat (Z.min 128 (Z.of_nat (length P)))) with (length P) by lia.
  rewrite <- part_0. unfold ibind at 1. rewrite header_ok0; auto; try lia.
  - unfold ibind, ilift. cbn [ic_pos]. rewrite Z.eqb_refl. cbn. now rewrite part_full.
  - rewrite residuals_length. lia.
  - intros j Hj. rewrite residuals_length, residuals_nth by lia. split; [lia|reflexivity].
Qed.

Lemma nth_app_l {A} (a b : list A) i d : (i < length a)%nat -> nth i (a ++ b) d = nth i a d.
Proof. intros. now apply app_nth1. Qed.

Lemma decoded_tags P size csize tc num : varint size (Z.of_nat (length P)) ->
  varint csize (Z.of_nat (length (tc ++ [0; 1] ++ num))) ->
  varint tc (be32 (skipn 128 P) + 1) -> varint num (Z.of_nat (length P - 132)) ->
  (132 <= length P)%nat -> Z.of_nat (length P) < 2 ^ 30 -> Forall is_byte P -> nth 128 P 0 < 127 ->
  GetDecodedICC (size ++ csize ++ (tc ++ [0; 1] ++ num) ++ residuals P 128 ++ skipn 132 P) = Ok P.
Proof.
  intros Hs Hc Ht Hn Hl Hm HP Hb.
  assert (HS : Forall is_byte (skipn 128 P)).
  { pose proof HP as HP'. rewrite <- (firstn_skipn 128 P) in HP'. now apply Forall_app in HP'. }
  assert (HS2 : Forall is_byte (skipn 132 P)).
  { pose proof HP as HP'. rewrite <- (firstn_skipn 132 P) in HP'. now apply Forall_app in HP'. }
  assert (Hbe : 0 <= be32 (skipn 128 P) < 2 ^ 31 - 1).
  { unfold be32. rewrite nth_skipn. cbn [Nat.add].
    pose proof (byte_nth P 128 HP). pose proof (byte_nth _ 1 HS). pose proof (byte_nth _ 2 HS). pose proof (byte_nth _ 3 HS).
    unfold is_byte in *. lia. }
  assert (L9 : forall l v, varint l v -> v < 2 ^ 63 -> (length l <= 9)%nat).
  { intros l v Hv Hv2. apply (varint_len _ _ Hv); [change (128 ^ Z.of_nat 9) with (2 ^ 63); lia|lia]. }
  pose proof (L9 _ _ Hs ltac:(lia)) as Ls. pose proof (L9 _ _ Ht ltac:(lia)) as Lt. pose proof (L9 _ _ Hn ltac:(lia)) as Ln.
  assert (Lc : (length csize <= 9)%nat).
  { apply (L9 _ _ Hc). rewrite !app_length. cbn [length]. lia. }
  set (cmds := tc ++ [0; 1] ++ num) in *. set (data := residuals P 128 ++ skipn 132 P) in *.
  assert (Lcm : length cmds = (length tc + 2 + length num)%nat) by (unfold cmds; rewrite !app_length; cbn [length]; lia).
  assert (Ld : length data = (128 + (length P - 132))%nat).
  { unfold data. rewrite app_length, residuals_length, skipn_length. reflexivity. }
  set (enc := size ++ csize ++ cmds ++ data) in *.
  assert (Le : length enc = (length size + length csize + length cmds + length data)%nat)
    by (unfold enc; rewrite !app_length; lia).
  assert (HE : Forall is_byte enc).
  { unfold enc, cmds, data. repeat (apply Forall_app; split); try (eapply varint_bytes; eassumption).
    - repeat constructor; unfold is_byte; lia.
    - apply residuals_bytes.
    - exact HS2. }
  unfold enc. rewrite (decoded_prologue size csize cmds data (length P)); auto; fold enc; [|lia|lia].
  set (ds := (length size + length csize + length cmds)%nat).
  assert (Eb : nth (length size + length csize + length tc) enc 0 = 0 /\
               nth (length size + length csize + length tc + 1) enc 0 = 1).
  { unfold enc, cmds. rewrite <- !app_assoc. rewrite !(app_assoc size), !(app_assoc (size ++ csize)).
    rewrite <- !app_length.
    split; [rewrite app_nth2 by lia; rewrite Nat.sub_diag|rewrite app_nth2 by lia;
      replace (_ - _)%nat with 1%nat by lia]; reflexivity. }
  destruct Eb as [Eb0 Eb1].
  assert (F : exists f, S (length enc) = S (S f)) by (exists (pred (length enc)); lia).
  destruct F as (f & Ef). rewrite Ef.
  unfold iccBody. replace (Z.to_nat (Z.min 128 (Z.of_nat (length P)))) with 128%nat by lia.
  rewrite <- part_0. unfold ibind at 1. rewrite header_ok0; auto; try lia.
  2:{ left. lia. }
  2:{ intros j Hj. split; [lia|]. unfold data. rewrite app_nth1 by (rewrite residuals_length; lia).
      apply residuals_nth. lia. }
  cbn [Nat.add]. unfold ibind at 1. unfold ilift. cbn [ic_pos].
  replace (Z.of_nat 128 =? Z.of_nat (length P)) with false by lia.
  (* tag count *)
  unfold ibind at 1. unfold cmd at 1. cbn [ic_c ic_d ic_buf ic_pos].
  assert (R : ReadICCVarint (brk enc (length size + length csize)) =
      (Ok (be32 (skipn 128 P) + 1), brk enc (length size + length csize + length tc))).
  { replace enc with ((size ++ csize) ++ tc ++ (([0; 1] ++ num) ++ data))
      by (unfold enc, cmds; rewrite <- !app_assoc; reflexivity).
    rewrite <- app_length. apply varint_brk; auto; try lia.
    - replace ((size ++ csize) ++ tc ++ (([0; 1] ++ num) ++ data)) with enc by (unfold enc, cmds; rewrite <- !app_assoc; reflexivity). exact HE.
    - replace ((size ++ csize) ++ tc ++ (([0; 1] ++ num) ++ data)) with enc by (unfold enc, cmds; rewrite <- !app_assoc; reflexivity). lia. }
  rewrite R. clear R. rewrite Z.add_simpl_r. cbv zeta. rewrite (i32_small (be32 (skipn 128 P))) by lia.
  replace (0 <=? be32 (skipn 128 P)) with true by lia.
  unfold ibind at 1. rewrite (put32_ok _ _ P 128) by (auto; lia). cbn [Nat.add].
  (* tag list: empty *)
  unfold ibind at 1. cbn [tagLoop]. unfold ibind at 1. rewrite more_ok by (auto; unfold ds; lia).
  replace ((length size + length csize + length tc <? ds)%nat) with true by (unfold ds; lia).
  cbn [negb]. unfold ibind at 1. unfold cmd at 1. cbn [ic_c ic_d ic_buf ic_pos].
  rewrite rb8 by (try rewrite Eb0; try (unfold is_byte; lia); lia). rewrite Eb0. change (Z.land 0 63 =? 0) with true. cbv iota zeta.
  unfold iret at 1.
  (* raw copy *)
  cbn [dataLoop]. unfold ibind at 1. rewrite more_ok by (auto; unfold ds; lia).
  replace ((S (length size + length csize + length tc) <? ds)%nat) with true by (unfold ds; lia).
  cbn [negb]. unfold ibind at 1. unfold cmd at 1. cbn [ic_c ic_d ic_buf ic_pos].
  rewrite Nat.add_1_r in Eb1.
  rewrite rb8 by (try rewrite Eb1; try (unfold is_byte; lia); lia). rewrite Eb1. change (1 =? 1) with true. cbv iota.
  unfold ibind at 1. unfold ibind at 1. unfold cmd at 1. cbn [ic_c ic_d ic_buf ic_pos].
  assert (R : ReadICCVarint (brk enc (S (S (length size + length csize + length tc)))) =
      (Ok (Z.of_nat (length P - 132)), brk enc ds)).
  { assert (E : enc = (size ++ csize ++ tc ++ [0; 1]) ++ num ++ data) by (unfold enc, cmds; rewrite <- !app_assoc; reflexivity).
    rewrite E. replace (S (S (length size + length csize + length tc))) with (length (size ++ csize ++ tc ++ [0; 1]))
      by (rewrite !app_length; cbn [length]; lia).
    replace ds with (length (size ++ csize ++ tc ++ [0%Z; 1%Z]) + length num)%nat
      by (unfold ds; rewrite Lcm, !app_length; cbn [length]; lia).
    apply varint_brk; auto; try lia; rewrite <- E; auto; lia. }
  rewrite R. clear R. rewrite Nat2Z.id.
  rewrite copy_ok; auto; try lia.
  2:{ intros j Hj. split; [lia|]. unfold data. rewrite app_nth2 by (rewrite residuals_length; lia).
      rewrite residuals_length. rewrite nth_skipn. f_equal. lia. }
  destruct f as [|f]; [lia|]. cbn [dataLoop]. unfold ibind at 1. rewrite more_ok by (auto; unfold ds; lia).
  rewrite Nat.ltb_irrefl. cbn [negb iret ic_buf]. unfold iret. cbn [ic_buf].
  replace (132 + (length P - 132))%nat with (length P) by lia. now rewrite part_full.
Qed.

(* tag count code 0: nothing behind the header is written *)
Lemma decoded_raw P size csize num : varint size (Z.of_nat (length P)) ->
  varint csize (Z.of_nat (length ([0; 1] ++ num))) -> varint num (Z.of_nat (length P - 128)) ->
  (129 <= length P)%nat -> Z.of_nat (length P) < 2 ^ 30 -> Forall is_byte P ->
  GetDecodedICC (size ++ csize ++ ([0; 1] ++ num) ++ residuals P 128 ++ skipn 128 P) = Ok (part P 128).
Proof.
  intros Hs Hc Hn Hl Hm HP.
  assert (HS : Forall is_byte (skipn 128 P)).
  { pose proof HP as HP'. rewrite <- (firstn_skipn 128 P) in HP'. now apply Forall_app in HP'. }
  assert (L9 : forall l v, varint l v -> v < 2 ^ 63 -> (length l <= 9)%nat).
  { intros l v Hv Hv2. apply (varint_len _ _ Hv); [change (128 ^ Z.of_nat 9) with (2 ^ 63); lia|lia]. }
  pose proof (L9 _ _ Hs ltac:(lia)) as Ls. pose proof (L9 _ _ Hn ltac:(lia)) as Ln.
  assert (Lc : (length csize <= 9)%nat).
  { apply (L9 _ _ Hc). rewrite !app_length. cbn [length]. lia. }
  set (cmds := [0; 1] ++ num) in *. set (data := residuals P 128 ++ skipn 128 P) in *.
  assert (Lcm : length cmds = (2 + length num)%nat) by (unfold cmds; rewrite !app_length; cbn [length]; lia).
  assert (Ld : length data = length P).
  { unfold data. rewrite app_length, residuals_length, skipn_length. lia. }
  set (enc := size ++ csize ++ cmds ++ data) in *.
  assert (Le : length enc = (length size + length csize + length cmds + length data)%nat)
    by (unfold enc; rewrite !app_length; lia).
  assert (HE : Forall is_byte enc).
  { unfold enc, cmds, data. repeat (apply Forall_app; split); try (eapply varint_bytes; eassumption).
    - repeat constructor; unfold is_byte; lia.
    - apply residuals_bytes.
    - exact HS. }
  unfold enc. rewrite (decoded_prologue size csize cmds data (length P)); auto; fold enc; [|lia|lia].
  unfold iccBody. replace (Z.to_nat (Z.min 128 (Z.of_nat (length P)))) with 128%nat by lia.
  rewrite <- part_0. unfold ibind at 1. rewrite header_ok0; auto; try lia.
  2:{ left. lia. }
  2:{ intros j Hj. split; [lia|]. unfold data. rewrite app_nth1 by (rewrite residuals_length; lia).
      apply residuals_nth. lia. }
  unfold ibind at 1. unfold ilift. cbn [ic_pos].
  replace (Z.of_nat 128 =? Z.of_nat (length P)) with false by lia.
  unfold ibind at 1. unfold cmd at 1. cbn [ic_c ic_d ic_buf ic_pos].
  assert (R : ReadICCVarint (brk enc (length size + length csize)) = (Ok 0, brk enc (length size + length csize + 1))).
  { assert (E : enc = (size ++ csize) ++ [0] ++ (([1] ++ num) ++ data))
      by (unfold enc, cmds; rewrite <- !app_assoc; reflexivity).
    rewrite E. rewrite <- app_length. change 1%nat with (length [0]). apply varint_brk; try lia.
    - constructor. lia.
    - rewrite <- E. exact HE.
    - rewrite <- E. lia. }
  rewrite R. reflexivity.
Qed.

(* output sizes 5..40: the prediction reads byte 40 of a shorter buffer *)
Lemma decoded_small_panics size zero data n : varint size (Z.of_nat n) -> varint zero 0 ->
  (5 <= n <= 40)%nat -> (5 <= length data)%nat -> Z.of_nat (length data) < 2 ^ 30 -> Forall is_byte data ->
  GetDecodedICC (size ++ zero ++ data) = Panic.
Proof.
  intros Hs Hz Hn Hd Hd2 Hb.
  assert (L1 : (length size <= 9)%nat) by (apply (varint_len _ _ Hs); [change (128 ^ Z.of_nat 9) with (2 ^ 63); lia|lia]).
  assert (L2 : (length zero <= 9)%nat) by (apply (varint_len _ _ Hz); [change (128 ^ Z.of_nat 9) with (2 ^ 63); lia|lia]).
  change (size ++ zero ++ data) with (size ++ zero ++ [] ++ data).
  rewrite (decoded_prologue size zero [] data n); auto.
  2:{ apply Forall_app. split; [eapply varint_bytes; eauto|]. apply Forall_app. split; [eapply varint_bytes; eauto|exact Hb]. }
  2:{ rewrite !app_length. cbn [length]. lia. }
  2:{ lia. }
  set (c := brk _ _). unfold iccBody.
  assert (E : exists m, Z.to_nat (Z.min 128 (Z.of_nat n)) = S (S (S (S (S m))))) by (exists (n - 5)%nat; lia).
  destruct E as (m & ->).
  assert (G : forall k i b, (k + i = 4)%nat -> length b = n ->
    fst (iccHeader (S (k + m)) (Z.of_nat i) (mkICS c (brk data i) b (Z.of_nat i))) = Panic).
  { induction k as [|k IH]; intros i b Hk Hlb.
    - cbn [Nat.add iccHeader]. unfold ibind at 1. unfold dat at 1. cbn [ic_c ic_d ic_buf ic_pos].
      rewrite rb8 by (auto using byte_nth; lia). unfold ibind at 1. unfold ilift. cbn [ic_buf].
      replace i with 4%nat by lia. change (Z.of_nat 4) with 4. unfold GetICCPrediction.
      cbn [Z.leb Z.compare Pos.compare Pos.compare_cont Z.eqb Pos.eqb andb].
      rewrite slice_get_panic by lia. reflexivity.
    - change (S k + m)%nat with (S (k + m)). cbn [iccHeader]. unfold ibind at 1. unfold dat at 1. cbn [ic_c ic_d ic_buf ic_pos].
      rewrite rb8 by (auto using byte_nth; lia). unfold ibind at 1. unfold ilift at 1. cbn [ic_buf].
      unfold GetICCPrediction at 1. replace (Z.of_nat i <=? 3) with true by lia. cbv zeta.
      unfold ibind at 1. unfold put at 1. cbn [ic_c ic_d ic_buf ic_pos]. rewrite slice_set_ok by lia.
      rewrite (i32_small (Z.of_nat i + 1)) by lia. replace (Z.of_nat i + 1) with (Z.of_nat (S i)) by lia.
      apply IH; [lia|]. now rewrite list_set_length. }
  specialize (G 4%nat 0%nat (repeat 0 n) eq_refl (repeat_length _ _)).
  change (4 + m)%nat with (S (S (S (S m)))) in G. change (Z.of_nat 0) with 0 in G.
  unfold ibind at 1. destruct (iccHeader _ _ _) as [r s']. cbn [fst] in G. subst r. reflexivity.
Qed.

(* ---- shuffle ---- *)
Lemma oloop_panic {S} (P : S -> Prop) f k : forall n i0 s, P s -> (i0 <= k < i0 + n)%nat ->
  (forall i s, (i < i0 + n)%nat -> P s -> match f i s with Ok s' => P s' | Err => False | Panic => True end) ->
  (forall s, P s -> f k s = Panic) -> oloop n i0 f s = Panic.
Proof.
  induction n as [|n IH]; intros i0 s Hs Hk Hf Hp; [lia|]. cbn [oloop].
  destruct (Nat.eq_dec i0 k) as [->|]; [now rewrite Hp|].
  specialize (Hf i0 s ltac:(lia) Hs) as H1. destruct (f i0 s) as [s1| |] eqn:E; cbn [obind]; [|tauto|reflexivity].
  apply IH; auto; [lia|]. intros i t Hi. apply Hf. lia.
Qed.

Lemma ceil_ok n w : 1 <= n < 2 ^ 31 -> 1 <= w <= 4 -> CeilDiv (u32 n) (u32 w) = Ok ((n + w - 1) / w).
Proof.
  intros Hn Hw. unfold CeilDiv. rewrite (u32_small n), (u32_small w) by lia.
  replace (w =? 0) with false by lia. rewrite (u32_small (n - 1)) by lia.
  assert (0 <= (n - 1) / w) by (apply Z.div_pos; lia).
  assert ((n - 1) / w <= n - 1) by (apply Z.div_le_upper_bound; nia).
  rewrite u32_small by lia. f_equal.
  replace (n + w - 1) with ((n - 1) + 1 * w) by lia. rewrite Z.div_add by lia. reflexivity.
Qed.

(* Both directions of the index map, for w <= 4 *)
Definition fwd (w h i : nat) : nat := ((i mod h) * w + i / h)%nat.
Definition bwd (w h j : nat) : nat := ((j mod w) * h + j / w)%nat.

Lemma divmod_nat i h : (0 < h)%nat -> (i = h * (i / h) + i mod h /\ i mod h < h)%nat.
Proof. intros H. split; [apply Nat.div_mod; lia|apply Nat.mod_upper_bound; lia]. Qed.
Lemma fwd_bwd w h j : (0 < w)%nat -> (0 < h)%nat -> (j / w < h)%nat -> fwd w h (bwd w h j) = j.
Proof.
  intros Hw Hh Hj. unfold fwd, bwd.
  assert (E1 : (((j mod w) * h + j / w) mod h = j / w)%nat).
  { rewrite Nat.add_comm, Nat.mod_add by lia. now apply Nat.mod_small. }
  assert (E2 : (((j mod w) * h + j / w) / h = j mod w)%nat).
  { rewrite Nat.div_add_l by lia. rewrite (Nat.div_small (j / w)) by lia. lia. }
  rewrite E1, E2. pose proof (divmod_nat j w Hw). lia.
Qed.
Lemma fwd_inj w h i i' : (0 < w)%nat -> (0 < h)%nat -> (i < w * h)%nat -> (i' < w * h)%nat -> fwd w h i = fwd w h i' -> i = i'.
Proof.
  intros Hw Hh Hi Hi' E. unfold fwd in E.
  pose proof (divmod_nat i h Hh). pose proof (divmod_nat i' h Hh).
  assert (i / h < w)%nat by (apply Nat.div_lt_upper_bound; lia).
  assert (i' / h < w)%nat by (apply Nat.div_lt_upper_bound; lia).
  assert (K : forall a q, (q < w)%nat -> ((a * w + q) mod w = q /\ (a * w + q) / w = a)%nat).
  { intros a q Hq. split; [rewrite Nat.add_comm, Nat.mod_add by lia; now apply Nat.mod_small|].
    rewrite Nat.div_add_l by lia. rewrite Nat.div_small by lia. lia. }
  destruct (K (i mod h)%nat (i / h)%nat ltac:(auto)) as [A1 A2].
  destruct (K (i' mod h)%nat (i' / h)%nat ltac:(auto)) as [B1 B2].
  rewrite E in A1, A2. rewrite A1 in B1. rewrite A2 in B2. rewrite B1, B2 in *. lia.
Qed.

Lemma shuffle_idx n w h i : 1 <= w <= 4 -> (0 < h)%nat -> Z.of_nat n < 2 ^ 29 -> (i < n)%nat -> (n <= Z.to_nat w * h)%nat ->
  i32 (i32 (Z.rem (Z.of_nat i) (Z.of_nat h) * w) + Z.quot (Z.of_nat i) (Z.of_nat h)) = Z.of_nat (fwd (Z.to_nat w) h i).
Proof.
  intros Hw Hh Hn Hi Hwh.
  unfold fwd. rewrite Z.rem_mod_nonneg, Z.quot_div_nonneg by lia.
  rewrite <- Nat2Z.inj_mod, <- Nat2Z.inj_div.
  pose proof (divmod_nat i h Hh) as [Hd Hm].
  assert (i / h < Z.to_nat w)%nat by (apply Nat.div_lt_upper_bound; lia).
  assert (i mod h <= i)%nat by (apply Nat.mod_le; lia).
  revert Hd Hm H H0. generalize (i mod h)%nat (i / h)%nat. intros a q Hd Hm Hq Ha.
  assert (0 <= Z.of_nat a * w <= 4 * Z.of_nat a) by nia.
  rewrite (i32_small (Z.of_nat a * w)) by lia. rewrite i32_small by lia. lia.
Qed.

Lemma deinterleaved_perm b r w h : (0 < w)%nat -> (0 < h)%nat -> (length b <= w * h)%nat ->
  (forall j, (j < length b)%nat -> (bwd w h j < length b)%nat) ->
  deinterleaved b r w h -> Permutation b r.
Proof.
  intros Hw Hh Hn Hb (L & H). apply (Permutation_nth b r 0). cbv zeta. split; [auto|].
  exists (bwd w h). split; [exact Hb|]. split; [|exact H].
  assert (Hd : forall j, (j < length b)%nat -> (j / w < h)%nat) by (intros j Hj; apply Nat.div_lt_upper_bound; lia).
  intros x y Hx Hy E. rewrite <- (fwd_bwd w h x), <- (fwd_bwd w h y) by auto. now rewrite E.
Qed.

Lemma shuffle_general b w h : (1 <= length b)%nat -> Z.of_nat (length b) < 2 ^ 29 -> 1 <= w <= 4 ->
  Z.of_nat h = (Z.of_nat (length b) + w - 1) / w ->
  (forall i, (i < length b)%nat -> (fwd (Z.to_nat w) h i < length b)%nat) ->
  (forall j, (j < length b)%nat -> (bwd (Z.to_nat w) h j < length b)%nat) ->
  exists r, shuffle b w = Ok r /\ deinterleaved b r (Z.to_nat w) h /\ Permutation b r.
Proof.
  intros Hb Hl Hw Hh Hf Hg. unfold shuffle. rewrite ceil_ok by lia. cbn [obind]. rewrite <- Hh.
  assert (Hh2 : Z.of_nat h * w <= Z.of_nat (length b) + w - 1 < Z.of_nat h * w + w).
  { rewrite Hh. pose proof (Z.div_mod (Z.of_nat (length b) + w - 1) w ltac:(lia)).
    pose proof (Z.mod_pos_bound (Z.of_nat (length b) + w - 1) w ltac:(lia)). nia. }
  assert (Hh0 : (0 < h)%nat) by nia. assert (Hhn : (h <= length b)%nat) by nia.
  assert (Hhm : (length b <= Z.to_nat w * h)%nat) by nia.
  rewrite (i32_small (Z.of_nat h)) by lia. cbv zeta. replace (Z.of_nat h =? 0) with false by lia.
  destruct (oloop_inv (fun k r => length r = length b /\
      forall i, (i < k)%nat -> nth (fwd (Z.to_nat w) h i) r 0 = nth i b 0)
    (fun i result => obind (slice_get b (Z.of_nat i)) (fun v =>
       slice_set result (i32 (i32 (Z.rem (Z.of_nat i) (Z.of_nat h) * w) + Z.quot (Z.of_nat i) (Z.of_nat h))) v))
    (length b) 0%nat (repeat 0 (length b))) as (r & E & Hr & Hr2).
  { split; [apply repeat_length|]. intros i Hi. lia. }
  { intros i s Hi (L & Hv). rewrite (slice_get_ok b (Z.of_nat i) 0) by lia. cbn [obind].
    rewrite (shuffle_idx (length b)) by lia.
    specialize (Hf i ltac:(lia)). rewrite slice_set_ok by lia. eexists. split; [reflexivity|].
    rewrite !Nat2Z.id. split; [now rewrite list_set_length|].
    intros i' Hi'. rewrite nth_list_set by lia.
    destruct (Nat.eqb_spec (fwd (Z.to_nat w) h i') (fwd (Z.to_nat w) h i)) as [E|E].
    - apply fwd_inj in E; try lia. now subst.
    - apply Hv. destruct (Nat.eq_dec i' i); [subst; congruence|lia]. }
  exists r. split; [exact E|].
  assert (D : deinterleaved b r (Z.to_nat w) h); [|split; [exact D|apply (deinterleaved_perm b r (Z.to_nat w) h); auto; lia]].
  split; [auto|]. intros j Hj. cbn [Nat.add] in Hr2.
  change (nth j r 0 = nth (bwd (Z.to_nat w) h j) b 0).
  rewrite <- (Hr2 (bwd (Z.to_nat w) h j)) by auto. rewrite fwd_bwd; auto; try lia.
  apply Nat.div_lt_upper_bound; lia.
Qed.

Lemma small_div4 q h i : (0 < h)%nat -> (i / h = q)%nat -> (i = h * q + i mod h /\ i mod h < h)%nat.
Proof. intros H <-. now apply divmod_nat. Qed.

Lemma shuffle_width2 b : Z.of_nat (length b) < 2 ^ 29 ->
  exists r, shuffle b 2 = Ok r /\ deinterleaved b r 2 ((length b + 1) / 2) /\ Permutation b r.
Proof.
  intros Hl. destruct b as [|x t]; [exists []; split; [reflexivity|split; [split; [reflexivity|cbn; lia]|constructor]]|].
  set (b := x :: t) in *. assert (Hb : (1 <= length b)%nat) by (cbn; lia). clearbody b.
  pose proof (divmod_nat (length b + 1) 2 ltac:(lia)) as [D1 D2].
  set (h := ((length b + 1) / 2)%nat) in *. set (m := ((length b + 1) mod 2)%nat) in *. clearbody h m.
  apply (shuffle_general b 2 h); auto; try lia.
  - intros i Hi. unfold fwd. pose proof (divmod_nat i h ltac:(lia)) as [I1 I2].
    assert (Q : (i / h < 2)%nat) by (apply Nat.div_lt_upper_bound; lia).
    change (Z.to_nat 2) with 2%nat. revert I1 I2 Q. generalize (i / h)%nat (i mod h)%nat. intros q r I1 I2 Q.
    assert (C : q = 0%nat \/ q = 1%nat) by lia. destruct C as [-> | ->]; lia.
  - intros j Hj. unfold bwd. change (Z.to_nat 2) with 2%nat. pose proof (divmod_nat j 2 ltac:(lia)) as [I1 I2].
    revert I1 I2. generalize (j / 2)%nat (j mod 2)%nat. intros q r I1 I2.
    assert (C : r = 0%nat \/ r = 1%nat) by lia. destruct C as [-> | ->]; lia.
Qed.

Lemma shuffle_width4 b : Z.of_nat (length b) < 2 ^ 29 ->
  ((length b <= 4)%nat \/ (length b mod 4 = 0)%nat \/ (length b mod 4 = 3)%nat) ->
  exists r, shuffle b 4 = Ok r /\ deinterleaved b r 4 ((length b + 3) / 4) /\ Permutation b r.
Proof.
  intros Hl Hc. destruct b as [|x t]; [exists []; split; [reflexivity|split; [split; [reflexivity|cbn; lia]|constructor]]|].
  set (b := x :: t) in *. assert (Hb : (1 <= length b)%nat) by (cbn; lia). clearbody b.
  assert (Hc' : (length b <= 4)%nat \/ exists k, (length b = 4 * k \/ length b = 4 * k + 3)%nat).
  { destruct Hc as [H|Hc]; [now left|]. right. pose proof (divmod_nat (length b) 4 ltac:(lia)) as [A1 A2].
    exists (length b / 4)%nat. lia. }
  clear Hc. pose proof (divmod_nat (length b + 3) 4 ltac:(lia)) as [D1 D2].
  set (h := ((length b + 3) / 4)%nat) in *. set (m := ((length b + 3) mod 4)%nat) in *. clearbody h m.
  apply (shuffle_general b 4 h); auto; try lia.
  - intros i Hi. unfold fwd. pose proof (divmod_nat i h ltac:(lia)) as [I1 I2].
    assert (Q : (i / h < 4)%nat) by (apply Nat.div_lt_upper_bound; lia).
    change (Z.to_nat 4) with 4%nat. revert I1 I2 Q. generalize (i / h)%nat (i mod h)%nat. intros q r I1 I2 Q.
    assert (C : q = 0%nat \/ q = 1%nat \/ q = 2%nat \/ q = 3%nat) by lia.
    destruct Hc' as [H4|(k & Hk)].
    + assert (h = 1%nat) by lia. subst h. lia.
    + destruct C as [-> |[-> |[-> | ->]]]; lia.
  - intros j Hj. unfold bwd. change (Z.to_nat 4) with 4%nat. pose proof (divmod_nat j 4 ltac:(lia)) as [I1 I2].
    revert I1 I2. generalize (j / 4)%nat (j mod 4)%nat. intros q r I1 I2.
    assert (C : r = 0%nat \/ r = 1%nat \/ r = 2%nat \/ r = 3%nat) by lia.
    destruct Hc' as [H4|(k & Hk)].
    + assert (h = 1%nat) by lia. subst h. lia.
    + destruct C as [-> |[-> |[-> | ->]]]; lia.
Qed.

Lemma shuffle_width4_panics b : Z.of_nat (length b) < 2 ^ 29 -> (4 < length b)%nat ->
  (length b mod 4 = 1 \/ length b mod 4 = 2)%nat -> shuffle b 4 = Panic.
Proof.
  intros Hl Hb Hm. pose proof (divmod_nat (length b) 4 ltac:(lia)) as [A1 A2].
  set (k := (length b / 4)%nat) in *. set (m := (length b mod 4)%nat) in *. clearbody k m.
  unfold shuffle. rewrite ceil_ok by lia. cbn [obind].
  replace ((Z.of_nat (length b) + 4 - 1) / 4) with (Z.of_nat (S k)).
  2:{ apply (Z.div_unique _ _ _ (Z.of_nat m - 1)); lia. }
  rewrite (i32_small (Z.of_nat (S k))) by lia. cbv zeta. replace (Z.of_nat (S k) =? 0) with false by lia.
  apply (oloop_panic (fun r => length r = length b) _ (if (m =? 1)%nat then 2 * k + 1 else 3 * k + 2)%nat).
  - apply repeat_length.
  - destruct (Nat.eqb_spec m 1); lia.
  - intros i s Hi Hs. rewrite (slice_get_ok b (Z.of_nat i) 0) by lia. cbn [obind].
    rewrite (shuffle_idx (length b)) by lia.
    destruct (Nat.lt_ge_cases (fwd (Z.to_nat 4) (S k) i) (length s)) as [L|L].
    + rewrite slice_set_ok by lia. now rewrite list_set_length.
    + rewrite slice_set_panic by lia. exact I.
  - intros s Hs. destruct (Nat.eqb_spec m 1) as [E|E].
    + rewrite (slice_get_ok b _ 0) by lia. cbn [obind]. rewrite (shuffle_idx (length b)) by lia.
      apply slice_set_panic. right. unfold fwd.
      replace (2 * k + 1)%nat with (1 * S k + k)%nat by lia.
      rewrite (Nat.add_comm (1 * S k)), Nat.mod_add, Nat.div_add by lia.
      rewrite Nat.mod_small, Nat.div_small by lia. change (Z.to_nat 4) with 4%nat. lia.
    + rewrite (slice_get_ok b _ 0) by lia. cbn [obind]. rewrite (shuffle_idx (length b)) by lia.
      apply slice_set_panic. right. unfold fwd.
      replace (3 * k + 2)%nat with (2 * S k + k)%nat by lia.
      rewrite (Nat.add_comm (2 * S k)), Nat.mod_add, Nat.div_add by lia.
      rewrite Nat.mod_small, Nat.div_small by lia. change (Z.to_nat 4) with 4%nat. lia.
Qed.

(* ---- contexts ---- *)
Lemma kind1_ok b : is_byte b -> kind1 b (iccP1 b).
Proof.
  intros Hb. unfold is_byte in Hb. unfold iccP1, isAlpha, isDigit.
  destruct ((97 <=? b) && (b <=? 122)) eqn:E1; [apply k1_lower; lia|].
  destruct ((65 <=? b) && (b <=? 90)) eqn:E2; [apply k1_upper; lia|]. cbn [orb].
  destruct ((48 <=? b) && (b <=? 57)) eqn:E3; [apply k1_digit; lia|]. cbn [orb].
  destruct (Z.eqb_spec b 46) as [->|]; [apply k1_dot|]. destruct (Z.eqb_spec b 44) as [->|]; [apply k1_comma|].
  cbn [orb]. destruct (Z.leb_spec b 1).
  { assert (C : b = 0 \/ b = 1) by lia. destruct C as [-> | ->]; [apply k1_zero|apply k1_one]. }
  destruct ((1 <? b) && (b <? 16)) eqn:E4; [apply k1_small; lia|].
  destruct ((240 <? b) && (b <? 255)) eqn:E5; [apply k1_large; lia|].
  destruct (Z.eqb_spec b 255) as [->|]; [apply k1_max|]. apply k1_other; lia.
Qed.
Lemma kind2_ok b : is_byte b -> kind2 b (iccP2 b).
Proof.
  intros Hb. unfold is_byte in Hb. unfold iccP2, isAlpha, isDigit.
  destruct ((97 <=? b) && (b <=? 122)) eqn:E1; [apply k2_lower; lia|].
  destruct ((65 <=? b) && (b <=? 90)) eqn:E2; [apply k2_upper; lia|]. cbn [orb].
  destruct ((48 <=? b) && (b <=? 57)) eqn:E3; [apply k2_digit; lia|]. cbn [orb].
  destruct (Z.eqb_spec b 46) as [->|]; [apply k2_dot|]. destruct (Z.eqb_spec b 44) as [->|]; [apply k2_comma|].
  cbn [orb]. destruct (Z.ltb_spec b 16); [apply k2_small; lia|].
  destruct (Z.ltb_spec 240 b); [apply k2_large; lia|]. apply k2_other; lia.
Qed.
Lemma context_ok buf i : Forall is_byte buf -> 128 < i <= Z.of_nat (length buf) ->
  exists a b, GetICCContext buf i = Ok (1 + a + 8 * b) /\
    kind1 (nth (Z.to_nat (i - 1)) buf 0) a /\ kind2 (nth (Z.to_nat (i - 2)) buf 0) b.
Proof.
  intros Hb Hi. unfold GetICCContext. replace (i <=? 128) with false by lia.
  rewrite (slice_get_ok _ (i - 1) 0), (slice_get_ok _ (i - 2) 0) by lia. cbn [obind].
  pose proof (byte_nth buf (Z.to_nat (i - 1)) Hb) as B1. pose proof (byte_nth buf (Z.to_nat (i - 2)) Hb) as B2.
  rewrite !land255. rewrite !Z.mod_small by assumption.
  eexists _, _. split; [reflexivity|]. split; [now apply kind1_ok|now apply kind2_ok].
Qed.
Lemma kind_range a b x y : kind1 x a -> kind2 y b -> 0 <= 1 + a + 8 * b < 41.
Proof. intros [] []; lia. Qed.

(* ---- upsampling weights ---- *)
Lemma rows_before_closed n y : 2 * rows_before n y = 2 * n * Z.of_nat y - Z.of_nat y * (Z.of_nat y - 1).
Proof. induction y as [|y IH]; cbn [rows_before]; nia. Qed.
Lemma upFold_tap k p t : k = 2 \/ k = 4 \/ k = 8 -> 0 <= p < k -> 0 <= t < 5 -> upFold k p t = tap k p t.
Proof.
  intros Hk Hp Ht. unfold upFold, tap.
  destruct Hk as [-> |[-> | ->]]; match goal with |- context [?a / 2] => let v := eval compute in (a / 2) in change (a / 2) with v end;
  match goal with |- context [?p <? ?v] => destruct (Z.ltb_spec p v) end; lia.
Qed.
Lemma lxor_min i j : Z.lxor (Z.lxor (if i <? j then j else i) j) i = Z.min i j.
Proof.
  destruct (Z.ltb_spec i j).
  - rewrite Z.lxor_nilpotent, Z.lxor_0_l. lia.
  - rewrite (Z.lxor_comm i j), Z.lxor_assoc, Z.lxor_nilpotent, Z.lxor_0_r. lia.
Qed.
Lemma upIndex_sym k ky kx iy ix : k = 2 \/ k = 4 \/ k = 8 -> 0 <= ky < k -> 0 <= kx < k -> 0 <= iy < 5 -> 0 <= ix < 5 ->
  upIndex k ky kx iy ix = sym_index (5 * k / 2) (tap k ky iy) (tap k kx ix).
Proof.
  intros Hk H1 H2 H3 H4. unfold upIndex. rewrite !upFold_tap by auto. cbv zeta. rewrite lxor_min.
  set (a := tap k ky iy). set (b := tap k kx ix).
  assert (Ha : 0 <= a) by (unfold a, tap; lia). assert (Hb : 0 <= b) by (unfold b, tap; lia). clearbody a b.
  replace (if b <? a then a else b) with (Z.max a b) by (destruct (Z.ltb_spec b a); lia).
  unfold sym_index. rewrite (Z.min_comm b a).
  pose proof (rows_before_closed (5 * k / 2) (Z.to_nat (Z.min a b))) as R. rewrite Z2Nat.id in R by lia.
  set (y := Z.min a b) in *.
  assert (E1 : 5 * k * y / 2 = (5 * k / 2) * y).
  { destruct Hk as [-> |[-> | ->]]; [replace (5 * 2 * y) with ((5 * y) * 2) by lia|replace (5 * 4 * y) with ((10 * y) * 2) by lia|
      replace (5 * 8 * y) with ((20 * y) * 2) by lia]; rewrite Z.div_mul by lia; reflexivity. }
  assert (E2 : exists e, y * (y - 1) = 2 * e).
  { destruct (Z.Even_or_Odd y) as [[z ->]|[z ->]]; [exists (z * (2 * z - 1))|exists ((2 * z + 1) * z)]; lia. }
  destruct E2 as (e & E2). rewrite E1, E2, (Z.mul_comm 2 e), Z.div_mul by lia.
  assert (Er : rows_before (5 * k / 2) (Z.to_nat y) = (5 * k / 2) * y - e) by lia.
  rewrite Er. lia.
Qed.

Lemma rows_mono n y y' : (y < y')%nat -> Z.of_nat y' <= n -> rows_before n y + (n - Z.of_nat y) <= rows_before n y'.
Proof.
  intros H. induction H as [|m H IH]; intros Hn; cbn [rows_before].
  - lia.
  - specialize (IH ltac:(lia)). lia.
Qed.
Lemma rows_nonneg n y : Z.of_nat y <= n -> 0 <= rows_before n y.
Proof. induction y; intros H; cbn [rows_before]; lia. Qed.
Lemma sym_index_bound n a b : 0 <= a < n -> 0 <= b < n -> 0 <= sym_index n a b < n * (n + 1) / 2.
Proof.
  intros Ha Hb. unfold sym_index. pose proof (rows_nonneg n (Z.to_nat (Z.min a b)) ltac:(lia)).
  split; [lia|].
  pose proof (rows_mono n (Z.to_nat (Z.min a b)) (Z.to_nat n) ltac:(lia) ltac:(lia)) as M.
  pose proof (rows_before_closed n (Z.to_nat n)) as R. rewrite Z2Nat.id in * by lia.
  replace (n * (n + 1) / 2) with (rows_before n (Z.to_nat n)); [lia|].
  apply (Z.div_unique _ _ _ 0); nia.
Qed.
Lemma sym_index_inj n a b a' b' : 0 <= a < n -> 0 <= b < n -> 0 <= a' < n -> 0 <= b' < n ->
  sym_index n a b = sym_index n a' b' -> (a = a' /\ b = b') \/ (a = b' /\ b = a').
Proof.
  intros Ha Hb Ha' Hb' E. unfold sym_index in E.
  destruct (Z.lt_trichotomy (Z.min a b) (Z.min a' b')) as [L|[L|L]].
  - pose proof (rows_mono n (Z.to_nat (Z.min a b)) (Z.to_nat (Z.min a' b')) ltac:(lia) ltac:(lia)). lia.
  - rewrite L in E. lia.
  - pose proof (rows_mono n (Z.to_nat (Z.min a' b')) (Z.to_nat (Z.min a b)) ltac:(lia) ltac:(lia)). lia.
Qed.
