(* C16, C17: reading permutations and finding sections. *)
From Coq Require Import ZArith List Bool Lia Permutation ZifyBool ZifyNat.
From Verif Require Import GoBase GoLoop Bits ModelBitReader ModelUtil ModelEntropy ModelToc SpecToc SpecBitReader ProofBitReader ProofBitReader2 ProofReads ProofCodes ProofBoxes ProofHeader ProofPerm ProofUtil.
Import ListNotations.
Open Scope Z_scope.

Lemma ebind_ok {A B} (m : EM A) (f : A -> EM B) st b st' : ebind m f st = (Ok b, st') -> exists a st1, m st = (Ok a, st1) /\ f a st1 = (Ok b, st').
Proof. unfold ebind. destruct (m st) as [[a| |] st1]; intros H; try discriminate. eauto. Qed.
Lemma ebind_intro {A B} (m : EM A) (f : A -> EM B) st a st1 : m st = (Ok a, st1) -> ebind m f st = f a st1.
Proof. unfold ebind. intros ->. reflexivity. Qed.

Lemma set_mid (pre : list Z) r v : list_set (pre ++ repeat 0 (S r)) (length pre) v = (pre ++ [v]) ++ repeat 0 r.
Proof. induction pre as [|x pre IH]; cbn [app length list_set repeat]; [reflexivity|]. rewrite <- IH. reflexivity. Qed.

(* the context of a value: the bit length of the value, at most 7 *)
Lemma ctx_ok x : 0 <= x < 2 ^ 64 -> ctxFunc x = toc_ctx x.
Proof. intros H. unfold ctxFunc, toc_ctx. rewrite CeilLog1p_len by assumption. destruct (Z.eqb_spec x 0) as [->|]; [reflexivity|]. rewrite Z.log2_up_eqn by lia. replace (Z.pred (x + 1)) with x by lia. lia. Qed.

(* what lehmerLoop transmits *)
Fixpoint code_seq (n : nat) (prev : Z) : EM (list Z) :=
  match n with
  | O => eret []
  | S n' => v <e- ReadSymbol (toc_ctx prev) ;; vs <e- code_seq n' (u32 v) ;; eret (u32 v :: vs)
  end.

Lemma u32_range v : 0 <= u32 v < 2 ^ 32.
Proof. unfold u32. apply Z.mod_pos_bound. lia. Qed.

Section Loop.
Variables size skip : Z.
Hypothesis Hsize : 0 <= skip <= size.
Hypothesis Hmax : size < 2 ^ 32.

Lemma loop_step n i pre r prev st : Z.of_nat (length pre) = i -> skip <= i -> (skip < i -> nth (Z.to_nat (i - 1)) pre 0 = prev) -> (i = skip -> prev = 0) -> 0 <= prev < 2 ^ 32 ->
  lehmerLoop (S n) i size skip (pre ++ repeat 0 (S r)) st =
  (ii <e- ReadSymbol (toc_ctx prev) ;;
   if u32 (size - i) <=? u32 ii then eerr else lehmerLoop n (i + 1) size skip ((pre ++ [u32 ii]) ++ repeat 0 r)) st.
Proof.
  intros Hl Hi Hp H0 Hpr. cbn [lehmerLoop].
  assert (E : (if skip <? i then rd (rlift (slice_get (pre ++ repeat 0 (S r)) (i - 1))) else eret 0) st = (Ok prev, st)).
  { destruct st as [e s]. destruct (Z.ltb_spec skip i).
    - unfold rd, rlift. rewrite (slice_get_ok _ _ 0) by (rewrite app_length; lia). rewrite app_nth1 by lia. rewrite Hp by lia. reflexivity.
    - rewrite H0 by lia. reflexivity. }
  rewrite (ebind_intro _ _ _ _ _ E). rewrite (ctx_ok prev) by lia. unfold ebind at 1 3. destruct (ReadSymbol (toc_ctx prev) st) as [[ii| |] st1]; try reflexivity.
  assert (E2 : rd (rlift (slice_set (pre ++ repeat 0 (S r)) i (u32 ii))) st1 = (Ok ((pre ++ [u32 ii]) ++ repeat 0 r), st1)).
  { destruct st1 as [e s]. unfold rd, rlift. rewrite slice_set_ok by (rewrite app_length, repeat_length; lia).
    replace (Z.to_nat i) with (length pre) by lia. rewrite set_mid. reflexivity. }
  rewrite (ebind_intro _ _ _ _ _ E2). reflexivity.
Qed.

Lemma loop_fwd n : forall i pre r prev st cs st', Z.of_nat (length pre) = i -> skip <= i -> i + Z.of_nat n <= size ->
  (skip < i -> nth (Z.to_nat (i - 1)) pre 0 = prev) -> (i = skip -> prev = 0) -> 0 <= prev < 2 ^ 32 ->
  code_seq n prev st = (Ok cs, st') -> lehmer_ok (size - i) cs ->
  lehmerLoop n i size skip (pre ++ repeat 0 (n + r)) st = (Ok (pre ++ cs ++ repeat 0 r), st').
Proof.
  induction n as [|n IH]; intros i pre r prev st cs st' Hl Hi Hn Hp H0 Hpr HC HL.
  - cbn [code_seq] in HC. unfold eret in HC. injection HC as <- <-. reflexivity.
  - cbn [plus]. rewrite (loop_step n i pre (n + r) prev st Hl Hi Hp H0 Hpr).
    cbn [code_seq] in HC. apply ebind_ok in HC as (v & st1 & E1 & HC). apply ebind_ok in HC as (vs & st2 & E2 & HC).
    unfold eret in HC. injection HC as <- <-. cbn [lehmer_ok] in HL. destruct HL as [HL1 HL2].
    rewrite (ebind_intro _ _ _ _ _ E1). rewrite (u32_small (size - i)) by lia. destruct (Z.leb_spec (size - i) (u32 v)); [lia|].
    rewrite (IH (i + 1) (pre ++ [u32 v]) r (u32 v) st1 vs st2); [rewrite <- !app_assoc; reflexivity|..].
    + rewrite app_length. cbn [length]. lia.
    + lia.
    + lia.
    + intros _. rewrite app_nth2 by lia. replace (Z.to_nat (i + 1 - 1) - length pre)%nat with 0%nat by lia. reflexivity.
    + lia.
    + apply u32_range.
    + exact E2.
    + replace (size - (i + 1)) with (size - i - 1) by lia. exact HL2.
Qed.

Lemma loop_bwd n : forall i pre r prev st l st', Z.of_nat (length pre) = i -> skip <= i -> i + Z.of_nat n <= size ->
  (skip < i -> nth (Z.to_nat (i - 1)) pre 0 = prev) -> (i = skip -> prev = 0) -> 0 <= prev < 2 ^ 32 ->
  lehmerLoop n i size skip (pre ++ repeat 0 (n + r)) st = (Ok l, st') ->
  exists cs, code_seq n prev st = (Ok cs, st') /\ lehmer_ok (size - i) cs /\ length cs = n /\ l = pre ++ cs ++ repeat 0 r.
Proof.
  induction n as [|n IH]; intros i pre r prev st l st' Hl Hi Hn Hp H0 Hpr HC.
  - cbn [lehmerLoop] in HC. unfold eret in HC. injection HC as <- <-. exists []. repeat split.
  - cbn [plus] in HC. rewrite (loop_step n i pre (n + r) prev st Hl Hi Hp H0 Hpr) in HC. apply ebind_ok in HC as (v & st1 & E1 & HC).
    rewrite (u32_small (size - i)) in HC by lia. destruct (Z.leb_spec (size - i) (u32 v)); [unfold eerr in HC; discriminate|].
    pose proof (u32_range v).
    destruct (IH (i + 1) (pre ++ [u32 v]) r (u32 v) st1 l st') as (cs & C1 & C2 & C3 & C4).
    + rewrite app_length. cbn [length]. lia.
    + lia.
    + lia.
    + intros _. rewrite app_nth2 by lia. replace (Z.to_nat (i + 1 - 1) - length pre)%nat with 0%nat by lia. reflexivity.
    + lia.
    + apply u32_range.
    + exact HC.
    + exists (u32 v :: cs). cbn [code_seq lehmer_ok length]. rewrite (ebind_intro _ _ _ _ _ E1), (ebind_intro _ _ _ _ _ C1).
      split; [reflexivity|]. split; [split; [lia|replace (size - i - 1) with (size - (i + 1)) by lia; exact C2]|]. split; [lia|].
      rewrite C4, <- app_assoc. reflexivity.
Qed.
End Loop.


Lemma lehmer_ok_app n a b : lehmer_ok n a -> lehmer_ok (n - Z.of_nat (length a)) b -> lehmer_ok n (a ++ b).
Proof.
  revert n. induction a as [|x a IH]; intros n Ha Hb; cbn [app lehmer_ok length] in *; [replace n with (n - Z.of_nat 0) by lia; exact Hb|].
  split; [tauto|]. apply IH; [tauto|]. replace (n - 1 - Z.of_nat (length a)) with (n - Z.of_nat (S (length a))) by lia. exact Hb.
Qed.
Lemma lehmer_ok_zeros k n : Z.of_nat k <= n -> lehmer_ok n (repeat 0 k).
Proof. revert n. induction k as [|k IH]; intros n H; cbn [repeat lehmer_ok]; [exact I|]. split; [lia|]. apply IH. lia. Qed.
Lemma full_code_ok size skip cs : 0 <= skip <= size -> lehmer_ok (size - skip) cs -> Z.of_nat (length cs) <= size - skip ->
  lehmer_ok size (full_code size skip cs) /\ length (full_code size skip cs) = Z.to_nat size.
Proof.
  intros H1 H2 H3. unfold full_code. split.
  - apply lehmer_ok_app; [apply lehmer_ok_zeros; lia|]. rewrite repeat_length. apply lehmer_ok_app; [replace (Z.of_nat (Z.to_nat skip)) with skip by lia; exact H2|].
    apply lehmer_ok_zeros. lia.
  - rewrite !app_length, !repeat_length. lia.
Qed.

Lemma perm_fwd size skip st e st1 cs st2 : 0 <= skip <= size -> size < 2 ^ 32 - 1 ->
  ReadSymbol (toc_ctx size) st = (Ok e, st1) -> u32 e <= size - skip ->
  code_seq (Z.to_nat (u32 e)) 0 st1 = (Ok cs, st2) -> lehmer_ok (size - skip) cs -> length cs = Z.to_nat (u32 e) ->
  readPermutation size skip st = (Ok (lehmer_decode (iota size) (full_code size skip cs)), st2).
Proof.
  intros Hs Hm E1 He E2 HL Hlen. unfold readPermutation. rewrite (ctx_ok size) by lia. rewrite (ebind_intro _ _ _ _ _ E1). pose proof (u32_range e).
  rewrite (u32_small (size - skip)) by lia. destruct (Z.ltb_spec (size - skip) (u32 e)); [lia|].
  rewrite (u32_small (u32 e + skip)) by lia. replace (u32 e + skip - skip) with (u32 e) by lia.
  assert (E3 : lehmerLoop (Z.to_nat (u32 e)) skip size skip (repeat 0 (Z.to_nat size)) st1 = (Ok (full_code size skip cs), st2)).
  { replace (Z.to_nat size) with (Z.to_nat skip + (Z.to_nat (u32 e) + (Z.to_nat (size - skip) - length cs)))%nat by lia. rewrite repeat_app.
    apply (loop_fwd size skip Hs ltac:(lia) _ skip (repeat 0 (Z.to_nat skip)) _ 0); try lia; [rewrite repeat_length; lia|exact E2|exact HL]. }
  rewrite (ebind_intro _ _ _ _ _ E3). destruct st2 as [es s]. unfold rd, rlift.
  rewrite lehmer_perm_ok; [reflexivity|lia|]. apply full_code_ok; lia || assumption.
Qed.

Lemma perm_bwd size skip st p st2 : 0 <= skip <= size -> size < 2 ^ 32 - 1 -> readPermutation size skip st = (Ok p, st2) ->
  exists e st1 cs, ReadSymbol (toc_ctx size) st = (Ok e, st1) /\ u32 e <= size - skip /\
    code_seq (Z.to_nat (u32 e)) 0 st1 = (Ok cs, st2) /\ lehmer_ok (size - skip) cs /\ length cs = Z.to_nat (u32 e) /\
    p = lehmer_decode (iota size) (full_code size skip cs).
Proof.
  intros Hs Hm H. unfold readPermutation in H. rewrite (ctx_ok size) in H by lia. apply ebind_ok in H as (e & st1 & E1 & H). pose proof (u32_range e).
  rewrite (u32_small (size - skip)) in H by lia. destruct (Z.ltb_spec (size - skip) (u32 e)); [unfold eerr in H; discriminate|].
  rewrite (u32_small (u32 e + skip)) in H by lia. replace (u32 e + skip - skip) with (u32 e) in H by lia.
  apply ebind_ok in H as (l & st3 & E2 & H).
  replace (Z.to_nat size) with (Z.to_nat skip + (Z.to_nat (u32 e) + (Z.to_nat (size - skip) - Z.to_nat (u32 e))))%nat in E2 by lia. rewrite repeat_app in E2.
  apply (loop_bwd size skip Hs ltac:(lia) _ skip (repeat 0 (Z.to_nat skip)) _ 0) in E2; try lia; [|rewrite repeat_length; lia].
  destruct E2 as (cs & C1 & C2 & C3 & C4).
  assert (El : l = full_code size skip cs) by (unfold full_code; rewrite C3; exact C4). clear C4. subst l.
  destruct st3 as [es s]. unfold rd, rlift in H. rewrite lehmer_perm_ok in H; [|lia|apply full_code_ok; lia || assumption].
  injection H as Q1 Q2. exists e, st1, cs. rewrite <- Q2. repeat split; try assumption. congruence.
Qed.

(* the skipped prefix stays in place *)
Lemma decode_zeros k : forall l code, (k <= length l)%nat -> lehmer_decode l (repeat 0 k ++ code) = firstn k l ++ lehmer_decode (skipn k l) code.
Proof.
  induction k as [|k IH]; intros l code Hk; [reflexivity|]. destruct l as [|x l]; [cbn in Hk; lia|].
  cbn [repeat app lehmer_decode firstn skipn]. change (Z.to_nat 0) with 0%nat. cbn [nth remove_at]. rewrite IH by (cbn in Hk; lia). reflexivity.
Qed.
Lemma iota_length n : length (iota n) = Z.to_nat n.
Proof. unfold iota. rewrite map_length, seq_length. reflexivity. Qed.
Lemma iota_nodup n : NoDup (iota n).
Proof. unfold iota. apply FinFun.Injective_map_NoDup; [intros a b H; lia|apply seq_NoDup]. Qed.
Lemma iota_prefix k n : 0 <= k <= n -> firstn (Z.to_nat k) (iota n) = iota k.
Proof.
  intros H. unfold iota. rewrite firstn_map. f_equal. replace (Z.to_nat n) with (Z.to_nat k + (Z.to_nat n - Z.to_nat k))%nat by lia.
  rewrite seq_app. rewrite firstn_app, seq_length, Nat.sub_diag. cbn [firstn]. rewrite app_nil_r.
  rewrite <- (seq_length (Z.to_nat k) 0) at 1. apply firstn_all.
Qed.
Lemma perm_result size skip cs : 0 <= skip <= size -> lehmer_ok (size - skip) cs -> Z.of_nat (length cs) <= size - skip ->
  Permutation (iota size) (lehmer_decode (iota size) (full_code size skip cs)) /\
  firstn (Z.to_nat skip) (lehmer_decode (iota size) (full_code size skip cs)) = iota skip.
Proof.
  intros Hs HL Hc. destruct (full_code_ok size skip cs Hs HL Hc) as [F1 F2]. split.
  - apply lehmer_decode_perm; rewrite iota_length; [replace (Z.of_nat (Z.to_nat size)) with size by lia; exact F1|exact F2].
  - unfold full_code. rewrite decode_zeros by (rewrite iota_length; lia). rewrite iota_prefix by lia.
    rewrite firstn_app, iota_length, Nat.sub_diag. cbn [firstn]. rewrite app_nil_r. rewrite <- (iota_length skip). apply firstn_all.
Qed.

Lemma decode_len code : forall l, length (lehmer_decode l code) = length code.
Proof. induction code as [|c code IH]; intros l; cbn [lehmer_decode length]; [reflexivity|]. rewrite IH. reflexivity. Qed.
Lemma iota_split k n : 0 <= k <= n -> iota n = iota k ++ skipn (Z.to_nat k) (iota n).
Proof. intros H. rewrite <- (iota_prefix k n H) at 1. symmetry. apply firstn_skipn. Qed.

(* every permutation keeping the prefix has exactly one code *)
Lemma perm_has_code size skip p : 0 <= skip <= size -> Permutation (iota size) p -> firstn (Z.to_nat skip) p = iota skip ->
  exists cs, lehmer_ok (size - skip) cs /\ Z.of_nat (length cs) = size - skip /\
    lehmer_decode (iota size) (full_code size skip cs) = p /\
    forall cs', lehmer_ok (size - skip) cs' -> length cs' = length cs -> lehmer_decode (iota size) (full_code size skip cs') = p -> cs' = cs.
Proof.
  intros Hs HP Hf. set (L := skipn (Z.to_nat skip) (iota size)). set (P := skipn (Z.to_nat skip) p).
  assert (EP : p = iota skip ++ P) by (rewrite <- Hf; symmetry; apply firstn_skipn).
  assert (HPL : Permutation L P).
  { apply (Permutation_app_inv_l (iota skip)). unfold L. rewrite <- iota_split by assumption. rewrite <- EP. exact HP. }
  assert (LL : Z.of_nat (length L) = size - skip) by (unfold L; rewrite skipn_length, iota_length; lia).
  destruct (lehmer_encode_ok P L HPL) as (A & B & C). rewrite LL in A.
  assert (D : forall c, Z.of_nat (length c) = size - skip -> lehmer_decode (iota size) (full_code size skip c) = iota skip ++ lehmer_decode L c).
  { intros c Hc. unfold full_code. rewrite decode_zeros by (rewrite iota_length; lia). rewrite iota_prefix by lia.
    replace (Z.to_nat (size - skip) - length c)%nat with 0%nat by lia. cbn [repeat]. rewrite app_nil_r. reflexivity. }
  exists (lehmer_encode L P). split; [exact A|]. split; [lia|]. split; [rewrite D by lia; rewrite C; symmetry; exact EP|].
  intros cs' H1 H2 H3. rewrite D in H3 by lia. rewrite EP in H3. apply app_inv_head in H3.
  apply (lehmer_decode_inj L); try assumption.
  - unfold L. pose proof (iota_nodup size) as N. rewrite (iota_split skip size Hs) in N. revert N. generalize (iota skip). intros a.
    induction a as [|x a IH]; cbn [app]; [trivial|]. intros N. inversion N. apply IH. assumption.
  - rewrite LL. exact H1.
  - rewrite LL. exact A.
  - congruence.
Qed.

(* ---- sections ---- *)
Lemma rbind_intro {A B} (m : RM A) (f : A -> RM B) s a s1 : m s = (Ok a, s1) -> rbind m f s = f a s1.
Proof. unfold rbind. intros ->. reflexivity. Qed.
Lemma reader_al s d p : reader_at s d (8 * p) -> al s /\ br_data s = d /\ br_pos s = p.
Proof.
  intros (Hd & Hdat & Hp & Hpos & Hi & Hc & _ & Hn).
  assert (E1 : ((8 * p + 7) / 8 = p)%nat) by (symmetry; apply (Nat.div_unique _ 8 p 7); lia).
  assert (E2 : ((8 * p) mod 8 = 0)%nat) by (rewrite Nat.mul_comm; apply Nat.mod_mul; lia).
  rewrite E1 in Hpos. rewrite E2 in Hi.
  split; [|auto]. apply al_intro; [rewrite Hdat; exact Hd|exact Hi|exact Hc|rewrite Hdat; lia|exact Hn].
Qed.
Lemma al_reader s : al s -> reader_at s (br_data s) (8 * br_pos s).
Proof.
  intros H. apply al_parts in H as (Hd & Hi & Hc & Hp & Hn). unfold reader_at.
  assert (E1 : ((8 * br_pos s + 7) / 8 = br_pos s)%nat) by (symmetry; apply (Nat.div_unique _ 8 (br_pos s) 7); lia).
  assert (E2 : ((8 * br_pos s) mod 8 = 0)%nat) by (rewrite Nat.mul_comm; apply Nat.mod_mul; lia).
  rewrite E1, E2. split; [exact Hd|]. split; [reflexivity|]. split; [lia|]. split; [reflexivity|]. split; [exact Hi|]. split; [exact Hc|]. split; [lia|exact Hn].
Qed.

Lemma readBuffer_ok s len : al s -> 0 <= len < 2 ^ 32 - 4 -> (br_pos s < length (br_data s))%nat -> Z.of_nat (br_pos s) + len <= Z.of_nat (length (br_data s)) ->
  exists s', readBuffer len s = (Ok (byte_range (br_data s) (Z.of_nat (br_pos s)) len ++ [0; 0; 0; 0]), s') /\
    al s' /\ br_data s' = br_data s /\ br_pos s' = (br_pos s + Z.to_nat len)%nat.
Proof.
  intros Ha Hl Hp Hf. exists (set_pos (br_pos s + Z.to_nat len) s). split; [|split; [apply al_set_pos; [assumption|lia]|split; reflexivity]].
  unfold readBuffer. rewrite u32_small by lia. replace (Z.to_nat (len + 4 - len)) with 4%nat by lia. cbn [repeat].
  unfold byte_range. rewrite Nat2Z.id. unfold rbind.
  destruct (Z.eq_dec len 0) as [->|H0].
  - change (Z.to_nat 0) with 0%nat. change (Z.to_nat (0 + 4)) with 4%nat. unfold ReadBytesToBuffer, stream_read.
    destruct Ha as [_ Hi]. rewrite Hi. cbn [Z.eqb negb Nat.ltb Nat.leb]. destruct (Nat.leb_spec (length (br_data s)) (br_pos s)); [lia|].
    cbn [firstn length Nat.eqb]. rewrite Nat.add_0_r. unfold set_pos. rewrite Hi. reflexivity.
  - pose proof (rb_ok s (Z.to_nat (len + 4)) (Z.to_nat len) Ha ltac:(lia) ltac:(lia)) as R.
    destruct (Nat.leb_spec (br_pos s + Z.to_nat len) (length (br_data s))); [|lia]. rewrite R. reflexivity.
Qed.

Lemma section_start_S start l t k : section_start start (l :: t) (S k) = section_start (start + l) t k.
Proof. unfold section_start. cbn [firstn fold_right]. lia. Qed.
Lemma section_start_0 start t : section_start start t 0 = start.
Proof. unfold section_start. cbn [firstn fold_right]. lia. Qed.

Lemma sections_ok lengths : forall s d start, al s -> br_data s = d -> Z.of_nat (br_pos s) = start -> Forall (fun l => 0 <= l < 2 ^ 32 - 4) lengths ->
  (forall k, (k < length lengths)%nat -> section_start start lengths k < Z.of_nat (length d) /\
     section_start start lengths k + nth k lengths 0 <= Z.of_nat (length d)) ->
  exists bufs s', rmapM (fun l => b <- readBuffer l ;; rret (Buffer b)) lengths s = (Ok bufs, s') /\ length bufs = length lengths /\
    (forall k, (k < length lengths)%nat -> nth_error bufs k = Some (Buffer (byte_range d (section_start start lengths k) (nth k lengths 0) ++ [0; 0; 0; 0]))) /\
    reader_at s' d (8 * Z.to_nat (section_start start lengths (length lengths))).
Proof.
  induction lengths as [|l t IH]; intros s d start Ha Hd Hp Hl H.
  - exists [], s. cbn [rmapM]. split; [reflexivity|]. split; [reflexivity|]. split; [cbn; lia|].
    rewrite section_start_0. replace (Z.to_nat start) with (br_pos s) by lia. rewrite <- Hd. apply al_reader. exact Ha.
  - inversion Hl as [|? ? Hl1 Hl2]; subst.
    destruct (H 0%nat ltac:(cbn; lia)) as [H1 H2]. rewrite section_start_0 in H1, H2. cbn [nth] in H2.
    destruct (readBuffer_ok s l Ha Hl1 ltac:(lia) H2) as (s1 & E & Ha1 & Hd1 & Hp1).
    destruct (IH s1 (br_data s) (Z.of_nat (br_pos s) + l) Ha1 Hd1 ltac:(lia) Hl2) as (bufs & s' & E2 & L & N & R).
    { intros k Hk. destruct (H (S k) ltac:(cbn; lia)) as [A B]. rewrite section_start_S in A, B. cbn [nth] in B. auto. }
    eexists _, s'. cbn [rmapM]. 
    assert (E3 : (b <- readBuffer l ;; rret (Buffer b)) s = (Ok (Buffer (byte_range (br_data s) (Z.of_nat (br_pos s)) l ++ [0; 0; 0; 0])), s1)) by (unfold rbind; rewrite E; reflexivity).
    rewrite (rbind_intro _ _ _ _ _ E3), (rbind_intro _ _ _ _ _ E2).
    split; [reflexivity|]. split; [cbn [length]; congruence|]. split.
    + intros [|k] Hk; [rewrite section_start_0; reflexivity|]. cbn [nth_error nth]. rewrite section_start_S. apply N. cbn in Hk. lia.
    + cbn [length]. rewrite section_start_S. exact R.
Qed.

Lemma toc_code_reads len c : toc_code len c -> reads (ReadU32 0 10 1024 14 17408 22 4211712 30) c len /\ 0 <= len < 2 ^ 32 - 4.
Proof.
  intros (i & x & Hi & Hx & -> & ->). set (base := nth (Z.to_nat i) [0; 1024; 17408; 4211712] 0) in *. set (w := nth (Z.to_nat i) [10; 14; 22; 30] 0) in *.
  assert (Hw : 0 <= w <= 30 /\ 0 <= base <= 4211712).
  { unfold w, base. clear - Hi. assert (H : i = 0 \/ i = 1 \/ i = 2 \/ i = 3) by lia.
    destruct H as [H|[H|[H|H]]]; rewrite H; split; split; vm_compute; discriminate. }
  assert (2 ^ w <= 2 ^ 30) by (apply Z.pow_le_mono_r; lia).
  pose proof (ReadU32_reads 0 10 1024 14 17408 22 4211712 30 i x Hi) as R. cbv zeta in R. fold base w in R.
  specialize (R ltac:(lia) Hx). rewrite u32_small in R by lia. split; [exact R|lia].
Qed.
Lemma rrepeat_reads {A} (m : RM A) : forall vs cs, Forall2 (fun v c => reads m c v) vs cs -> reads (rrepeat (length vs) m) (concat cs) vs.
Proof.
  intros vs cs H. induction H as [|v c vs cs H1 H2 IH]; cbn [length rrepeat concat]; [apply reads_ret|].
  eapply reads_bind; [exact H1|]. rewrite <- (app_nil_r (concat cs)). eapply reads_bind; [exact IH|]. apply reads_ret.
Qed.

Lemma toc_plain s d p lengths codes : reader_at s d p -> bits_at d p [false] ->
  Forall2 toc_code lengths codes -> bits_at d (byte_up (p + 1)) (concat codes) ->
  exists s', ReadTOC (Z.of_nat (length lengths)) s = (Ok (None, lengths), s') /\
    reader_at s' d (byte_up (byte_up (p + 1) + length (concat codes))).
Proof.
  intros Hr Hb HF Hc. unfold ReadTOC.
  destruct (reads_bool false s d p Hr Hb) as (s1 & E1 & R1). unfold rbind at 1. rewrite E1. cbn [length] in R1.
  unfold rbind at 1. unfold rret at 1. destruct (pad_ok s1 d (p + 1) R1) as (s2 & E2 & R2). unfold rbind at 1. rewrite E2.
  rewrite Nat2Z.id.
  assert (HR : reads (rrepeat (length lengths) (ReadU32 0 10 1024 14 17408 22 4211712 30)) (concat codes) lengths).
  { apply rrepeat_reads. clear - HF. induction HF; constructor; auto. apply toc_code_reads. assumption. }
  destruct (HR s2 d _ R2 Hc) as (s3 & E3 & R3). unfold rbind at 1. rewrite E3.
  destruct (pad_ok s3 d _ R3) as (s4 & E4 & R4). unfold rbind. rewrite E4. eexists. split; [reflexivity|exact R4].
Qed.

(* building a table of contents for examples: bits, padding, short lengths,
   padding *)
Definition pack_byte (l : list bool) : Z := fold_right (fun (b : bool) r => (if b then 1 else 0) + 2 * r) 0 l.
Fixpoint pack (fuel : nat) (l : list bool) : list Z :=
  match fuel with O => [] | S f => match l with [] => [] | _ => pack_byte (firstn 8 l) :: pack f (skipn 8 l) end end.
Definition toc_bytes_of (bits : list bool) (lengths : list Z) : list Z :=
  pack (length bits) bits ++ (let l := concat (map (fun n => zbits 2 0 ++ zbits 10 n) lengths) in pack (length l) l).
