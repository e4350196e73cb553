(* Lemmas about the parameters of HF weights. *)
From Coq Require Import ZArith List Bool Lia ZifyBool ZifyNat.
From Verif Require Import GoBase GoLoop Bits ModelUtil ModelBitReader SpecBitReader SpecCodes SpecGrammar ModelHeader SpecHeader ModelEntropy SpecLF ModelHFGlobal SpecHFGlobal.
From Verif Require Import ProofCodes ProofGrammar ProofHeader ProofFrameHeader ProofLF ProofUtil.
Import ListNotations.
Open Scope Z_scope.

Lemma prefix_shift k j l : map (fun p => if (fst p <? k)%nat then scaled_float 6 (snd p) else snd p) (combine (seq j (length l)) l) =
  map times64 (firstn (k - j) l) ++ skipn (k - j) l.
Proof.
  revert j. induction l as [|f l IH]; intros j; cbn [length seq combine map].
  - now rewrite firstn_nil, skipn_nil.
  - rewrite IH. cbn [fst snd]. destruct (Nat.ltb_spec j k).
    + replace (k - j)%nat with (S (k - S j)) by lia. reflexivity.
    + replace (k - j)%nat with O by lia. replace (k - S j)%nat with O by lia. reflexivity.
Qed.
Lemma prefix_eq k l : scaled_prefix k l = map times64 (firstn k l) ++ skipn k l.
Proof. unfold scaled_prefix. rewrite prefix_shift. now rewrite Nat.sub_0_r. Qed.
Lemma exact_floats n k f : (forall l, length l = n -> f l = map times64 (firstn k l) ++ skipn k l) ->
  exact (l <- readF16List n ;; rret (f l)) (floats n k).
Proof.
  intros H. unfold floats. apply exact_map; [apply exact_f16s|]. intros c v Hv. rewrite prefix_eq. apply H. exact (c_list_length _ _ _ _ Hv).
Qed.
Lemma exact_bands : exact readDCTParams bands_code.
Proof.
  unfold readDCTParams, bands_code. apply exact_bind; [now apply exact_bits; [|lia]|]. intros n [? [_ Hn]]. change (2 ^ Z.of_nat 4) with 16 in Hn.
  apply exact_rrepeat. replace (Z.to_nat (n + 1)) with (Z.to_nat n + 1)%nat by lia. apply exact_floats.
  intros [|f l] _; reflexivity.
Qed.
Lemma exact_scaled n : exact (readScaled n) (c_list 3 (floats n n)).
Proof. unfold readScaled. apply exact_rrepeat, exact_floats. intros l Hl. rewrite firstn_all2, skipn_all2 by lia. now rewrite app_nil_r. Qed.
Lemma validate_special i m : 1 <= m <= 5 -> 0 <= i < 17 -> negb (validateIndex i m) = false <-> is_8x8 i.
Proof.
  intros Hm Hi. unfold validateIndex, is_8x8. cbn [In].
  replace ((m <? 0) || (7 <? m)) with false by lia. replace ((m =? 0) || (m =? 6) || (m =? 7)) with false by lia. lia.
Qed.
Lemma exact_table raw raw_code i : 0 <= i < 17 -> exact (raw i) (raw_code i) -> exact (setupDCTParam raw i) (table_code false raw_code i).
Proof.
  intros Hi HR. unfold setupDCTParam, table_code. apply exact_bind; [now apply exact_bits; [|lia]|]. intros m [? [_ Hm]]. change (2 ^ Z.of_nat 3) with 8 in Hm.
  rewrite i32_small by lia.
  assert (C : m = 0 \/ m = 1 \/ m = 2 \/ m = 3 \/ m = 4 \/ m = 5 \/ m = 6 \/ m = 7) by lia.
  destruct C as [->|[->|[->|[->|[->|[->|[->| ->]]]]]]]; cbn iota.
  - cbn [validateIndex]. apply exact_ret.
  - apply exact_guard; [now apply validate_special|]. intros _. apply exact_bind; [apply exact_scaled|]. intros; apply exact_ret.
  - apply exact_guard; [now apply validate_special|]. intros _. apply exact_bind; [apply exact_scaled|]. intros; apply exact_ret.
  - apply exact_guard; [now apply validate_special|]. intros _. apply exact_bind; [apply exact_scaled|]. intros. apply exact_bind; [apply exact_bands|]. intros; apply exact_ret.
  - destruct (negb (validateIndex i 4)); (apply exact_err; intros c v [[_ G] _]; discriminate).
  - apply exact_guard; [now apply validate_special|]. intros _. apply exact_bind; [apply exact_rrepeat, exact_floats; reflexivity|]. intros.
    apply exact_bind; [apply exact_bands|]. intros. apply exact_bind; [apply exact_bands|]. intros; apply exact_ret.
  - cbn [validateIndex]. apply exact_bind; [apply exact_bands|]. intros; apply exact_ret.
  - cbn [validateIndex]. apply exact_bind; [apply exact_f16|]. intros. apply exact_bind; [exact HR|]. intros; apply exact_ret.
Qed.
Lemma exact_tables raw raw_code : forall n i, 0 <= i -> i + Z.of_nat n <= 17 -> (forall j, 0 <= j < 17 -> exact (raw j) (raw_code j)) ->
  exact (setupAll raw n i) (c_each (table_code false raw_code) (map (fun k => i + Z.of_nat k) (seq 0 n))).
Proof.
  induction n as [|n IH]; intros i H0 H17 HR; cbn [setupAll seq map c_each]; [apply exact_ret|].
  rewrite Z.add_0_r. apply exact_bind; [apply exact_table; [lia|apply HR; lia]|]. intros a _.
  rewrite <- seq_shift, map_map. erewrite map_ext; [apply exact_bind; [apply (IH (i + 1)); [lia|lia|exact HR]|]|intros k; cbv beta; lia]. intros; apply exact_ret.
Qed.
Lemma group_bits g : 1 <= g <= 2 ^ 30 -> u32 (CeilLog1p (u32 (g - 1))) = Z.log2_up g /\ 0 <= Z.log2_up g <= 30.
Proof.
  intros H. rewrite (u32_small (g - 1)) by lia. rewrite CeilLog1p_len by lia.
  assert (B : 0 <= Z.log2_up g <= 30). { split; [apply Z.log2_up_nonneg|]. change 30 with (Z.log2_up (2 ^ 30)). apply Z.log2_up_le_mono. lia. }
  split; [|exact B]. destruct (Z.eqb_spec (g - 1) 0).
  - replace g with 1 by lia. reflexivity.
  - rewrite Z.log2_up_eqn in B |- * by lia. replace (Z.pred g) with (g - 1) in * by lia. rewrite u32_small; lia.
Qed.
Lemma exact_hf_global raw raw_code ok valid groups : 1 <= groups <= 2 ^ 30 -> (forall j, 0 <= j < 17 -> exact (raw j) (raw_code j)) ->
  (forall ps, ok ps = true <-> valid ps) -> exact (readHFGlobal raw ok groups) (hf_global_code false raw_code valid groups).
Proof.
  intros HG HR HV. destruct (group_bits groups HG) as [EB B]. unfold readHFGlobal, hf_global_code. rewrite EB. apply exact_bind; [apply exact_bool|]. intros b _.
  apply exact_bind; [destruct b; [apply exact_ret|exact (exact_tables raw raw_code 17 0 ltac:(lia) ltac:(lia) HR)]|]. intros ps _.
  apply exact_guard; [rewrite negb_false_iff; apply HV|]. intros _. apply exact_bind; [apply exact_bits; lia|]. intros n [? [_ Hn]].
  assert (0 <= n < 2 ^ 30). { rewrite Z2Nat.id in Hn by lia. pose proof (Z.pow_le_mono_r 2 (Z.log2_up groups) 30). lia. }
  rewrite !i32_small by (rewrite ?i32_small; lia). apply exact_ret.
Qed.
