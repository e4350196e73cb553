(* Theorems about the parameters of HF weights. *)
From Coq Require Import ZArith List Bool Lia.
From Verif Require Import GoBase GoLoop Bits ModelUtil ModelBitReader SpecBitReader SpecCodes SpecGrammar ModelHeader SpecHeader ModelEntropy SpecLF ModelHFGlobal SpecHFGlobal.
From Verif Require Import ProofCodes ProofReads ProofGrammar ProofHeader ProofFrameHeader ProofLF ProofHFGlobal.
Import ListNotations.
Open Scope Z_scope.

(* ---- C80: parameters of HF weights ---- *)
(* For any reader of raw tables that accepts exactly a grammar and any check of
   the resulting weights: exactly the grammar without mode 4 is accepted.
   Missing: mode 4. *)
Theorem C80_grammar_partial : forall raw raw_code ok valid groups, 1 <= groups <= 2 ^ 30 ->
  (forall i, 0 <= i < 17 -> exact (raw i) (raw_code i)) -> (forall ps, ok ps = true <-> valid ps) ->
  exact (readHFGlobal raw ok groups) (hf_global_code false raw_code valid groups).
Proof. intros. now apply exact_hf_global. Qed.
Print Assumptions C80_grammar_partial.

Lemma table_standard raw i c v : table_code true raw i c v -> (forall d m f, v <> PGiven 4 d m f) -> table_code false raw i c v.
Proof.
  intros (a & b & m & -> & Hm & H) N. exists a, b, m. split; [reflexivity|]. split; [exact Hm|].
  destruct Hm as [_ Hm]. change (2 ^ Z.of_nat 3) with 8 in Hm.
  assert (C : m = 0 \/ m = 1 \/ m = 2 \/ m = 3 \/ m = 4 \/ m = 5 \/ m = 6 \/ m = 7) by lia.
  destruct C as [->|[->|[->|[->|[->|[->|[->| ->]]]]]]]; try exact H.
  destruct H as (_ & a1 & a2 & w & -> & _ & a3 & a4 & w2 & -> & _ & -> & ->). now destruct (N w2 w []).
Qed.
Lemma each_standard raw : forall l c v, c_each (table_code true raw) l c v -> (forall d m f, ~ In (PGiven 4 d m f) v) -> c_each (table_code false raw) l c v.
Proof.
  induction l as [|i l IH]; intros c v H N; [exact H|].
  destruct H as (a & b & w & -> & Hw & a2 & b2 & r & -> & Hr & -> & ->).
  exists a, (a2 ++ []), w. split; [reflexivity|]. split; [apply table_standard; [exact Hw|]; intros d m f ->; apply (N d m f); now left|].
  exists a2, [], r. split; [reflexivity|]. split; [|split; reflexivity]. apply IH; [exact Hr|]. intros d m f Hi. apply (N d m f). now right.
Qed.
(* Parameters in the syntax of the standard without mode 4 are read to their
   values. *)
Theorem C80_standard_partial : forall raw raw_code ok valid groups c ps n, 1 <= groups <= 2 ^ 30 ->
  (forall i, 0 <= i < 17 -> exact (raw i) (raw_code i)) -> (forall ps, ok ps = true <-> valid ps) ->
  hf_global_code true raw_code valid groups c (ps, n) -> (forall d m f, ~ In (PGiven 4 d m f) ps) ->
  reads (readHFGlobal raw ok groups) c (ps, n).
Proof.
  intros raw rc ok valid groups c ps n HG HR HV H N. apply (C80_grammar_partial raw rc ok valid groups HG HR HV).
  destruct H as (a & b & def & -> & Hd & a2 & b2 & ps' & -> & Hps & HP & a3 & b3 & k & -> & Hk & -> & E). assert (E3 : ps = ps' /\ n = 1 + k) by (split; [exact (f_equal fst E)|exact (f_equal snd E)]). destruct E3 as [-> ->].
  exists a, (a2 ++ (a3 ++ [])), def. split; [reflexivity|]. split; [exact Hd|]. exists a2, (a3 ++ []), ps'. split; [reflexivity|].
  split; [destruct def; [exact Hps|now apply each_standard]|]. split; [exact HP|]. exists a3, [], k. split; [reflexivity|]. split; [exact Hk|]. split; reflexivity.
Qed.
Print Assumptions C80_standard_partial.

(* The number of presets is at least one and below twice the number of
   groups. *)
Theorem C80_presets : forall raw raw_code ok valid groups s d p ps n s', 1 <= groups <= 2 ^ 30 ->
  (forall i, 0 <= i < 17 -> exact (raw i) (raw_code i)) -> (forall ps, ok ps = true <-> valid ps) -> reader_at s d p ->
  readHFGlobal raw ok groups s = (Ok (ps, n), s') -> 1 <= n <= 2 ^ Z.log2_up groups /\ n < 2 * groups /\ length ps = 17%nat /\ valid ps.
Proof.
  intros raw rc ok valid groups s d p ps n s' HG HR HV HS E.
  pose proof (proj2 (C80_grammar_partial raw rc ok valid groups HG HR HV) s d p HS) as H. rewrite E in H.
  destruct H as (c & _ & (a & b & def & -> & Hd & a2 & b2 & ps' & -> & Hps & HP & a3 & b3 & k & -> & [_ Hk] & -> & E2) & _). 
  assert (E3 : ps = ps' /\ n = 1 + k) by (split; [exact (f_equal fst E2)|exact (f_equal snd E2)]). destruct E3 as [-> En].
  destruct (group_bits groups HG) as [_ B]. rewrite Z2Nat.id in Hk by lia. set (g := 2 ^ Z.log2_up groups) in *. split; [lia|]. unfold g in *.
  assert (L : length ps' = 17%nat).
  { destruct def; [destruct Hps as [_ ->]; apply repeat_length|].
    assert (G : forall (R : Z -> code TableParams) l c v, c_each R l c v -> length v = length l).
    { clear. induction l as [|i l IH]; intros c v H; [destruct H as [_ ->]; reflexivity|].
      destruct H as (a & b & w & -> & _ & a2 & b2 & r & -> & Hr & -> & ->). cbn [length]. f_equal. exact (IH _ _ Hr). }
    exact (G _ _ _ _ Hps). }
  split; [|now split]. destruct (Z.eqb_spec groups 1) as [->|]; [cbn in Hk |- *; lia|].
  pose proof (Z.log2_up_spec groups ltac:(lia)). replace (Z.log2_up groups) with (Z.pred (Z.log2_up groups) + 1) in Hk by lia.
  rewrite Z.pow_add_r in Hk by (pose proof (Z.log2_up_pos groups ltac:(lia)); lia). lia.
Qed.
Print Assumptions C80_presets.

Lemma mode4_rejected raw rc i s d p c ps m f : reader_at s d p -> bits_at d p c -> table_code true rc i c (PGiven 4 ps m f) -> fst (setupDCTParam raw i s) = Err.
Proof.
  intros HS HC (a & b & k & -> & Hk & H). pose proof Hk as [_ Hm]. change (2 ^ Z.of_nat 3) with 8 in Hm.
  apply bits_at_app in HC as [HC _]. destruct (proj1 (exact_bits 3 3 ltac:(lia) ltac:(lia)) a k Hk s d p HS HC) as [s' [E _]].
  assert (K : k = 4).
  { assert (C : k = 0 \/ k = 1 \/ k = 2 \/ k = 3 \/ k = 4 \/ k = 5 \/ k = 6 \/ k = 7) by lia.
    destruct C as [->|[->|[->|[->|[->|[->|[->| ->]]]]]]]; try reflexivity; exfalso; cbn iota in H.
    - now destruct H as [_ H].
    - destruct H as (_ & a1 & a2 & w & _ & _ & _ & H). discriminate.
    - destruct H as (_ & a1 & a2 & w & _ & _ & _ & H). discriminate.
    - destruct H as (_ & a1 & a2 & w & _ & _ & a3 & a4 & w2 & _ & _ & _ & H). discriminate.
    - destruct H as (_ & a1 & a2 & w & _ & _ & a3 & a4 & w2 & _ & _ & a5 & a6 & w3 & _ & _ & _ & H). discriminate.
    - destruct H as (a1 & a2 & w & _ & _ & _ & H). discriminate.
    - destruct H as (a1 & a2 & w & _ & _ & a3 & a4 & w2 & _ & _ & _ & H). discriminate. }
  subst k. unfold setupDCTParam, rbind. rewrite E. destruct (negb (validateIndex i (i32 4))); reflexivity.
Qed.
Definition zeros16 (n : nat) : list bool := repeat false (16 * n).
Lemma zero_f16 : c_f16 (zeros16 1) (mkF32 false 0 (-24)).
Proof. exists 0. repeat split; try reflexivity; try discriminate; vm_compute; discriminate. Qed.
Lemma list_i {A} (R : code A) n c v c2 v2 : R c v -> c_list n R c2 v2 -> c_list (S n) R (c ++ c2) (v :: v2).
Proof. intros H1 H2. exists c, c2, v. split; [reflexivity|]. split; [exact H1|]. exists c2, [], v2. rewrite app_nil_r. split; [reflexivity|]. split; [exact H2|]. split; reflexivity. Qed.
Lemma floats_1 k f : (k = 0%nat /\ f = mkF32 false 0 (-24) \/ k = 1%nat /\ f = mkF32 false 0 (-18)) -> floats 1 k (zeros16 1) [f].
Proof.
  intros H. exists (zeros16 1), [], [mkF32 false 0 (-24)]. split; [reflexivity|]. split; [|split; [reflexivity|]; destruct H as [[-> ->]|[-> ->]]; reflexivity].
  change (zeros16 1) with (zeros16 1 ++ []). apply list_i; [apply zero_f16|]. split; reflexivity.
Qed.
Lemma three {A} (R : code A) c v : R c v -> c_list 3 R (c ++ c ++ c ++ []) [v; v; v].
Proof. intros H. do 3 (apply list_i; [exact H|]). split; reflexivity. Qed.
Lemma bands_zero : bands_code (zbits 4 0 ++ zeros16 1 ++ zeros16 1 ++ zeros16 1 ++ []) (repeat [mkF32 false 0 (-18)] 3).
Proof. eexists _, _, 0. split; [reflexivity|]. split; [split; [reflexivity|lia]|]. apply (three (floats 1 1)). apply floats_1. now right. Qed.

(* Finding: mode 4 (two blocks of four by eight) is part of the syntax of
   the tables for blocks of eight by eight, and is always rejected. *)
Theorem C80_mode4_refuted :
  (forall raw raw_code i s d p c ps m f, reader_at s d p -> bits_at d p c ->
     table_code true raw_code i c (PGiven 4 ps m f) -> fst (setupDCTParam raw i s) = Err) /\
  (forall raw_code i, is_8x8 i -> exists c ps m, table_code true raw_code i c (PGiven 4 ps m [])).
Proof.
  split; [exact mode4_rejected|]. intros rc i Hi.
  set (z := zeros16 1 ++ zeros16 1 ++ zeros16 1 ++ []).
  exists (zbits 3 4 ++ z ++ (zbits 4 0 ++ z) ++ []), (repeat [mkF32 false 0 (-18)] 3), [[mkF32 false 0 (-24)]; [mkF32 false 0 (-24)]; [mkF32 false 0 (-24)]].
  exists (zbits 3 4), (z ++ (zbits 4 0 ++ z) ++ []), 4. split; [reflexivity|]. split; [split; [reflexivity|lia]|].
  cbn iota. split; [now split|]. exists z, ((zbits 4 0 ++ z) ++ []), [[mkF32 false 0 (-24)]; [mkF32 false 0 (-24)]; [mkF32 false 0 (-24)]].
  split; [reflexivity|]. split; [apply (three (floats 1 0) _ [mkF32 false 0 (-24)]); apply floats_1; now left|].
  exists (zbits 4 0 ++ z), [], (repeat [mkF32 false 0 (-18)] 3). split; [reflexivity|]. split; [apply bands_zero|]. split; reflexivity.
Qed.
Print Assumptions C80_mode4_refuted.

(* the defaults, five groups and four presets *)
Example C80_example_default : hf_global_code true (fun _ _ _ => False) (fun _ => True) 5 ([true] ++ zbits 3 3) (repeat PLibrary 17, 4).
Proof.
  exists [true], (zbits 3 3), true. split; [reflexivity|]. split; [reflexivity|]. exists [], (zbits 3 3), (repeat PLibrary 17). split; [reflexivity|].
  split; [split; reflexivity|]. split; [exact I|]. exists (zbits 3 3), [], 3. split; [reflexivity|]. split; [split; [reflexivity|vm_compute; split; congruence]|]. split; reflexivity.
Qed.
(* bands for table 12 *)
Example C80_example_bands : table_code true (fun _ _ _ => False) 12 (zbits 3 6 ++ (zbits 4 0 ++ zeros16 1 ++ zeros16 1 ++ zeros16 1 ++ []) ++ [])
  (PGiven 6 (repeat [mkF32 false 0 (-18)] 3) [] []).
Proof.
  set (b := zbits 4 0 ++ zeros16 1 ++ zeros16 1 ++ zeros16 1 ++ []).
  exists (zbits 3 6), (b ++ []), 6. split; [reflexivity|]. split; [split; [reflexivity|lia]|]. cbn iota.
  exists b, [], (repeat [mkF32 false 0 (-18)] 3). split; [reflexivity|]. split; [apply bands_zero|]. split; reflexivity.
Qed.
