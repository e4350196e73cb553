(* Property theorems C108: ICC profiles sent as tags and data commands. *)
From Coq Require Import ZArith List Bool Lia Arith ZifyBool ZifyNat.
From Verif Require Import GoBase ModelBitReader ModelICC SpecBitReader SpecCodes SpecICC SpecICCTags ProofCodes ProofICC ProofICCTags.
Import ListNotations.
Open Scope Z_scope.

(* C108: every profile is rebuilt from every way of sending it. *)
Theorem C108_profile_partial :
  forall P enc, Forall is_byte P -> (132 <= length P)%nat -> Z.of_nat (length P) < 2 ^ 29 -> nth 128 P 0 < 127 ->
  profile_sent P enc -> Forall is_byte enc -> Z.of_nat (length enc) < 2 ^ 31 ->
  GetDecodedICC enc = Ok P.
Proof.
  intros P enc HP L1 L2 H1 H Hb Hl. destruct H as [size csize tc cs ds Hs Hc Ht H].
  apply profile_decoded; auto.
  apply Forall_app in Hb. destruct Hb as [_ Hb]. apply Forall_app in Hb. destruct Hb as [_ Hb].
  apply Forall_app in Hb. destruct Hb as [B1 B2]. apply Forall_app in B1, B2. apply Forall_app. tauto.
Qed.
Print Assumptions C108_profile_partial.

(* Two profiles are never sent alike. *)
Theorem C108_unambiguous_partial :
  forall P P' enc, Forall is_byte P -> (132 <= length P)%nat -> Z.of_nat (length P) < 2 ^ 29 -> nth 128 P 0 < 127 ->
  Forall is_byte P' -> (132 <= length P')%nat -> Z.of_nat (length P') < 2 ^ 29 -> nth 128 P' 0 < 127 ->
  Forall is_byte enc -> Z.of_nat (length enc) < 2 ^ 31 ->
  profile_sent P enc -> profile_sent P' enc -> P = P'.
Proof.
  intros P P' enc A1 A2 A3 A4 B1 B2 B3 B4 C1 C2 H H'.
  pose proof (C108_profile_partial P enc A1 A2 A3 A4 H C1 C2) as E.
  pose proof (C108_profile_partial P' enc B1 B2 B3 B4 H' C1 C2) as E'. congruence.
Qed.
Print Assumptions C108_unambiguous_partial.

(* Finding: a shuffled run of 5, 6, 9, 10, ... bytes of width 4 cannot be
   read: the decoder panics on the command, at any place of the stream. *)
Lemma wide_run E D a num x z b ds O N f : E = a ++ (3 :: num) ++ z -> D = b ++ x ++ ds ->
  Forall is_byte E -> Forall is_byte D -> Z.of_nat (length E) < 2 ^ 31 -> Z.of_nat (length D) < 2 ^ 31 ->
  varint num (Z.of_nat (length x)) -> Z.of_nat (length x) < 2 ^ 29 -> (4 < length x)%nat ->
  (length x mod 4 = 1 \/ length x mod 4 = 2)%nat ->
  fst (dataLoop (S f) (Z.of_nat (length (a ++ 3 :: num))) (st (brk E (length a)) (brk D (length b)) O N)) = Panic.
Proof.
  intros EE ED BE BD LE LD Hn L1 L2 L3. cbn [dataLoop].
  erewrite ibind_ok by (eapply more_st; eauto). cbn [length Nat.eqb negb].
  erewrite ibind_ok by (eapply cmd8; eauto; rewrite EE; reflexivity).
  change (3 =? 1) with false. change ((3 =? 2) || (3 =? 3)) with true. change (3 =? 2) with false. cbv iota.
  unfold ibind at 1.
  erewrite ibind_ok by (eapply cmdv; [|exact Hn|lia|exact BE|exact LE]; rewrite EE, <- app_assoc; reflexivity).
  erewrite ibind_ok by (eapply makeBytes_st; eauto).
  unfold ibind at 1. unfold ilift. rewrite shuffle_width4_panics by auto. reflexivity.
Qed.
Theorem C108_wide_run_refuted :
  forall P size csize tc num x, Forall is_byte P -> (132 <= length P)%nat -> Z.of_nat (length P) < 2 ^ 29 -> nth 128 P 0 < 127 ->
  Forall is_byte x -> (4 < length x)%nat -> Z.of_nat (length x) < 2 ^ 29 -> (length x mod 4 = 1 \/ length x mod 4 = 2)%nat ->
  varint size (Z.of_nat (length P)) -> varint csize (Z.of_nat (length (tc ++ 0 :: 3 :: num))) ->
  varint tc (be32 (skipn 128 P) + 1) -> varint num (Z.of_nat (length x)) ->
  GetDecodedICC (size ++ csize ++ (tc ++ 0 :: 3 :: num) ++ residuals P 128 ++ x) = Panic.
Proof.
  intros P size csize tc num x HP L1 L2 H1 Hx X1 X2 X3 Hs Hc Ht Hn.
  assert (Bn : Forall is_byte (0 :: 3 :: num)).
  { constructor; [unfold is_byte; lia|]. constructor; [unfold is_byte; lia|]. eapply varint_bytes; eauto. }
  assert (L9 : forall l v, varint l v -> v < 2 ^ 63 -> (length l <= 9)%nat).
  { intros l v Hv Hv2. apply (varint_len _ _ Hv); [change (128 ^ Z.of_nat 9) with (2 ^ 63); lia|lia]. }
  assert (Hbe : be32 (skipn 128 P) < 2 ^ 32).
  { assert (HS : Forall is_byte (skipn 128 P)).
    { pose proof HP as HP'. rewrite <- (firstn_skipn 128 P) in HP'. now apply Forall_app in HP'. }
    unfold be32. pose proof (byte_nth _ 0 HS). pose proof (byte_nth _ 1 HS). pose proof (byte_nth _ 2 HS). pose proof (byte_nth _ 3 HS).
    unfold is_byte in *. lia. }
  pose proof (L9 _ _ Hs ltac:(lia)) as Ls. pose proof (L9 _ _ Ht ltac:(lia)) as Lt. pose proof (L9 _ _ Hn ltac:(lia)) as Ln.
  assert (Lc : (length csize <= 9)%nat).
  { apply (L9 _ _ Hc). rewrite !app_length. cbn [length]. lia. }
  assert (LE : Z.of_nat (length (size ++ csize ++ (tc ++ 0 :: 3 :: num) ++ residuals P 128 ++ x)) < 2 ^ 31).
  { rewrite !app_length, residuals_length. cbn [length]. lia. }
  destruct (profile_prologue P size csize tc (0 :: 3 :: num) x HP) as (EE & BE & BD & Eq); auto.
  { apply Forall_app. split; auto. }
  set (E := size ++ csize ++ (tc ++ 0 :: 3 :: num) ++ residuals P 128 ++ x) in *. set (D := residuals P 128 ++ x) in *.
  rewrite Eq. clear Eq. set (a := size ++ csize ++ tc) in *.
  erewrite ibind_ok.
  2:{ cbn [tagLoop]. erewrite ibind_ok by (eapply more_st; eauto). cbn [length Nat.eqb negb].
      erewrite ibind_ok by (eapply cmd8; eauto; rewrite EE; reflexivity).
      change (Z.land 0 63 =? 0) with true. cbv iota zeta. reflexivity. }
  replace (a ++ 0 :: 3 :: num) with ((a ++ [0]) ++ 3 :: num) by (rewrite <- app_assoc; reflexivity).
  pose proof (wide_run E D (a ++ [0]) num x D (residuals P 128) [] (firstn 132 P) (length P) (length E)) as W.
  destruct (dataLoop _ _ _) as [r s']. cbn [fst] in W. rewrite W; auto.
  - rewrite EE, <- app_assoc. reflexivity.
  - unfold D. now rewrite app_nil_r.
  - unfold D. rewrite app_length, residuals_length. lia.
Qed.
Print Assumptions C108_wide_run_refuted.

(* A profile of 220 bytes: two tag commands for four entries, then every kind
   of data command. *)
Definition tagged_out1 : list Z :=
  repeat 5 128 ++ bytes4 4 ++
  entry (known 3) 300 20 ++ entry (known 4) 320 20 ++ entry (known 5) 340 20 ++ entry [120; 121; 122; 122] 700 20.
Definition tagged_out : list Z :=
  tagged_out1 ++ [1; 2; 3] ++ [9; 7; 8] ++ ([88; 89; 90; 32] ++ [0; 0; 0; 0] ++ repeat 6 12) ++ ([99; 117; 114; 118] ++ [0; 0; 0; 0])
  ++ [1; 2] ++ [1; 3] ++ [1; 4].
Definition tagged_cmds : list Z :=
  (3 + 64 + 0 :: [172; 2]) ++ (1 + 64 + 0 :: [188; 5]) ++ [0] ++
  (1 :: [3]) ++ (2 :: [3]) ++ [10] ++ [16 + 5] ++ (1 :: [2]) ++ (4 :: 1 :: [4]).
Definition tagged_data : list Z := [120; 121; 122; 122] ++ [1; 2; 3] ++ [9; 8; 7] ++ repeat 6 12 ++ [1; 2] ++ [0; 0; 1; 1].
Lemma tagged_sent : tags_sent (firstn 132 tagged_out) (128 + 12 * be32 (skipn 128 tagged_out)) 0 tagged_cmds tagged_data tagged_out.
Proof.
  assert (V : forall v, 0 <= v < 128 -> varint [v] v) by (intros; now constructor).
  assert (V300 : varint [172; 2] 300).
  { change 300 with (44 + 128 * 2). change 172 with (128 + 44). constructor; [lia|lia|]. apply V. lia. }
  assert (V700 : varint [188; 5] 700).
  { change 700 with (60 + 128 * 5). change 188 with (128 + 60). constructor; [lia|lia|]. apply V. lia. }
  unfold tagged_cmds, tagged_data.
  apply (ta_tag _ _ _ 3 [] [known 3; known 4; known 5] true false 20 [172; 2] [] 300 20).
  - constructor.
  - constructor; [exact V300|lia].
  - reflexivity.
  - intros K. elim K. left. reflexivity.
  - constructor.
  - apply (ta_tag _ _ _ 1 [120; 121; 122; 122] [[120; 121; 122; 122]] true false 20 [188; 5] [] 700 20).
    + constructor.
    + constructor; [exact V700|lia].
    + reflexivity.
    + reflexivity.
    + constructor.
    + apply ta_end; [left; reflexivity|].
      apply (da_raw _ [3] [1; 2; 3]); [apply V; cbn; lia|].
      apply (da_shuffled _ 1 [3] [9; 8; 7] [9; 7; 8]); [auto|apply V; cbn; lia| |].
      { apply sh_2. split; [reflexivity|]. intros j Hj. cbn [length] in Hj. destruct j as [|[|[|j]]]; try reflexivity. lia. }
      apply (da_xyz _ (repeat 6 12)); [reflexivity|].
      apply (da_type _ 5); [lia|].
      apply (da_raw _ [2] [1; 2]); [apply V; cbn; lia|].
      eapply (da_predicted _ 2 0 false [] 2 [4] [0; 0; 1; 1] [0; 1; 0; 1] _ [] []).
      * lia.
      * constructor.
      * lia.
      * vm_compute. lia.
      * apply V; cbn; lia.
      * apply sh_2. split; [reflexivity|]. intros j Hj. cbn [length] in Hj. destruct j as [|[|[|[|j]]]]; try reflexivity. lia.
      * apply (pr_more _ _ _ _ [0; 1] [0; 1]); [reflexivity|]. apply (pr_more _ _ _ _ [0; 1] []); [reflexivity|]. apply pr_end.
      * match goal with |- data_sent ?O [] [] _ => replace O with tagged_out by (vm_compute; reflexivity) end. apply da_end.
Qed.
Example C108_example :
  length tagged_out = 220%nat /\
  profile_sent tagged_out ([220; 1] ++ [19] ++ ([5] ++ tagged_cmds) ++ residuals tagged_out 128 ++ tagged_data) /\
  GetDecodedICC ([220; 1] ++ [19] ++ ([5] ++ tagged_cmds) ++ residuals tagged_out 128 ++ tagged_data) = Ok tagged_out.
Proof.
  split; [vm_compute; reflexivity|]. split; [|vm_compute; reflexivity].
  apply ps_all.
  - replace (Z.of_nat (length tagged_out)) with (92 + 128 * 1) by (vm_compute; reflexivity).
    change 220 with (128 + 92). constructor; [lia|lia|]. constructor. lia.
  - vm_compute. constructor. lia.
  - vm_compute. constructor. lia.
  - apply tagged_sent.
Qed.
