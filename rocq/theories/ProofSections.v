(* C67: numbering of sections and streams. *)
From Coq Require Import ZArith List Bool Lia ZifyBool ZifyNat.
From Verif Require Import GoBase ModelToc ModelSections SpecSections ProofCodes.
Import ListNotations.
Open Scope Z_scope.

(* The entry the decoder uses for a section, and the index it gives to a
   stream *)
Definition entry_of (groups lf_groups : nat) (s : section) : Z :=
  match s with
  | LfGlobal => lfGlobalEntry
  | LfGroup i => lfGroupEntry i
  | HfGlobal => hfGlobalEntry (Z.of_nat lf_groups)
  | PassGroup p g => passGroupEntry (Z.of_nat lf_groups) (Z.of_nat groups) p g
  end.
Definition stream_of (groups lf_groups : nat) (s : stream) : Z :=
  match s with
  | GlobalModular => globalStream
  | LfCoeff i => lfCoeffStream i
  | LfModular i => lfModularStream (Z.of_nat lf_groups) i
  | HfMetadata i => hfMetadataStream (Z.of_nat lf_groups) i
  | QuantTable k => quantTableStream (Z.of_nat lf_groups) k
  | PassModular p g => passStream (Z.of_nat lf_groups) (Z.of_nat groups) p g
  end.

Lemma upto_length n : length (upto n) = n. Proof. unfold upto. now rewrite map_length, seq_length. Qed.
Lemma upto_app a b : upto (a + b) = upto a ++ map (fun i => Z.of_nat a + i) (upto b).
Proof.
  unfold upto. rewrite seq_app, map_app, map_map. f_equal. rewrite <- (Nat.add_0_r (0 + a)).
  replace (0 + a + 0)%nat with (a + 0)%nat by lia. revert a. generalize 0%nat. induction b as [|b IH]; intros k a; [reflexivity|].
  cbn [seq map]. f_equal; [lia|]. replace (S (a + k)) with (a + S k)%nat by lia. apply IH.
Qed.
Lemma upto_in n i : In i (upto n) <-> 0 <= i < Z.of_nat n.
Proof.
  unfold upto. rewrite in_map_iff. split.
  - intros (k & <- & H). apply in_seq in H. lia.
  - intros H. exists (Z.to_nat i). split; [lia|]. apply in_seq. lia.
Qed.
Lemma flat_rows {A} (f : A -> Z) (mk : Z -> Z -> A) base g : forall p,
  (forall i j, 0 <= i < Z.of_nat p -> 0 <= j < Z.of_nat g -> f (mk i j) = Z.of_nat base + i * Z.of_nat g + j) ->
  map f (flat_map (fun i => map (mk i) (upto g)) (upto p)) = map (fun i => Z.of_nat base + i) (upto (p * g)).
Proof.
  induction p as [|p IH]; intros H; [reflexivity|].
  replace (S p) with (p + 1)%nat by lia. rewrite upto_app, flat_map_app, map_app, IH by (intros i j Hi Hj; apply H; lia).
  replace ((p + 1) * g)%nat with (p * g + g)%nat by lia. rewrite upto_app, map_app. f_equal.
  cbn [upto seq map flat_map]. rewrite app_nil_r, !map_map. apply map_ext_in. intros j Hj. apply upto_in in Hj.
  rewrite H by lia. lia.
Qed.
Lemma sections_numbered groups lf passes : Z.of_nat lf + Z.of_nat groups * Z.of_nat passes + 2 < 2 ^ 32 ->
  map (entry_of groups lf) (sections groups lf passes) = upto (1 + lf + (1 + passes * groups)).
Proof.
  intros H. unfold sections. rewrite !map_app, map_map, upto_app, (upto_app 1). rewrite <- app_assoc. f_equal. f_equal.
  { apply map_ext_in. intros i Hi. apply upto_in in Hi. cbn [entry_of]. unfold lfGroupEntry. rewrite i64_small by lia. reflexivity. }
  rewrite upto_app, map_app. f_equal.
  { cbn [upto map seq]. cbn [entry_of]. unfold hfGlobalEntry. rewrite i64_small by lia. f_equal. lia. }
  rewrite (flat_rows _ PassGroup (2 + lf)).
  - rewrite map_map. apply map_ext. intros i. lia.
  - intros i j Hi Hj. cbn [entry_of]. unfold passGroupEntry.
    assert (i * Z.of_nat groups + j < Z.of_nat groups * Z.of_nat passes) by nia. assert (0 <= i * Z.of_nat groups) by nia.
    rewrite (i64_small (2 + _)) by lia. rewrite (i64_small (i * _)) by lia. rewrite !i64_small by (rewrite ?i64_small; lia). lia.
Qed.
Lemma streams_numbered groups lf passes : 3 * Z.of_nat lf + 18 + Z.of_nat groups * Z.of_nat passes < 2 ^ 31 ->
  map (stream_of groups lf) (streams groups lf passes) = upto (1 + lf + lf + lf + 17 + passes * groups).
Proof.
  intros H. unfold streams. rewrite !map_app, !map_map.
  replace (1 + lf + lf + lf + 17 + passes * groups)%nat with (1 + (lf + (lf + (lf + (17 + passes * groups)))))%nat by lia.
  rewrite (upto_app 1 (lf + _)), (upto_app lf (lf + _)), (upto_app lf (lf + _)), (upto_app lf (17 + _)), (upto_app 17 (passes * groups)). rewrite !map_app, !map_map.
  apply (f_equal2 (@app Z)); [reflexivity|]. apply (f_equal2 (@app Z)); [|apply (f_equal2 (@app Z)); [|apply (f_equal2 (@app Z)); [|apply (f_equal2 (@app Z))]]].
  - apply map_ext_in. intros i Hi. apply upto_in in Hi. cbn [stream_of]. unfold lfCoeffStream. rewrite i32_small by lia. lia.
  - apply map_ext_in. intros i Hi. apply upto_in in Hi. cbn [stream_of]. unfold lfModularStream. rewrite (u32_small i) by lia. rewrite (u32_small (_ + _)) by lia. rewrite i64_small by lia. lia.
  - apply map_ext_in. intros i Hi. apply upto_in in Hi. cbn [stream_of]. unfold hfMetadataStream. rewrite (i64_small (2 * _)) by lia. rewrite (i64_small (1 + _)) by lia. rewrite i64_small by lia. lia.
  - apply map_ext_in. intros i Hi. apply upto_in in Hi. cbn [stream_of]. unfold quantTableStream. rewrite (i32_small (Z.of_nat lf)) by lia.
    rewrite (i32_small (3 * _)) by lia. rewrite (i32_small (1 + _)) by lia. rewrite i32_small by lia. lia.
  - rewrite (flat_rows _ PassModular (18 + (lf + (lf + lf)))).
    + apply map_ext. intros i. lia.
    + intros i j Hi Hj. cbn [stream_of]. unfold passStream.
      assert (i * Z.of_nat groups + j < Z.of_nat groups * Z.of_nat passes) by nia. assert (0 <= i * Z.of_nat groups) by nia.
      rewrite (u32_small (3 * _)) by lia. rewrite (u32_small (18 + _)) by lia. rewrite (u32_small (Z.of_nat groups * i)) by lia.
      rewrite !u32_small by (rewrite ?u32_small; lia). lia.
Qed.
