(* Properties of the numbering of sections and streams: C67. *)
From Coq Require Import ZArith List Bool Lia ZifyBool ZifyNat.
From Verif Require Import GoBase ModelToc ModelSections SpecSections ProofCodes ProofSections.
Import ListNotations.
Open Scope Z_scope.

(* ---- C67 ---- *)
(* The sections are numbered 0, 1, ... in the order of the standard, and the
   table of contents has exactly one entry for each, unless all of them share
   one.  Missing: frames whose number of sections exceeds 32 bits (refuted
   below). *)
Theorem C67_sections_partial : forall groups lf passes,
  Z.of_nat lf + Z.of_nat groups * Z.of_nat passes + 2 < 2 ^ 32 ->
  map (entry_of groups lf) (sections groups lf passes) = upto (length (sections groups lf passes)) /\
  tocEntries (Z.of_nat groups) (Z.of_nat lf) (Z.of_nat passes) =
    if (groups =? 1)%nat && (passes =? 1)%nat then 1 else Z.of_nat (length (sections groups lf passes)).
Proof.
  intros groups lf passes H. pose proof (sections_numbered groups lf passes H) as E.
  assert (L : length (sections groups lf passes) = (1 + lf + (1 + passes * groups))%nat).
  { apply (f_equal (@length Z)) in E. rewrite map_length, upto_length in E. exact E. }
  split; [now rewrite L|]. unfold tocEntries. rewrite L.
  replace (Z.of_nat groups =? 1) with (groups =? 1)%nat by lia. replace (Z.of_nat passes =? 1) with (passes =? 1)%nat by lia.
  destruct (_ && _); [reflexivity|]. rewrite u32_small by nia. nia.
Qed.
Print Assumptions C67_sections_partial.

(* The modular streams are numbered in the order of the standard, so no two
   have the same index. *)
Theorem C67_streams_partial : forall groups lf passes,
  3 * Z.of_nat lf + 18 + Z.of_nat groups * Z.of_nat passes < 2 ^ 31 ->
  map (stream_of groups lf) (streams groups lf passes) = upto (length (streams groups lf passes)).
Proof.
  intros groups lf passes H. pose proof (streams_numbered groups lf passes H) as E.
  assert (L : length (streams groups lf passes) = (1 + lf + lf + lf + 17 + passes * groups)%nat).
  { apply (f_equal (@length Z)) in E. rewrite map_length, upto_length in E. exact E. }
  now rewrite L.
Qed.
Print Assumptions C67_streams_partial.

(* Finding: the number of entries wraps around at 2^32. *)
Theorem C67_entries_wrap_refuted : exists groups lf passes, 0 <= groups < 2 ^ 32 /\ 0 <= lf < groups /\ 1 <= passes <= 11 /\
  tocEntries groups lf passes < groups.
Proof. exists (2 ^ 31), (2 ^ 25), 2. vm_compute. repeat split; congruence. Qed.
Print Assumptions C67_entries_wrap_refuted.

(* 2 groups, 1 LF group, 2 passes: 7 sections *)
Example C67_example :
  tocEntries 2 1 2 = 7 /\ sections 2 1 2 = [LfGlobal; LfGroup 0; HfGlobal; PassGroup 0 0; PassGroup 0 1; PassGroup 1 0; PassGroup 1 1] /\
  map (entry_of 2 1) (sections 2 1 2) = [0; 1; 2; 3; 4; 5; 6] /\ stream_of 2 1 (PassModular 1 1) = 24.
Proof. repeat split; reflexivity. Qed.
