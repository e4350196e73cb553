(* Properties of the headers of entropy-coded streams: C83. *)
From Coq Require Import ZArith List Bool Lia ZifyBool ZifyNat.
From Verif Require Import GoBase GoLoop Bits ModelBitReader ModelUtil ModelEntropy SpecBitReader SpecCodes SpecGrammar SpecEntropy SpecDist SpecPrefix SpecStream.
From Verif Require Import ProofReads ProofGrammar ProofDist ProofStream.
Import ListNotations.
Open Scope Z_scope.

(* ---- C83: headers of streams ---- *)
(* Every header of the grammar is read (if 7 bits follow), as the stream with
   its map, configurations, codes and LZ77 parameters, from which nothing has
   been read.  For maps that are themselves entropy-coded see C83_nested_partial. *)
Theorem C83_header_partial : forall n disallow, 0 < n ->
  complete 7 (NewEntropyStreamWithReader n disallow) (header_code plain_map proper_dist n (negb disallow)) (fun h e => stream_of h e /\ fresh e).
Proof.
  intros n disallow Hn. apply (both_header False 7 _ plain_map (fun _ _ _ => True) n disallow (le_n _) Hn).
  intros k Hk. split; [|intros []]. apply complete_map. lia.
Qed.
Print Assumptions C83_header_partial.

(* Only headers of the grammar are, if the reader of the maps reads only maps
   of the grammar maps. *)
Theorem C83_accepted_partial : forall rcm maps n disallow, 0 < n ->
  (forall k, k = n \/ k = n + 1 /\ disallow = false -> sound (rcm (Z.to_nat k) k) (maps k) (fun b a => a = b)) ->
  sound (loadWith rcm n disallow) (header_code maps dist_code n (negb disallow)) (fun h e => stream_of h e /\ fresh e).
Proof.
  intros rcm maps n disallow Hn HM. apply (both_header True 7 rcm (fun _ _ _ => False) maps n disallow (le_n _) Hn); [|exact I].
  intros k Hk. split; [intros c b []|]. intros _. exact (HM k Hk).
Qed.
Print Assumptions C83_accepted_partial.
(* The innermost streams: one context, no LZ77 *)
Theorem C83_innermost : sound (NewEntropyStreamWithReader 1 true) (header_code plain_map dist_code 1 false) (fun h e => stream_of h e /\ fresh e).
Proof.
  apply (C83_accepted_partial _ plain_map 1 true ltac:(lia)). intros k [->|[_ E]]; [|discriminate E]. apply sound_one.
Qed.
Print Assumptions C83_innermost.
(* A stream without contexts is refused, and so is LZ77 where it may not be *)
Theorem C83_refused : (forall n disallow s, n <= 0 -> NewEntropyStreamWithReader n disallow s = (Err, s)) /\
  forall n s d p e s', reader_at s d p -> bits_at d p [true] -> NewEntropyStreamWithReader n true s <> (Ok e, s').
Proof.
  split.
  - intros n disallow s Hn. unfold NewEntropyStreamWithReader. cbn [loadDepth]. unfold loadWith. replace (n <=? 0) with true by lia. reflexivity.
  - intros n s d p e s' Hr Hb. unfold NewEntropyStreamWithReader. cbn [loadDepth]. unfold loadWith. destruct (n <=? 0); [discriminate|].
    destruct (proj1 exact_bool [true] true eq_refl s d p Hr Hb) as (s1 & E & _). unfold rbind at 1. rewrite E. discriminate.
Qed.
Print Assumptions C83_refused.

(* A further stream with the same code is like the one its header gives. *)
Theorem C83_restart : forall h e, stream_of h e -> stream_of h (NewEntropyStreamWithStream e) /\ fresh (NewEntropyStreamWithStream e) /\
  NewEntropyStreamWithStream (NewEntropyStreamWithStream e) = NewEntropyStreamWithStream e.
Proof. intros h e H. split; [exact H|]. split; [repeat split|reflexivity]. Qed.
Print Assumptions C83_restart.

(* Findings: alphabets of up to 2^16 symbols are accepted, though the standard
   allows no more than 2^15; *)
Theorem C83_alphabet_refuted : exists c, reads_ahead 7 readAlphabetSize c (2 ^ 16).
Proof.
  destruct (both_alphabet True 7) as [H _]. destruct (H ([true] ++ zbits 4 15 ++ zbits 15 32767 ++ []) (2 ^ 16)) as (a & [-> _] & R).
  - exists [true], (zbits 4 15 ++ zbits 15 32767 ++ []), true. split; [reflexivity|]. split; [reflexivity|].
    exists (zbits 4 15), (zbits 15 32767 ++ []), 15. split; [reflexivity|]. split; [split; [reflexivity|cbn; lia]|].
    exists (zbits 15 32767), [], 32767. split; [reflexivity|]. split; [split; [reflexivity|cbn; lia]|]. split; reflexivity.
  - eexists. exact R.
Qed.
Print Assumptions C83_alphabet_refuted.
(* and maps that leave a cluster unused. *)
Theorem C83_gap_refuted : exists d e, fst (NewEntropyStreamWithReader 2 false (NewBitStreamReader d)) = Ok e /\
  length (es_dists e) = 2%nat /\ ~ In 0 (es_clusterMap e).
Proof.
  exists [246; 127; 0]. eexists. split; [lazy; reflexivity|]. split; [reflexivity|]. cbn. lia.
Qed.
Print Assumptions C83_gap_refuted.

(* Two contexts with prefix codes of one and two symbols *)
Lemma seq_intro {A B} (R : code A) (S : A -> code B) c1 x c2 y : R c1 x -> S x c2 y -> c_seq R S (c1 ++ c2) y.
Proof. intros H1 H2. exists c1, c2, x. auto. Qed.
Lemma fixed_intro n v : 0 <= v < 2 ^ Z.of_nat n -> c_fixed n (zbits n v) v.
Proof. intros H. split; [reflexivity|exact H]. Qed.
Lemma bool_intro b : c_bool [b] b.
Proof. reflexivity. Qed.
Lemma ret_intro {A} (a : A) : c_ret a [] a.
Proof. split; reflexivity. Qed.
Example C83_example : exists c h e, header_code plain_map proper_dist 2 true c h /\ hd_map h = [0; 1] /\
  hd_codes h = Prefixes [[([], 0)]; [([false], 0); ([true], 1)]] /\ reads_ahead 7 (NewEntropyStreamWithReader 2 false) c e /\ stream_of h e.
Proof.
  assert (H : exists c, header_code plain_map proper_dist 2 true c (Header None [0; 1] 15 [HConf 15 0 0; HConf 15 0 0] (Prefixes [[([], 0)]; [([false], 0); ([true], 1)]]))).
  { assert (CF : exists c, config_code 15 c (HConf 15 0 0)) by (eexists; eapply seq_intro; [apply (fixed_intro _ 15); cbn; lia|apply ret_intro]).
    destruct CF as [cf CF].
    eexists. unfold header_code. eapply seq_intro; [apply (bool_intro false)|]. eapply seq_intro; [apply ret_intro|].
    eapply seq_intro. { cbn. exists 1%nat, [0; 1]. split; [lia|]. split; [reflexivity|]. split; [reflexivity|]. split; [repeat constructor; cbn; lia|]. split; [cbn; lia|reflexivity]. }
    eapply seq_intro; [apply (bool_intro true)|]. eapply seq_intro; [apply ret_intro|].
    eapply seq_intro; [eapply seq_intro; [exact CF|]; eapply seq_intro; [eapply seq_intro; [exact CF|]; eapply seq_intro; apply ret_intro|apply ret_intro]|].
    eapply seq_intro; [|apply ret_intro].
    eapply seq_intro. { eapply seq_intro; [eapply seq_intro; [apply (bool_intro false)|apply ret_intro]|].
      eapply seq_intro; [|apply ret_intro]. eapply seq_intro; [|eapply seq_intro; apply ret_intro].
      eapply seq_intro; [apply (bool_intro true)|]. eapply seq_intro; [apply (fixed_intro 4 0); cbn; lia|]. eapply seq_intro; [apply (fixed_intro _ 0); cbn; lia|]. apply ret_intro. }
    eapply seq_intro; [|apply ret_intro]. eapply seq_intro; [apply ret_intro|]. eapply seq_intro; [|apply ret_intro]. eapply seq_intro; [|eapply seq_intro; apply ret_intro].
    eapply seq_intro; [apply (fixed_intro 2 1); cbn; lia|]. eapply seq_intro; [apply (fixed_intro 2 1); cbn; lia|].
    eapply seq_intro; [eapply seq_intro; [apply (fixed_intro _ 0); cbn; lia|]; eapply seq_intro; [eapply seq_intro; [apply (fixed_intro _ 1); cbn; lia|]; eapply seq_intro; apply ret_intro|apply ret_intro]|].
    apply ret_intro. }
  destruct H as [c H]. destruct (C83_header_partial 2 false ltac:(lia) c _ H) as (e & [S _] & R). exists c. eexists. exists e. split; [exact H|].
  split; [reflexivity|]. split; [reflexivity|]. split; [exact R|exact S].
Qed.
