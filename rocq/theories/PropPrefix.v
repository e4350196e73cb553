(* Properties of the prefix code descriptions: C66. *)
From Coq Require Import ZArith List Bool Lia.
From Verif Require Import GoBase Bits ModelBitReader ModelUtil ModelEntropy SpecBitReader SpecCodes SpecGrammar SpecEntropy SpecDist SpecPrefix.
From Verif Require Import ProofPrefix ProofPrefix2 ProofPrefix3.
Import ListNotations.
Open Scope Z_scope.

(* ---- C66 ---- *)
(* A description of the grammar, with 5 bits of the stream left behind it, is
   read to its last bit, and the resulting distribution reads exactly the
   codewords of the described code (15 bits of look-ahead).  Missing: the
   look-ahead at the end of the stream (see C19). *)
Theorem C66_descriptions_read_partial : forall a c x, 1 <= a <= 2 ^ 16 -> prefix_code a c x ->
  exists v, reads_ahead 5 (NewPrefixSymbolDistributionWithReader a) c v /\
    forall st, exact_ahead 15 (distReadSymbol v st) (fun w r => In (w, fst r) x /\ snd r = st).
Proof. exact prefix_complete. Qed.
Print Assumptions C66_descriptions_read_partial.

(* Only strings of the grammar are accepted. *)
Theorem C66_only_descriptions : forall a s d p v s', 1 <= a <= 2 ^ 16 -> reader_at s d p ->
  NewPrefixSymbolDistributionWithReader a s = (Ok v, s') ->
  exists c x, bits_at d p c /\ prefix_code a c x /\ reader_at s' d (p + length c) /\
    forall st, exact_ahead 15 (distReadSymbol v st) (fun w r => In (w, fst r) x /\ snd r = st).
Proof. exact prefix_sound. Qed.
Print Assumptions C66_only_descriptions.

(* Finding: malformed descriptions crash the decoder.  A run of code lengths
   that goes past the alphabet, ... *)
Theorem C66_repeat_past_end_refuted : exists d, Forall is_byte d /\ fst (NewPrefixSymbolDistributionWithReader 10 (NewBitStreamReader d)) = Panic.
Proof. exists [2; 128; 0; 0; 252; 0; 0; 0]. split; [repeat constructor; lia|]. lazy. reflexivity. Qed.
Print Assumptions C66_repeat_past_end_refuted.
(* ... a run of zeros past it, ... *)
Theorem C66_zeros_past_end_refuted : exists d, Forall is_byte d /\ fst (NewPrefixSymbolDistributionWithReader 4 (NewBitStreamReader d)) = Panic.
Proof. exists [2; 8; 0; 0; 252; 0; 0; 0]. split; [repeat constructor; lia|]. lazy. reflexivity. Qed.
Print Assumptions C66_zeros_past_end_refuted.
(* ... and a code length larger than the alphabet. *)
Theorem C66_long_length_refuted : exists d, Forall is_byte d /\ fst (NewPrefixSymbolDistributionWithReader 2 (NewBitStreamReader d)) = Panic.
Proof. exists [2; 0; 0; 2; 0; 0; 0; 0]. split; [repeat constructor; lia|]. lazy. reflexivity. Qed.
Print Assumptions C66_long_length_refuted.

(* Finding: the symbols of a simple code are held neither to the alphabet nor
   to be distinct. *)
Theorem C66_simple_symbols_refuted :
  (exists d, Forall is_byte d /\ fst (NewPrefixSymbolDistributionWithReader 3 (NewBitStreamReader d)) = Ok (PrefixDist None 3)) /\
  (exists d, Forall is_byte d /\ fst (NewPrefixSymbolDistributionWithReader 3 (NewBitStreamReader d)) = Ok (PrefixDist (Some (mkVLC 1 [(2, 1); (2, 1)])) 0)).
Proof.
  split.
  - exists [49]. split; [repeat constructor; lia|]. lazy. reflexivity.
  - exists [165]. split; [repeat constructor; lia|]. lazy. reflexivity.
Qed.
Print Assumptions C66_simple_symbols_refuted.

(* The code with lengths 1, 2, 3, 3 for four symbols: its items 1, 2, 3 have
   codes of lengths 2, 2, 1. *)
Example C66_example :
  let c := [false; false; true; true; false; true; true; false; true; true; true; false; true; false; true; true; false; false] in
  prefix_code 4 c (canon [1; 2; 3; 3]) /\
  canon [1; 2; 3; 3] = [([false], 0); ([true; false], 1); ([true; true; false], 2); ([true; true; true], 3)].
Proof.
  cbv zeta. split; [|reflexivity].
  exists [false; false]. eexists. exists 0. split; [reflexivity|]. split; [split; [reflexivity|cbn; lia]|].
    change (0 =? 1) with false. cbn match.
    exists [true; true; false; true; true; false; true; true; true; false], [true; false; true; true; false; false], [2; 2; 1].
    split; [reflexivity|]. split.
    { apply (cl1_next 17 0 [true; true; false] 2 [true; true; false; true; true; true; false] [2; 1]); [lia|cbn; tauto|]. 
      apply (cl1_next 16 _ [true; true; false] 2 [true; true; true; false] [1]); [reflexivity|cbn; tauto|].
      apply (cl1_next 15 _ [true; true; true; false] 1 [] []); [reflexivity|cbn; tauto|]. apply cl1_stop. right. cbn. lia. }
    exists [true; false; true; true; false; false], [], [1; 2; 3; 3]. split; [reflexivity|]. split; [|split; [reflexivity|split; reflexivity]].
    assert (D1 : items_code (lens1 (Z.to_nat 0) [2; 2; 1]) [true; false] 1) by (vm_compute; tauto).
    assert (D2 : items_code (lens1 (Z.to_nat 0) [2; 2; 1]) [true; true] 2) by (vm_compute; tauto).
    assert (D3 : items_code (lens1 (Z.to_nat 0) [2; 2; 1]) [false] 3) by (vm_compute; tauto).
    generalize dependent (items_code (lens1 (Z.to_nat 0) [2; 2; 1])). intros D D1 D2 D3.
    apply (cl2_len D 4 8 0 0 0 [true; false] 1 [true; true; false; false] [2; 3; 3]); [lia|reflexivity|exact D1|lia|].
    apply (cl2_len D 3 1 0 0 _ [true; true] 2 [false; false] [3; 3]); [lia|reflexivity|exact D2|lia|].
    apply (cl2_len D 2 2 0 0 _ [false] 3 [false] [3]); [lia|reflexivity|exact D3|lia|].
    apply (cl2_len D 1 3 0 0 _ [false] 3 [] []); [lia|reflexivity|exact D3|lia|].
    apply (cl2_stop D 0); [lia|now left].
Qed.
