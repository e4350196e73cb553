(* Properties of the ANS distribution descriptions: C65. *)
From Coq Require Import ZArith List Bool Lia.
From Verif Require Import GoBase Bits ModelBitReader ModelUtil ModelEntropy SpecBitReader SpecCodes SpecGrammar SpecEntropy SpecDist.
From Verif Require Import ProofReads ProofAlias ProofANS ProofDist.
Import ListNotations.
Open Scope Z_scope.

(* ---- C65 ---- *)
(* The reader accepts exactly the four forms of the grammar, returns the
   frequencies they describe and never panics.  Missing: the look-ahead of 7
   bits has to be inside the stream (see C19); some of the accepted
   descriptions are not distributions (see below). *)
Theorem C65_distribution_grammar_partial : forall las, 0 <= las -> exact_ahead 7 (readFrequencies las) (dist_code las).
Proof. exact ahead_dist. Qed.
Print Assumptions C65_distribution_grammar_partial.

(* Whatever is accepted sums to 4096; all frequencies but the omitted one are
   in range, and a symbol singled out has all of the probability. *)
Theorem C65_distribution_sum : forall las c a u fs, 0 <= las -> dist_code las c (a, u, fs) ->
  Z.of_nat (length fs) = a /\ sumZ fs = 4096 /\
  ((u = -1 /\ a <= 2 ^ las) \/ (0 <= u < a /\ nth (Z.to_nat u) fs 0 = 4096)) /\
  exists o, 0 <= o < a /\ forall i, 0 <= i < a -> i <> o -> 0 <= nth (Z.to_nat i) fs 0 <= 4096.
Proof. exact dist_ok. Qed.
Print Assumptions C65_distribution_sum.

(* A description without a negative frequency gives a correct alias table. *)
Theorem C65_distribution_table : forall las c a u fs, 0 <= las <= 12 -> dist_code las c (a, u, fs) -> Forall (fun f => 0 <= f) fs ->
  exists cut sym off, reads_ahead 7 (NewANSSymbolDistribution las) c (AnsDist (12 - las) fs cut sym off) /\
    slot_bijection 4096 fs (alias_slot (2 ^ (12 - las)) cut sym off).
Proof.
  intros las c a u fs Hlas Hc Hpos. destruct (dist_ok las c a u fs ltac:(lia) Hc) as (Hl & Hs & Hu & _).
  assert (Hf : freqs_ok las u fs).
  { split; [lia|]. split; [assumption|]. split; [assumption|]. destruct Hu as [[-> Hu]|[Hu1 Hu2]]; [left|right]; rewrite Hl; auto. }
  destruct (alias_all las a u fs Hf) as (t & E & El & Ef & G).
  destruct t as [lb fr cut sym off]. cbn [at_lb at_freqs] in El, Ef. subst lb fr. exists cut, sym, off. split.
  - intros s d p Hr Hb Hk. destruct (proj1 (ahead_dist las ltac:(lia)) _ _ Hc s d p Hr Hb Hk) as (s' & E' & Hr').
    exists s'. split; [|assumption]. unfold NewANSSymbolDistribution, rbind. rewrite E'. unfold rlift. rewrite E. reflexivity.
  - destruct G as [_ _ _ _ _ _ B]. exact B.
Qed.
Print Assumptions C65_distribution_table.

(* Finding: a description whose frequencies already exceed 4096 is accepted;
   the omitted frequency becomes negative. *)
Theorem C65_negative_frequency_refuted : exists d c cut sym off,
  bits_at d 0 c /\ dist_code 5 c (4, -1, [-2048; 2048; 2048; 2048]) /\
  fst (NewANSSymbolDistribution 5 (NewBitStreamReader d)) = Ok (AnsDist 7 [-2048; 2048; 2048; 2048] cut sym off).
Proof.
  exists [136; 64; 32; 16; 0; 0]. eexists. do 3 eexists. split; [|split].
  3: vm_compute; reflexivity.
  2: { exists [false]. eexists. exists false. split; [reflexivity|]. split; [reflexivity|].
       exists [false]. eexists. exists false. split; [reflexivity|]. split; [reflexivity|].
       exists [false]. eexists. exists 0. split; [reflexivity|]. split; [exists 0%nat, 0; cbn; repeat split; lia|].
       split; [lia|]. do 2 eexists. exists 1. split; [reflexivity|]. split; [exact (u8c_n 0 0 ltac:(lia) ltac:(cbn; lia))|].
       split; [cbn; lia|]. do 2 eexists. exists [Log 12; Log 12; Log 12; Log 12]. split; [reflexivity|].
       assert (W : c_log [true; false; false; false; false; false; false] 12) by (split; [lia|reflexivity]).
       split. { cbn [Z.add Pos.add]. eapply ci_log; [lia|exact W|lia|]. eapply ci_log; [lia|exact W|lia|].
                eapply ci_log; [lia|exact W|lia|]. eapply ci_log; [lia|exact W|lia|]. apply ci_done. lia. }
       exists []. eexists. exists 0. split; [reflexivity|]. split.
       { split; [reflexivity|]. exists 12. split; [left; reflexivity|]. cbn. intros i l H. repeat destruct H as [H|H]; try (inversion H; lia). }
       split. { cbn. tauto. }
       exists []. eexists. exists [0; 2048; 2048; 2048]. split; [reflexivity|]. split; [|split; reflexivity].
       cbn [c_freqs Z.eqb Z.add Pos.add Pos.eqb].
       exists [], [], [2048; 2048; 2048]. split; [reflexivity|]. split; [|split; reflexivity].
       assert (F : c_freq 0 12 [] 2048).
       { exists [], [], 0. split; [reflexivity|]. split; [split; [reflexivity|cbn; lia]|split; reflexivity]. }
       exists [], [], 2048. split; [reflexivity|]. split; [exact F|]. exists [], [], [2048; 2048]. split; [reflexivity|]. split; [|split; reflexivity].
       exists [], [], 2048. split; [reflexivity|]. split; [exact F|]. exists [], [], [2048]. split; [reflexivity|]. split; [|split; reflexivity].
       exists [], [], 2048. split; [reflexivity|]. split; [exact F|]. exists [], [], []. split; [reflexivity|]. split; split; reflexivity. }
  split; [cbn; lia|]. intros i Hi. cbn in Hi. do 35 (destruct i as [|i]; [reflexivity|]). lia.
Qed.
Print Assumptions C65_negative_frequency_refuted.

(* Finding: the single-symbol form is not held to the alphabet size. *)
Theorem C65_single_symbol_refuted : forall las x, 0 <= las -> 2 ^ las <= x <= 255 ->
  exists c, reads_ahead 7 (readFrequencies las) c (x + 1, x, repeat 0 (Z.to_nat x) ++ [4096]).
Proof.
  intros las x Hlas Hx. assert (0 < 2 ^ las) by (apply Z.pow_pos_nonneg; lia).
  destruct (ProofCodes.u8_code_exists x ltac:(lia)) as [c Hc]. exists ([true] ++ [false] ++ c ++ []).
  apply (proj1 (ahead_dist las Hlas)). exists [true], ([false] ++ c ++ []), true. split; [reflexivity|]. split; [reflexivity|].
  exists [false], (c ++ []), false. split; [reflexivity|]. split; [reflexivity|]. exists c, [], x. split; [reflexivity|]. split; [exact Hc|].
  split; reflexivity.
Qed.
Print Assumptions C65_single_symbol_refuted.

Example C65_example :
  fst (readFrequencies 5 (NewBitStreamReader [152; 33; 130; 0; 0])) = Ok (6, -1, [1536; 512; 512; 512; 512; 512]) /\
  fst (readFrequencies 5 (NewBitStreamReader [253; 31; 0])) = Ok (256, 255, repeat 0 255 ++ [4096]).
Proof. split; vm_compute; reflexivity. Qed.
