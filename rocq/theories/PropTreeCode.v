(* Properties of the reading of decision trees: C97. *)
From Coq Require Import ZArith List Bool Lia ZifyBool ZifyNat.
From Verif Require Import GoBase GoLoop Bits ModelBitReader ModelEntropy ModelMATree SpecBitReader SpecGrammar SpecEntropy SpecCodes SpecToc SpecDist SpecPrefix SpecStream SpecSymbols SpecMATree SpecTreeCode.
From Verif Require Import ProofReads ProofCodes ProofGrammar ProofMATree ProofSymbols ProofTreeCode PropStream PropSymbols.
Import ListNotations.
Open Scope Z_scope.

(* ---- C97: trees are read as they are sent ---- *)
(* Missing: what C96 leaves out. *)
Theorem C97_tree_partial : forall nodes h c, breadth_first nodes -> Z.of_nat (length nodes) <= 2 ^ 20 + 1 -> tree_code nodes h c ->
  exists e, stream_of h e /\ fresh e /\ reads_ahead 15 NewMATreeWithReader c (nodes, e).
Proof.
  intros nodes h c HB HL (l & c1 & c2 & (ls & Hs & ->) & (hc & h1 & sc & x & Hh & Hd & Hsym & Hx & Hlen & ->) & Hh2 & ->).
  pose proof (count_all nodes HB) as CA. pose proof (leaves_le nodes) as LL. pose proof HB as ((NE & _) & _ & _).
  assert (Hl0 : (0 < length nodes)%nat) by (destruct nodes; [congruence|cbn; lia]). unfold inners in CA.
  destruct (C83_nested_partial (Z.of_nat (length (leaves nodes))) false ltac:(lia) c2 h Hh2) as (e & [E1 E2] & R2).
  exists e. split; [exact E1|]. split; [exact E2|]. intros s d p Hr Hb Hk. apply bits_at_app in Hb. destruct Hb as [Hb1 Hb2]. rewrite app_length in Hk.
  destruct (C96_stream_partial 6 false hc h1 0 (concat ls) sc x s d p ltac:(lia) Hh Hd ltac:(lia) Hsym Hlen Hr Hb1 ltac:(lia)) as (e1 & ss & N1 & N2 & N3 & N4 & N5).
  destruct (R2 _ d _ N4 Hb2 ltac:(lia)) as (s2 & F1 & F2).
  exists s2. split; [|rewrite app_length, Nat.add_assoc; exact F2].
  unfold NewMATreeWithReader, NewMATreeWithFuel. unfold rbind at 1. unfold NewEntropyStreamWithReaderAndNumDists. rewrite N1.
  pose proof (tree_loop nodes HB HL nodes [] treeFuel ls ss eq_refl Hs N3 ltac:(unfold treeFuel; lia)) as TL.
  rewrite (surjective_pairing (ss 0%nat)) in TL. rewrite <- N2 in TL. change (1 + 2 * inners [] - Z.of_nat (length (@nil Node))) with 1 in TL. change (Z.of_nat (length (leaves []))) with 0 in TL.
  rewrite TL. rewrite (surjective_pairing (ss (length (concat ls)))). rewrite N5.
  replace (match ss_x x with Some n => n =? 1245184 | None => true end) with true by (destruct Hx as [-> | ->]; reflexivity). cbn [negb].
  replace (Z.quot (Z.of_nat (length nodes) + 1) 2) with (Z.of_nat (length (leaves nodes))).
  - unfold rbind at 1. rewrite F1. unfold rbind at 1, rlift. rewrite link_ok by apply HB. reflexivity.
  - replace (Z.of_nat (length nodes) + 1) with (Z.of_nat (length (leaves nodes)) * 2) by lia. symmetry. apply Z.quot_mul. lia.
Qed.
Print Assumptions C97_tree_partial.
(* A decision on the channel between the predictors 0 and 1 *)
Example C97_example : let nodes := [mkNode 0 0 0 1 2 (-1) 0 0; mkNode (-1) 0 0 0 0 0 0 1; mkNode (-1) 1 0 0 0 1 0 1] in
  breadth_first nodes /\ exists c h, tree_code nodes h c.
Proof.
  cbv zeta. split.
  { split; [|split].
    - split; [discriminate|]. intros [|[|[|i]]] n H; [| | |destruct i; discriminate]; injection H as <-; cbn; lia.
    - intros [|[|[|i]]] H; cbn in H; try lia; exists 0%nat; eexists; (split; [reflexivity|]); cbn; lia.
    - reflexivity. }
  assert (H : exists c, header_code cluster_map proper_dist 6 true c (Header None [0; 0; 0; 0; 0; 0] 15 [HConf 15 0 0] (Prefixes [[([false], 0); ([true], 1)]]))).
  { eexists. unfold header_code. eapply seq_intro; [apply (bool_intro false)|]. eapply seq_intro; [apply ret_intro|].
    eapply seq_intro. { left. cbn. exists 0%nat, [0; 0; 0; 0; 0; 0]. split; [lia|]. split; [reflexivity|]. split; [reflexivity|]. split; [repeat constructor; cbn; lia|]. split; [cbn; lia|reflexivity]. }
    eapply seq_intro; [apply (bool_intro true)|]. eapply seq_intro; [apply ret_intro|].
    eapply seq_intro; [eapply seq_intro; [|eapply seq_intro; apply ret_intro]; eapply seq_intro; [apply (fixed_intro _ 15); cbn; lia|apply ret_intro]|].
    eapply seq_intro; [|apply ret_intro].
    eapply seq_intro. { eapply seq_intro; [|eapply seq_intro; apply ret_intro].
      eapply seq_intro; [apply (bool_intro true)|]. eapply seq_intro; [apply (fixed_intro 4 0); cbn; lia|]. eapply seq_intro; [apply (fixed_intro _ 0); cbn; lia|]. apply ret_intro. }
    eapply seq_intro; [|apply ret_intro]. eapply seq_intro; [|eapply seq_intro; apply ret_intro].
    eapply seq_intro; [apply (fixed_intro 2 1); cbn; lia|]. eapply seq_intro; [apply (fixed_intro 2 1); cbn; lia|].
    eapply seq_intro; [eapply seq_intro; [apply (fixed_intro _ 0); cbn; lia|]; eapply seq_intro; [eapply seq_intro; [apply (fixed_intro _ 1); cbn; lia|]; eapply seq_intro; apply ret_intro|apply ret_intro]|].
    apply ret_intro. }
  destruct H as [hc H]. set (h := Header _ _ _ _ _) in H.
  destruct C83_example as (c2 & h2 & _ & H2 & _). apply (header_maps _ _ _ _ _ _ _ plain_cluster) in H2.
  assert (S : forall a v, 0 <= a < 6 -> v = 0 \/ v = 1 -> sendable h (a, v)).
  { intros a v Ha Hv. exists 0%nat, (HConf 15 0 0). cbn [fst snd].
    assert (T : hyb_token (HConf 15 0 0) v = v) by (destruct Hv as [-> | ->]; reflexivity). rewrite T.
    split; [|split; [lia|split; [exact I|]]].
    - assert (E : a = 0 \/ a = 1 \/ a = 2 \/ a = 3 \/ a = 4 \/ a = 5) by lia.
      destruct E as [->|[->|[->|[->|[->| ->]]]]]; repeat split; vm_compute; (reflexivity || discriminate).
    - destruct Hv as [-> | ->]; eexists; eexists; (split; [reflexivity|]); [left|right; left]; reflexivity. }
  destruct (C96_sendable h 0 [(1, 1); (0, 0); (1, 0); (2, 0); (3, 0); (4, 0); (5, 0); (1, 0); (2, 1); (3, 0); (4, 0); (5, 0)]) as (sc & x & H1 & _ & Hx).
  { exact (header_proper cluster_map 6 true hc h (good_map_code 2) H I). }
  { discriminate. }
  { repeat constructor; apply S; lia. }
  eexists. exists h2. eexists. exists (hc ++ sc), c2. split; [|split; [|split; [exact H2|reflexivity]]].
  - exists [[(1, 1); (0, 0)]; [(1, 0); (2, 0); (3, 0); (4, 0); (5, 0)]; [(1, 0); (2, 1); (3, 0); (4, 0); (5, 0)]]. split; [|reflexivity].
    constructor; [|constructor; [|constructor; [|constructor]]].
    + left. exists 0. cbn. repeat split; lia.
    + right. exists 0, 0, 0. cbn. repeat split; lia.
    + right. exists 0, 0, 0. cbn. repeat split; lia.
  - exists hc, h, sc, x. split; [exact H|]. split; [exact I|]. split; [exact H1|]. split; [left; exact Hx|]. split; [cbn; lia|reflexivity].
Qed.
