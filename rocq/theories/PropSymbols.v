(* Properties of the symbols of entropy-coded streams: C96. *)
From Coq Require Import ZArith List Bool Lia ZifyBool ZifyNat.
From Verif Require Import GoBase GoLoop Bits ModelBitReader ModelEntropy SpecBitReader SpecGrammar SpecEntropy SpecAlias SpecLZ SpecDist SpecPrefix SpecStream SpecSymbols.
From Verif Require Import ProofReads ProofCodes ProofGrammar ProofHybrid ProofLZ ProofStream ProofSymbols PropStream.
Import ListNotations.
Open Scope Z_scope.

(* ---- C96: sequences of symbols ---- *)
(* A stream whose header has been read gives the values of the sequence its
   bits stand for, call by call, and ends behind them; the check of the final
   state passes if and only if the coder is in its final state.  Missing:
   images less than 8 wide with LZ77 (multipliers 1 to 7, see C22). *)
Theorem C96_values_partial : forall h m e l c x s d p, proper_header h -> stream_of h e -> fresh e -> (hd_lz h <> None -> m = 0 \/ 8 <= m <= 2 ^ 24) ->
  symbols h m sst0 l c x -> Z.of_nat (length l) < 2 ^ 31 ->
  reader_at s d p -> bits_at d p c -> (p + length c + ahead h <= 8 * length d)%nat ->
  exists ss : nat -> ES * BR, ss 0%nat = (e, s) /\
    (forall k ctx v, nth_error l k = Some (ctx, v) -> ReadSymbolWithMultiplier ctx m (ss k) = (Ok v, ss (S k))) /\
    reader_at (snd (ss (length l))) d (p + length c) /\
    ValidateFinalState (fst (ss (length l))) = match ss_x x with None => true | Some n => n =? 1245184 end.
Proof.
  intros h m e l c x s d p Hp Hs Hf Hm H Hl Hr Hb Hk.
  destruct (symbols_read h m e sst0 l c x Hp Hs Hm H e s d p (fresh_inv h e Hs Hf) ltac:(cbn; lia) Hr Hb Hk) as (ss & S0 & S1 & S2 & S3).
  exists ss. split; [exact S0|]. split; [exact S1|]. split; [exact S3|]. exact (final_inv h e _ x S2).
Qed.
Print Assumptions C96_values_partial.

(* ---- cluster maps that are entropy coded ---- *)
Lemma rbind_ok {A B} (m : RM A) (f : A -> RM B) s a s' : m s = (Ok a, s') -> rbind m f s = f a s'.
Proof. intros E. unfold rbind. now rewrite E. Qed.
Lemma maps_max l : - 1 <= fold_right Z.max (-1) l /\ forall x, In x l -> x <= fold_right Z.max (-1) l.
Proof. induction l as [|a l [IH1 IH2]]; cbn; [split; [lia|tauto]|]. split; [lia|]. intros x [->|Hx]; [lia|]. specialize (IH2 x Hx). lia. Qed.
Lemma good_map_code depth : good_maps (map_code depth).
Proof.
  destruct depth as [|depth]; [exact good_plain|]. intros n c v [H|H]; [exact (good_plain n c v H)|].
  destruct H as (mtf & hc & h & l & sc & x & _ & _ & _ & _ & _ & _ & _ & Hl & _ & ->). cbn [fst snd]. destruct (maps_max l) as [M1 M2]. split; [lia|].
  rewrite Forall_forall in *. intros y Hy. specialize (Hl y Hy). specialize (M2 y Hy). destruct mtf; lia.
Qed.
Lemma read_symbols : forall l (ss : nat -> ES * BR), (forall k ctx v, nth_error (map (pair 0) l) k = Some (ctx, v) -> ReadSymbolWithMultiplier ctx 0 (ss k) = (Ok v, ss (S k))) ->
  readSymbols (length l) (fst (ss 0%nat)) (snd (ss 0%nat)) = (Ok (l, fst (ss (length l))), snd (ss (length l))).
Proof.
  induction l as [|v l IH]; intros ss H; [reflexivity|]. cbn [length readSymbols]. rewrite <- surjective_pairing. unfold ReadSymbol. rewrite (H 0%nat 0 v eq_refl).
  specialize (IH (fun k => ss (S k)) (fun k => H (S k))). cbv beta in IH. rewrite (surjective_pairing (ss 1%nat)). rewrite IH. reflexivity.
Qed.
Lemma mtf_length l : forall order, length (move_to_front order l) = length l.
Proof. induction l as [|a l IH]; intros order; [reflexivity|]. cbn [move_to_front length]. now rewrite IH. Qed.
Lemma complete_map_code depth : forall n, 0 < n -> complete 15 (readClusterMapWith (loadDepth depth) (Z.to_nat n) n) (map_code depth n) map_rel.
Proof.
  induction depth as [|depth IH]; intros n Hn; [apply complete_map; exact Hn|].
  intros c v [H|H]; [exact (complete_map 15 (loadDepth (S depth)) n Hn c v H)|].
  destruct H as (mtf & hc & h & l & sc & x & Hn1 & -> & Hh & Hd & Hs & Hx & Ln & Hl & Hm & ->). exists (l, 1 + fold_right Z.max (-1) l). split; [reflexivity|].
  destruct (both_header False 15 (readClusterMapWith (loadDepth depth)) (map_code depth) (fun _ _ _ => True) 1 (n <=? 2) ltac:(lia) ltac:(lia)) as [HB _].
  { intros k Hk. split; [|intros []]. apply IH. lia. }
  replace (2 <? n) with (negb (n <=? 2)) in Hh by lia. destruct (HB hc h Hh) as (e & [E1 E2] & R). clear HB.
  pose proof (header_proper (map_code depth) 1 _ hc h (good_map_code depth) Hh Hd) as Hp.
  set (sent := if mtf then move_to_front (map Z.of_nat (seq 0 256)) l else l) in *.
  assert (Ls : length sent = length l) by (unfold sent; destruct mtf; [apply mtf_length|reflexivity]).
  intros s d p Hr Hb Hk. unfold readClusterMapWith. replace (Z.to_nat n =? 1)%nat with false by (symmetry; apply Nat.eqb_neq; lia).
  change (false :: mtf :: hc ++ sc) with ([false] ++ [mtf] ++ hc ++ sc) in *. rewrite !app_length in Hk |- *.
  apply bits_at_app in Hb. destruct Hb as [Hb1 Hb]. apply bits_at_app in Hb. destruct Hb as [Hb2 Hb]. apply bits_at_app in Hb. destruct Hb as [Hb3 Hb4]. cbn [length] in *.
  destruct (proj1 exact_bool [false] false eq_refl s d p Hr Hb1) as (s1 & F1 & R1). cbn [length] in R1.
  destruct (proj1 exact_bool [mtf] mtf eq_refl s1 d _ R1 Hb2) as (s2 & F2 & R2). cbn [length] in R2.
  destruct (R s2 d _ R2 Hb3 ltac:(lia)) as (s3 & F3 & R3).
  assert (Ha : (ahead h <= 15)%nat) by (unfold ahead; destruct (hd_codes h); lia).
  destruct (C96_values_partial h 0 e _ sc x s3 d _ Hp E1 E2 (fun _ => or_introl eq_refl) Hs ltac:(rewrite map_length, Ls; lia) R3 Hb4 ltac:(lia)) as (ss & S0 & S1 & S2 & S3).
  rewrite map_length, Ls in S2, S3.
  pose proof (read_symbols sent ss S1) as RS. rewrite S0 in RS. cbn [fst snd] in RS. rewrite Ls in RS.
  exists (snd (ss (length l))). split; [|replace (p + (1 + (1 + (length hc + length sc))))%nat with (p + 1 + 1 + length hc + length sc)%nat by lia; exact S2].
  assert (EM : (if mtf then rlift (invMTF sent (map Z.of_nat (seq 0 256))) else rret sent) (snd (ss (length l))) = (Ok l, snd (ss (length l)))).
  { unfold sent. destruct mtf; [|reflexivity]. rewrite invMTF_correct; [reflexivity|]. eapply Forall_impl; [|exact Hl]. intros y Hy. cbv beta in Hy. apply in_map_iff. exists (Z.to_nat y). split; [lia|]. apply in_seq. lia. }
  assert (EV : ValidateFinalState (fst (ss (length l))) = true) by (rewrite S3; destruct Hx as [->| ->]; reflexivity).
  rewrite (rbind_ok _ _ _ l (snd (ss (length l)))).
  - cbv zeta. rewrite clusters_max. replace (n <? 1 + fold_right Z.max (-1) l) with false by lia. reflexivity.
  - rewrite (rbind_ok _ _ _ _ _ F1). cbv iota. rewrite (rbind_ok _ _ _ _ _ F2). rewrite Z2Nat.id by lia.
    rewrite (rbind_ok _ _ _ _ _ F3). replace (Z.to_nat n) with (length l) by lia. rewrite (rbind_ok _ _ _ _ _ RS). rewrite EV. cbn [negb]. exact EM.
Qed.
(* C83 for all cluster maps: every header is read if 15 bits follow *)
Theorem C83_nested_partial : forall n disallow, 0 < n ->
  complete 15 (NewEntropyStreamWithReader n disallow) (header_code cluster_map proper_dist n (negb disallow)) (fun h e => stream_of h e /\ fresh e).
Proof.
  intros n disallow Hn. apply (both_header False 15 _ cluster_map (fun _ _ _ => True) n disallow ltac:(lia) Hn).
  intros k Hk. split; [|intros []]. apply complete_map_code. lia.
Qed.
Print Assumptions C83_nested_partial.
Lemma plain_cluster n c v : plain_map n c v -> cluster_map n c v.
Proof. intros H. left. exact H. Qed.
Lemma header_maps (M M' : Z -> code (list Z * Z)) D n b c h : (forall n c v, M n c v -> M' n c v) -> header_code M D n b c h -> header_code M' D n b c h.
Proof.
  intros HM (c1 & c2 & lz & -> & H1 & c3 & c4 & lzp & -> & H2 & c5 & c6 & cm & -> & H3 & H4).
  exists c1, (c3 ++ c5 ++ c6), lz. split; [reflexivity|]. split; [exact H1|]. exists c3, (c5 ++ c6), lzp. split; [reflexivity|]. split; [exact H2|].
  exists c5, c6, cm. split; [reflexivity|]. split; [exact (HM _ _ _ H3)|exact H4].
Qed.

(* Header and symbols together, from the grammar of headers.  Missing: what C83
   and C95 leave out. *)
Theorem C96_stream_partial : forall n disallow hc h m l c x s d p, 0 < n -> header_code cluster_map proper_dist n (negb disallow) hc h -> described h ->
  (hd_lz h <> None -> m = 0 \/ 8 <= m <= 2 ^ 24) -> symbols h m sst0 l c x -> Z.of_nat (length l) < 2 ^ 31 ->
  reader_at s d p -> bits_at d p (hc ++ c) -> (p + length (hc ++ c) + 15 <= 8 * length d)%nat ->
  exists e (ss : nat -> ES * BR), NewEntropyStreamWithReader n disallow s = (Ok e, snd (ss 0%nat)) /\ e = fst (ss 0%nat) /\
    (forall k ctx v, nth_error l k = Some (ctx, v) -> ReadSymbolWithMultiplier ctx m (ss k) = (Ok v, ss (S k))) /\
    reader_at (snd (ss (length l))) d (p + length (hc ++ c)) /\
    ValidateFinalState (fst (ss (length l))) = match ss_x x with None => true | Some n => n =? 1245184 end.
Proof.
  intros n disallow hc h m l c x s d p Hn Hh Hd Hm H Hl Hr Hb Hk. apply bits_at_app in Hb. destruct Hb as [Hb1 Hb2]. rewrite app_length in *.
  destruct (C83_nested_partial n disallow Hn hc h Hh) as (e & [E1 E2] & R). destruct (R s d p Hr Hb1 ltac:(lia)) as (s1 & E & Hr1).
  assert (Ha : (ahead h <= 15)%nat) by (unfold ahead; destruct (hd_codes h); lia).
  destruct (C96_values_partial h m e l c x s1 d _ (header_proper cluster_map n _ hc h (good_map_code 2) Hh Hd) E1 E2 Hm H Hl Hr1 Hb2 ltac:(lia)) as (ss & S0 & S1 & S2 & S3).
  exists e, ss. rewrite S0. cbn [fst snd]. rewrite Nat.add_assoc. auto.
Qed.
Print Assumptions C96_stream_partial.

(* Every nonempty sequence of values whose tokens can be sent has bits that
   end in the final state. *)
Theorem C96_sendable : forall h m l, proper_header h -> l <> [] -> Forall (sendable h) l -> exists c x, symbols h m sst0 l c x /\ final_state h x.
Proof.
  intros h m l Hp Hl H. destruct (hd_codes h) as [ts|fs] eqn:E.
  - destruct (symbols_write_prefix h m ts l E H [] 0 None) as (c & hist & S). exists c. eexists. split; [exact S|]. split; [reflexivity|]. rewrite E. reflexivity.
  - destruct (symbols_write h m fs l Hp E H [] 0 1245184 ltac:(lia)) as (n & c & hist & _ & _ & S). eexists. eexists. split; [exact (S Hl)|].
    split; [reflexivity|]. rewrite E. reflexivity.
Qed.
Print Assumptions C96_sendable.
(* The map 0 1 0 with the code words 0 and 1 for its numbers *)
Example C83_example_nested : exists c, cluster_map 3 c ([0; 1; 0], 2) /\ forall c', c = false :: c' -> ~ plain_map 3 c ([0; 1; 0], 2).
Proof.
  set (h := Header None [0] 15 [HConf 15 0 0] (Prefixes [[([false], 0); ([true], 1)]])).
  assert (H : exists c, header_code (map_code 1) proper_dist 1 true c h).
  { eexists. unfold header_code. eapply seq_intro; [apply (bool_intro false)|]. eapply seq_intro; [apply ret_intro|].
    eapply seq_intro; [left; apply ret_intro|].
    eapply seq_intro; [apply (bool_intro true)|]. eapply seq_intro; [apply ret_intro|].
    eapply seq_intro; [eapply seq_intro; [|eapply seq_intro; apply ret_intro]; eapply seq_intro; [apply (fixed_intro _ 15); cbn; lia|apply ret_intro]|].
    eapply seq_intro; [|apply ret_intro].
    eapply seq_intro. { eapply seq_intro; [|eapply seq_intro; apply ret_intro].
      eapply seq_intro; [apply (bool_intro true)|]. eapply seq_intro; [apply (fixed_intro 4 0); cbn; lia|]. eapply seq_intro; [apply (fixed_intro _ 0); cbn; lia|]. apply ret_intro. }
    eapply seq_intro; [|apply ret_intro]. eapply seq_intro; [|eapply seq_intro; apply ret_intro].
    eapply seq_intro; [apply (fixed_intro 2 1); cbn; lia|]. eapply seq_intro; [apply (fixed_intro 2 1); cbn; lia|].
    eapply seq_intro; [eapply seq_intro; [apply (fixed_intro _ 0); cbn; lia|]; eapply seq_intro; [eapply seq_intro; [apply (fixed_intro _ 1); cbn; lia|]; eapply seq_intro; apply ret_intro|apply ret_intro]|].
    apply ret_intro. }
  destruct H as [hc H].
  destruct (C96_sendable h 0 [(0, 0); (0, 1); (0, 0)]) as (sc & x & H1 & _ & Hx).
  { exact (header_proper (map_code 1) 1 true hc h (good_map_code 1) H I). }
  { discriminate. }
  { assert (S : forall v, v = 0 \/ v = 1 -> sendable h (0, v)).
    { intros v Hv. exists 0%nat, (HConf 15 0 0). cbn [fst snd]. assert (T : hyb_token (HConf 15 0 0) v = v) by (destruct Hv as [-> | ->]; reflexivity). rewrite T.
      split; [repeat split; vm_compute; (reflexivity || discriminate)|]. split; [lia|]. split; [exact I|].
      destruct Hv as [-> | ->]; eexists; eexists; (split; [reflexivity|]); [left|right; left]; reflexivity. }
    repeat constructor; apply S; lia. }
  exists (false :: false :: hc ++ sc). split.
  - right. exists false, hc, h, [0; 1; 0], sc, x. split; [lia|]. split; [reflexivity|]. split; [exact H|]. split; [exact I|]. split; [exact H1|]. split; [left; exact Hx|].
    split; [reflexivity|]. split; [repeat constructor; lia|]. split; [cbn; lia|reflexivity].
  - intros c' _ (w & l & _ & E & _). discriminate E.
Qed.
(* An ANS stream of two symbols, and one with prefix codes where the bits 0 1
   stand for a literal 5 and three copies of it *)
Example C96_example :
  (let h := Header None [0] 5 [HConf 4 0 0] (Frequencies [(5, -1, [3000; 1096])]) in
   proper_header h /\ Forall (sendable h) [(0, 1); (0, 0); (0, 1)]) /\
  (let h := Header (Some (224, 3, HConf 8 0 0)) [0; 1] 15 [HConf 8 0 0; HConf 8 0 0] (Prefixes [[([false], 5); ([true], 224)]; [([], 0)]]) in
   proper_header h /\ symbols h 0 sst0 [(0, 5); (0, 5); (0, 5); (0, 5)] [false; true] (SST [5; 5; 5; 5] 0 1 None)).
Proof.
  split; cbv zeta.
  - split.
    + split; [repeat constructor; cbn; lia|]. split; [cbn; lia|]. split; [repeat constructor; cbn; lia|]. split; [exact I|]. split; [cbn; lia|].
      constructor; [|constructor]. split; [cbn; repeat constructor; lia|]. split; [reflexivity|]. left. cbn. split; [reflexivity|]. split; [lia|]. intros [|[|[]]]; discriminate.
    + assert (S : forall v, 0 <= v < 2 -> sendable (Header None [0] 5 [HConf 4 0 0] (Frequencies [(5, -1, [3000; 1096])])) (0, v)).
      { intros v Hv. exists 0%nat, (HConf 4 0 0). cbn [fst snd]. unfold hyb_token. cbn [h_e]. change (2 ^ 4) with 16. replace (v <? 16) with true by lia.
        split; [repeat split; cbn; lia|]. split; [lia|]. split; [exact I|]. exists (5, -1, [3000; 1096]). split; [reflexivity|]. split; [lia|].
        assert (E : v = 0 \/ v = 1) by lia. destruct E as [->| ->]; vm_compute; reflexivity. }
      repeat constructor; apply S; lia.
  - split.
    + split; [repeat constructor; cbn; lia|]. split; [cbn; lia|]. split; [repeat constructor; cbn; lia|]. split; [split; [lia|]; split; [lia|]; split; cbn; lia|]. exact I.
    + set (h := Header _ _ _ _ _). change [false; true] with (([false] ++ hyb_extra (HConf 8 0 0) 5) ++ ([true] ++ hyb_extra (HConf 8 0 0) (3 - 3) ++ [] ++ hyb_extra (HConf 8 0 0) 0) ++ [] ++ [] ++ []).
      eapply symbols_cons. { apply (symbol_literal h 0 [] 0 None 0 0 (HConf 8 0 0) 5 [false] None); [repeat split; vm_compute; discriminate|lia|vm_compute; reflexivity|].
        eapply token_prefix; [reflexivity|reflexivity|left; reflexivity]. }
      eapply symbols_cons. { apply (symbol_copy h 0 [5] 0 None 0 224 3 (HConf 8 0 0) 3 0 0 (HConf 8 0 0) 1 (HConf 8 0 0) [true] None [] None); [reflexivity|repeat split; vm_compute; discriminate|repeat split; vm_compute; discriminate|lia|lia| |].
        - eapply token_prefix; [reflexivity|reflexivity|right; left; reflexivity].
        - eapply token_prefix; [reflexivity|reflexivity|left; reflexivity]. }
      eapply symbols_cons; [apply (symbol_copied h 0 [5; 5] 2 1 None 0); lia|].
      eapply symbols_cons; [apply (symbol_copied h 0 [5; 5; 5] 1 1 None 0); lia|]. apply symbols_nil.
Qed.
