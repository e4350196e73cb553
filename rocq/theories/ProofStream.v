(* Lemmas about the headers of entropy-coded streams. *)
From Coq Require Import ZArith List Bool Lia ZifyBool ZifyNat.
From Verif Require Import GoBase GoLoop Bits ModelBitReader ModelUtil ModelEntropy SpecBitReader SpecCodes SpecUtil SpecGrammar SpecEntropy SpecAlias SpecDist SpecPrefix SpecStream.
From Verif Require Import ProofBitReader ProofBitReader2 ProofReads ProofCodes ProofUtil ProofGrammar ProofHybrid ProofAlias ProofANS ProofAliasStd ProofDist ProofPrefix3 ProofLF.
Import ListNotations.
Open Scope Z_scope.

Local Notation "x <== R ;;; S" := (c_seq R (fun x => S)) (at level 61, R at next level, right associativity).

(* ---- composition ---- *)
Lemma reads_ahead_bind {A B} k (m : RM A) (f : A -> RM B) c1 c2 a v : reads_ahead k m c1 a -> reads_ahead k (f a) c2 v -> reads_ahead k (rbind m f) (c1 ++ c2) v.
Proof.
  intros R1 R2 s d p Hr Hb Hp. apply bits_at_app in Hb as [B1 B2]. rewrite app_length in Hp.
  destruct (R1 s d p Hr B1 ltac:(lia)) as (s1 & E1 & Hr1). destruct (R2 s1 d _ Hr1 B2 ltac:(lia)) as (s2 & E2 & Hr2).
  exists s2. unfold rbind. rewrite E1. split; [exact E2|]. now rewrite app_length, Nat.add_assoc.
Qed.
Lemma complete_bind {A B X Y} k (m : RM A) (f : A -> RM B) (R : code X) (S : X -> code Y) rel rel' : complete k m R rel ->
  (forall x a, (exists c, R c x) -> rel x a -> complete k (f a) (S x) rel') -> complete k (rbind m f) (c_seq R S) rel'.
Proof.
  intros H1 H2 c y (c1 & c2 & x & -> & Hx & Hy). destruct (H1 c1 x Hx) as (a & Ha & R1). destruct (H2 x a (ex_intro _ c1 Hx) Ha c2 y Hy) as (b & Hb & R2).
  exists b. split; [exact Hb|]. exact (reads_ahead_bind k m f c1 c2 a b R1 R2).
Qed.
Lemma sound_bind {A B X Y} (m : RM A) (f : A -> RM B) (R : code X) (S : X -> code Y) rel rel' : sound m R rel ->
  (forall x a, (exists c, R c x) -> rel x a -> sound (f a) (S x) rel') -> sound (rbind m f) (c_seq R S) rel'.
Proof.
  intros H1 H2 s d p b s' Hr E. unfold rbind in E. destruct (m s) as [[a| |] s1] eqn:E1; [|discriminate|discriminate].
  destruct (H1 s d p a s1 Hr E1) as (c1 & x & B1 & Hx & Ha & Hr1). destruct (H2 x a (ex_intro _ c1 Hx) Ha s1 d _ b s' Hr1 E) as (c2 & y & B2 & Hy & Hb & Hr2).
  exists (c1 ++ c2), y. split; [apply bits_at_app; auto|]. split; [exists c1, c2, x; auto|]. split; [exact Hb|]. now rewrite app_length, Nat.add_assoc.
Qed.
Lemma complete_exact {A B} k (m : RM A) (R : code B) (g : B -> A) : exact m (c_seq R (fun b => c_ret (g b))) -> complete k m R (fun b a => a = g b).
Proof.
  intros [H _] c b Hb. exists (g b). split; [reflexivity|]. intros s d p Hr Bt _. apply (H c (g b)); [|exact Hr|exact Bt].
  exists c, [], b. rewrite app_nil_r. split; [reflexivity|]. split; [exact Hb|]. split; reflexivity.
Qed.
Lemma sound_exact {A B} (m : RM A) (R : code B) (g : B -> A) : exact m (c_seq R (fun b => c_ret (g b))) -> sound m R (fun b a => a = g b).
Proof.
  intros [_ H] s d p a s' Hr E. specialize (H s d p Hr). rewrite E in H. destruct H as (c & Bt & (c1 & c2 & b & -> & Hb & -> & ->) & Hr').
  rewrite app_nil_r in *. exists c1, b. auto.
Qed.
Definition both {A B} (W : Prop) (k : nat) (m : RM A) (Rv Ra : code B) (rel : B -> A -> Prop) : Prop := complete k m Rv rel /\ (W -> sound m Ra rel).
Lemma both_exact {A B} (W : Prop) k (m : RM A) (R : code B) (g : B -> A) : exact m (c_seq R (fun b => c_ret (g b))) -> both W k m R R (fun b a => a = g b).
Proof. intros H. split; [now apply complete_exact|intros _; now apply sound_exact]. Qed.
Lemma both_id {A} (W : Prop) k (m : RM A) (R : code A) : exact m R -> both W k m R R (fun b a => a = b).
Proof.
  intros H. apply (both_exact W k m R (fun b => b)). apply (exact_iff m R); [|exact H]. intros c v. split.
  - intros Hv. exists c, [], v. rewrite app_nil_r. split; [reflexivity|]. split; [exact Hv|]. split; reflexivity.
  - intros (c1 & c2 & b & -> & Hb & -> & ->). now rewrite app_nil_r.
Qed.
Lemma both_bind {A B X Y} (W : Prop) k (m : RM A) (f : A -> RM B) (Rv Ra : code X) (Sv Sa : X -> code Y) rel rel' : both W k m Rv Ra rel ->
  (forall x a, (exists c, Rv c x \/ Ra c x) -> rel x a -> both W k (f a) (Sv x) (Sa x) rel') -> both W k (rbind m f) (c_seq Rv Sv) (c_seq Ra Sa) rel'.
Proof.
  intros [H1 H2] H. split.
  - eapply complete_bind; [exact H1|]. intros x a [c Hc] Ha. apply (H x a); [exists c; now left|exact Ha].
  - intros w. eapply sound_bind; [exact (H2 w)|]. intros x a [c Hc] Ha. apply (H x a); [exists c; now right|exact Ha|exact w].
Qed.
Lemma both_ret {A B} (W : Prop) k (a : A) (b : B) (rel : B -> A -> Prop) : rel b a -> both W k (rret a) (c_ret b) (c_ret b) rel.
Proof.
  intros H. split.
  - intros c b' [-> ->]. exists a. split; [exact H|]. apply (proj1 (ahead_ret k a)). split; reflexivity.
  - intros _ s d p a' s' Hr E. injection E as <- <-. exists [], b. split; [|split; [split; reflexivity|split; [exact H|]]].
    + pose proof (proj2 (exact_ret a) s d p Hr) as G. cbn in G. destruct G as (c & Bt & [-> _] & _). exact Bt.
    + pose proof (proj2 (exact_ret a) s d p Hr) as G. cbn in G. destruct G as (c & _ & [-> _] & Hr'). exact Hr'.
Qed.
Lemma both_rel {A B} (W : Prop) k (m : RM A) (Rv Ra : code B) (rel rel' : B -> A -> Prop) : (forall b a, rel b a -> rel' b a) -> both W k m Rv Ra rel -> both W k m Rv Ra rel'.
Proof.
  intros H [H1 H2]. split.
  - intros c b Hb. destruct (H1 c b Hb) as (a & Ha & R). exists a. auto.
  - intros w s d p a s' Hr E. destruct (H2 w s d p a s' Hr E) as (c & b & B1 & B2 & B3 & B4). exists c, b. auto.
Qed.
Lemma complete_more {A B} k k' (m : RM A) (R : code B) rel : (k <= k')%nat -> complete k m R rel -> complete k' m R rel.
Proof.
  intros Hk H c b Hb. destruct (H c b Hb) as (a & Ha & R1). exists a. split; [exact Ha|]. intros s d p Hr Bt Hp. apply R1; [exact Hr|exact Bt|lia].
Qed.
Lemma both_wrap {A B C} (W : Prop) k (m : RM A) (Rv Ra : code B) (g : B -> C) (rel : B -> A -> Prop) (rel' : C -> A -> Prop) : both W k m Rv Ra rel ->
  (forall b a, (exists c, Rv c b \/ Ra c b) -> rel b a -> rel' (g b) a) -> both W k m (c_seq Rv (fun b => c_ret (g b))) (c_seq Ra (fun b => c_ret (g b))) rel'.
Proof.
  intros [H1 H2] H. split.
  - intros c y (c1 & c2 & b & -> & Hb & -> & ->). rewrite app_nil_r. destruct (H1 c1 b Hb) as (a & Ha & R). exists a. split; [|exact R]. apply H; [exists c1; now left|exact Ha].
  - intros w s d p a s' Hr E. destruct (H2 w s d p a s' Hr E) as (c & b & B1 & B2 & B3 & B4). exists c, (g b). split; [exact B1|]. split; [|split; [apply H; [exists c; now right|exact B3]|exact B4]].
    exists c, [], b. rewrite app_nil_r. split; [reflexivity|]. split; [exact B2|]. split; reflexivity.
Qed.
Lemma both_repeat {A B} (W : Prop) k n (m : RM A) (Rv Ra : code B) rel : both W k m Rv Ra rel -> both W k (rrepeat n m) (c_list n Rv) (c_list n Ra) (Forall2 rel).
Proof.
  intros H. induction n as [|n IH]; [apply both_ret; constructor|]. cbn [rrepeat c_list].
  eapply both_bind; [exact H|]. intros x a _ Hx. eapply both_bind; [exact IH|]. intros xs l _ Hxs. apply both_ret. now constructor.
Qed.
Lemma both_each {A B X Y} (W : Prop) k (f : A -> RM B) (Rv Ra : X -> code Y) rel (l : list A) (xs : list X) : Forall2 (fun x a => both W k (f a) (Rv x) (Ra x) rel) xs l ->
  both W k (rmapM f l) (c_each Rv xs) (c_each Ra xs) (Forall2 rel).
Proof.
  induction 1 as [|x a xs l H1 H2 IH]; [apply both_ret; constructor|]. cbn [rmapM c_each].
  eapply both_bind; [exact H1|]. intros y b _ Hy. eapply both_bind; [exact IH|]. intros ys bs _ Hys. apply both_ret. now constructor.
Qed.
Lemma both_lift_if {A B} (W : Prop) k (t : bool) (P : Prop) (m : RM A) (Rv Ra : code B) rel : (t = false <-> P) -> (P -> both W k m Rv Ra rel) ->
  both W k (if t then rerr else m) (c_guard P Rv) (c_guard P Ra) rel.
Proof.
  intros HP H. split.
  - intros c b [Hp Hb]. destruct t; [discriminate (proj2 HP Hp)|]. exact (proj1 (H Hp) c b Hb).
  - intros w s d p a s' Hr E. destruct t; [discriminate|]. pose proof (proj1 HP eq_refl) as Hp.
    destruct (proj2 (H Hp) w s d p a s' Hr E) as (c & b & B1 & B2 & B3). exists c, b. split; [exact B1|]. split; [split; assumption|exact B3].
Qed.

(* ---- parts ---- *)
Lemma log_width n : 0 <= n < 2 ^ 16 -> u32 (CeilLog1p n) = Z.of_nat (Z.to_nat (Z.log2_up (n + 1))) /\ (Z.to_nat (Z.log2_up (n + 1)) <= 17)%nat.
Proof.
  intros Hn. assert (B : 0 <= Z.log2_up (n + 1) <= 17).
  { split; [apply Z.log2_up_nonneg|]. change 17 with (Z.log2_up (2 ^ 17)). apply Z.log2_up_le_mono. lia. }
  assert (E : CeilLog1p n = Z.log2_up (n + 1)).
  { destruct (Z.eq_dec n 0) as [->|]; [reflexivity|]. rewrite CeilLog1p_len by lia. rewrite Z.log2_up_eqn by lia. destruct (Z.eqb_spec n 0); [lia|]. replace (Z.pred (n + 1)) with n by lia. lia. }
  rewrite E, u32_small by lia. lia.
Qed.
Definition hic (c : hconf) : HIC := mkHIC (h_e c) (h_i c) (h_j c).
Lemma fixed_bound n c v m : c_fixed n c v -> (n <= m)%nat -> 0 <= v < 2 ^ Z.of_nat m.
Proof. intros [_ H] Hm. split; [lia|]. apply Z.lt_le_trans with (2 ^ Z.of_nat n); [lia|]. apply Z.pow_le_mono_r; lia. Qed.
Lemma log_small n m : 0 <= n < 2 ^ Z.of_nat m -> (Z.to_nat (Z.log2_up (n + 1)) <= m)%nat.
Proof. intros H. apply Nat2Z.inj_le. rewrite Z2Nat.id by apply Z.log2_up_nonneg. rewrite <- (Z.log2_up_pow2 (Z.of_nat m)) by lia. apply Z.log2_up_le_mono. lia. Qed.
Lemma both_config (W : Prop) k las : 0 <= las <= 15 -> both W k (NewHybridIntegerConfigWithReader las) (config_code las) (config_code las) (fun b a => a = hic b).
Proof.
  intros Hl. unfold NewHybridIntegerConfigWithReader, config_code. destruct (log_width las ltac:(lia)) as [-> W1].
  eapply both_bind; [apply both_id, exact_bits; [reflexivity|lia]|]. intros e a [c [Hc|Hc]] ->; (assert (He : 0 <= e < 16) by (apply (fixed_bound _ _ _ 4 Hc); apply log_small; change (2 ^ Z.of_nat 4) with 16; lia)).
  all: cbv zeta; rewrite (i32_small e) by lia; destruct (Z.eqb_spec e las) as [->|]; [apply both_ret; reflexivity|].
  all: destruct (log_width e ltac:(lia)) as [-> W2]; eapply both_bind; [apply both_id, exact_bits; [reflexivity|lia]|].
  all: intros i a [c' [Hc'|Hc']] ->; (assert (Hi : 0 <= i < 16) by (apply (fixed_bound _ _ _ 4 Hc'); apply log_small; change (2 ^ Z.of_nat 4) with 16; lia)).
  all: rewrite (i32_small i) by lia; apply both_lift_if; [lia|]; intros Hie.
  all: rewrite (i32_small (e - i)) by lia; destruct (log_width (e - i) ltac:(lia)) as [-> W3]; eapply both_bind; [apply both_id, exact_bits; [reflexivity|lia]|].
  all: intros j a [c'' [Hj'|Hj']] ->; (assert (Hj : 0 <= j < 16) by (apply (fixed_bound _ _ _ 4 Hj'); apply log_small; change (2 ^ Z.of_nat 4) with 16; lia)).
  all: rewrite (i32_small j) by lia; rewrite (i32_small (i + j)) by lia; apply both_lift_if; [lia|]; intros _; apply both_ret; reflexivity.
Qed.
Lemma both_alphabet (W : Prop) k : both W k readAlphabetSize alphabet_code alphabet_code (fun b a => a = b /\ 1 <= b <= 2 ^ 16).
Proof.
  unfold readAlphabetSize, alphabet_code. eapply both_bind; [apply both_id, exact_bool|]. intros b a _ ->. destruct b; [|apply both_ret; lia].
  eapply both_bind; [apply both_id; apply (exact_bits 4 4); [reflexivity|lia]|]. intros n a [c Hc] ->. assert (Hn : 0 <= n < 16) by (destruct Hc as [[_ Hc]|[_ Hc]]; exact Hc).
  rewrite u32_small by lia. eapply both_bind; [apply both_id; apply (exact_bits (Z.to_nat n)); lia|].
  intros x a [c' Hx] ->. assert (Hx' : 0 <= x < 2 ^ n) by (destruct Hx as [[_ Hx]|[_ Hx]]; rewrite Z2Nat.id in Hx by lia; exact Hx).
  assert (P : 2 ^ n <= 2 ^ 15) by (apply Z.pow_le_mono_r; lia). rewrite Z.shiftl_1_l. rewrite i32_small by lia. apply both_ret. lia.
Qed.
Lemma both_prefix (W : Prop) a : 1 <= a <= 2 ^ 16 -> both W 7 (NewPrefixSymbolDistributionWithReader a) (prefix_code a) (prefix_code a) table_matches.
Proof.
  intros Ha. split.
  - intros c x Hx. destruct (prefix_complete a c x Ha Hx) as (v & R & D). exists v. split; [exact D|]. intros s d p Hr Bt Hp. apply R; [exact Hr|exact Bt|lia].
  - intros _ s d p v s' Hr E. destruct (prefix_sound a s d p v s' Ha Hr E) as (c & x & B1 & B2 & B3 & B4). exists c, x. auto.
Qed.
Lemma alias_shape las a u fs v : generateAliasMapping las a u fs = Ok v -> exists cut sym off, v = AnsDist (12 - las) fs cut sym off.
Proof.
  unfold generateAliasMapping. destruct (0 <=? u); [intros E; injection E as <-; eauto|]. destruct (_ <? _)%nat; [discriminate|].
  destruct (aliasInit _ _ _ _ _) as [over under]. destruct (aliasLoop _ _ _ _ _ _ _) as [[[c s] o]| |]; cbn [obind]; try discriminate.
  destruct (aliasFinish _ _ _ _) as [[c' s'] o']. intros E. injection E as <-. eauto.
Qed.
Lemma freqs_of_dist las c a u fs : 0 <= las <= 12 -> dist_code las c (a, u, fs) -> Forall (fun f => 0 <= f) fs -> freqs_ok las u fs.
Proof.
  intros Hlas Hc Hpos. destruct (dist_ok las c a u fs ltac:(lia) Hc) as (Hl & Hs & Hu & _).
  split; [lia|]. split; [assumption|]. split; [assumption|]. destruct Hu as [[-> Hu]|[Hu1 Hu2]]; [left|right]; rewrite Hl; auto.
Qed.
Lemma match_dist las c a u fs v : 0 <= las <= 12 -> dist_code las c (a, u, fs) -> Forall (fun f => 0 <= f) fs -> generateAliasMapping las a u fs = Ok v -> freqs_match las (a, u, fs) v.
Proof.
  intros Hl Hc Hp EA. pose proof (freqs_of_dist las c a u fs Hl Hc Hp) as Fo. destruct (alias_all las a u fs Fo) as (t & E & El & Ef & G). rewrite EA in E. injection E as ->.
  destruct t as [lb fr cut sym off]. cbn [at_lb at_freqs ProofANS.dist_of at_cut at_sym at_off] in *. subst lb fr. exists cut, sym, off. split; [reflexivity|]. cbn [fst snd]. intros _.
  destruct G as [_ G1 G2 G3 G4 _ Bj]. cbn [at_lb at_cut at_sym at_off] in *. replace (12 - (12 - las)) with las in * by lia. destruct Fo as (_ & _ & Hs & Hu).
  repeat (split; [assumption|]). intros Hone. destruct Hu as [[-> Hn]|[Hu Hn]].
  - destruct Hone as [|Hone]; [lia|]. destruct (standard_table las a fs Hl Hp Hs Hn Hone) as (cut' & sym' & off' & E' & S). rewrite EA in E'. injection E' as <- <- <-. exact S.
  - destruct (single_table las a (Z.to_nat u) fs Hl) as (cut' & sym' & off' & E' & S).
    + rewrite (nth_error_nth' fs) with (d := 0) by lia. now rewrite Hn.
    + rewrite Z2Nat.id in E' by lia. rewrite EA in E'. injection E' as <- <- <-. exact S.
Qed.
Lemma both_dist (W : Prop) las : 0 <= las <= 12 -> both W 7 (NewANSSymbolDistribution las) (proper_dist las) (dist_code las) (freqs_match las).
Proof.
  intros Hl. split.
  - intros c [[a u] fs] [Hc Hp]. cbn [snd] in Hp. destruct (alias_all las a u fs (freqs_of_dist las c a u fs Hl Hc Hp)) as (t & E & _ & _ & _).
    exists (ProofANS.dist_of t). split; [exact (match_dist las c a u fs _ Hl Hc Hp E)|].
    intros s d p Hr Hb Hk. destruct (proj1 (ahead_dist las ltac:(lia)) _ _ Hc s d p Hr Hb Hk) as (s' & E' & Hr').
    exists s'. split; [|assumption]. unfold NewANSSymbolDistribution, rbind. rewrite E'. unfold rlift. rewrite E. reflexivity.
  - intros _ s d p v s' Hr E. unfold NewANSSymbolDistribution, rbind in E. pose proof (proj2 (ahead_dist las ltac:(lia)) s d p Hr) as H.
    destruct (readFrequencies las s) as [[[[a u] fs]| |] s1]; [|discriminate|discriminate]. destruct H as (c & Bt & Hc & Hr').
    unfold rlift in E. destruct (generateAliasMapping las a u fs) as [v'| |] eqn:EA; [|discriminate|discriminate]. injection E as <- <-.
    exists c, (a, u, fs). split; [exact Bt|]. split; [exact Hc|]. split; [|exact Hr'].
    destruct (alias_shape las a u fs v' EA) as (cut & sym & off & ->). exists cut, sym, off. split; [reflexivity|]. cbn [snd]. intros Hp.
    destruct (match_dist las c a u fs _ Hl Hc Hp EA) as (cut' & sym' & off' & E & G). injection E as <- <- <-. exact (G Hp).
Qed.

Lemma Forall2_length {A B} (P : A -> B -> Prop) l l' : Forall2 P l l' -> length l = length l'.
Proof. induction 1; cbn; lia. Qed.
Lemma Forall2_weaken {A B} (P Q : A -> B -> Prop) l l' : (forall a b, P a b -> Q a b) -> Forall2 P l l' -> Forall2 Q l l'.
Proof. intros H. induction 1; constructor; auto. Qed.
Lemma combine_parts {A B} (l : list A) (l' : list B) : length l = length l' -> map fst (combine l l') = l /\ map snd (combine l l') = l'.
Proof.
  revert l'. induction l as [|a l IH]; intros [|b l'] H; try discriminate H; [split; reflexivity|]. cbn in H. destruct (IH l' ltac:(lia)) as [E1 E2]. cbn. now rewrite E1, E2.
Qed.
(* ---- the header ---- *)
Definition map_rel (b a : list Z * Z) : Prop := a = b.
Lemma both_more {A B} (W : Prop) k k' (m : RM A) (Rv Ra : code B) rel : (k <= k')%nat -> both W k m Rv Ra rel -> both W k' m Rv Ra rel.
Proof. intros Hk [H1 H2]. split; [exact (complete_more k k' m Rv rel Hk H1)|exact H2]. Qed.
Lemma both_header (W : Prop) q rcm mapv mapa n disallow : (7 <= q)%nat -> 0 < n -> (forall k, k = n \/ k = n + 1 /\ disallow = false -> both W q (rcm (Z.to_nat k) k) (mapv k) (mapa k) map_rel) ->
  both W q (loadWith rcm n disallow) (header_code mapv proper_dist n (negb disallow)) (header_code mapa dist_code n (negb disallow)) (fun h e => stream_of h e /\ fresh e).
Proof.
  intros Hq Hn HM. unfold loadWith, header_code. replace (n <=? 0) with false by lia.
  eapply both_bind; [apply both_id, exact_bool|]. intros lz a _ ->.
  eapply (both_bind W q _ _ _ _ _ _ (fun b a => a = match b with Some (s, l, c) => (s, l, hic c, n + 1) | None => (0, 0, mkHIC 0 0 0, n) end /\ (lz = true <-> b <> None) /\ (lz = true -> disallow = false))).
  { destruct lz.
    - apply both_lift_if; [destruct disallow; cbn; intuition congruence|]. intros Hdis.
      eapply both_bind; [apply both_id; apply (exact_u32 224 0 512 0 4096 0 8 15); u32_side|]. intros s a [cs Hs] ->.
      eapply both_bind; [apply both_id; apply (exact_u32 3 0 4 0 5 2 9 8); u32_side|]. intros l a [cl Hl] ->.
      eapply both_bind; [apply both_config; lia|]. intros c a _ ->.
      assert (Bs : 0 <= s < 2 ^ 16).
      { assert (G : c_u32 224 0 512 0 4096 0 8 15 cs s) by tauto. destruct G as (i & x & Hi & Hx & _ & ->). cbv zeta in Hx; do 4 (destruct i as [|i]; [cbn [nth] in *; match type of Hx with _ <= _ < 2 ^ ?e => let v := eval vm_compute in (2 ^ e) in change (2 ^ e) with v in Hx end; lia|]); lia. }
      assert (Bl : 0 <= l < 2 ^ 16).
      { assert (G : c_u32 3 0 4 0 5 2 9 8 cl l) by tauto. destruct G as (i & x & Hi & Hx & _ & ->). cbv zeta in Hx; do 4 (destruct i as [|i]; [cbn [nth] in *; match type of Hx with _ <= _ < 2 ^ ?e => let v := eval vm_compute in (2 ^ e) in change (2 ^ e) with v in Hx end; lia|]); lia. }
      rewrite !i32_small by lia. apply both_ret. split; [reflexivity|]. split; [split; [discriminate|reflexivity]|]. intros _. now destruct disallow.
    - apply both_ret. split; [reflexivity|]. split; [split; [discriminate|congruence]|discriminate]. }
  intros lzp a _ (-> & Hlz & Hdis).
  assert (EN : match lzp with Some (s, l, c) => (s, l, hic c, n + 1) | None => (0, 0, mkHIC 0 0 0, n) end =
    (match lzp with Some (s, _, _) => s | None => 0 end, match lzp with Some (_, l, _) => l | None => 0 end, match lzp with Some (_, _, c) => hic c | None => mkHIC 0 0 0 end, if lz then n + 1 else n)).
  { destruct lzp as [[[s l] c]|]; destruct lz; try reflexivity; exfalso.
    - discriminate (proj2 Hlz ltac:(discriminate)).
    - now apply (proj1 Hlz eq_refl). }
  rewrite EN. eapply both_bind; [apply HM; destruct lz; [right; split; [reflexivity|now apply Hdis]|now left]|]. intros [cm nc] a _ ->. cbn [fst snd].
  eapply both_bind; [apply both_id, exact_bool|]. intros prefix a _ ->.
  eapply (both_bind W q _ _ _ _ _ _ (fun b a => a = b /\ 0 <= b <= 15 /\ (prefix = false -> b <= 8))).
  { destruct prefix; [apply both_ret; split; [reflexivity|split; [lia|discriminate]]|].
    eapply both_bind; [apply both_id; apply (exact_bits 2 2); [reflexivity|lia]|]. intros x a [c Hx] ->. assert (0 <= x < 4) by (destruct Hx as [[_ Hx]|[_ Hx]]; exact Hx).
    rewrite i32_small by lia. apply both_ret. lia. }
  intros las a _ (-> & Hlas & Hlas8). cbv zeta.
  eapply both_bind; [apply both_repeat; apply both_config; lia|]. intros configs cs [ccs HL] Hcs.
  assert (LC : length cs = Z.to_nat nc).
  { rewrite <- (Forall2_length _ _ _ Hcs). destruct HL as [HL|HL]; exact (syms_length _ _ _ _ HL). }
  eapply (both_bind W q _ _ _ _ _ _ (fun b a => codes_match las b a /\ length a = Z.to_nat nc)).
  { destruct prefix.
    - eapply both_bind; [apply both_repeat; apply both_alphabet|]. intros sizes a [cz HZ] Hs.
      assert (LZ : length sizes = Z.to_nat nc) by (destruct HZ as [HZ|HZ]; exact (syms_length _ _ _ _ HZ)).
      eapply both_wrap; [apply both_each; apply (Forall2_weaken (fun s b => b = s /\ 1 <= s <= 2 ^ 16)); [|exact Hs]; intros x y [-> Hx]; apply (both_more W 7 q _ _ _ _ Hq); now apply both_prefix|].
      intros ts vs [ct HT] Hv. split; [exact Hv|]. rewrite <- (Forall2_length _ _ _ Hv). rewrite <- LZ.
      assert (G : forall l c (t : list prefix_table), c_each prefix_code l c t -> length t = length l).
      { induction l as [|z l IH]; intros c t; cbn [c_each]; [intros [_ ->]; reflexivity|]. intros (? & ? & b & _ & _ & ? & ? & r & _ & Hr & _ & ->). cbn. f_equal. exact (IH _ _ Hr). }
      destruct HT as [HT|HT]; exact (G _ _ _ HT).
    - eapply both_wrap; [apply both_repeat; apply (both_more W 7 q _ _ _ _ Hq); apply both_dist; specialize (Hlas8 eq_refl); lia|]. intros fs vs [cf HF] Hv. split; [exact Hv|].
      rewrite <- (Forall2_length _ _ _ Hv). destruct HF as [HF|HF]; exact (syms_length _ _ _ _ HF). }
  intros codes vs _ [Hc Lv]. apply both_ret. destruct (combine_parts vs cs ltac:(lia)) as [E1 E2].
  split; [|repeat split; reflexivity]. unfold stream_of. cbn [es_clusterMap es_logAlphabetSize es_dists es_usesLZ77 es_lz77MinSymbol es_lz77MinLength es_lzLengthConfig hd_map hd_las hd_configs hd_codes hd_lz].
  rewrite E1, E2. split; [reflexivity|]. split; [reflexivity|]. split; [|split; [exact Hc|]].
  - clear - Hcs. induction Hcs as [|x y l l' Hx _ IH]; [reflexivity|]. cbn [map]. rewrite Hx, IH. reflexivity.
  - destruct lzp as [[[s l] c]|]; [|destruct lz; [|reflexivity]; exfalso; now apply (proj1 Hlz eq_refl)].
    assert (lz = true) as -> by (apply Hlz; discriminate). repeat split; reflexivity.
Qed.

(* ---- maps ---- *)
Lemma count_clusters cm : forall n, 0 <= n -> fold_left (fun n c => if n <=? c then c + 1 else n) cm n = Z.max n (1 + fold_right Z.max (-1) cm).
Proof.
  induction cm as [|c cm IH]; intros n Hn; cbn [fold_left fold_right]; [lia|].
  destruct (Z.leb_spec n c); rewrite IH by lia; lia.
Qed.
Lemma clusters_max cm : countClusters cm = 1 + fold_right Z.max (-1) cm.
Proof. unfold countClusters. rewrite count_clusters by lia. assert (-1 <= fold_right Z.max (-1) cm) by (induction cm; cbn [fold_right]; lia). lia. Qed.
Lemma simple_reads k w l : (w < 4)%nat -> Forall (fun x => 0 <= x < 2 ^ Z.of_nat w) l -> reads_ahead k (readSimple (length l) (Z.of_nat w)) (flat_map (zbits w) l) l.
Proof.
  intros Hw. induction 1 as [|x l Hx _ IH]; cbn [length readSimple flat_map]; [apply (proj1 (ahead_ret k [])); split; reflexivity|].
  assert (P : 2 ^ Z.of_nat w <= 2 ^ 3) by (apply Z.pow_le_mono_r; lia).
  apply reads_ahead_bind with x.
  - rewrite u32_small by lia. intros s d p Hr Bt _. apply (proj1 (exact_bits w (Z.of_nat w) eq_refl ltac:(lia)) (zbits w x) x); [split; [reflexivity|exact Hx]|exact Hr|exact Bt].
  - rewrite <- (app_nil_r (flat_map _ _)). apply reads_ahead_bind with l; [exact IH|]. replace (i64 x) with x; [apply (proj1 (ahead_ret k (x :: l))); split; reflexivity|].
    symmetry. apply i64_small. lia.
Qed.
Lemma complete_map k nested n : 0 < n -> complete k (readClusterMapWith nested (Z.to_nat n) n) (plain_map n) map_rel.
Proof.
  intros Hn c v H. exists v. split; [reflexivity|]. unfold readClusterMapWith, plain_map in *.
  destruct (Z.eqb_spec n 1) as [->|N].
  - destruct H as [-> ->]. cbn. apply (proj1 (ahead_ret k _)); split; reflexivity.
  - replace (Z.to_nat n =? 1)%nat with false by (symmetry; apply Nat.eqb_neq; lia).
    destruct H as (w & l & Hw & -> & Hl & HF & Hm & ->). rewrite <- (app_nil_r (_ :: _)). apply reads_ahead_bind with l.
    + change (true :: zbits 2 (Z.of_nat w) ++ flat_map (zbits w) l) with ([true] ++ zbits 2 (Z.of_nat w) ++ flat_map (zbits w) l).
      apply reads_ahead_bind with true; [intros s d p Hr Bt _; apply (proj1 exact_bool [true] true eq_refl); assumption|]. cbn iota.
      apply reads_ahead_bind with (Z.of_nat w).
      * intros s d p Hr Bt _. apply (proj1 (exact_bits 2 2 eq_refl ltac:(lia)) (zbits 2 (Z.of_nat w)) (Z.of_nat w)); [split; [reflexivity|change (2 ^ Z.of_nat 2) with 4; lia]|exact Hr|exact Bt].
      * replace (Z.to_nat n) with (length l) by lia. now apply simple_reads.
    + cbv zeta. rewrite clusters_max. replace (n <? 1 + fold_right Z.max (-1) l) with false by lia.
      apply (proj1 (ahead_ret k _)); split; reflexivity.
Qed.
Lemma sound_one nested : sound (readClusterMapWith nested 1 1) (plain_map 1) map_rel.
Proof.
  assert (H : both True 0 (readClusterMapWith nested 1 1) (plain_map 1) (plain_map 1) map_rel) by (apply (both_ret True 0 ([0], 1)); reflexivity). exact (proj2 H I).
Qed.
