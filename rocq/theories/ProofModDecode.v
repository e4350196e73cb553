(* Decoding whole modular streams. *)
From Coq Require Import ZArith List Bool Lia ZifyBool ZifyNat.
From Verif Require Import GoBase GoLoop GoMatrix Bits ModelBitReader ModelUtil ModelEntropy ModelMATree ModelModular ModelModStream ModelModDecode.
From Verif Require Import SpecCodes SpecBitReader SpecGrammar SpecStream SpecSymbols SpecMATree SpecTreeCode SpecModular SpecChannel SpecModStream SpecModDecode.
From Verif Require Import ProofCodes ProofMATree ProofModular ProofPredict ProofChannel ProofModStream3 PropChannel.
Import ListNotations.
Open Scope Z_scope.

Definition tree_fine (nodes : list Node) : Prop :=
  proper_tree nodes /\ Forall (fun n => n_property n < 2 ^ 31 /\ (n_property n < 0 -> 0 <= n_predictor n <= 13)) nodes.

Lemma eloop_none {S0} (f : nat -> S0 -> EM S0) n i s st : (forall j, f j s st = (Ok s, st)) -> eloop n i f s st = (Ok s, st).
Proof. intros H. revert i. induction n as [|n IH]; intros i; cbn [eloop]; [reflexivity|]. rewrite (ebind_ok _ _ _ _ _ (H i)). apply IH. Qed.
Lemma decode_empty wp nodes mc prev ch stream dm s : tree_fine nodes -> c_height mc = 0 \/ c_width mc = 0 -> c_buf mc = [] -> c_decoded mc = false ->
  exists pred, decode wp nodes mc prev ch stream dm s = (Ok (mkChan (c_height mc) (c_width mc) (c_vshift mc) (c_hshift mc) (c_forceWP mc) [] true pred), s).
Proof.
  intros [HT _] H0 Cb Cd. unfold decode. rewrite Cd.
  assert (Ea : allocate mc = set_buf mc []).
  { unfold allocate. rewrite Cb. cbn [length Nat.eqb negb]. replace ((c_height mc =? 0) || (c_width mc =? 0)) with true by lia. reflexivity. }
  rewrite Ea. cbv zeta. cbn [set_buf c_height c_width c_vshift c_hshift c_forceWP c_buf c_pred].
  assert (L0 : (0 < length nodes)%nat) by (destruct HT as [Q _]; destruct nodes; [congruence|cbn; lia]).
  destruct (compactify_ok nodes ch stream HT (length nodes) 0%nat L0 ltac:(lia)) as (root & Er & Hr & _ & _). change (Z.of_nat 0) with 0 in Er.
  rewrite (ebind_ok _ _ _ _ _ (eq_trans (f_equal (fun o => elift o s) Er) (elift_ok _ _))). cbv beta.
  destruct (weighted_ok nodes HT (length nodes) root ltac:(lia) ltac:(lia)) as (b & Eb & _).
  assert (E1 : (if c_forceWP mc then eret true else elift (useWeightedPredictor (length nodes) nodes (Z.of_nat root))) s = (Ok (if c_forceWP mc then true else b), s)).
  { destruct (c_forceWP mc); [reflexivity|]. rewrite Eb. apply elift_ok. }
  rewrite (ebind_ok _ _ _ _ _ E1). cbv beta. set (useWP := if c_forceWP mc then true else b). set (st0 := mkDS _ _ _).
  exists (d_pred st0). match goal with |- ebind ?m ?f s = _ => assert (E2 : m s = (Ok st0, s)); [|rewrite (ebind_ok _ _ _ _ _ E2); reflexivity] end.
  destruct H0 as [H0|H0]; rewrite H0; change (Z.to_nat 0) with 0%nat; [reflexivity|].
  apply eloop_none. intros y.
  destruct (compactifyY_ok nodes ch stream (Z.of_nat y) HT (length nodes) root ltac:(lia) ltac:(lia)) as (f & Ef & Hf & _ & _).
  rewrite (ebind_ok _ _ _ _ _ (eq_trans (f_equal (fun o => elift o s) Ef) (elift_ok _ _))). reflexivity.
Qed.

(* decoded channels with the samples of planes *)
Definition shown (c : Chan) (p : Plane) : Prop := shows c p /\ rect (p_h p) (p_w p) (p_px p) /\ samples_within (2 ^ 26) (p_px p) /\ c_decoded c = true.
Lemma Forall2_rev {A B} (R : A -> B -> Prop) l m : Forall2 R l m -> Forall2 R (rev l) (rev m).
Proof. induction 1; cbn; [constructor|]. apply Forall2_app; [assumption|]. constructor; [assumption|constructor]. Qed.
Lemma earlier_references mc q done Qd : laid mc q -> (1 <= p_h q)%nat -> (1 <= p_w q)%nat -> Forall2 shown done Qd -> earlier mc (rev done) = refs_of Qd q.
Proof.
  intros (E1 & E2 & E3 & E4 & _) Hh Hw F. apply Forall2_rev in F. unfold earlier, refs_of. induction F as [|c p l m ((S1 & S2 & S3 & S4 & S5) & _) F IH]; [reflexivity|].
  cbn [filter map]. unfold alike at 1. rewrite S1, S2, S3, S4. rewrite E1, E2, E3, E4 in IH |- *.
  replace ((Z.of_nat (p_w p) =? Z.of_nat (p_w q)) && (Z.of_nat (p_h p) =? Z.of_nat (p_h q)) && (p_hs p =? p_hs q) && (p_vs p =? p_vs q))
    with ((p_h p =? p_h q)%nat && (p_w p =? p_w q)%nat && (p_vs p =? p_vs q) && (p_hs p =? p_hs q)).
  2: { destruct (p_hs p =? p_hs q), (p_vs p =? p_vs q); lia. }
  destruct ((p_h p =? p_h q)%nat && (p_w p =? p_w q)%nat && (p_vs p =? p_vs q) && (p_hs p =? p_hs q)) eqn:C; [|exact IH].
  cbn [map]. f_equal; [|exact IH]. destruct S5 as [->|[K _]]; [reflexivity|lia].
Qed.
Lemma within_rect b q : rect (p_h q) (p_w q) (p_px q) -> (forall y x, (y < p_h q)%nat -> (x < p_w q)%nat -> - b <= px (p_px q) y x <= b) -> samples_within b (p_px q).
Proof.
  intros [R1 R2] H. unfold samples_within. apply Forall_forall. intros r Hr. apply Forall_forall. intros v Hv.
  destruct (In_nth _ _ [] Hr) as (y & Hy & Ey). destruct (In_nth _ _ 0 Hv) as (x & Hx & Ex). rewrite Forall_forall in R2. pose proof (R2 r Hr) as Lr.
  specialize (H y x ltac:(lia) ltac:(lia)). unfold px in H. rewrite Ey, Ex in H. lia.
Qed.

Definition gives_m (m : Z) (ss : nat -> ES * BR) (l : list (Z * Z)) : Prop :=
  forall k ctx v, nth_error l k = Some (ctx, v) -> ReadSymbolWithMultiplier ctx m (ss k) = (Ok v, ss (S k)).

Lemma decode_plane wp nodes stream m mc q done Qd l ss : tree_fine nodes -> header_fields wp -> laid mc q -> good_plane q -> Forall2 shown done Qd -> Z.of_nat (length done) < 2 ^ 28 ->
  plane_sends wp nodes stream Qd q l -> gives_m m ss l ->
  exists c, decode wp nodes mc (rev done) (Z.of_nat (length done)) stream m (ss 0%nat) = (Ok c, ss (length l)) /\ shown c q.
Proof.
  intros HT HF HL (R & G1 & G2) FD HN (Ll & B & E & T & HW & HP) HG. pose proof HL as (L1 & L2 & L3 & L4 & L5 & L6 & L7). pose proof (Forall2_length _ _ _ FD) as LD.
  assert (W : samples_within (2 ^ 26) (p_px q)) by (apply within_rect; assumption).
  destruct (Nat.eq_dec (p_h q * p_w q) 0) as [Z0|Z0].
  - assert (Z1 : p_h q = 0%nat \/ p_w q = 0%nat) by (apply Nat.eq_mul_0; exact Z0).
    destruct (decode_empty wp nodes mc (rev done) (Z.of_nat (length done)) stream m (ss 0%nat) HT ltac:(lia) L5 L6) as (pred & D).
    eexists. split; [rewrite D, Ll, Z0; reflexivity|]. split; [|split; [exact R|split; [exact W|reflexivity]]]. unfold shows. cbn [c_height c_width c_vshift c_hshift c_buf].
    split; [exact L1|]. split; [exact L2|]. split; [exact L3|]. split; [exact L4|]. right. split; [exact Z1|reflexivity].
  - assert (H1 : (1 <= p_h q)%nat /\ (1 <= p_w q)%nat) by nia. destruct H1 as [H1 W1].
    destruct HT as [HT HN'].
    destruct (C92_channel_samples_partial wp nodes mc (rev done) stream m (p_h q) (p_w q) (px (p_px q)) E T ss HT HN' H1 W1 G2 L1 L2 L5 L6) as (c & D & C1 & C2 & C3 & C4 & C5 & C6 & C7).
    + rewrite rev_length. exact HN.
    + apply Forall_rev. rewrite L1, L2. apply Forall_forall. intros c Hc Eh Ew. destruct (Forall2_In_r _ _ _ _ FD Hc) as (p & _ & (S1 & S2 & _ & _ & S5) & Rp & Wp & _).
      assert (p_h p = p_h q /\ p_w p = p_w q) as [Q1 Q2] by lia. rewrite <- Q1, <- Q2. destruct S5 as [->|[K _]]; [split; assumption|lia].
    + exact B.
    + intros Hw. split; [exact HF|]. apply HW. destruct Hw as [K|(k & n & _ & En & Hn)]; [congruence|]. apply Exists_exists. exists n. split; [eapply nth_error_In; exact En|exact Hn].
    + intros y x Hy Hx. destruct (HP y x Hy Hx) as (leaf & n & d & D1 & D2 & D3 & D4 & D5). exists leaf, n, d. rewrite rev_length, LD.
      split; [rewrite (earlier_references mc q done Qd HL H1 W1 FD); exact D1|]. split; [exact D2|]. split; [rewrite Nat.add_1_r; apply HG, D3|]. split; [exact D4|exact D5].
    + rewrite rev_length in D. exists c. rewrite Ll. split; [exact D|]. split; [|split; [exact R|split; [exact W|exact C2]]]. unfold shows. rewrite C3, C4, C5, C6, C1.
      split; [exact L1|]. split; [exact L2|]. split; [exact L3|]. split; [exact L4|]. left. apply mat_px, R.
Qed.

Lemma gives_app m ss l l' : gives_m m ss (l ++ l') -> gives_m m ss l /\ gives_m m (fun k => ss (length l + k)%nat) l'.
Proof.
  intros H. split; intros k c v E.
  - apply H. rewrite nth_error_app1; [exact E|]. apply nth_error_Some. congruence.
  - replace (length l + S k)%nat with (S (length l + k)) by lia. apply H. rewrite nth_error_app2 by lia. replace (length l + k - length l)%nat with k by lia. exact E.
Qed.
Lemma decode_loop wp nodes (partial : bool) dim (meta : nat) stream m : tree_fine nodes -> header_fields wp -> 0 <= stream < 2 ^ 31 ->
  forall Qt todo done Qd Qr rest values ss, Forall2 shown done Qd -> Forall2 laid todo Qt -> Forall2 laid rest Qr -> Forall good_plane Qt ->
  planes_send wp nodes stream Qd Qt values -> gives_m m ss values -> Z.of_nat (length Qd + length Qt) < 2 ^ 28 ->
  (if partial then (forall i q, nth_error Qt i = Some q -> held meta dim (length Qd + i) q) /\ match Qr with [] => True | q :: _ => ~ held meta dim (length Qd + length Qt) q end else Qr = []) ->
  exists done', decodeLoop wp nodes partial dim (Z.of_nat meta) stream m done (todo ++ rest) (ss 0%nat) = (Ok (done' ++ rest), ss (length values)) /\ Forall2 shown done' (Qd ++ Qt).
Proof.
  intros HT HF Hs. induction Qt as [|q Qt IH]; intros todo done Qd Qr rest values ss FD FT FR FG PS HG HN HP.
  - inversion FT. subst todo. inversion PS. subst values. cbn [app length]. exists done. rewrite app_nil_r. split; [|exact FD].
    destruct partial.
    + destruct HP as [_ HP]. destruct rest as [|c rest]; [cbn; rewrite app_nil_r; reflexivity|]. inversion FR as [|? q' ? Q' L0 FR']. subst Qr. cbn [length] in HP.
      pose proof L0 as (L1 & L2 & _). unfold held in HP. rewrite Nat.add_0_r in HP. pose proof (Forall2_length _ _ _ FD) as LD.
      cbn [decodeLoop]. rewrite L1, L2. cbn [andb].
      replace ((Z.of_nat meta <=? Z.of_nat (length done)) && ((dim <? Z.of_nat (p_w q')) || (dim <? Z.of_nat (p_h q')))) with true by lia. reflexivity.
    + subst Qr. inversion FR. cbn. rewrite app_nil_r. reflexivity.
  - inversion FT as [|c c1 todo' Q1 Lc FT']. subst todo. inversion PS as [|q0 l t0 l' Hq PS' Eq0 El0]. subst values. inversion FG as [|? ? Gq FG']. subst.
    cbn [length] in HN. pose proof (Forall2_length _ _ _ FD) as LD. destruct (gives_app _ _ _ _ HG) as [HG1 HG2].
    destruct (decode_plane wp nodes stream m c q done Qd l ss HT HF Lc Gq FD ltac:(lia) Hq HG1) as (c' & D & Sc).
    assert (FD' : Forall2 shown (done ++ [c']) (Qd ++ [q])) by (apply Forall2_app; [exact FD|constructor; [exact Sc|constructor]]).
    destruct (IH todo' (done ++ [c']) (Qd ++ [q]) Qr rest l' (fun k => ss (length l + k)%nat) FD' FT' FR FG' PS' HG2) as (done' & E & F).
    + rewrite app_length. cbn [length]. lia.
    + destruct partial; [|exact HP]. destruct HP as [HP1 HP2]. rewrite app_length. cbn [length] in *. split.
      * intros i q' Ei. replace (length Qd + 1 + i)%nat with (length Qd + S i)%nat by lia. apply HP1. exact Ei.
      * replace (length Qd + 1 + length Qt)%nat with (length Qd + S (length Qt))%nat by lia. exact HP2.
    + exists done'. rewrite <- app_assoc in F. split; [|exact F]. cbn [app decodeLoop].
      assert (G : partial && (Z.of_nat meta <=? Z.of_nat (length done)) && ((dim <? c_width c) || (dim <? c_height c)) = false).
      { destruct partial; [|reflexivity]. destruct HP as [HP _]. specialize (HP 0%nat q eq_refl). rewrite Nat.add_0_r in HP. unfold held in HP. destruct Lc as (L1 & L2 & _). rewrite L1, L2. lia. }
      rewrite G. rewrite !(i32_small) by lia. rewrite (ebind_ok _ _ _ _ _ D). rewrite Nat.add_0_r in E. rewrite E. rewrite app_length. reflexivity.
Qed.

Lemma maxWidth_ok chs Q : Forall2 laid chs Q -> maxWidth chs = widest Q.
Proof.
  intros F. unfold maxWidth, widest. assert (G : forall a, 0 <= a -> fold_left (fun m c => if m <? c_width c then c_width c else m) chs a = Z.max a (fold_right Z.max 0 (map (fun q => Z.of_nat (p_w q)) Q))).
  { induction F as [|c q l t (_ & L2 & _) F IH]; intros a Ha; cbn [fold_left fold_right map]; [lia|]. rewrite IH, L2 by (destruct (a <? c_width c) eqn:X; lia). destruct (Z.ltb_spec a (Z.of_nat (p_w q))); lia. }
  rewrite G by lia. assert (0 <= fold_right Z.max 0 (map (fun q => Z.of_nat (p_w q)) Q)) by (induction Q; cbn; lia || (cbn in *; lia)). lia.
Qed.

(* ---- what the bits say about header and tree ---- *)
Lemma c_list_Forall {A} (R : code A) (P : A -> Prop) n c l : (forall c v, R c v -> P v) -> c_list n R c l -> Forall P l /\ length l = n.
Proof.
  intros H. revert c l. induction n as [|n IH]; intros c l; cbn [c_list].
  - intros [_ ->]. split; [constructor|reflexivity].
  - intros (c1 & c2 & v & -> & H1 & c3 & c4 & t & -> & H2 & _ & ->). destruct (IH _ _ H2) as [F L]. split; [constructor; [exact (H _ _ H1)|exact F]|cbn; lia].
Qed.
Lemma wp_fields_ok c wp : wp_code c wp -> header_fields wp.
Proof.
  intros (c1 & c2 & b & -> & _ & H). destruct b.
  - destruct H as [_ ->]. unfold header_fields, five_bit. cbn. repeat split; try lia. repeat constructor; lia.
  - destruct H as (c3 & c4 & l & -> & H1 & c5 & c6 & w & -> & H2 & _ & ->).
    destruct (c_list_Forall _ five_bit 7 _ _ (fun c v (H : c_fixed 5 c v) => proj2 H) H1) as [F L].
    destruct (c_list_Forall _ (fun g => 0 <= g <= 15) 4 _ _ (fun c v (H : c_fixed 4 c v) => ltac:(destruct H as [_ H]; cbn in H; lia)) H2) as [F2 L2].
    assert (N : forall i, (i < 7)%nat -> five_bit (nth i l 0)) by (intros i Hi; rewrite Forall_forall in F; apply F, nth_In; lia).
    unfold header_fields. cbn [wp_1 wp_2 wp_3a wp_3b wp_3c wp_3d wp_3e wp_weight]. repeat (split; [apply N; lia|]). split; [exact L2|exact F2].
Qed.
Lemma modular_fields D c g wp l : modular_code D c (g, wp, l) -> header_fields wp.
Proof. intros (c1 & c2 & b & -> & _ & c3 & c4 & w & -> & Hw & c5 & c6 & n & -> & _ & c7 & c8 & k & -> & _ & _ & E). injection E as _ <- _. exact (wp_fields_ok _ _ Hw). Qed.
Lemma tree_sent_fine nodes h c : tree_sent nodes h c -> tree_fine nodes.
Proof.
  intros ((HB & _) & _ & _ & l & c1 & c2 & (ls & Hs & _) & _). split; [exact HB|]. clear HB.
  induction Hs as [|n v t u Hn Hs IH]; constructor; [|exact IH].
  destruct Hn as [(x & H & _)|(o & k & b & H1 & _ & _ & _ & H2 & _)]; lia.
Qed.
Lemma combine_split_map {A B} (l : list (A * B)) : combine (map fst l) (map snd l) = l.
Proof. induction l as [|[a b] t IH]; cbn; congruence. Qed.
