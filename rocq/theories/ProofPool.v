(* Lemmas on the buffer pools. *)
From Coq Require Import ZArith List Bool Lia Arith Permutation ZifyBool ZifyNat.
From Verif Require Import GoBase GoLoop ModelPool SpecPool.
Import ListNotations.

Lemma key_eqb_eq a b : key_eqb a b = true <-> a = b.
Proof.
  destruct a as [[a1 a2] a3], b as [[b1 b2] b3]. unfold key_eqb. rewrite !andb_true_iff, !Nat.eqb_eq. split; [intros [[-> ->] ->]; reflexivity|intros [= -> -> ->]; auto].
Qed.
Lemma setPool_eq ps k v : setPool ps k v k = Some v.
Proof. unfold setPool. rewrite (proj2 (key_eqb_eq k k) eq_refl). reflexivity. Qed.
Lemma setPool_neq ps k v k' : k <> k' -> setPool ps k v k' = ps k'.
Proof. intros H. unfold setPool. destruct (key_eqb k k') eqn:E; [apply key_eqb_eq in E; congruence|reflexivity]. Qed.
Lemma key_dec (a b : Key) : {a = b} + {a <> b}.
Proof. destruct (key_eqb a b) eqn:E; [left; apply key_eqb_eq; exact E|right; intros H; apply key_eqb_eq in H; congruence]. Qed.

Definition flat (l : list Matrix3) : list nat := flat_map (@concat nat) l.
Lemma flat_app a b : flat (a ++ b) = flat a ++ flat b.
Proof. apply flat_map_app. Qed.
Lemma flat_cons m l : flat (m :: l) = concat m ++ flat l.
Proof. reflexivity. Qed.
Lemma in_flat r l : In r (flat l) <-> exists m, In m l /\ In r (concat m).
Proof. apply in_flat_map. Qed.
Lemma flat_perm_mid l1 m l2 : Permutation (flat (l1 ++ m :: l2)) (concat m ++ flat (l1 ++ l2)).
Proof. rewrite !flat_app. change (flat (m :: l2)) with (concat m ++ flat l2). apply Permutation_app_swap_app. Qed.
Lemma nodup_app {A} (a b : list A) : NoDup (a ++ b) <-> NoDup a /\ NoDup b /\ forall x, In x a -> ~ In x b.
Proof.
  induction a as [|x a IH]; cbn; [split; [intros H; repeat split; auto; constructor|tauto]|].
  split.
  - intros H. inversion H; subst. apply IH in H3 as (N1 & N2 & D). rewrite in_app_iff in H2. split; [constructor; tauto|]. split; [exact N2|].
    intros y [<-|Hy]; [tauto|apply D; exact Hy].
  - intros (N1 & N2 & D). inversion N1; subst. constructor.
    + rewrite in_app_iff. intros [H|H]; [tauto|]. exact (D x (or_introl eq_refl) H).
    + apply IH. repeat split; auto.
Qed.

(* the matrix has d channels of h rows of length w *)
Definition shaped (d h w : nat) (rows : nat -> list Z) (m : Matrix3) : Prop :=
  length m = d /\ Forall (fun c => length c = h) m /\ Forall (fun r => length (rows r) = w) (concat m).
Record inv (live : list Matrix3) (s : Mem) : Prop := {
  i_shape : Forall (fun m => exists d h w, shaped d h w (m_rows s) m) live;
  i_nodup : NoDup (flat live);
  i_next : forall r, In r (flat live) -> (r < m_next s)%nat;
  i_zero : forall d h w l, m_pools s (d, h, w) = Some l -> (d <> 0 /\ h <> 0 /\ w <> 0)%nat /\ Forall (zero_matrix d h w (m_rows s)) l;
  i_pnodup : forall k l, m_pools s k = Some l -> NoDup (flat l);
  i_pnext : forall k l r, m_pools s k = Some l -> In r (flat l) -> (r < m_next s)%nat;
  i_pdisj : forall k l k' l' r, m_pools s k = Some l -> m_pools s k' = Some l' -> In r (flat l) -> In r (flat l') -> k = k';
  i_disj : forall k l r, m_pools s k = Some l -> In r (flat l) -> ~ In r (flat live) }.

Lemma zero_shaped d h w rows m : zero_matrix d h w rows m -> shaped d h w rows m.
Proof. intros (H1 & H2 & H3). split; [exact H1|]. split; [exact H2|]. eapply Forall_impl; [|exact H3]. cbn. intros r ->. apply repeat_length. Qed.
Lemma shaped_ext d h w rows rows' m : (forall r, In r (concat m) -> length (rows' r) = length (rows r)) -> shaped d h w rows m -> shaped d h w rows' m.
Proof.
  intros E (H1 & H2 & H3). split; [exact H1|]. split; [exact H2|]. rewrite Forall_forall in *. intros r Hr. rewrite E by exact Hr. apply H3. exact Hr.
Qed.
Lemma zero_ext d h w rows rows' m : (forall r, In r (concat m) -> rows' r = rows r) -> zero_matrix d h w rows m -> zero_matrix d h w rows' m.
Proof.
  intros E (H1 & H2 & H3). split; [exact H1|]. split; [exact H2|]. rewrite Forall_forall in *. intros r Hr. rewrite E by exact Hr. apply H3. exact Hr.
Qed.

Lemma channelAddrs_spec d h b : length (channelAddrs d h b) = d /\ Forall (fun c => length c = h) (channelAddrs d h b) /\ concat (channelAddrs d h b) = seq b (d * h).
Proof.
  revert b. induction d as [|d IH]; intros b; cbn [channelAddrs length concat]; [repeat split; constructor|].
  destruct (IH (b + h)%nat) as (H1 & H2 & H3). split; [rewrite H1; reflexivity|]. split; [constructor; [apply seq_length|exact H2]|].
  rewrite H3. cbn [Nat.mul]. rewrite seq_app. reflexivity.
Qed.

(* a freshly made matrix *)
Lemma make_ok d h w s m t : makeMatrix3D d h w s = (m, t) ->
  zero_matrix d h w (m_rows t) m /\ concat m = seq (m_next s) (d * h) /\ m_next t = (m_next s + d * h)%nat /\ m_pools t = m_pools s /\
  forall r, (r < m_next s)%nat -> m_rows t r = m_rows s r.
Proof.
  unfold makeMatrix3D. intros [= <- <-]. cbn [m_rows m_next m_pools]. destruct (channelAddrs_spec d h (m_next s)) as (H1 & H2 & H3).
  split; [|split; [exact H3|split; [reflexivity|split; [reflexivity|]]]].
  - split; [exact H1|]. split; [exact H2|]. rewrite H3. apply Forall_forall. intros r Hr. apply in_seq in Hr.
    replace ((m_next s <=? r)%nat && (r <? m_next s + d * h)%nat) with true by lia. reflexivity.
  - intros r Hr. replace ((m_next s <=? r)%nat && (r <? m_next s + d * h)%nat) with false by lia. reflexivity.
Qed.

(* creating an empty pool does not matter *)
Lemma inv_empty_pool live s d h w l : (d <> 0 /\ h <> 0 /\ w <> 0)%nat -> m_pools s (d, h, w) = Some l \/ m_pools s (d, h, w) = None /\ l = [] ->
  inv live s -> inv live (mkMem (m_next s) (m_rows s) (setPool (m_pools s) (d, h, w) l)).
Proof.
  intros Hd Hl [A1 A2 A3 A4 A5 A6 A7 A8].
  assert (G : forall k l', setPool (m_pools s) (d, h, w) l k = Some l' -> m_pools s k = Some l' \/ k = (d, h, w) /\ l' = []).
  { intros k l' H. destruct (key_dec (d, h, w) k) as [<-|N]; [|rewrite setPool_neq in H by exact N; auto]. rewrite setPool_eq in H. injection H as <-. destruct Hl as [Hl|[_ ->]]; auto. }
  constructor; cbn [m_next m_rows m_pools]; auto.
  - intros d' h' w' l' H. apply G in H as [H|[[= -> -> ->] ->]]; [exact (A4 _ _ _ _ H)|]. split; [exact Hd|constructor].
  - intros k l' H. apply G in H as [H|[_ ->]]; [exact (A5 _ _ H)|constructor].
  - intros k l' r H Hr. apply G in H as [H|[_ ->]]; [exact (A6 _ _ _ H Hr)|destruct Hr].
  - intros k l1 k' l2 r H H' Hr Hr'. apply G in H as [H|[_ ->]]; [|destruct Hr]. apply G in H' as [H'|[_ ->]]; [|destruct Hr']. exact (A7 _ _ _ _ _ H H' Hr Hr').
  - intros k l' r H Hr. apply G in H as [H|[_ ->]]; [exact (A8 _ _ _ H Hr)|destruct Hr].
Qed.
Lemma inv_make live s d h w m t : inv live s -> makeMatrix3D d h w s = (m, t) ->
  inv (m :: live) t /\ zero_matrix d h w (m_rows t) m /\ (forall r, In r (concat m) -> (m_next s <= r)%nat).
Proof.
  intros [A1 A2 A3 A4 A5 A6 A7 A8] E. destruct (make_ok _ _ _ _ _ _ E) as (Z & C & N & P & R).
  assert (F : forall r, In r (concat m) -> (m_next s <= r < m_next t)%nat) by (intros r; rewrite C, in_seq, N; lia).
  split; [|split; [exact Z|intros r Hr; apply F in Hr; lia]].
  constructor; rewrite ?P.
  - constructor; [exists d, h, w; apply zero_shaped; exact Z|]. rewrite Forall_forall in *. intros o Ho. destruct (A1 o Ho) as (d' & h' & w' & S). exists d', h', w'.
    eapply shaped_ext; [|exact S]. intros r Hr. rewrite R; [reflexivity|]. apply A3. apply in_flat. exists o. auto.
  - cbn. apply nodup_app. split; [rewrite C; apply seq_NoDup|]. split; [exact A2|]. intros r Hr Hr'. apply F in Hr. apply A3 in Hr'. lia.
  - intros r Hr. cbn in Hr. apply in_app_iff in Hr as [Hr|Hr]; [apply F in Hr; lia|apply A3 in Hr; lia].
  - intros d' h' w' l H. destruct (A4 _ _ _ _ H) as [D Zs]. split; [exact D|]. rewrite Forall_forall in *. intros o Ho. eapply zero_ext; [|exact (Zs o Ho)].
    intros r Hr. apply R. apply (A6 _ _ _ H). apply in_flat. exists o. auto.
  - exact A5.
  - intros k l r H Hr. specialize (A6 _ _ _ H Hr). lia.
  - exact A7.
  - intros k l r H Hr Hr'. cbn in Hr'. apply in_app_iff in Hr' as [Hr'|Hr']; [|exact (A8 _ _ _ H Hr Hr')]. apply F in Hr'. specialize (A6 _ _ _ H Hr). lia.
Qed.
Lemma inv_reuse live s d h w m l1 l2 : inv live s -> m_pools s (d, h, w) = Some (l1 ++ m :: l2) ->
  inv (m :: live) (mkMem (m_next s) (m_rows s) (setPool (m_pools s) (d, h, w) (l1 ++ l2))).
Proof.
  intros [A1 A2 A3 A4 A5 A6 A7 A8] E.
  destruct (A4 _ _ _ _ E) as [D Zs]. apply Forall_app in Zs as [Z1 Z2]. inversion Z2 as [|? ? Zm Z2']; subst.
  pose proof (A5 _ _ E) as N. pose proof (Permutation_NoDup (flat_perm_mid l1 m l2) N) as N'. apply nodup_app in N' as (Nm & Nl & Dm).
  assert (Im : forall r, In r (concat m) -> In r (flat (l1 ++ m :: l2))) by (intros r Hr; eapply Permutation_in; [symmetry; apply flat_perm_mid|]; apply in_app_iff; auto).
  assert (Il : forall r, In r (flat (l1 ++ l2)) -> In r (flat (l1 ++ m :: l2))) by (intros r Hr; eapply Permutation_in; [symmetry; apply flat_perm_mid|]; apply in_app_iff; auto).
  assert (G : forall k l', setPool (m_pools s) (d, h, w) (l1 ++ l2) k = Some l' -> (k <> (d, h, w) /\ m_pools s k = Some l') \/ k = (d, h, w) /\ l' = l1 ++ l2).
  { intros k l' H. destruct (key_dec (d, h, w) k) as [<-|K]; [|rewrite setPool_neq in H by exact K; auto]. rewrite setPool_eq in H. injection H as <-. auto. }
  assert (G' : forall k l' r, setPool (m_pools s) (d, h, w) (l1 ++ l2) k = Some l' -> In r (flat l') -> exists l'', m_pools s k = Some l'' /\ In r (flat l'')).
  { intros k l' r H Hr. apply G in H as [[_ H]|[-> ->]]; [eauto|]. exists (l1 ++ m :: l2). auto. }
  constructor; cbn [m_next m_rows m_pools].
  - constructor; [exists d, h, w; apply zero_shaped; exact Zm|exact A1].
  - cbn. apply nodup_app. split; [exact Nm|]. split; [exact A2|]. intros r Hr. apply (A8 _ _ _ E). auto.
  - intros r Hr. cbn in Hr. apply in_app_iff in Hr as [Hr|Hr]; [apply (A6 _ _ _ E); auto|auto].
  - intros d' h' w' l H. apply G in H as [[_ H]|[[= -> -> ->] ->]]; [exact (A4 _ _ _ _ H)|]. split; [exact D|]. apply Forall_app. auto.
  - intros k l H. apply G in H as [[_ H]|[-> ->]]; [exact (A5 _ _ H)|exact Nl].
  - intros k l r H Hr. destruct (G' _ _ _ H Hr) as (l'' & H1 & H2). exact (A6 _ _ _ H1 H2).
  - intros k l k' l' r H H' Hr Hr'. destruct (G' _ _ _ H Hr) as (q & H1 & H2). destruct (G' _ _ _ H' Hr') as (q' & H3 & H4). exact (A7 _ _ _ _ _ H1 H3 H2 H4).
  - intros k l r H Hr Hr'. cbn in Hr'. apply in_app_iff in Hr' as [Hr'|Hr'].
    + apply G in H as [[K H]|[-> ->]]; [|exact (Dm r Hr' Hr)]. apply K. exact (A7 _ _ _ _ _ H E Hr (Im r Hr')).
    + destruct (G' _ _ _ H Hr) as (q & H1 & H2). exact (A8 _ _ _ H1 H2 Hr').
Qed.
Lemma inv_get live s d h w m t : inv live s -> pget d h w s m t -> inv (m :: live) t /\ zero_matrix d h w (m_rows t) m.
Proof.
  intros I E. destruct E as [m t Hz E|m t l Hd Hl E|m l1 l2 Hd E].
  - destruct (inv_make _ _ _ _ _ _ _ I E) as (H1 & H2 & _). auto.
  - destruct (inv_make _ _ _ _ _ _ _ (inv_empty_pool _ _ _ _ _ _ Hd Hl I) E) as (H1 & H2 & _). auto.
  - split; [exact (inv_reuse _ _ _ _ _ _ _ _ I E)|]. cbn [m_rows]. destruct I as [_ _ _ A4 _ _ _ _]. destruct (A4 _ _ _ _ E) as [_ Z]. rewrite Forall_forall in Z. apply Z. apply in_app_iff. right. left. reflexivity.
Qed.
Lemma inv_forget l1 m l2 s : inv (l1 ++ m :: l2) s -> inv (l1 ++ l2) s.
Proof.
  intros [A1 A2 A3 A4 A5 A6 A7 A8].
  assert (Il : forall r, In r (flat (l1 ++ l2)) -> In r (flat (l1 ++ m :: l2))) by (intros r Hr; eapply Permutation_in; [symmetry; apply flat_perm_mid|]; apply in_app_iff; auto).
  pose proof (Permutation_NoDup (flat_perm_mid l1 m l2) A2) as N'. apply nodup_app in N' as (Nm & Nl & Dm).
  constructor; auto.
  - apply Forall_app in A1 as [B1 B2]. inversion B2; subst. apply Forall_app. auto.
  - intros k l r H Hr Hr'. exact (A8 _ _ _ H Hr (Il r Hr')).
Qed.
Lemma inv_write live s m r v : inv live s -> In m live -> In r (concat m) -> length v = length (m_rows s r) ->
  inv live (mkMem (m_next s) (fun a => if (a =? r)%nat then v else m_rows s a) (m_pools s)).
Proof.
  intros [A1 A2 A3 A4 A5 A6 A7 A8] Hm Hr Hv. constructor; cbn [m_next m_rows m_pools]; auto.
  - rewrite Forall_forall in *. intros o Ho. destruct (A1 o Ho) as (d & h & w & S). exists d, h, w. eapply shaped_ext; [|exact S].
    intros a _. cbn. destruct (Nat.eqb_spec a r) as [->|]; auto.
  - intros d h w l H. destruct (A4 _ _ _ _ H) as [D Z]. split; [exact D|]. rewrite Forall_forall in *. intros o Ho. eapply zero_ext; [|exact (Z o Ho)].
    intros a Ha. cbn. destruct (Nat.eqb_spec a r) as [->|]; [|reflexivity]. exfalso. apply (A8 _ _ r H); apply in_flat; [exists o; auto|exists m; auto].
Qed.
Lemma clearRows_in m rows a : In a (concat m) -> clearRows m rows a = repeat 0%Z (length (rows a)).
Proof. intros H. unfold clearRows. rewrite (proj2 (existsb_exists _ _)); [reflexivity|]. exists a. split; [exact H|apply Nat.eqb_refl]. Qed.
Lemma clearRows_out m rows a : ~ In a (concat m) -> clearRows m rows a = rows a.
Proof. intros H. unfold clearRows. destruct (existsb _ _) eqn:E; [|reflexivity]. apply existsb_exists in E as (b & Hb & E). apply Nat.eqb_eq in E. subst. contradiction. Qed.
Lemma clearRows_len m rows a : length (clearRows m rows a) = length (rows a).
Proof. unfold clearRows. destruct (existsb _ _); [apply repeat_length|reflexivity]. Qed.

Lemma inv_put l1 m l2 s : inv (l1 ++ m :: l2) s -> inv (l1 ++ l2) (pput m s).
Proof.
  intros I. pose proof (inv_forget _ _ _ _ I) as I'. unfold pput. destruct m as [|[|r rs] m']; [exact I'|exact I'|]. set (m := (r :: rs) :: m') in *.
  destruct (m_pools s (length m, length (r :: rs), length (m_rows s r))) as [l|] eqn:E; [|exact I'].
  destruct I as [A1 A2 A3 A4 A5 A6 A7 A8], I' as [B1 B2 B3 _ _ _ _ _].
  apply Forall_app in A1 as [_ A1]. inversion A1 as [|? ? (d & h & w & S1 & S2 & S3) _]; subst.
  assert (h = length (r :: rs)) by (unfold m in S2; inversion S2; congruence). subst h.
  assert (w = length (m_rows s r)) by (unfold m in S3; cbn in S3; inversion S3; congruence). subst w.
  pose proof (Permutation_NoDup (flat_perm_mid l1 m l2) A2) as N'. apply nodup_app in N' as (Nm & Nl & Dm).
  assert (Im : forall a, In a (concat m) -> In a (flat (l1 ++ m :: l2))) by (intros a Ha; eapply Permutation_in; [symmetry; apply flat_perm_mid|]; apply in_app_iff; auto).
  set (key := (length m, length (r :: rs), length (m_rows s r))) in *.
  assert (G : forall k l', setPool (m_pools s) key (m :: l) k = Some l' -> (k <> key /\ m_pools s k = Some l') \/ k = key /\ l' = m :: l).
  { intros k l' H. destruct (key_dec key k) as [<-|K]; [|rewrite setPool_neq in H by exact K; auto]. rewrite setPool_eq in H. injection H as <-. auto. }
  assert (O : forall k l' a, m_pools s k = Some l' -> In a (flat l') -> ~ In a (concat m)) by (intros k l' a H Ha Hm; exact (A8 _ _ _ H Ha (Im a Hm))).
  assert (ZK : forall d h w l', m_pools s (d, h, w) = Some l' -> Forall (zero_matrix d h w (clearRows m (m_rows s))) l').
  { intros d h w l' H. destruct (A4 _ _ _ _ H) as [_ Z]. rewrite Forall_forall in *. intros o Ho. eapply zero_ext; [|exact (Z o Ho)].
    intros a Ha. apply clearRows_out. apply (O _ _ _ H). apply in_flat. exists o. auto. }
  constructor; cbn [m_next m_rows m_pools]; auto.
  - rewrite Forall_forall in *. intros o Ho. destruct (B1 o Ho) as (d' & h' & w' & S). exists d', h', w'. eapply shaped_ext; [|exact S]. intros a _. apply clearRows_len.
  - intros d' h' w' l' H. apply G in H as [[_ H]|[K ->]]; [split; [exact (proj1 (A4 _ _ _ _ H))|exact (ZK _ _ _ _ H)]|].
    unfold key in K; pose proof (f_equal (fun k : Key => fst (fst k)) K) as K1; pose proof (f_equal (fun k : Key => snd (fst k)) K) as K2; pose proof (f_equal (fun k : Key => snd k) K) as K3; cbn [fst snd] in K1, K2, K3; clear K; rewrite K1, K2, K3. unfold key in E. split; [exact (proj1 (A4 _ _ _ _ E))|]. constructor; [|exact (ZK _ _ _ _ E)].
    split; [reflexivity|]. split; [exact S2|]. rewrite Forall_forall in *. intros a Ha. rewrite clearRows_in by exact Ha. rewrite S3 by exact Ha. reflexivity.
  - intros k l' H. apply G in H as [[_ H]|[-> ->]]; [exact (A5 _ _ H)|]. rewrite flat_cons. apply nodup_app. split; [exact Nm|]. split; [exact (A5 _ _ E)|].
    intros a Ha Ha'. exact (O _ _ _ E Ha' Ha).
  - intros k l' a H Ha. apply G in H as [[_ H]|[-> ->]]; [exact (A6 _ _ _ H Ha)|]. rewrite flat_cons in Ha. apply in_app_iff in Ha as [Ha|Ha]; [auto|exact (A6 _ _ _ E Ha)].
  - intros k q k' q' a H H' Ha Ha'. apply G in H as [[K H]|[K ->]]; apply G in H' as [[K' H']|[K' ->]]; [exact (A7 _ _ _ _ _ H H' Ha Ha')| | |congruence].
    + rewrite K'. rewrite flat_cons in Ha'. apply in_app_iff in Ha' as [Ha'|Ha']; [exfalso; exact (O _ _ _ H Ha Ha')|exact (A7 _ _ _ _ _ H E Ha Ha')].
    + rewrite K. rewrite flat_cons in Ha. apply in_app_iff in Ha as [Ha|Ha]; [exfalso; exact (O _ _ _ H' Ha' Ha)|exact (A7 _ _ _ _ _ E H' Ha Ha')].
  - intros k q a H Ha Ha'. assert (X : In a (flat (l1 ++ m :: l2))) by (eapply Permutation_in; [symmetry; apply flat_perm_mid|]; apply in_app_iff; auto).
    apply G in H as [[_ H]|[-> ->]]; [exact (A8 _ _ _ H Ha X)|]. rewrite flat_cons in Ha. apply in_app_iff in Ha as [Ha|Ha]; [exact (Dm a Ha Ha')|exact (A8 _ _ _ E Ha X)].
Qed.
Lemma inv_init : inv [] mem_init.
Proof. constructor; cbn; try constructor; try discriminate; contradiction. Qed.
Lemma history_inv live s : history live s -> inv live s.
Proof.
  induction 1 as [|live s d h w m t H IH E|live s d h w m t H IH E|live s m r v H IH Hm Hr Hv|l1 m l2 s H IH|l1 m l2 s H IH].
  - exact inv_init.
  - exact (proj1 (inv_get _ _ _ _ _ _ _ IH E)).
  - exact (proj1 (inv_make _ _ _ _ _ _ _ IH E)).
  - exact (inv_write _ _ _ _ _ IH Hm Hr Hv).
  - exact (inv_put _ _ _ _ IH).
  - exact (inv_forget _ _ _ _ IH).
Qed.
Lemma pooled_get live s d h w m t : history live s -> pget d h w s m t ->
  zero_matrix d h w (m_rows t) m /\ separate m live /\ (forall k l, m_pools t k = Some l -> separate m l).
Proof.
  intros H E. destruct (inv_get _ _ _ _ _ _ _ (history_inv _ _ H) E) as [[A1 A2 A3 A4 A5 A6 A7 A8] Z]. split; [exact Z|].
  cbn in A2. apply nodup_app in A2 as (N & _ & D). split.
  - split; [exact N|]. intros r o Hr Ho Hr'. apply (D r Hr). apply in_flat. exists o. auto.
  - intros k l Hk. split; [exact N|]. intros r o Hr Ho Hr'. apply (A8 _ _ r Hk); [apply in_flat; exists o; auto|]. cbn. apply in_app_iff. auto.
Qed.

(* ---- the frame buffer ---- *)
Lemma decodeVarDCT_zero c0 c1 c2 work s h w l : (h <> 0)%nat -> length c0 = h -> (forall r, In r (concat [c0; c1; c2]) -> length (work (m_rows s) r) = w) ->
  m_pools s (3%nat, h, w) = Some l ->
  let t := decodeVarDCT [c0; c1; c2] work s in
  (forall r, In r (concat [c0; c1; c2]) -> m_rows t r = repeat 0%Z w) /\ m_pools t (3%nat, h, w) = Some ([c0; c1; c2] :: l).
Proof.
  intros Hh Hc Hw HP. unfold decodeVarDCT, pput. destruct c0 as [|r rs]; [cbn in Hc; lia|]. cbn [m_rows m_next m_pools].
  assert (Hr : length (work (m_rows s) r) = w) by (apply Hw; cbn; auto). rewrite Hc, Hr. change (length [r :: rs; c1; c2]) with 3%nat. rewrite HP. cbn [m_rows m_pools]. split.
  - intros a Ha. rewrite clearRows_in by exact Ha. rewrite Hw by exact Ha. reflexivity.
  - apply setPool_eq.
Qed.
Lemma decodeVarDCT_keep c0 c1 c2 work s h w : length c0 = h -> (forall r, In r (concat [c0; c1; c2]) -> length (work (m_rows s) r) = w) ->
  m_pools s (3%nat, h, w) = None -> m_rows (decodeVarDCT [c0; c1; c2] work s) = work (m_rows s).
Proof.
  intros Hc Hw HP. unfold decodeVarDCT, pput. destruct c0 as [|r rs]; [reflexivity|]. cbn [m_rows m_next m_pools].
  assert (Hr : length (work (m_rows s) r) = w) by (apply Hw; cbn; auto). rewrite Hc, Hr. change (length [r :: rs; c1; c2]) with 3%nat. rewrite HP. reflexivity.
Qed.
