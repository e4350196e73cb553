(* C20: the alias table. *)
From Coq Require Import ZArith List Bool Lia ZifyBool ZifyNat Permutation.
From Verif Require Import GoBase GoLoop Bits ModelBitReader ModelUtil ModelEntropy SpecEntropy.
From Verif Require Import ProofCodes.
Import ListNotations.
Open Scope Z_scope.

Definition g (l : list Z) (i : Z) : Z := nth (Z.to_nat i) l 0.
Lemma g_set l i j v : 0 <= i < Z.of_nat (length l) -> 0 <= j ->
  g (list_set l (Z.to_nat i) v) j = if j =? i then v else g l j.
Proof.
  intros Hi Hj. unfold g. rewrite nth_list_set by lia.
  destruct (Nat.eqb_spec (Z.to_nat j) (Z.to_nat i)), (Z.eqb_spec j i); try lia; reflexivity.
Qed.
Lemma sumZ_nil : sumZ [] = 0. Proof. reflexivity. Qed.
Lemma sumZ_cons a l : sumZ (a :: l) = a + sumZ l. Proof. reflexivity. Qed.
Lemma sumZ_app a b : sumZ (a ++ b) = sumZ a + sumZ b.
Proof. induction a as [|x a IH]; cbn [app]; [reflexivity|]. rewrite !sumZ_cons. lia. Qed.
Lemma sumZ_perm a b : Permutation a b -> sumZ a = sumZ b.
Proof. induction 1; rewrite ?sumZ_cons; lia. Qed.
Lemma sumZ_map_ext (f h : Z -> Z) l : (forall x, In x l -> f x = h x) -> sumZ (map f l) = sumZ (map h l).
Proof. intros H. f_equal. now apply map_ext_in. Qed.

Definition idx (T : nat) : list Z := map Z.of_nat (seq 0 T).
Lemma idx_in T i : In i (idx T) <-> 0 <= i < Z.of_nat T.
Proof.
  unfold idx. rewrite in_map_iff. split.
  - intros (k & <- & Hk). apply in_seq in Hk. lia.
  - intros H. exists (Z.to_nat i). split; [lia|]. apply in_seq. lia.
Qed.
Lemma idx_nodup T : NoDup (idx T).
Proof. unfold idx. apply FinFun.Injective_map_NoDup; [intros a b; lia|apply seq_NoDup]. Qed.

Record Inv (T : nat) (B : Z) (f : list Z) (over under full done cut sym off : list Z) : Prop := {
  iv_perm : Permutation (over ++ under ++ full ++ done) (idx T);
  iv_lc : length cut = T; iv_ls : length sym = T; iv_lo : length off = T;
  iv_over : forall i, In i over -> B < g cut i;
  iv_under : forall i, In i under -> g cut i < B;
  iv_full : forall i, In i full -> g cut i = B;
  iv_done : forall i, In i done -> g cut i < B /\ 0 <= g sym i < Z.of_nat T;
  iv_rng : forall i, 0 <= i < Z.of_nat T -> 0 <= g cut i <= g f i;
  iv_sum : sumZ (map (fun i => g cut i - B) (over ++ under)) = 0;
  iv_A : forall u, In u done -> g cut (g sym u) <= g off u /\ g off u + (B - g cut u) <= g f (g sym u);
  iv_B : forall s o, 0 <= s < Z.of_nat T -> g cut s <= o < g f s ->
           exists u, In u done /\ g sym u = s /\ g off u <= o < g off u + (B - g cut u);
  iv_C : forall u u' o, In u done -> In u' done -> g sym u = g sym u' ->
           g off u <= o < g off u + (B - g cut u) -> g off u' <= o < g off u' + (B - g cut u') -> u = u'
}.

Lemma sum_pos_has l : (forall x, In x l -> 0 < x) -> l <> [] -> 0 < sumZ l.
Proof.
  induction l as [|a l IH]; intros H Hn; [congruence|]. rewrite sumZ_cons.
  pose proof (H a (or_introl eq_refl)). destruct l as [|z l]; [rewrite sumZ_nil; lia|].
  assert (0 < sumZ (z :: l)); [|lia]. apply IH; [|discriminate]. intros x Hx. apply H. now right.
Qed.

Lemma aliasLoop_ok T B f : 0 < B -> (forall i, g f i <= 2 ^ 20) -> B <= 2 ^ 20 ->
  forall fuel over under full done cut sym off, Inv T B f over under full done cut sym off ->
  (length over + length under <= fuel)%nat ->
  exists cut' sym' off' full' done', aliasLoop fuel B over under cut sym off = Ok (cut', sym', off') /\
    Inv T B f [] [] full' done' cut' sym' off'.
Proof.
  intros HB Hf HB2. induction fuel as [|fuel IH]; intros over under full done cut sym off I Hlen.
  - destruct over as [|o over]; [|cbn in Hlen; lia]. destruct under as [|u under]; [|cbn in Hlen; lia].
    exists cut, sym, off, full, done. split; [reflexivity|assumption].
  - destruct over as [|o over].
    { (* finished: under must be empty *)
      destruct under as [|u under].
      - exists cut, sym, off, full, done. split; [reflexivity|assumption].
      - exfalso. pose proof (iv_sum _ _ _ _ _ _ _ _ _ _ I) as Hs. cbn [app] in Hs.
        assert (0 < sumZ (map (fun i => B - g cut i) (u :: under))).
        { apply sum_pos_has; [|discriminate]. intros x Hx. apply in_map_iff in Hx. destruct Hx as (i & <- & Hi).
          pose proof (iv_under _ _ _ _ _ _ _ _ _ _ I i Hi). lia. }
        assert (sumZ (map (fun i => B - g cut i) (u :: under)) = - sumZ (map (fun i => g cut i - B) (u :: under))).
        { clear. generalize (u :: under). induction l; cbn [map]; rewrite ?sumZ_nil, ?sumZ_cons; lia. }
        lia. }
    destruct under as [|u under].
    { exfalso. pose proof (iv_sum _ _ _ _ _ _ _ _ _ _ I) as Hs. rewrite app_nil_r in Hs.
      assert (0 < sumZ (map (fun i => g cut i - B) (o :: over))); [|lia].
      apply sum_pos_has; [|discriminate]. intros x Hx. apply in_map_iff in Hx. destruct Hx as (i & <- & Hi).
      pose proof (iv_over _ _ _ _ _ _ _ _ _ _ I i Hi). lia. }
    destruct I as [Ip Ilc Ils Ilo Iov Iun Ifu Ido Irng Isum IA IB IC].
    assert (Hnd : NoDup ((o :: over) ++ (u :: under) ++ full ++ done)).
    { eapply Permutation_NoDup; [apply Permutation_sym; exact Ip|apply idx_nodup]. }
    assert (Hin : forall i, In i ((o :: over) ++ (u :: under) ++ full ++ done) -> 0 <= i < Z.of_nat T).
    { intros i Hi. apply idx_in. eapply Permutation_in; [exact Ip|assumption]. }
    assert (Ho : 0 <= o < Z.of_nat T) by (apply Hin; now left).
    assert (Hu : 0 <= u < Z.of_nat T) by (apply Hin; apply in_or_app; right; now left).
    assert (Hcu := Iun u (or_introl eq_refl)). assert (Hco := Iov o (or_introl eq_refl)).
    assert (Hru := Irng u Hu). assert (Hro := Irng o Ho). pose proof (Hf o) as Hfo.
    assert (Hneq : u <> o) by (intros ->; lia).
    assert (Hou : ~ In o over /\ ~ In o under /\ ~ In o full /\ ~ In o done).
    { cbn [app] in Hnd. inversion Hnd as [|? ? Hn _]; subst. rewrite in_app_iff in Hn. cbn [In] in Hn. rewrite ?in_app_iff in Hn.
      repeat split; intros Hx; apply Hn; tauto. }
    assert (Huu : ~ In u over /\ ~ In u under /\ ~ In u full /\ ~ In u done).
    { cbn [app] in Hnd. inversion Hnd as [|? ? _ Hn]; subst. apply NoDup_remove_2 in Hn. rewrite !in_app_iff in Hn.
      repeat split; intros Hx; apply Hn; tauto. }
    destruct Hou as (Ho1 & Ho2 & Ho3 & Ho4). destruct Huu as (Hu1 & Hu2 & Hu3 & Hu4).
    cbn [aliasLoop].
    rewrite (slice_get_ok _ _ 0) by lia. cbn [obind]. rewrite (slice_get_ok cut o 0) by lia. cbn [obind].
    fold (g cut u). fold (g cut o).
    rewrite (i32_small (B - g cut u)) by lia. rewrite (i32_small (g cut o - _)) by lia.
    set (co' := g cut o - (B - g cut u)).
    rewrite !slice_set_ok by lia. cbn [obind].
    set (cut' := list_set cut (Z.to_nat o) co'). set (sym' := list_set sym (Z.to_nat u) o).
    set (off' := list_set off (Z.to_nat u) co').
    assert (Gc : forall i, 0 <= i -> g cut' i = if i =? o then co' else g cut i) by (intros i Hi; apply g_set; lia).
    assert (Gs : forall i, 0 <= i -> g sym' i = if i =? u then o else g sym i) by (intros i Hi; apply g_set; lia).
    assert (Go : forall i, 0 <= i -> g off' i = if i =? u then co' else g off i) by (intros i Hi; apply g_set; lia).
    assert (Gdone : forall v, In v done -> 0 <= v < Z.of_nat T /\ v <> o /\ v <> u).
    { intros v Hv. split; [apply Hin; rewrite !in_app_iff; auto|]. split; intros ->; contradiction. }
    assert (Gcu : g cut' u = g cut u) by (rewrite Gc by lia; destruct (Z.eqb_spec u o); [congruence|reflexivity]).
    (* common part of the new invariant *)
    assert (NDone : forall i, In i (u :: done) -> g cut' i < B /\ 0 <= g sym' i < Z.of_nat T).
    { intros i [<-|Hi].
      - rewrite Gcu, Gs, Z.eqb_refl by lia. lia.
      - destruct (Gdone i Hi) as (H1 & H2 & H3). rewrite Gc, Gs by lia.
        destruct (Z.eqb_spec i o), (Z.eqb_spec i u); try congruence. apply Ido, Hi. }
    assert (NRng : forall i, 0 <= i < Z.of_nat T -> 0 <= g cut' i <= g f i).
    { intros i Hi. rewrite Gc by lia. destruct (Z.eqb_spec i o) as [->|]; [unfold co'; lia|apply Irng, Hi]. }
    assert (NA : forall v, In v (u :: done) -> g cut' (g sym' v) <= g off' v /\ g off' v + (B - g cut' v) <= g f (g sym' v)).
    { intros v [<-|Hv].
      - rewrite Gs, Go, Gcu, Z.eqb_refl by lia. rewrite Gc, Z.eqb_refl by lia. unfold co'. lia.
      - destruct (Gdone v Hv) as (H1 & H2 & H3). pose proof (Ido v Hv) as [_ Hs]. rewrite Gs, Go by lia.
        destruct (Z.eqb_spec v u); [congruence|]. rewrite !Gc by lia. destruct (Z.eqb_spec v o); [congruence|].
        pose proof (IA v Hv). destruct (Z.eqb_spec (g sym v) o) as [E|E]; [rewrite E in *; unfold co'; lia|lia]. }
    assert (NB : forall s x, 0 <= s < Z.of_nat T -> g cut' s <= x < g f s ->
           exists v, In v (u :: done) /\ g sym' v = s /\ g off' v <= x < g off' v + (B - g cut' v)).
    { intros s x Hs Hx. rewrite Gc in Hx by lia.
      assert (Old : g cut s <= x < g f s -> exists v, In v (u :: done) /\ g sym' v = s /\ g off' v <= x < g off' v + (B - g cut' v)).
      { intros Hx'. destruct (IB s x Hs Hx') as (v & Hv & Hsv & Hov). destruct (Gdone v Hv) as (H1 & H2 & H3).
        exists v. split; [now right|]. rewrite Gs, Go, Gc by lia.
        destruct (Z.eqb_spec v u), (Z.eqb_spec v o); try congruence. split; assumption. }
      destruct (Z.eqb_spec s o) as [->|]; [|apply Old, Hx].
      destruct (Z_le_dec (g cut o) x); [apply Old; lia|].
      exists u. split; [now left|]. rewrite Gs, Go, Gcu, Z.eqb_refl by lia. split; [reflexivity|]. unfold co' in *. lia. }
    assert (NC : forall v v' x, In v (u :: done) -> In v' (u :: done) -> g sym' v = g sym' v' ->
           g off' v <= x < g off' v + (B - g cut' v) -> g off' v' <= x < g off' v' + (B - g cut' v') -> v = v').
    { assert (Cross : forall v x, In v done -> g sym v = o -> co' <= x < co' + (B - g cut u) ->
         g off v <= x < g off v + (B - g cut v) -> False).
      { intros v x Hv Hs Hx1 Hx2. pose proof (IA v Hv) as HA. rewrite Hs in HA. unfold co' in Hx1. lia. }
      intros v v' x [<-|Hv] [<-|Hv'] Hs Hx Hx'; [reflexivity| | |].
      - exfalso. destruct (Gdone v' Hv') as (H1 & H2 & H3). rewrite !Gs, ?Go, ?Gc in * by lia.
        destruct (Z.eqb_spec v' u), (Z.eqb_spec v' o); try congruence. rewrite Z.eqb_refl in *.
        destruct (Z.eqb_spec u o); [congruence|]. eapply (Cross v' x); eauto.
      - exfalso. destruct (Gdone v Hv) as (H1 & H2 & H3). rewrite !Gs, ?Go, ?Gc in * by lia.
        destruct (Z.eqb_spec v u), (Z.eqb_spec v o); try congruence. rewrite Z.eqb_refl in *.
        destruct (Z.eqb_spec u o); [congruence|]. eapply (Cross v x); eauto.
      - destruct (Gdone v Hv) as (H1 & H2 & H3). destruct (Gdone v' Hv') as (H4 & H5 & H6).
        rewrite !Gs, ?Go, ?Gc in * by lia.
        destruct (Z.eqb_spec v u), (Z.eqb_spec v o), (Z.eqb_spec v' u), (Z.eqb_spec v' o); try congruence.
        eapply (IC v v' x); eauto. }
    assert (Nin : forall i, In i over \/ In i under \/ In i full -> 0 <= i /\ i <> o).
    { intros i Hi. split.
      - assert (0 <= i < Z.of_nat T); [|lia]. apply Hin. cbn [app In]. rewrite in_app_iff. cbn [In]. rewrite !in_app_iff. tauto.
      - intros ->. tauto. }
    assert (NSum : sumZ (map (fun i => g cut' i - B) (over ++ under)) + (co' - B) = 0).
    { rewrite <- Isum. cbn [app map]. rewrite !map_app. cbn [map]. rewrite sumZ_cons, !sumZ_app, sumZ_cons.
      rewrite (sumZ_map_ext (fun i => g cut' i - B) (fun i => g cut i - B) over).
      2:{ intros i Hi. destruct (Nin i ltac:(tauto)). rewrite Gc by lia. destruct (Z.eqb_spec i o); [congruence|reflexivity]. }
      rewrite (sumZ_map_ext (fun i => g cut' i - B) (fun i => g cut i - B) under).
      2:{ intros i Hi. destruct (Nin i ltac:(tauto)). rewrite Gc by lia. destruct (Z.eqb_spec i o); [congruence|reflexivity]. }
      unfold co'. lia. }
    assert (Same : forall i, In i over \/ In i under \/ In i full -> g cut' i = g cut i).
    { intros i Hi. destruct (Nin i Hi). rewrite Gc by lia. destruct (Z.eqb_spec i o); [congruence|reflexivity]. }
    assert (Lc : length cut' = T) by (unfold cut'; now rewrite list_set_length).
    assert (Ls : length sym' = T) by (unfold sym'; now rewrite list_set_length).
    assert (Lo : length off' = T) by (unfold off'; now rewrite list_set_length).
    cbn [length] in Hlen.
    assert (Gco : g cut' o = co') by (rewrite Gc, Z.eqb_refl by lia; reflexivity).
    assert (Pm : forall a b c d (x y : Z), Permutation ((x :: a) ++ (y :: b) ++ c ++ d) (x :: a ++ b ++ c ++ y :: d)).
    { clear. intros. cbn [app]. apply perm_skip. apply Permutation_app_head.
      rewrite app_assoc. change (y :: b ++ c ++ d) with ([y] ++ (b ++ c ++ d)). rewrite (app_assoc b c).
      etransitivity; [|apply Permutation_middle]. reflexivity. }
    specialize (Pm over under full done o u).
    destruct (Z.ltb_spec co' B) as [Hlt|Hge].
    + eapply (IH over (o :: under) full (u :: done) cut' sym' off'); [|cbn [length]; lia].
      constructor; try assumption.
      * rewrite <- Ip, Pm. symmetry. apply Permutation_middle.
      * intros i Hi. rewrite Same by tauto. apply Iov. now right.
      * intros i [<-|Hi]; [lia|]. rewrite Same by tauto. apply Iun. now right.
      * intros i Hi. rewrite Same by tauto. apply Ifu, Hi.
      * rewrite (sumZ_perm _ (map (fun i => g cut' i - B) (o :: over ++ under))).
        -- cbn [map]. rewrite sumZ_cons. lia.
        -- apply Permutation_map. symmetry. apply Permutation_middle.
    + destruct (Z.ltb_spec B co') as [Hgt|Heq].
      * eapply (IH (o :: over) under full (u :: done) cut' sym' off'); [|cbn [length]; lia].
        constructor; try assumption.
        -- rewrite <- Ip, Pm. reflexivity.
        -- intros i [<-|Hi]; [lia|]. rewrite Same by tauto. apply Iov. now right.
        -- intros i Hi. rewrite Same by tauto. apply Iun. now right.
        -- intros i Hi. rewrite Same by tauto. apply Ifu, Hi.
        -- cbn [app map]. rewrite sumZ_cons. lia.
      * eapply (IH over under (o :: full) (u :: done) cut' sym' off'); [|cbn [length]; lia].
        constructor; try assumption.
        -- rewrite <- Ip, Pm. rewrite (app_assoc over), (app_assoc over). symmetry. apply Permutation_middle.
        -- intros i Hi. rewrite Same by tauto. apply Iov. now right.
        -- intros i Hi. rewrite Same by tauto. apply Iun. now right.
        -- intros i [<-|Hi]; [lia|]. rewrite Same by tauto. apply Ifu, Hi.
        -- lia.
Qed.

Lemma aliasInit_ok cut B : forall fs i ov un, 0 <= i ->
  (forall k, (k < length fs)%nat -> g cut (i + Z.of_nat k) = nth k fs 0) ->
  exists ov' un' full, aliasInit i B fs ov un = (ov' ++ ov, un' ++ un) /\
    Permutation (ov' ++ un' ++ full) (map (fun k => i + Z.of_nat k) (seq 0 (length fs))) /\
    (forall j, In j ov' -> B < g cut j) /\ (forall j, In j un' -> g cut j < B) /\ (forall j, In j full -> g cut j = B).
Proof.
  induction fs as [|f fs IH]; intros i ov un Hi Hg.
  - exists [], [], []. cbn. repeat split; auto; intros j [].
  - assert (Hf : g cut i = f) by (specialize (Hg 0%nat ltac:(cbn; lia)); rewrite Z.add_0_r in Hg; exact Hg).
    assert (Hg' : forall k, (k < length fs)%nat -> g cut (i + 1 + Z.of_nat k) = nth k fs 0).
    { intros k Hk. specialize (Hg (S k) ltac:(cbn; lia)). cbn [nth] in Hg. rewrite <- Hg. f_equal. lia. }
    cbn [aliasInit length seq map].
    assert (Em : map (fun k => i + Z.of_nat k) (seq 1 (length fs)) = map (fun k => i + 1 + Z.of_nat k) (seq 0 (length fs))).
    { rewrite <- seq_shift, map_map. apply map_ext. intros; lia. }
    rewrite Em, Z.add_0_r.
    destruct (Z.ltb_spec B f); [|destruct (Z.ltb_spec f B)].
    + destruct (IH (i + 1) (i :: ov) un ltac:(lia) Hg') as (ov' & un' & full & E & P & H1 & H2 & H3).
      exists (ov' ++ [i]), un', full. rewrite E, <- app_assoc. split; [reflexivity|]. split.
      * rewrite <- app_assoc. cbn [app]. rewrite <- P. symmetry. apply Permutation_middle.
      * split; [|split; assumption]. intros j Hj. apply in_app_iff in Hj. destruct Hj as [Hj|[<-|[]]]; [auto|lia].
    + destruct (IH (i + 1) ov (i :: un) ltac:(lia) Hg') as (ov' & un' & full & E & P & H1 & H2 & H3).
      exists ov', (un' ++ [i]), full. rewrite E, <- app_assoc. split; [reflexivity|]. split.
      * rewrite <- P. rewrite <- app_assoc. cbn [app]. rewrite (app_assoc ov' un'), (app_assoc ov' un').
        symmetry. apply Permutation_middle.
      * split; [assumption|split; [|assumption]]. intros j Hj. apply in_app_iff in Hj. destruct Hj as [Hj|[<-|[]]]; [auto|lia].
    + destruct (IH (i + 1) ov un ltac:(lia) Hg') as (ov' & un' & full & E & P & H1 & H2 & H3).
      exists ov', un', (i :: full). split; [assumption|]. split.
      * rewrite <- P. rewrite (app_assoc ov' un'), (app_assoc ov' un'). symmetry. apply Permutation_middle.
      * split; [assumption|split; [assumption|]]. intros j [<-|Hj]; [lia|auto].
Qed.

Lemma sumZ_bound fs : Forall (fun f => 0 <= f) fs -> forall i, g fs i <= sumZ fs /\ 0 <= g fs i.
Proof.
  unfold g. intros H. induction H as [|f fs Hf H IH]; intros i.
  - destruct (Z.to_nat i); cbn; lia.
  - rewrite sumZ_cons. destruct (Z.to_nat i) as [|k]; cbn [nth].
    + specialize (IH 0). assert (0 <= sumZ fs).
      { clear - H. induction H; rewrite ?sumZ_nil, ?sumZ_cons; lia. }
      lia.
    + specialize (IH (Z.of_nat k)). rewrite Nat2Z.id in IH. lia.
Qed.
Lemma nth_repeat0 n k : nth k (repeat 0 n) 0 = 0.
Proof. revert k. induction n; intros [|k]; cbn; auto. Qed.

Lemma sum_idx l : sumZ (map (g l) (idx (length l))) = sumZ l.
Proof.
  unfold idx. rewrite map_map. f_equal. unfold g.
  apply (nth_ext_len _ _ 0).
  - now rewrite map_length, seq_length.
  - rewrite map_length, seq_length. intros n Hn.
    rewrite (nth_indep _ 0 ((fun x => nth (Z.to_nat (Z.of_nat x)) l 0) 0%nat)) by (rewrite map_length, seq_length; lia).
    rewrite (map_nth (fun x => nth (Z.to_nat (Z.of_nat x)) l 0)). rewrite seq_nth by lia. f_equal. lia.
Qed.
Lemma sumZ_repeat0 n : sumZ (repeat 0 n) = 0.
Proof. induction n; cbn [repeat]; rewrite ?sumZ_cons; [reflexivity|lia]. Qed.
Lemma sum_minus (f : Z -> Z) B l : sumZ (map (fun i => f i - B) l) = sumZ (map f l) - B * Z.of_nat (length l).
Proof. induction l; cbn [map length]; rewrite ?sumZ_nil, ?sumZ_cons; lia. Qed.
Lemma sum_zero (f : Z -> Z) l : (forall i, In i l -> f i = 0) -> sumZ (map f l) = 0.
Proof.
  induction l as [|a l IH]; intros H; cbn [map]; rewrite ?sumZ_nil, ?sumZ_cons; [reflexivity|].
  rewrite H by now left. rewrite IH; [lia|]. intros i Hi. apply H. now right.
Qed.

Lemma nth_map_seq (h : nat -> Z) n k : (k < n)%nat -> nth k (map h (seq 0 n)) 0 = h k.
Proof.
  intros H. rewrite (nth_indep _ 0 (h 0%nat)) by (rewrite map_length, seq_length; lia).
  rewrite map_nth, seq_nth by lia. reflexivity.
Qed.

Lemma alias_ok las freqs a : 0 <= las <= 12 -> Forall (fun f => 0 <= f) freqs -> sumZ freqs = 4096 ->
  Z.of_nat (length freqs) <= 2 ^ las ->
  exists cut sym off, generateAliasMapping las a (-1) freqs = Ok (AnsDist (12 - las) freqs cut sym off) /\
    length cut = Z.to_nat (2 ^ las) /\ length sym = Z.to_nat (2 ^ las) /\ length off = Z.to_nat (2 ^ las) /\
    (forall i, 0 <= i < 2 ^ las -> 0 <= g cut i <= 2 ^ (12 - las) /\ - 4096 <= g off i <= 4096) /\
    slot_bijection 4096 freqs (alias_slot (2 ^ (12 - las)) cut sym off).
Proof.
  intros Hlas Hf Hsum Hlen. unfold generateAliasMapping. cbv zeta. rewrite !Z.shiftl_mul_pow2, !Z.mul_1_l by lia.
  set (B := 2 ^ (12 - las)). set (T := Z.to_nat (2 ^ las)).
  assert (HB : 0 < B) by (apply pow2_pos; lia). assert (HT : 0 < 2 ^ las) by (apply pow2_pos; lia).
  assert (HBT : B * Z.of_nat T = 4096).
  { unfold B, T. rewrite Z2Nat.id by lia. rewrite <- Z.pow_add_r by lia. replace (12 - las + las) with 12 by lia. reflexivity. }
  assert (EZT : Z.of_nat T = 2 ^ las) by (unfold T; lia).
  rewrite <- EZT in *. clearbody B T.
  assert (HB2 : B <= 4096) by nia.
  change (0 <=? -1) with false. cbv iota.
  destruct (Nat.ltb_spec T (length freqs)); [lia|].
  set (n := length freqs) in *. set (cut0 := freqs ++ repeat 0 (T - n)).
  assert (Gcut : forall i, g cut0 i = g freqs i).
  { intros i. unfold g, cut0. destruct (le_lt_dec n (Z.to_nat i)).
    - rewrite app_nth2 by assumption. rewrite nth_repeat0. now rewrite nth_overflow.
    - now rewrite app_nth1. }
  assert (Hfb : forall i, 0 <= g freqs i <= 4096) by (intros i; pose proof (sumZ_bound freqs Hf i); lia).
  destruct (aliasInit_ok cut0 B freqs 0 [] [] ltac:(lia)) as (ov & un & full & E & P & Hov & Hun & Hfull).
  { intros k Hk. rewrite Gcut. unfold g. f_equal. lia. }
  rewrite !app_nil_r in E. rewrite E.
  set (un' := rev (map Z.of_nat (seq n (T - n))) ++ un).
  assert (Lcut0 : length cut0 = T) by (unfold cut0; rewrite app_length, repeat_length; lia).
  assert (Pm : Permutation (ov ++ un' ++ full ++ []) (idx T)).
  { rewrite app_nil_r. unfold un', idx. replace T with (n + (T - n))%nat at 2 by lia.
    rewrite seq_app, map_app. cbn [Nat.add].
    assert (P' : Permutation (ov ++ un ++ full) (map Z.of_nat (seq 0 n))).
    { rewrite P. apply Permutation_refl'. apply map_ext. intros; lia. }
    rewrite <- P'. rewrite <- app_assoc. rewrite (Permutation_app_comm (rev _)).
    rewrite <- !app_assoc. rewrite <- Permutation_rev. reflexivity. }
  assert (I0 : Inv T B freqs ov un' full [] cut0 (repeat 0 T) (repeat 0 T)).
  { constructor; try assumption; try apply repeat_length.
    - intros i Hi. unfold un' in Hi. apply in_app_iff in Hi. destruct Hi as [Hi|Hi]; [|auto].
      rewrite <- in_rev in Hi. apply in_map_iff in Hi. destruct Hi as (k & <- & Hk). apply in_seq in Hk.
      rewrite Gcut. unfold g. rewrite nth_overflow by lia. lia.
    - intros i [].
    - intros i Hi. rewrite Gcut. pose proof (Hfb i). lia.
    - assert (S1 : sumZ (map (fun i => g cut0 i - B) ((ov ++ un') ++ full)) = 0).
      { rewrite (sumZ_perm _ (map (fun i => g cut0 i - B) (idx T))).
        - rewrite sum_minus. rewrite <- Lcut0 at 1. rewrite sum_idx. unfold cut0. rewrite sumZ_app, sumZ_repeat0, Hsum.
          unfold idx. rewrite map_length, seq_length. lia.
        - apply Permutation_map. rewrite app_nil_r in Pm. rewrite <- app_assoc. exact Pm. }
      rewrite map_app, sumZ_app in S1. rewrite (sum_zero _ full) in S1; [lia|].
      intros i Hi. rewrite (Hfull i Hi). lia.
    - intros u [].
    - intros s o Hs Ho. rewrite Gcut in Ho. lia.
    - intros u u' o []. }
  destruct (aliasLoop_ok T B freqs HB (fun i => ltac:(pose proof (Hfb i); lia)) ltac:(lia) T _ _ _ _ _ _ _ I0)
    as (cut & sym & off & full' & done & EL & I).
  { pose proof (Permutation_length Pm) as HL. rewrite !app_length in HL. unfold idx in HL. rewrite map_length, seq_length in HL. lia. }
  fold cut0. rewrite EL. cbn [obind].
  destruct I as [Ip Ilc Ils Ilo Iov Iun Ifu Ido Irng Isum IA IB IC]. clear Iov Iun Isum. cbn [app] in Ip.
  unfold aliasFinish. rewrite Ilc.
  do 3 eexists. split; [reflexivity|]. rewrite !map_length, !seq_length. split; [reflexivity|]. split; [reflexivity|]. split; [reflexivity|].
  assert (Hin : forall i, 0 <= i < Z.of_nat T -> (In i full' /\ g cut i = B) \/ (In i done /\ g cut i < B)).
  { intros i Hi. apply idx_in in Hi. apply (Permutation_in _ (Permutation_sym Ip)) in Hi. apply in_app_iff in Hi.
    destruct Hi as [Hi|Hi]; [left; split; auto|right; split; auto; now apply Ido]. }
  assert (Hdone : forall u, In u done -> 0 <= u < Z.of_nat T).
  { intros u Hu. apply idx_in. eapply Permutation_in; [exact Ip|]. apply in_app_iff. now right. }
  assert (Hsl : forall k, 0 <= k < 4096 -> exists i pos, i = k / B /\ pos = k mod B /\ k = B * i + pos /\ 0 <= i < Z.of_nat T /\ 0 <= pos < B).
  { intros k Hk. exists (k / B), (k mod B). split; [reflexivity|]. split; [reflexivity|].
    pose proof (Z.div_mod k B ltac:(lia)). pose proof (Z.mod_pos_bound k B ltac:(lia)).
    split; [assumption|]. split; [|assumption]. split; [apply Z.div_pos; lia|]. apply Z.div_lt_upper_bound; lia. }
  assert (Foff : forall u, In u done -> 0 <= g off u - g cut u + B <= 4096 + B /\ -4096 <= g off u - g cut u <= 4096).
  { intros u Hu. pose proof (IA u Hu) as [H1 H2]. pose proof (Ido u Hu) as [H3 H4]. pose proof (Irng (g sym u) H4). pose proof (Irng u (Hdone u Hu)).
    pose proof (Hfb (g sym u)). lia. }
  match goal with |- _ /\ slot_bijection _ _ (alias_slot _ ?c ?s ?o) =>
    set (cutF := c); set (symF := s); set (offF := o) end.
  assert (FC : forall i, 0 <= i < Z.of_nat T -> nth (Z.to_nat i) cutF 0 = if g cut i =? B then 0 else g cut i).
  { intros i Hi. unfold cutF. rewrite nth_map_seq by lia. reflexivity. }
  assert (FS : forall i, 0 <= i < Z.of_nat T -> nth (Z.to_nat i) symF 0 = if g cut i =? B then i else g sym i).
  { intros i Hi. unfold symF. rewrite nth_map_seq by lia. unfold g. destruct (_ =? B); [lia|reflexivity]. }
  assert (FO : forall i, 0 <= i < Z.of_nat T -> nth (Z.to_nat i) offF 0 = if g cut i =? B then 0 else g off i - g cut i).
  { intros i Hi. unfold offF. rewrite nth_map_seq by lia. fold (g cut i). fold (g off i).
    destruct (Z.eqb_spec (g cut i) B); [reflexivity|]. apply i32_small.
    destruct (Hin i Hi) as [[_ ?]|[Hd _]]; [congruence|]. pose proof (Foff i Hd). lia. }
  split.
  { intros i Hi. unfold g at 1 2. rewrite FC by assumption. unfold g at 1 2. fold (g offF i).
    replace (g offF i) with (if g cut i =? B then 0 else g off i - g cut i) by (symmetry; apply FO; assumption).
    pose proof (Irng i Hi). destruct (Hin i Hi) as [[_ ?]|[Hd ?]].
    - fold (g cut i). destruct (Z.eqb_spec (g cut i) B); lia.
    - fold (g cut i). pose proof (Foff i Hd). destruct (Z.eqb_spec (g cut i) B); lia. }
  (* value of a slot *)
  assert (Slot : forall k i pos, 0 <= i < Z.of_nat T -> 0 <= pos < B -> i = k / B -> pos = k mod B ->
     alias_slot B cutF symF offF k = if pos <? g cut i then (i, pos) else (g sym i, g off i - g cut i + pos)).
  { intros k i pos Hi Hpos Ei Ep. unfold alias_slot. rewrite <- Ei, <- Ep. rewrite FC, FS, FO by assumption.
    destruct (Z.eqb_spec (g cut i) B) as [E1|E1].
    - rewrite E1. destruct (Z.leb_spec 0 pos), (Z.ltb_spec pos B); try lia. f_equal. 
    - destruct (Z.leb_spec (g cut i) pos), (Z.ltb_spec pos (g cut i)); try lia; reflexivity. }
  assert (Hnn : forall s o, 0 <= s < Z.of_nat T -> 0 <= o < g freqs s -> 0 <= s < Z.of_nat n).
  { intros s o Hs Ho. split; [lia|]. destruct (Z_lt_dec s (Z.of_nat n)); [assumption|].
    unfold g in Ho. rewrite nth_overflow in Ho by (fold n; lia). lia. }
  assert (Alias : forall i pos, 0 <= i < Z.of_nat T -> 0 <= pos < B -> g cut i <= pos -> In i done /\ 0 <= g sym i < Z.of_nat T /\
     g cut (g sym i) <= g off i - g cut i + pos < g freqs (g sym i)).
  { intros i pos Hi Hp Hc. destruct (Hin i Hi) as [[_ ?]|[Hd ?]]; [lia|]. split; [assumption|].
    destruct (Ido i Hd). split; [assumption|]. pose proof (IA i Hd). lia. }
  split; [|split].
  - intros k Hk. destruct (Hsl k Hk) as (i & pos & Ei & Ep & Ek & Hi & Hp). rewrite (Slot k i pos Hi Hp Ei Ep).
    destruct (Z.ltb_spec pos (g cut i)) as [Hlt|Hge].
    + pose proof (Irng i Hi). fold (g freqs i). assert (0 <= pos < g freqs i) by lia. split; [|assumption]. eapply Hnn; eassumption.
    + destruct (Alias i pos Hi Hp Hge) as (Hd & Hs & Ho). pose proof (Irng _ Hs). fold (g freqs (g sym i)).
      assert (0 <= g off i - g cut i + pos < g freqs (g sym i)) by lia. split; [|assumption]. eapply Hnn; eassumption.
  - intros s o Hs Ho. fold (g freqs s) in Ho. assert (Hs' : 0 <= s < Z.of_nat T) by lia.
    assert (Mk : forall i pos, 0 <= i < Z.of_nat T -> 0 <= pos < B -> 0 <= B * i + pos < 4096 /\ i = (B * i + pos) / B /\ pos = (B * i + pos) mod B).
    { intros i pos Hi Hp.
      assert (B * i <= B * (Z.of_nat T - 1)) by (apply Z.mul_le_mono_nonneg_l; lia).
      assert (0 <= B * i) by (apply Z.mul_nonneg_nonneg; lia).
      split; [clear - H0 H1 HBT Hp; lia|]. split.
      - rewrite (Z.mul_comm B), Z.div_add_l by lia. rewrite Z.div_small by lia. lia.
      - rewrite Z.add_comm, (Z.mul_comm B), Z.mod_add by lia. symmetry. apply Z.mod_small. lia. }
    destruct (Z_lt_dec o (g cut s)) as [Hlt|Hge].
    + assert (Hp : 0 <= o < B) by (destruct (Hin s Hs') as [[_ ?]|[_ ?]]; lia).
      destruct (Mk s o Hs' Hp) as (H1 & H2 & H3). exists (B * s + o). split; [assumption|].
      rewrite (Slot _ s o Hs' Hp H2 H3). destruct (Z.ltb_spec o (g cut s)); [reflexivity|lia].
    + destruct (IB s o Hs' ltac:(lia)) as (u & Hu & Es & Hou). pose proof (Hdone u Hu) as HuT. pose proof (Irng u HuT).
      assert (Hp : 0 <= o - g off u + g cut u < B) by lia.
      destruct (Mk u (o - g off u + g cut u) HuT Hp) as (H1 & H2 & H3).
      exists (B * u + (o - g off u + g cut u)). split; [assumption|].
      rewrite (Slot _ u _ HuT Hp H2 H3). destruct (Z.ltb_spec (o - g off u + g cut u) (g cut u)); [lia|].
      rewrite Es. f_equal. lia.
  - intros k k' Hk Hk' Eq. destruct (Hsl k Hk) as (i & pos & Ei & Ep & Ek & Hi & Hp).
    destruct (Hsl k' Hk') as (i' & pos' & Ei' & Ep' & Ek' & Hi' & Hp').
    rewrite (Slot k i pos Hi Hp Ei Ep), (Slot k' i' pos' Hi' Hp' Ei' Ep') in Eq.
    destruct (Z.ltb_spec pos (g cut i)) as [H1|H1], (Z.ltb_spec pos' (g cut i')) as [H2|H2].
    + assert (i = i' /\ pos = pos') as [-> ->] by (split; congruence). congruence.
    + exfalso. destruct (Alias i' pos' Hi' Hp' H2) as (_ & _ & Ho). assert (g sym i' = i /\ pos = g off i' - g cut i' + pos') as [E1 E2] by (split; congruence).
      rewrite E1 in Ho. clear - Ho E2 H1 H2. lia.
    + exfalso. destruct (Alias i pos Hi Hp H1) as (_ & _ & Ho). assert (g sym i = i' /\ pos' = g off i - g cut i + pos) as [E1 E2] by (split; congruence).
      rewrite E1 in Ho. clear - Ho E2 H1 H2. lia.
    + destruct (Alias i pos Hi Hp H1) as (Hd & Hs & Ho). destruct (Alias i' pos' Hi' Hp' H2) as (Hd' & Hs' & Ho').
      assert (Es : g sym i = g sym i') by congruence. assert (Eo : g off i - g cut i + pos = g off i' - g cut i' + pos') by congruence.
      assert (Eii : i = i') by (apply (IC i i' (g off i - g cut i + pos) Hd Hd' Es); [clear - H1 Hp; lia|clear - H2 Hp' Eo; lia]). rewrite <- Eii in Eo, Ek'. clear - Ek Ek' Eo. lia.
Qed.

Lemma alias_uniq las freqs u a : 0 <= las <= 12 -> 0 <= u -> 
  exists cut sym off, generateAliasMapping las a u freqs = Ok (AnsDist (12 - las) freqs cut sym off) /\
    length cut = Z.to_nat (2 ^ las) /\ length sym = Z.to_nat (2 ^ las) /\ length off = Z.to_nat (2 ^ las) /\
    (forall i, 0 <= i < 2 ^ las -> 0 <= g cut i <= 2 ^ (12 - las) /\ - 4096 <= g off i <= 4096) /\
    forall k, 0 <= k < 4096 -> alias_slot (2 ^ (12 - las)) cut sym off k = (u, k).
Proof.
  intros Hlas Hu. unfold generateAliasMapping. cbv zeta. rewrite !Z.shiftl_mul_pow2, !Z.mul_1_l by lia.
  set (B := 2 ^ (12 - las)). set (T := Z.to_nat (2 ^ las)).
  assert (HB : 0 < B) by (apply pow2_pos; lia). assert (HT : 0 < 2 ^ las) by (apply pow2_pos; lia).
  assert (HBT : B * Z.of_nat T = 4096).
  { unfold B, T. rewrite Z2Nat.id by lia. rewrite <- Z.pow_add_r by lia. replace (12 - las + las) with 12 by lia. reflexivity. }
  assert (EZT : Z.of_nat T = 2 ^ las) by (unfold T; lia). rewrite <- EZT in *. clearbody B T.
  destruct (Z.leb_spec 0 u); [|lia]. do 3 eexists. split; [reflexivity|].
  rewrite !repeat_length, map_length, seq_length. split; [reflexivity|]. split; [reflexivity|]. split; [reflexivity|].
  split.
  - intros i Hi. unfold g. rewrite nth_repeat0, nth_map_seq by lia. rewrite Z2Nat.id by lia.
    assert (B * i <= B * (Z.of_nat T - 1)) by (apply Z.mul_le_mono_nonneg_l; lia).
    assert (0 <= B * i) by (apply Z.mul_nonneg_nonneg; lia). lia.
  - intros k Hk. unfold alias_slot.
    assert (Hi : 0 <= k / B < Z.of_nat T) by (split; [apply Z.div_pos; lia|apply Z.div_lt_upper_bound; lia]).
    pose proof (Z.mod_pos_bound k B HB). pose proof (Z.div_mod k B ltac:(lia)).
    rewrite nth_repeat0, nth_map_seq by lia. destruct (Z.leb_spec 0 (k mod B)); [|lia].
    f_equal; [|rewrite Z2Nat.id by lia; lia].
    rewrite nth_indep with (d' := u) by (rewrite repeat_length; lia). apply nth_repeat.
Qed.
