(* Lemmas: the tables of generateAliasMapping are those of the standard. *)
From Coq Require Import ZArith List Bool Lia ZifyBool ZifyNat.
From Verif Require Import GoBase GoLoop Bits ModelBitReader ModelEntropy SpecEntropy SpecAlias ProofBitReader ProofCodes ProofHybrid ProofAlias ProofANS.
Import ListNotations.
Open Scope Z_scope.

(* the functions of tables of n entries *)
Definition agree (n : nat) (l : list Z) (f : Z -> Z) : Prop := length l = n /\ forall i, 0 <= i < Z.of_nat n -> g l i = f i.
Lemma agree_set n l f i v : agree n l f -> 0 <= i < Z.of_nat n -> agree n (list_set l (Z.to_nat i) v) (set_at f i v).
Proof.
  intros [L A] Hi. split; [rewrite list_set_length; exact L|]. intros j Hj. rewrite g_set by lia. unfold set_at.
  destruct (Z.eqb_spec j i); [reflexivity|apply A; exact Hj].
Qed.

Lemma loop_fills n B : 0 < B -> B <= 4096 -> forall fuel over under cut sym off cut' sym' off' fc fs fo,
  agree n cut fc -> agree n sym fs -> agree n off fo -> (forall i, 0 <= i < Z.of_nat n -> 0 <= fc i <= 4096) ->
  NoDup (over ++ under) -> Forall (fun i => 0 <= i < Z.of_nat n) (over ++ under) ->
  Forall (fun i => B < fc i) over -> Forall (fun i => fc i < B) under ->
  aliasLoop fuel B over under cut sym off = Ok (cut', sym', off') ->
  exists fc' fs' fo', fills B over under fc fs fo fc' fs' fo' /\ agree n cut' fc' /\ agree n sym' fs' /\ agree n off' fo' /\
    (forall i, 0 <= i < Z.of_nat n -> 0 <= fc' i <= 4096) /\
    (forall i, 0 <= i < Z.of_nat n -> 0 <= fo i <= 4096 -> 0 <= fo' i <= 4096).
Proof.
  intros HB HB2. induction fuel as [|fuel IH]; intros over under cut sym off cut' sym' off' fc fs fo Ac As Ao R N I Fo Fu E; (destruct over as [|o over]; [cbn in E; injection E as <- <- <-; exists fc, fs, fo; split; [apply fills_end|]; split; [exact Ac|]; split; [exact As|]; split; [exact Ao|]; split; [exact R|intros i _ Hi; exact Hi]|]); [cbn in E; destruct under; discriminate|].
  cbn [aliasLoop] in E. destruct under as [|u under]; [discriminate|].
  assert (Io : 0 <= o < Z.of_nat n) by (rewrite Forall_forall in I; apply I; left; reflexivity).
  assert (Iu : 0 <= u < Z.of_nat n) by (rewrite Forall_forall in I; apply I; apply in_or_app; right; left; reflexivity).
  destruct Ac as [Lc Ac], As as [Ls As], Ao as [Lo Ao].
  rewrite (slice_get_ok cut u 0), (slice_get_ok cut o 0) in E by lia. cbn [obind] in E. fold (g cut u) in E. fold (g cut o) in E. rewrite !Ac in E by assumption.
  pose proof (Forall_inv Fo) as Bo. pose proof (Forall_inv Fu) as Bu. cbv beta in Bo, Bu. pose proof (R o Io) as Ro. pose proof (R u Iu) as Ru.
  rewrite (i32_small (B - fc u)) in E by lia. rewrite (i32_small (fc o - (B - fc u))) in E by lia. set (lf := fc o - (B - fc u)) in *.
  rewrite (slice_set_ok cut), (slice_set_ok sym), (slice_set_ok off) in E by lia. cbn [obind] in E.
  assert (Hl : 0 <= lf <= 4096) by lia.
  pose proof (agree_set n cut fc o lf (conj Lc Ac) Io) as Ac'. pose proof (agree_set n sym fs u o (conj Ls As) Iu) as As'. pose proof (agree_set n off fo u lf (conj Lo Ao) Iu) as Ao'.
  assert (R' : forall i, 0 <= i < Z.of_nat n -> 0 <= set_at fc o lf i <= 4096) by (intros i Hi; unfold set_at; destruct (i =? o); auto).
  assert (No : ~ In o (over ++ u :: under)) by (cbn in N; apply NoDup_cons_iff in N; tauto). assert (N1 : NoDup (over ++ u :: under)) by (cbn in N; apply NoDup_cons_iff in N; tauto).
  assert (N2 : NoDup (over ++ under)) by (apply NoDup_remove_1 in N1; exact N1).
  assert (I2 : Forall (fun i => 0 <= i < Z.of_nat n) (over ++ under)).
  { rewrite Forall_forall in I |- *. intros i Hi. apply I. cbn. right. apply in_app_iff in Hi. apply in_or_app. destruct Hi; [left; assumption|right; right; assumption]. }
  assert (Fo' : Forall (fun i => B < set_at fc o lf i) over).
  { pose proof (Forall_inv_tail Fo) as F. rewrite Forall_forall in F |- *. intros i Hi. unfold set_at. destruct (Z.eqb_spec i o) as [->|]; [exfalso; apply No, in_or_app; left; exact Hi|exact (F i Hi)]. }
  assert (Fu' : Forall (fun i => set_at fc o lf i < B) under).
  { pose proof (Forall_inv_tail Fu) as F. rewrite Forall_forall in F |- *. intros i Hi. unfold set_at. destruct (Z.eqb_spec i o) as [->|]; [exfalso; apply No, in_or_app; right; right; exact Hi|exact (F i Hi)]. }
  assert (Mid : ~ In o (over ++ under)) by (intros Hi; apply No; apply in_app_iff in Hi; apply in_or_app; destruct Hi; [left; assumption|right; right; assumption]).
  assert (So : set_at fc o lf o = lf) by (unfold set_at; rewrite Z.eqb_refl; reflexivity).
  assert (Fin : forall fc' fs' fo', fills B (if B <? lf then o :: over else over) (if lf <? B then o :: under else under) (set_at fc o lf) (set_at fs u o) (set_at fo u lf) fc' fs' fo' /\
      agree n cut' fc' /\ agree n sym' fs' /\ agree n off' fo' /\ (forall i, 0 <= i < Z.of_nat n -> 0 <= fc' i <= 4096) /\ (forall i, 0 <= i < Z.of_nat n -> 0 <= set_at fo u lf i <= 4096 -> 0 <= fo' i <= 4096) ->
    exists fc' fs' fo', fills B (o :: over) (u :: under) fc fs fo fc' fs' fo' /\ agree n cut' fc' /\ agree n sym' fs' /\ agree n off' fo' /\ (forall i, 0 <= i < Z.of_nat n -> 0 <= fc' i <= 4096) /\
      (forall i, 0 <= i < Z.of_nat n -> 0 <= fo i <= 4096 -> 0 <= fo' i <= 4096)).
  { intros fc' fs' fo' (F & A1 & A2 & A3 & A4 & A5). exists fc', fs', fo'. split; [apply fills_next; exact F|]. repeat (split; [assumption|]). intros i Hi Hf. apply A5; [exact Hi|]. unfold set_at. destruct (i =? u); lia. }
  destruct (Z.ltb_spec lf B) as [Lt|Ge].
  - destruct (IH over (o :: under) _ _ _ cut' sym' off' (set_at fc o lf) (set_at fs u o) (set_at fo u lf) Ac' As' Ao' R') with (5 := E) as (fc' & fs' & fo' & H); try assumption.
    + apply NoDup_Add with (a := o) (l := over ++ under); [apply Add_app|auto].
    + rewrite Forall_forall in I2 |- *. intros i Hi. apply in_app_iff in Hi as [Hi|[->|Hi]]; [apply I2, in_or_app; auto|exact Io|apply I2, in_or_app; auto].
    + constructor; [rewrite So; exact Lt|exact Fu'].
    + apply (Fin fc' fs' fo'). replace (B <? lf) with false by lia. exact H.
  - destruct (Z.ltb_spec B lf) as [Gt|Eq].
    + destruct (IH (o :: over) under _ _ _ cut' sym' off' (set_at fc o lf) (set_at fs u o) (set_at fo u lf) Ac' As' Ao' R') with (5 := E) as (fc' & fs' & fo' & H); try assumption.
      * cbn. constructor; assumption.
      * cbn. constructor; assumption.
      * constructor; [rewrite So; exact Gt|exact Fo'].
      * apply (Fin fc' fs' fo'). exact H.
    + destruct (IH over under _ _ _ _ _ _ (set_at fc o lf) (set_at fs u o) (set_at fo u lf) Ac' As' Ao' R' N2 I2 Fo' Fu' E) as (fc' & fs' & fo' & H).
      apply (Fin fc' fs' fo'). exact H.
Qed.

Lemma init_lists B : forall fs i ov un,
  aliasInit i B fs ov un = (rev (filter (fun k => B <? nth (Z.to_nat (k - i)) fs 0) (map (fun k => i + Z.of_nat k) (seq 0 (length fs)))) ++ ov,
                            rev (filter (fun k => nth (Z.to_nat (k - i)) fs 0 <? B) (map (fun k => i + Z.of_nat k) (seq 0 (length fs)))) ++ un).
Proof.
  induction fs as [|f fs IH]; intros i ov un; [reflexivity|]. cbn [aliasInit length].
  assert (S1 : forall (p : Z -> bool) (q : Z -> bool), (forall k, (k < length fs)%nat -> p (i + Z.of_nat (S k)) = q (i + 1 + Z.of_nat k)) ->
     filter p (map (fun k => i + Z.of_nat k) (seq 0 (S (length fs)))) = (if p i then [i] else []) ++ filter q (map (fun k => i + 1 + Z.of_nat k) (seq 0 (length fs)))).
  { intros p q H. cbn [seq map filter]. rewrite Z.add_0_r. rewrite <- seq_shift, map_map.
    assert (T : filter p (map (fun x => i + Z.of_nat (S x)) (seq 0 (length fs))) = filter q (map (fun k => i + 1 + Z.of_nat k) (seq 0 (length fs)))).
    { assert (G : forall l, (forall k, In k l -> (k < length fs)%nat) -> filter p (map (fun x => i + Z.of_nat (S x)) l) = filter q (map (fun k => i + 1 + Z.of_nat k) l)).
      { induction l as [|k l IHl]; intros Hl; [reflexivity|]. cbn [map filter]. rewrite (H k (Hl k (or_introl eq_refl))). rewrite IHl by (intros; apply Hl; right; assumption).
        replace (i + Z.of_nat (S k)) with (i + 1 + Z.of_nat k) by lia. reflexivity. }
      apply G. intros k Hk. apply in_seq in Hk. lia. }
    rewrite T. destruct (p i); reflexivity. }
  rewrite (S1 _ (fun k => B <? nth (Z.to_nat (k - (i + 1))) fs 0)), (S1 _ (fun k => nth (Z.to_nat (k - (i + 1))) fs 0 <? B)).
  2,3: intros k Hk; replace (Z.to_nat (i + Z.of_nat (S k) - i)) with (S k) by lia; replace (Z.to_nat (i + 1 + Z.of_nat k - (i + 1))) with k by lia; reflexivity.
  replace (Z.to_nat (i - i)) with 0%nat by lia. cbn [nth]. rewrite !rev_app_distr.
  destruct (Z.ltb_spec B f), (Z.ltb_spec f B); try lia; rewrite IH; cbn [rev app]; rewrite ?app_nil_r, <- ?app_assoc; reflexivity.
Qed.

Lemma standard_table las a fs : 0 <= las <= 12 -> Forall (fun f => 0 <= f) fs -> sumZ fs = 4096 -> Z.of_nat (length fs) <= 2 ^ las -> ~ In 4096 fs ->
  exists cut sym off, generateAliasMapping las a (-1) fs = Ok (AnsDist (12 - las) fs cut sym off) /\
    alias_standard las fs (alias_slot (2 ^ (12 - las)) cut sym off).
Proof.
  intros Hlas Hf Hsum Hlen Hni. destruct (alias_ok las fs a Hlas Hf Hsum Hlen) as (cut & sym & off & E & _). exists cut, sym, off. split; [exact E|].
  revert E. unfold generateAliasMapping. cbv zeta. rewrite !Z.shiftl_mul_pow2, !Z.mul_1_l by lia. change (0 <=? -1) with false. cbv iota.
  assert (HB : 0 < 2 ^ (12 - las)) by (apply Z.pow_pos_nonneg; lia). assert (HT : 0 < 2 ^ las) by (apply Z.pow_pos_nonneg; lia).
  assert (HBT : 2 ^ (12 - las) * 2 ^ las = 4096) by (rewrite <- Z.pow_add_r by lia; replace (12 - las + las) with 12 by lia; reflexivity).
  pose proof (fun slot => alias_several las fs slot Hni) as K. cbv zeta in K.
  remember (2 ^ (12 - las)) as B. remember (2 ^ las) as T. clear HeqB HeqT. set (n := length fs) in *.
  replace (Z.to_nat T <? n)%nat with false by lia. rewrite init_lists. fold n. rewrite !app_nil_r. cbv iota beta.
  assert (Ov : rev (filter (fun k => B <? nth (Z.to_nat (k - 0)) fs 0) (map (fun k => 0 + Z.of_nat k) (seq 0 n))) = descending (Z.to_nat T) (fun i => B <? nth (Z.to_nat i) fs 0)).
  { unfold descending. replace (Z.to_nat T) with (n + (Z.to_nat T - n))%nat by lia. rewrite seq_app, map_app, filter_app. cbn [plus].
    assert (Z0 : forall l, (forall k, In k l -> (n <= k)%nat) -> filter (fun i => B <? nth (Z.to_nat i) fs 0) (map Z.of_nat l) = []).
    { induction l as [|k l IHl]; intros Hk; [reflexivity|]. cbn [map filter]. rewrite Nat2Z.id. rewrite nth_overflow by (apply Hk; left; reflexivity). replace (B <? 0) with false by lia. apply IHl. intros; apply Hk; right; assumption. }
    rewrite (Z0 (seq n (Z.to_nat T - n))) by (intros k Hk; apply in_seq in Hk; lia). rewrite app_nil_r. f_equal. rewrite (map_ext (fun k => 0 + Z.of_nat k) Z.of_nat) by (intros; lia). apply filter_ext. intros k. rewrite Z.sub_0_r. reflexivity. }
  assert (Un : rev (map Z.of_nat (seq n (Z.to_nat T - n))) ++ rev (filter (fun k => nth (Z.to_nat (k - 0)) fs 0 <? B) (map (fun k => 0 + Z.of_nat k) (seq 0 n))) = descending (Z.to_nat T) (fun i => nth (Z.to_nat i) fs 0 <? B)).
  { unfold descending. replace (Z.to_nat T) with (n + (Z.to_nat T - n))%nat at 2 by lia. rewrite seq_app, map_app, filter_app, rev_app_distr. cbn [plus].
    assert (Z0 : forall l, (forall k, In k l -> (n <= k)%nat) -> filter (fun i => nth (Z.to_nat i) fs 0 <? B) (map Z.of_nat l) = map Z.of_nat l).
    { induction l as [|k l IHl]; intros Hk; [reflexivity|]. cbn [map filter]. rewrite Nat2Z.id. rewrite nth_overflow by (apply Hk; left; reflexivity). replace (0 <? B) with true by lia. f_equal. apply IHl. intros; apply Hk; right; assumption. }
    rewrite (Z0 (seq n (Z.to_nat T - n))) by (intros k Hk; apply in_seq in Hk; lia). f_equal. f_equal. rewrite (map_ext (fun k => 0 + Z.of_nat k) Z.of_nat) by (intros; lia). apply filter_ext. intros k. rewrite Z.sub_0_r. reflexivity. }
  rewrite Ov, Un. cbv beta in K.
  destruct (aliasLoop _ _ _ _ _ _ _) as [[[c s] o]| |] eqn:EL; cbn [obind]; [|discriminate|discriminate]. destruct (aliasFinish B c s o) as [[c' s'] o'] eqn:EF. intros EQ. injection EQ as <- <- <-.
  pose proof (sumZ_bound fs Hf) as Hb. rewrite Hsum in Hb.
  assert (IN : forall i p, In i (descending (Z.to_nat T) p) -> 0 <= i < T /\ p i = true).
  { intros i p Hi. unfold descending in Hi. rewrite <- in_rev in Hi. apply filter_In in Hi as [Hi Hp]. apply in_map_iff in Hi as (k & <- & Hk). apply in_seq in Hk. split; [lia|exact Hp]. }
  assert (NDp : forall p, NoDup (descending (Z.to_nat T) p)).
  { intros p. unfold descending. apply NoDup_rev, NoDup_filter. apply FinFun.Injective_map_NoDup; [intros x y; lia|apply seq_NoDup]. }
  assert (Dis : forall l1 l2 : list Z, NoDup l1 -> NoDup l2 -> (forall x, In x l1 -> ~ In x l2) -> NoDup (l1 ++ l2)).
  { clear. induction l1 as [|x l1 IH]; intros l2 N1 N2 D; [exact N2|]. cbn. apply NoDup_cons_iff in N1 as [N0 N1]. constructor; [intros Hi; apply in_app_iff in Hi as [Hi|Hi]; [auto|exact (D x (or_introl eq_refl) Hi)]|].
    apply IH; auto. intros y Hy. apply D. right. exact Hy. }
  destruct (loop_fills (Z.to_nat T) B HB ltac:(nia) (Z.to_nat T) (descending (Z.to_nat T) (fun i => B <? nth (Z.to_nat i) fs 0)) (descending (Z.to_nat T) (fun i => nth (Z.to_nat i) fs 0 <? B)) (fs ++ repeat 0 (Z.to_nat T - n)) (repeat 0 (Z.to_nat T)) (repeat 0 (Z.to_nat T)) c s o (fun i => nth (Z.to_nat i) fs 0) (fun _ => 0) (fun _ => 0)) with (9 := EL) as (fc & fsy & fo & F & [Lc Ac] & [Ls As] & [Lo Ao] & Rc & Ro).
  - split; [rewrite app_length, repeat_length; lia|]. intros i Hi. unfold g. destruct (Nat.lt_ge_cases (Z.to_nat i) n); [apply app_nth1; assumption|]. rewrite app_nth2 by assumption. rewrite nth_repeat0. rewrite nth_overflow by assumption. reflexivity.
  - split; [apply repeat_length|]. intros. unfold g. apply nth_repeat0.
  - split; [apply repeat_length|]. intros. unfold g. apply nth_repeat0.
  - intros i Hi. specialize (Hb i). unfold g in Hb. lia.
  - apply Dis; [apply NDp|apply NDp|]. intros x H1 H2. apply IN in H1, H2. lia.
  - apply Forall_forall. intros x Hx. apply in_app_iff in Hx as [Hx|Hx]; apply IN in Hx; lia.
  - apply Forall_forall. intros x Hx. apply IN in Hx. lia.
  - apply Forall_forall. intros x Hx. apply IN in Hx. lia.
  - apply (K _ fc fsy fo F). intros k Hk.
    unfold aliasFinish in EF. injection EF as <- <- <-. unfold alias_slot, placed. rewrite Lc.
    assert (Kd : 0 <= k / B < T) by (split; [apply Z.div_pos; lia|apply Z.div_lt_upper_bound; nia]). assert (Km : 0 <= k mod B < B) by (apply Z.mod_pos_bound; lia).
    rewrite !nth_map_seq by lia. specialize (Ac (k / B) ltac:(lia)). specialize (As (k / B) ltac:(lia)). specialize (Ao (k / B) ltac:(lia)). unfold g in Ac, As, Ao. rewrite Ac, As, Ao.
    specialize (Rc (k / B) ltac:(lia)). specialize (Ro (k / B) ltac:(lia) ltac:(lia)).
    destruct (Z.eqb_spec (fc (k / B)) B) as [Eb|Nb].
    + replace (0 <=? k mod B) with true by lia. replace (k mod B <? fc (k / B)) with true by lia. f_equal; lia.
    + rewrite i32_small by lia. destruct (Z.leb_spec (fc (k / B)) (k mod B)), (Z.ltb_spec (k mod B) (fc (k / B))); try lia; f_equal; lia.
Qed.

Lemma single_table las a u fs : 0 <= las <= 12 -> nth_error fs u = Some 4096 ->
  exists cut sym off, generateAliasMapping las a (Z.of_nat u) fs = Ok (AnsDist (12 - las) fs cut sym off) /\
    alias_standard las fs (alias_slot (2 ^ (12 - las)) cut sym off).
Proof.
  intros Hlas Hu. destruct (alias_uniq las fs (Z.of_nat u) a Hlas ltac:(lia)) as (cut & sym & off & E & _ & _ & _ & _ & H). exists cut, sym, off. split; [exact E|].
  apply (alias_single _ _ _ u Hu). exact H.
Qed.

(* ---- there is one standard table ---- *)
Lemma fills_det b over under cut sym off c1 s1 o1 : fills b over under cut sym off c1 s1 o1 -> forall c2 s2 o2, fills b over under cut sym off c2 s2 o2 -> c1 = c2 /\ s1 = s2 /\ o1 = o2.
Proof.
  induction 1 as [under cut sym off|o over u under cut sym off c' s' o' lf F IH]; intros c2 s2 o2 G; inversion G; subst; [auto|]. apply IH. assumption.
Qed.
Lemma standard_det las fs s1 s2 : 0 <= las <= 12 -> Forall (fun f => 0 <= f) fs -> sumZ fs = 4096 -> alias_standard las fs s1 -> alias_standard las fs s2 -> forall k, 0 <= k < 4096 -> s1 k = s2 k.
Proof.
  intros Hl Hf Hs [u Hu H1|N c s o f b n F H1] [u' Hu' H2|N' c' s' o' f' b' n' F' H2] k Hk.
  - rewrite H1, H2 by assumption. f_equal. destruct (Nat.eq_dec u u') as [->|D]; [reflexivity|]. exfalso.
    assert (L : (u < length fs)%nat) by (apply nth_error_Some; congruence).
    pose proof (only_one fs u Hf) as O. rewrite (nth_error_nth fs u 0 Hu) in O. specialize (O Hs L u' ltac:(auto)). rewrite (nth_error_nth fs u' 0 Hu') in O. discriminate.
  - exfalso. apply N'. exact (nth_error_In _ _ Hu).
  - exfalso. apply N. exact (nth_error_In _ _ Hu').
  - rewrite H1, H2 by assumption. subst f b n f' b' n'. destruct (fills_det _ _ _ _ _ _ _ _ _ F _ _ _ F') as (-> & -> & ->). reflexivity.
Qed.
