(* Lemmas on scan orders. *)
From Coq Require Import ZArith List Bool Lia Arith Permutation Sorted ZifyBool ZifyNat.
From Verif Require Import GoBase GoLoop GoMatrix ModelHF SpecHF SpecToc.
Import ListNotations.
Open Scope Z_scope.

Lemma order_types i : 0 <= i <= 12 -> exists t, getByOrderID i = Ok t /\ (tt_dctSelectHeight t, tt_dctSelectWidth t) = order_cells i /\
  tt_pixelHeight t = 8 * tt_dctSelectHeight t /\ tt_pixelWidth t = 8 * tt_dctSelectWidth t /\ 1 <= tt_dctSelectHeight t <= tt_dctSelectWidth t /\ tt_dctSelectWidth t <= 32.
Proof.
  intros H. assert (E : exists n, i = Z.of_nat n /\ (n <= 12)%nat) by (exists (Z.to_nat i); lia). destruct E as (n & -> & Hn). clear H.
  do 13 (destruct n as [|n]; [eexists; split; [reflexivity|]; split; [reflexivity|]; split; [reflexivity|]; split; [reflexivity|]; cbn; lia|]). lia.
Qed.

Definition nonneg (p : Z * Z) : Prop := 0 <= fst p /\ 0 <= snd p.
Lemma land1 k : (Z.land k 1 =? 1) = negb (Z.even k).
Proof. change 1 with (Z.ones 1) at 1. rewrite Z.land_ones by lia. change (2 ^ 1) with 2. rewrite Zmod_even. destruct (Z.even k); reflexivity. Qed.
Lemma cmp_spec t a b : 1 <= tt_dctSelectHeight t -> 1 <= tt_dctSelectWidth t -> nonneg a -> nonneg b ->
  (orderCmp t a b = 0 <-> a = b) /\ (orderCmp t a b < 0 <-> natural_before (tt_dctSelectHeight t) (tt_dctSelectWidth t) a b).
Proof.
  destruct a as [ay ax], b as [by_ bx]. unfold nonneg, natural_before, in_corner, lex, zigzag, orderCmp. cbn [fst snd]. intros Hh Hw [Ha1 Ha2] [Hb1 Hb2].
  set (h := tt_dctSelectHeight t) in *. set (w := tt_dctSelectWidth t) in *. cbv zeta. rewrite !Z.quot_div_nonneg by lia.
  assert (A : 1 <= Z.max h w / h) by (apply Z.div_le_lower_bound; lia). assert (B : 1 <= Z.max h w / w) by (apply Z.div_le_lower_bound; lia).
  set (hd := Z.max h w / h) in *. set (wd := Z.max h w / w) in *. clearbody hd wd. clearbody h w.
  assert (EQ : forall e, (by_, bx) = e -> e = (by_, bx)) by (intros; congruence).
  assert (PE : (ay, ax) = (by_, bx) <-> ay = by_ /\ ax = bx) by (split; [intros [= -> ->]; auto|intros [-> ->]; reflexivity]). rewrite PE. clear PE EQ.
  destruct (Z.ltb_spec ay h), (Z.ltb_spec ax w), (Z.ltb_spec by_ h), (Z.ltb_spec bx w); cbn [andb negb]; try (split; lia);
    try (destruct (Z.eqb_spec by_ ay); cbn [negb]; split; lia).
  all: rewrite !land1; pose proof (Z.mul_nonneg_nonneg ay hd ltac:(lia) ltac:(lia)); pose proof (Z.mul_nonneg_nonneg ax wd ltac:(lia) ltac:(lia));
    destruct (Z.eqb_spec (ay * hd + ax * wd) (by_ * hd + bx * wd)) as [E|E]; cbn [negb]; [rewrite E; destruct (Z.even (by_ * hd + bx * wd)); cbn [negb]|].
  all: assert (U : ay * hd = by_ * hd -> ay = by_) by (intros U; apply (Z.mul_reg_r _ _ hd); lia);
    assert (V : ax * wd = bx * wd -> ax = bx) by (intros V; apply (Z.mul_reg_r _ _ wd); lia).
  all: assert (U' : ay = by_ -> ay * hd = by_ * hd) by (intros ->; reflexivity); assert (V' : ax = bx -> ax * wd = bx * wd) by (intros ->; reflexivity).
  all: set (p := ay * hd) in *; set (q := ax * wd) in *; set (r := by_ * hd) in *; set (s := bx * wd) in *; clearbody p q r s; split; lia.
Qed.
Lemma natural_irr h w a : ~ natural_before h w a a.
Proof. unfold natural_before, lex. intros [H|[H|H]]; [tauto|lia|lia]. Qed.
Lemma lex_trans a b c : lex a b -> lex b c -> lex a c.
Proof. unfold lex. lia. Qed.
Lemma natural_trans h w a b c : natural_before h w a b -> natural_before h w b c -> natural_before h w a c.
Proof.
  unfold natural_before. intros [[A1 A2]|[(A1 & A2 & A3)|(A1 & A2 & A3)]] [[B1 B2]|[(B1 & B2 & B3)|(B1 & B2 & B3)]]; try tauto.
  - right; left. split; [exact A1|]. split; [exact B2|]. exact (lex_trans _ _ _ A3 B3).
  - right; right. split; [exact A1|]. split; [exact B2|]. exact (lex_trans _ _ _ A3 B3).
Qed.
Lemma lex_cases a b : lex a b \/ a = b \/ lex b a.
Proof. destruct a as [a1 a2], b as [b1 b2]. unfold lex. cbn. destruct (Z.lt_trichotomy a1 b1) as [|[->|]]; [lia| |lia]. destruct (Z.lt_trichotomy a2 b2) as [|[->|]]; [lia|auto|lia]. Qed.
Lemma cmp_anti t a b : orderCmp t a b = - orderCmp t b a.
Proof.
  destruct a as [ay ax], b as [by_ bx]. unfold orderCmp. set (h := tt_dctSelectHeight t). set (w := tt_dctSelectWidth t). cbv zeta.
  destruct (Z.ltb_spec ay h), (Z.ltb_spec ax w), (Z.ltb_spec by_ h), (Z.ltb_spec bx w); cbn [andb negb]; try reflexivity;
    try (rewrite (Z.eqb_sym ay by_); destruct (Z.eqb_spec by_ ay); cbn [negb]; lia).
  all: rewrite !land1; set (p := ay * _); set (q := ax * _); set (r := by_ * _); set (s := bx * _); clearbody p q r s; rewrite (Z.eqb_sym (r + s) (p + q));
    destruct (Z.eqb_spec (p + q) (r + s)) as [E|E]; cbn [negb]; [rewrite E; destruct (Z.even (r + s)); cbn [negb]; lia|lia].
Qed.
Lemma cmp_total t : 1 <= tt_dctSelectHeight t -> 1 <= tt_dctSelectWidth t -> strict_total (orderCmp t) nonneg.
Proof.
  intros Hh Hw. split; [|split].
  - intros a b Ha Hb. exact (proj1 (cmp_spec t a b Hh Hw Ha Hb)).
  - intros a b _ _. rewrite (cmp_anti t b a). lia.
  - intros a b c Ha Hb Hc H1 H2. apply (proj2 (cmp_spec t a b Hh Hw Ha Hb)) in H1. apply (proj2 (cmp_spec t b c Hh Hw Hb Hc)) in H2.
    apply (proj2 (cmp_spec t a c Hh Hw Ha Hc)). exact (natural_trans _ _ _ _ _ H1 H2).
Qed.

(* sorting has one result *)
Lemma sorted_unique {A} (R : A -> A -> Prop) : (forall a b, R a b -> R b a -> False) -> forall l l', StronglySorted R l -> StronglySorted R l' -> Permutation l l' -> l = l'.
Proof.
  intros Anti. induction l as [|a l IH]; intros l' S1 S2 P; [apply Permutation_nil in P; congruence|].
  destruct l' as [|b l']; [apply Permutation_sym, Permutation_nil in P; discriminate|]. inversion S1 as [|? ? T1 F1]; inversion S2 as [|? ? T2 F2]; subst. rewrite Forall_forall in F1, F2.
  assert (E : a = b).
  { pose proof (Permutation_in a P (or_introl eq_refl)) as Ia. pose proof (Permutation_in b (Permutation_sym P) (or_introl eq_refl)) as Ib.
    destruct Ia as [->|Ia]; [reflexivity|]. destruct Ib as [->|Ib]; [reflexivity|]. exfalso. exact (Anti a b (F1 b Ib) (F2 a Ia)). }
  subst b. f_equal. apply IH; [exact T1|exact T2|]. exact (Permutation_cons_inv P).
Qed.
(* sorted without ties and without duplicates: strictly sorted *)
Lemma sorted_strict cmp (P : Z * Z -> Prop) l : strict_total cmp P -> Forall P l -> NoDup l -> sorted_by cmp l -> StronglySorted (fun a b => cmp a b < 0) l.
Proof.
  intros [E _]. induction l as [|a l IH]; intros FP N S; [constructor|]. inversion FP; inversion N; inversion S as [|? ? T F]; subst. constructor; [apply IH; assumption|].
  rewrite Forall_forall in *. intros b Hb. specialize (F b Hb). cbn in F. destruct (Z.eq_dec (cmp a b) 0) as [Z|]; [|lia].
  apply E in Z; [subst; contradiction|assumption|auto].
Qed.
Lemma ss_impl {A} (R S : A -> A -> Prop) (P : A -> Prop) l : Forall P l -> (forall a b, P a -> P b -> R a b -> S a b) -> StronglySorted R l -> StronglySorted S l.
Proof.
  intros FP I. induction 1 as [|a l T IH F]; [constructor|]. inversion FP; subst. constructor; [auto|]. rewrite Forall_forall in *. intros b Hb. apply I; auto.
Qed.
Lemma ss_filter {A} (R : A -> A -> Prop) f l : StronglySorted R l -> StronglySorted R (filter f l).
Proof.
  induction 1 as [|a l T IH F]; cbn; [constructor|]. destruct (f a); [|exact IH]. constructor; [exact IH|]. rewrite Forall_forall in *. intros b Hb. apply filter_In in Hb as [Hb _]. auto.
Qed.
Lemma filter_split {A} (R : A -> A -> Prop) f l : (forall a b, R a b -> f b = true -> f a = true) -> StronglySorted R l -> l = filter f l ++ filter (fun a => negb (f a)) l.
Proof.
  intros M. induction 1 as [|a l T IH F]; [reflexivity|]. cbn. destruct (f a) eqn:E; cbn [negb app]; [rewrite <- IH; reflexivity|].
  assert (G : filter f l = [] /\ filter (fun a => negb (f a)) l = l).
  { clear - M F E. induction l as [|b l IHl]; [split; reflexivity|]. inversion F as [|? ? Rb F']; subst. destruct (IHl F') as [I1 I2]. cbn.
    destruct (f b) eqn:Eb; [rewrite (M a b Rb Eb) in E; discriminate|]. cbn. rewrite I1, I2. split; reflexivity. }
  destruct G as [-> ->]. reflexivity.
Qed.
Lemma perm_filter {A} (f : A -> bool) l l' : Permutation l l' -> Permutation (filter f l) (filter f l').
Proof.
  induction 1 as [|a l l' P IH|a b l|l l2 l3 P1 IH1 P2 IH2]; cbn; [constructor| | |etransitivity; eassumption].
  - destruct (f a); [constructor|]; exact IH.
  - destruct (f a), (f b); try apply Permutation_refl. apply perm_swap.
Qed.

(* positions *)
Lemma in_raster h w p : In p (raster h w) <-> 0 <= fst p < Z.of_nat h /\ 0 <= snd p < Z.of_nat w.
Proof.
  destruct p as [y x]. unfold raster. rewrite in_flat_map. cbn [fst snd]. split.
  - intros (y' & H1 & H2). apply in_map_iff in H2 as (x' & [= <- <-] & H3). apply in_seq in H1, H3. lia.
  - intros [H1 H2]. exists (Z.to_nat y). split; [apply in_seq; lia|]. apply in_map_iff. exists (Z.to_nat x). split; [f_equal; lia|apply in_seq; lia].
Qed.
Lemma ss_app {A} (R : A -> A -> Prop) l l' : StronglySorted R l -> StronglySorted R l' -> (forall a b, In a l -> In b l' -> R a b) -> StronglySorted R (l ++ l').
Proof.
  induction 1 as [|a l T IH F]; intros S H; [exact S|]. cbn. constructor; [apply IH; [exact S|intros; apply H; [right|]; assumption]|].
  apply Forall_app. split; [exact F|]. apply Forall_forall. intros b Hb. apply H; [left; reflexivity|exact Hb].
Qed.
Lemma ss_seq_map {A} (f : nat -> A) (R : A -> A -> Prop) n : (forall i j, (i < j)%nat -> R (f i) (f j)) -> forall k, StronglySorted R (map f (seq k n)).
Proof.
  intros H. induction n as [|n IH]; intros k; cbn; [constructor|]. constructor; [apply IH|]. apply Forall_map, Forall_forall. intros j Hj. apply in_seq in Hj. apply H. lia.
Qed.
Lemma raster_sorted h w : StronglySorted lex (raster h w).
Proof.
  unfold raster. generalize 0%nat at 2. induction h as [|h IH]; intros k; cbn; [constructor|]. apply ss_app.
  - apply ss_seq_map. intros i j Hij. unfold lex. cbn. lia.
  - apply IH.
  - intros a b Ha Hb. apply in_map_iff in Ha as (x & <- & _). apply in_flat_map in Hb as (y' & Hy' & Hb). apply in_map_iff in Hb as (x' & <- & _). apply in_seq in Hy'. unfold lex. cbn. lia.
Qed.
Lemma ss_nodup {A} (R : A -> A -> Prop) l : (forall a, ~ R a a) -> StronglySorted R l -> NoDup l.
Proof. intros I. induction 1 as [|a l T IH F]; constructor; [|exact IH]. intros Ha. rewrite Forall_forall in F. exact (I a (F a Ha)). Qed.
Lemma raster_nodup h w : NoDup (raster h w).
Proof. apply (ss_nodup lex); [unfold lex; lia|apply raster_sorted]. Qed.
Lemma raster_length h w : length (raster h w) = (h * w)%nat.
Proof.
  unfold raster. rewrite <- (seq_length h 0) at 2. induction (seq 0 h) as [|a l IH]; cbn [flat_map length]; [reflexivity|]. rewrite app_length, map_length, seq_length, IH. reflexivity.
Qed.
Lemma raster_nonneg h w : Forall nonneg (raster h w).
Proof. apply Forall_forall. intros p Hp. apply in_raster in Hp. unfold nonneg. lia. Qed.

(* the scan order of a shape *)
Lemma order_ok t l : 1 <= tt_dctSelectHeight t -> 1 <= tt_dctSelectWidth t -> tt_pixelHeight t = 8 * tt_dctSelectHeight t -> tt_pixelWidth t = 8 * tt_dctSelectWidth t ->
  Permutation l (positions t) -> sorted_by (orderCmp t) l ->
  StronglySorted (natural_before (tt_dctSelectHeight t) (tt_dctSelectWidth t)) l /\ NoDup l /\
  (forall p, In p l <-> 0 <= fst p < 8 * tt_dctSelectHeight t /\ 0 <= snd p < 8 * tt_dctSelectWidth t) /\
  firstn (Z.to_nat (tt_dctSelectHeight t) * Z.to_nat (tt_dctSelectWidth t)) l = raster (Z.to_nat (tt_dctSelectHeight t)) (Z.to_nat (tt_dctSelectWidth t)) /\
  (forall l', Permutation l' (positions t) -> sorted_by (orderCmp t) l' -> l' = l).
Proof.
  intros Hh Hw Eh Ew P S. set (h := tt_dctSelectHeight t) in *. set (w := tt_dctSelectWidth t) in *.
  assert (EP : positions t = raster (Z.to_nat (8 * h)) (Z.to_nat (8 * w))) by (unfold positions; rewrite Eh, Ew; reflexivity).
  assert (G : forall l, Permutation l (positions t) -> sorted_by (orderCmp t) l -> StronglySorted (natural_before h w) l /\ NoDup l).
  { clear l P S. intros l P S. assert (N : NoDup l) by (apply (Permutation_NoDup (Permutation_sym P)); rewrite EP; apply raster_nodup). split; [|exact N].
    assert (FP : Forall nonneg l) by (apply Forall_forall; intros p Hp; apply (Permutation_in p P) in Hp; rewrite EP in Hp; pose proof (raster_nonneg (Z.to_nat (8 * h)) (Z.to_nat (8 * w))) as F; rewrite Forall_forall in F; auto).
    apply (ss_impl (fun a b => orderCmp t a b < 0) _ nonneg l FP); [|exact (sorted_strict _ nonneg l (cmp_total t Hh Hw) FP N S)].
    intros a b Ha Hb. apply (cmp_spec t a b Hh Hw Ha Hb). }
  destruct (G l P S) as [SN N]. split; [exact SN|]. split; [exact N|]. split; [|split].
  - intros p. split; intros Hp.
    + apply (Permutation_in p P) in Hp. rewrite EP in Hp. apply in_raster in Hp. lia.
    + apply (Permutation_in p (Permutation_sym P)). rewrite EP. apply in_raster. lia.
  - set (f := fun p : Z * Z => (fst p <? h) && (snd p <? w)).
    assert (Fc : forall p, f p = true <-> in_corner h w p) by (intros p; unfold f, in_corner; lia).
    assert (SP : l = filter f l ++ filter (fun a => negb (f a)) l).
    { apply (filter_split (natural_before h w)); [|exact SN]. intros a b R Hb. apply Fc in Hb. apply Fc. unfold natural_before in R. tauto. }
    assert (FE : filter f l = raster (Z.to_nat h) (Z.to_nat w)).
    { apply (sorted_unique lex); [unfold lex; lia| |apply raster_sorted|].
      - apply (ss_impl (natural_before h w) _ (in_corner h w)); [apply Forall_forall; intros p Hp; apply filter_In in Hp as [_ Hp]; apply Fc; exact Hp| |apply ss_filter; exact SN].
        intros a b Ca Cb R. unfold natural_before in R. tauto.
      - apply NoDup_Permutation; [apply NoDup_filter; exact N|apply raster_nodup|]. intros p. rewrite filter_In, in_raster. rewrite Fc. split.
        + intros [Hp C]. apply (Permutation_in p P) in Hp. rewrite EP in Hp. apply in_raster in Hp. unfold in_corner in C. lia.
        + intros H. split; [|unfold in_corner; lia]. apply (Permutation_in p (Permutation_sym P)). rewrite EP. apply in_raster. lia. }
    rewrite SP, FE. rewrite <- raster_length. rewrite firstn_app, firstn_all, Nat.sub_diag, firstn_O, app_nil_r. reflexivity.
  - intros l' P' S'. destruct (G l' P' S') as [SN' _]. apply (sorted_unique (natural_before h w)); [|exact SN'|exact SN|etransitivity; [exact P'|symmetry; exact P]].
    intros a b H1 H2. exact (natural_irr h w a (natural_trans h w a b a H1 H2)).
Qed.

(* permuted orders *)
Lemma applyPerm_ok order perm : Forall (fun p => 0 <= p < Z.of_nat (length order)) perm -> applyPerm order perm = Ok (map (fun p => nth (Z.to_nat p) order (0, 0)) perm).
Proof.
  induction 1 as [|p ps Hp F IH]; [reflexivity|]. cbn [applyPerm map]. rewrite (slice_get_ok order p (0, 0)) by lia. cbn [obind]. rewrite IH. reflexivity.
Qed.
Lemma map_iota {A} (l : list A) d : map (fun p => nth (Z.to_nat p) l d) (iota (Z.of_nat (length l))) = l.
Proof.
  unfold iota. rewrite Nat2Z.id, map_map. rewrite (map_ext _ (fun i => nth i l d)) by (intros i; rewrite Nat2Z.id; reflexivity).
  apply (nth_ext_len _ _ d); [rewrite map_length, seq_length; reflexivity|]. intros n Hn. rewrite map_length, seq_length in Hn.
  rewrite (nth_indep _ d (nth 0 l d)) by (rewrite map_length, seq_length; exact Hn). rewrite (map_nth (fun i => nth i l d)), seq_nth by exact Hn. reflexivity.
Qed.
Lemma applyPerm_perm order perm k : Permutation (iota (Z.of_nat (length order))) perm -> (k <= length order)%nat -> firstn k perm = iota (Z.of_nat k) ->
  exists r, applyPerm order perm = Ok r /\ Permutation r order /\ firstn k r = firstn k order.
Proof.
  intros P Hk F. eexists. split; [apply applyPerm_ok|split].
  - apply Forall_forall. intros p Hp. apply (Permutation_in p (Permutation_sym P)) in Hp. unfold iota in Hp. apply in_map_iff in Hp as (i & <- & Hi). apply in_seq in Hi. lia.
  - etransitivity; [apply Permutation_map; symmetry; exact P|]. rewrite map_iota. reflexivity.
  - rewrite firstn_map, F. transitivity (firstn k (map (fun p => nth (Z.to_nat p) order (0, 0)) (iota (Z.of_nat (length order))))); [|rewrite map_iota; reflexivity].
    rewrite firstn_map. f_equal. unfold iota. rewrite firstn_map, !Nat2Z.id. f_equal.
    replace (length order) with (k + (length order - k))%nat by lia. rewrite seq_app, firstn_app, seq_length, Nat.sub_diag, firstn_O, app_nil_r. rewrite firstn_all2 by (rewrite seq_length; lia). reflexivity.
Qed.
