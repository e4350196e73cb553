(* C66: the second level of prefix code descriptions. *)
From Coq Require Import ZArith List Bool Lia ZifyBool ZifyNat.
From Verif Require Import GoBase GoLoop Bits ModelBitReader ModelUtil ModelEntropy SpecBitReader SpecCodes SpecGrammar SpecEntropy SpecDist SpecPrefix.
From Verif Require Import ProofBitReader ProofBitReader2 ProofReads ProofCodes ProofUtil ProofGrammar ProofHybrid ProofVLC ProofAlias ProofDist ProofPrefix.
Import ListNotations.
Open Scope Z_scope.
Local Notation "x <== R ;;; S" := (c_seq R (fun x => S)) (at level 61, R at next level, right associativity).

(* The grammar the loop follows step by step *)
Definition step2 (i : Z) (st : L2) (cd : Z) : code (Z * L2) :=
  if cd =? 16 then
    e <== c_fixed 2 ;;;
    let extra := if 0 <? l2_rep st then 4 * (l2_rep st - 2) - l2_rep st + (3 + i32 e) else 3 + i32 e in
    lens <== c_out (setRange (Z.to_nat extra) i (l2_prev st) (l2_len st)) ;;;
    cnt <== c_out (bump (l2_cnt st) (l2_prev st) extra) ;;;
    c_ret (i + (extra - 1), mkL2 lens cnt (l2_total st + Z.shiftr 32768 (l2_prev st) * extra) (l2_rep st + extra) 0 (l2_prev st))
  else if cd =? 17 then
    e <== c_fixed 3 ;;;
    let extra := if 0 <? l2_zero st then 8 * (l2_zero st - 2) - l2_zero st + (3 + i32 e) else 3 + i32 e in
    cnt <== c_out (bump (l2_cnt st) 0 extra) ;;;
    c_ret (i + (extra - 1), mkL2 (l2_len st) cnt (l2_total st) 0 (l2_zero st + extra) (l2_prev st))
  else
    lens <== c_out (slice_set (l2_len st) i cd) ;;;
    cnt <== c_out (bump (l2_cnt st) cd 1) ;;;
    c_ret (i, mkL2 lens cnt (if cd =? 0 then l2_total st else l2_total st + Z.shiftr 32768 cd) 0 0 (if cd =? 0 then l2_prev st else cd)).
Fixpoint mech2 (fuel : nat) (D : code Z) (A i : Z) (st : L2) : code L2 :=
  match fuel with
  | O => c_none
  | S f =>
      if A <=? i then c_ret st
      else cd <== D ;;; r <== step2 i st cd ;;;
        let '(i', st') := r in
        if 32768 <=? l2_total st' then
          cnt <== c_out (bump (l2_cnt st') 0 (A - i' - 1)) ;;;
          c_ret (mkL2 (l2_len st') cnt (l2_total st') (l2_rep st') (l2_zero st') (l2_prev st'))
        else mech2 f D A (i' + 1) st'
  end.
Lemma semi_bits k n : (n <= 64)%nat -> semi k (ReadBits (Z.of_nat n)) (c_fixed n).
Proof. intros H. apply semi_of, ahead_of, exact_bits; [reflexivity|assumption]. Qed.
Lemma mech2_semi k tbl D A : exact_ahead k (GetVLC tbl) D -> forall fuel i st, semi k (level2Loop fuel tbl A i st) (mech2 fuel D A i st).
Proof.
  intros HD. induction fuel as [|f IH]; intros i st; cbn [level2Loop mech2].
  - apply semi_fail; [intros c v []|]. intros s v s'. unfold rpanic. congruence.
  - destruct (A <=? i); [apply semi_ret|]. apply semi_bind; [now apply semi_of|]. intros cd c _. apply semi_bind.
    + unfold step2. destruct (cd =? 16); [|destruct (cd =? 17)].
      * apply semi_bind; [apply (semi_bits k 2); lia|]. intros e c2 _. cbv zeta.
        apply semi_bind; [apply semi_lift|]. intros lens c3 _. apply semi_bind; [apply semi_lift|]. intros cn c4 _. apply semi_ret.
      * apply semi_bind; [apply (semi_bits k 3); lia|]. intros e c2 _. cbv zeta.
        apply semi_bind; [apply semi_lift|]. intros cn c4 _. apply semi_ret.
      * apply semi_bind; [apply semi_lift|]. intros lens c3 _. apply semi_bind; [apply semi_lift|]. intros cn c4 _. apply semi_ret.
    + intros [i' st'] c2 _. destruct (32768 <=? l2_total st'); [|apply IH].
      apply semi_bind; [apply semi_lift|]. intros cn c4 _. apply semi_ret.
Qed.

(* States with the lengths of done read *)
Definition st2 (A : nat) (done : list Z) (rep zero prev : Z) : L2 :=
  mkL2 (done ++ repeat 0 (A - length done)) (cnts (S A) done) (kraft_all 15 done) rep zero prev.
Definition lenok (A : nat) (x : Z) : Prop := 0 <= x <= 15 /\ x <= Z.of_nat A.

Lemma setRange_ok n : forall (done : list Z) m v, (n <= m)%nat ->
  setRange n (Z.of_nat (length done)) v (done ++ repeat 0 m) = Ok (done ++ repeat v n ++ repeat 0 (m - n)).
Proof.
  induction n as [|n IH]; intros done m v H; cbn [setRange].
  - cbn [repeat app]. now rewrite Nat.sub_0_r.
  - destruct m as [|m]; [lia|]. rewrite slice_set_ok by (rewrite app_length; cbn [repeat length]; lia). cbn [obind]. rewrite Nat2Z.id. cbn [repeat].
    rewrite list_set_mid by reflexivity. specialize (IH (done ++ [v]) m v ltac:(lia)). rewrite app_length in IH. cbn [length] in IH.
    replace (Z.of_nat (length done + 1)) with (Z.of_nat (length done) + 1) in IH by lia. rewrite <- !app_assoc in IH. cbn [app] in IH. rewrite IH. reflexivity.
Qed.
Lemma setRange_bad n : forall (done : list Z) m v l, (m < n)%nat -> setRange n (Z.of_nat (length done)) v (done ++ repeat 0 m) <> Ok l.
Proof.
  induction n as [|n IH]; intros done m v l H; cbn [setRange]; [lia|].
  destruct m as [|m].
  - unfold slice_set. cbn [repeat]. rewrite app_nil_r.
    replace (_ || _) with true by lia. discriminate.
  - rewrite slice_set_ok by (rewrite app_length; cbn [repeat length]; lia). cbn [obind]. rewrite Nat2Z.id. cbn [repeat].
    rewrite list_set_mid by reflexivity. specialize (IH (done ++ [v]) m v l ltac:(lia)). rewrite app_length in IH. cbn [length] in IH.
    replace (Z.of_nat (length done + 1)) with (Z.of_nat (length done) + 1) in IH by lia. rewrite <- !app_assoc in IH. cbn [app] in IH. exact IH.
Qed.
Lemma bump_ok K l v d (l' : list Z) : 0 <= v < Z.of_nat K -> (forall u, Z.of_nat (cnt u l') = Z.of_nat (cnt u l) + (if u =? v then d else 0)) ->
  bump (cnts K l) v d = Ok (cnts K l').
Proof.
  intros Hv H. unfold bump. rewrite (slice_get_ok _ _ 0) by (rewrite cnts_length; lia). cbn [obind].
  rewrite slice_set_ok by (rewrite cnts_length; lia). now rewrite (cnts_bump K l v d l').
Qed.
Lemma bump_bad K l v d x : ~ 0 <= v < Z.of_nat K -> bump (cnts K l) v d <> Ok x.
Proof.
  intros Hv. unfold bump, slice_get. destruct (Z.ltb_spec v 0); [discriminate|].
  destruct (nth_error (cnts K l) (Z.to_nat v)) eqn:E; [|discriminate].
  assert (Hn : nth_error (cnts K l) (Z.to_nat v) <> None) by congruence. apply nth_error_Some in Hn. rewrite cnts_length in Hn. lia.
Qed.
Lemma shr15 v : 0 <= v <= 15 -> Z.shiftr 32768 v = 2 ^ (15 - v).
Proof.
  intros H. assert (G : forall x, 0 <= x < Z.of_nat 16 -> (Z.shiftr 32768 x =? 2 ^ (15 - x)) = true) by (apply (all_below (fun x => Z.shiftr 32768 x =? 2 ^ (15 - x))); reflexivity).
  specialize (G v ltac:(lia)). lia.
Qed.
Definition run_ok (r : Z) : Prop := r = 0 \/ 3 <= r.
Lemma longer_code base run e : (base = 4 \/ base = 8) -> run_ok run -> 0 <= e ->
  (if 0 <? run then base * (run - 2) - run + (3 + e) else 3 + e) = longer base run e - run /\ 3 <= longer base run e - run.
Proof.
  intros Hb Hr He. unfold longer. destruct (Z.ltb_spec 0 run), (Z.eqb_spec run 0); destruct Hr; try lia; destruct Hb as [-> | ->]; lia.
Qed.

(* One item: from done to done ++ x, with o positions too many *)
Inductive item2 (A : nat) (done : list Z) (prev rep zero cd : Z) : list bool -> list Z -> nat -> Z -> Z -> Z -> Prop :=
| i2_len : 0 <= cd <= 15 -> cd <= Z.of_nat A -> item2 A done prev rep zero cd [] [cd] 0 0 0 (if cd =? 0 then prev else cd)
| i2_rep : forall c e, cd = 16 -> c_fixed 2 c e -> prev <= Z.of_nat A -> longer 4 rep e - rep <= Z.of_nat (A - length done) ->
    item2 A done prev rep zero cd c (repeat prev (Z.to_nat (longer 4 rep e - rep))) 0 (longer 4 rep e) 0 prev
| i2_zero : forall c e, cd = 17 -> c_fixed 3 c e ->
    item2 A done prev rep zero cd c (repeat 0 (Nat.min (A - length done) (Z.to_nat (longer 8 zero e - zero))))
      (Z.to_nat (longer 8 zero e - zero) - (A - length done)) 0 (longer 8 zero e) prev.

Definition out2 (A : nat) (done x : list Z) (o : nat) (rep zero prev : Z) : L2 :=
  mkL2 (done ++ x ++ repeat 0 (A - length done - length x)) (cnts (S A) (done ++ x ++ repeat 0 o)) (kraft_all 15 (done ++ x)) rep zero prev.
Lemma fixed2_range n c e : c_fixed n c e -> (n <= 31)%nat -> i32 e = e /\ 0 <= e.
Proof. intros [_ H] Hn. split; [|lia]. apply i32_small. assert (2 ^ Z.of_nat n <= 2 ^ 31) by (apply Z.pow_le_mono_r; lia). lia. Qed.
Lemma step2_item A done prev rep zero cd : (length done < A)%nat -> 0 <= cd <= 17 -> 1 <= prev <= 15 -> run_ok rep -> run_ok zero ->
  forall c r, step2 (Z.of_nat (length done)) (st2 A done rep zero prev) cd c r <->
    exists x o rep' zero' prev', item2 A done prev rep zero cd c x o rep' zero' prev' /\
      r = (Z.of_nat (length done + length x + o) - 1, out2 A done x o rep' zero' prev').
Proof.
  intros HA Hc Hp Hrep Hzero c r. unfold step2. destruct (Z.eqb_spec cd 16) as [E16|N16]; [|destruct (Z.eqb_spec cd 17) as [E17|N17]].
  - cbn [st2 l2_rep l2_prev l2_len l2_cnt l2_total]. split.
    + intros (c1 & c2 & e & -> & He & H). destruct (fixed2_range _ _ _ He ltac:(lia)) as [Ei He0]. cbv zeta in H. rewrite Ei in H.
      destruct (longer_code 4 rep e (or_introl eq_refl) Hrep He0) as [El Hl]. rewrite El in H. set (k := longer 4 rep e - rep) in *.
      destruct H as (c3 & c4 & lens & -> & [-> Hs] & H). destruct H as (c5 & c6 & cn & -> & [-> Hb] & H). destruct H as [-> ->].
      destruct (le_lt_dec (Z.to_nat k) (A - length done)) as [G|G]; [|now apply setRange_bad in Hs].
      destruct (Z_le_dec prev (Z.of_nat A)) as [G2|G2]; [|apply bump_bad in Hb; [contradiction|lia]].
      rewrite setRange_ok in Hs by assumption. injection Hs as <-.
      rewrite (bump_ok _ _ _ _ (done ++ repeat prev (Z.to_nat k))) in Hb.
      2: lia.
      2:{ intros u. rewrite cnt_app, cnt_repeat. destruct (Z.eqb_spec prev u), (Z.eqb_spec u prev); lia. }
      injection Hb as <-. exists (repeat prev (Z.to_nat k)), 0%nat, (longer 4 rep e), 0, prev. rewrite !app_nil_r. split.
      * apply i2_rep; try assumption. fold k. lia.
      * rewrite repeat_length. f_equal; [lia|]. unfold out2. cbn [repeat]. rewrite app_nil_r, repeat_length. f_equal.
        -- rewrite kraft_all_app, kraft_all_repeat, shr15 by lia. destruct (Z.ltb_spec 0 prev); lia.
        -- unfold k. lia.
    + intros (x & o & rep' & zero' & prev' & Hi & ->). inversion Hi; subst; try lia. rename H into He.
      destruct (fixed2_range _ _ _ H0 ltac:(lia)) as [Ei He0]. exists c, [], e. rewrite app_nil_r. split; [reflexivity|]. split; [assumption|].
      cbv zeta. rewrite Ei. destruct (longer_code 4 rep e (or_introl eq_refl) Hrep He0) as [El Hl]. rewrite El. set (k := longer 4 rep e - rep) in *.
      exists [], [], (done ++ repeat prev' (Z.to_nat k) ++ repeat 0 (A - length done - Z.to_nat k)). split; [reflexivity|]. split; [split; [reflexivity|apply setRange_ok; lia]|].
      exists [], [], (cnts (S A) (done ++ repeat prev' (Z.to_nat k))). split; [reflexivity|]. split; [split; [reflexivity|apply bump_ok; [lia|]]|].
      { intros u. rewrite cnt_app, cnt_repeat. destruct (Z.eqb_spec prev' u), (Z.eqb_spec u prev'); lia. }
      split; [reflexivity|]. rewrite repeat_length. f_equal; [lia|]. unfold out2. cbn [repeat]. rewrite app_nil_r, repeat_length. f_equal.
      -- rewrite kraft_all_app, kraft_all_repeat, shr15 by lia. destruct (Z.ltb_spec 0 prev'); lia.
      -- unfold k. lia.
  - cbn [st2 l2_rep l2_zero l2_prev l2_len l2_cnt l2_total].
    assert (Key : forall e, 0 <= e -> forall k, k = longer 8 zero e - zero -> 3 <= k ->
       bump (cnts (S A) done) 0 k = Ok (cnts (S A) (done ++ repeat 0 (Nat.min (A - length done) (Z.to_nat k)) ++ repeat 0 (Z.to_nat k - (A - length done)))) /\
       (Z.of_nat (length done) + (k - 1), mkL2 (done ++ repeat 0 (A - length done)) (cnts (S A) (done ++ repeat 0 (Nat.min (A - length done) (Z.to_nat k)) ++ repeat 0 (Z.to_nat k - (A - length done)))) (kraft_all 15 done) 0 (zero + k) prev) =
       (Z.of_nat (length done + length (repeat 0 (Nat.min (A - length done) (Z.to_nat k))) + (Z.to_nat k - (A - length done))) - 1,
        out2 A done (repeat 0 (Nat.min (A - length done) (Z.to_nat k))) (Z.to_nat k - (A - length done)) 0 (longer 8 zero e) prev)).
    { intros e He k Ek Hk. split.
      - apply bump_ok; [lia|]. intros u. rewrite !cnt_app, !cnt_repeat. destruct (Z.eqb_spec 0 u), (Z.eqb_spec u 0); lia.
      - rewrite repeat_length. f_equal; [lia|]. unfold out2. rewrite repeat_length. f_equal.
        + f_equal. rewrite <- repeat_app. f_equal. lia.
        + rewrite kraft_all_app, kraft_all_repeat. cbn [Z.ltb Z.compare]. lia.
        + lia. }
    split.
    + intros (c1 & c2 & e & -> & He & H). destruct (fixed2_range _ _ _ He ltac:(lia)) as [Ei He0]. cbv zeta in H. rewrite Ei in H.
      destruct (longer_code 8 zero e (or_intror eq_refl) Hzero He0) as [El Hl]. rewrite El in H. 
      destruct H as (c5 & c6 & cn & -> & [-> Hb] & H). destruct H as [-> ->].
      destruct (Key e He0 _ eq_refl Hl) as [K1 K2]. rewrite K1 in Hb. injection Hb as <-. rewrite K2. rewrite !app_nil_r.
      do 5 eexists. split; [apply i2_zero; eassumption|]. reflexivity.
    + intros (x & o & rep' & zero' & prev' & Hi & ->). inversion Hi; subst; try lia.
      destruct (fixed2_range _ _ _ H0 ltac:(lia)) as [Ei He0]. exists c, [], e. rewrite app_nil_r. split; [reflexivity|]. split; [assumption|].
      cbv zeta. rewrite Ei. destruct (longer_code 8 zero e (or_intror eq_refl) Hzero He0) as [El Hl]. rewrite El.
      destruct (Key e He0 _ eq_refl Hl) as [K1 K2].
      eexists [], [], _. split; [reflexivity|]. split; [split; [reflexivity|exact K1]|]. split; [reflexivity|]. symmetry. exact K2.
  - cbn [st2 l2_rep l2_zero l2_prev l2_len l2_cnt l2_total].
    assert (E1 : slice_set (done ++ repeat 0 (A - length done)) (Z.of_nat (length done)) cd = Ok (done ++ [cd] ++ repeat 0 (A - length done - 1))).
    { rewrite slice_set_ok by (rewrite app_length, repeat_length; lia). rewrite Nat2Z.id. replace (A - length done)%nat with (S (A - length done - 1)) at 1 by lia.
      cbn [repeat]. now rewrite list_set_mid. }
    assert (E2 : cd <= Z.of_nat A -> bump (cnts (S A) done) cd 1 = Ok (cnts (S A) (done ++ [cd]))).
    { intros G. apply bump_ok; [lia|]. intros u. rewrite cnt_app, cnt_cons. cbn [cnt filter length]. destruct (Z.eqb_spec cd u), (Z.eqb_spec u cd); lia. }
    assert (E3 : (if cd =? 0 then kraft_all 15 done else kraft_all 15 done + Z.shiftr 32768 cd) = kraft_all 15 (done ++ [cd])).
    { rewrite kraft_all_app, kraft_all_cons. change (kraft_all 15 []) with 0. rewrite shr15 by lia. destruct (Z.eqb_spec cd 0), (Z.ltb_spec 0 cd); lia. }
    split.
    + intros (c1 & c2 & lens & -> & [-> H1] & c3 & c4 & cn & -> & [-> H2] & -> & ->). rewrite E1 in H1. injection H1 as <-.
      destruct (Z_le_dec cd (Z.of_nat A)) as [G|G]; [|apply bump_bad in H2; [contradiction|lia]]. rewrite E2 in H2 by assumption. injection H2 as <-.
      exists [cd], 0%nat, 0, 0, (if cd =? 0 then prev else cd). split; [apply i2_len; lia|]. rewrite E3. cbn [length]. apply (f_equal2 pair); [lia|]. unfold out2. cbn [repeat length]. rewrite app_nil_r. reflexivity.
    + intros (x & o & rep' & zero' & prev' & Hi & ->). inversion Hi; subst; try lia.
      exists [], [], (done ++ [cd] ++ repeat 0 (A - length done - 1)). split; [reflexivity|]. split; [split; [reflexivity|assumption]|].
      exists [], [], (cnts (S A) (done ++ [cd])). split; [reflexivity|]. split; [split; [reflexivity|auto]|]. split; [reflexivity|].
      cbn [length]. apply (f_equal2 pair); [lia|]. unfold out2. cbn [repeat length]. rewrite E3, app_nil_r. reflexivity.
Qed.

Lemma item2_facts A done prev rep zero cd c x o rep' zero' prev' : (length done < A)%nat -> 1 <= prev <= 15 -> run_ok rep -> run_ok zero ->
  item2 A done prev rep zero cd c x o rep' zero' prev' ->
  (1 <= length x <= A - length done)%nat /\ Forall (lenok A) x /\ 1 <= prev' <= 15 /\ run_ok rep' /\ run_ok zero' /\
  ((0 < o)%nat -> length x = (A - length done)%nat /\ kraft_all 15 x = 0).
Proof.
  intros HA Hp Hr Hz Hi. inversion Hi; subst.
  - cbn [length]. repeat split; try lia; try (destruct (Z.eqb_spec cd 0); lia); try (left; reflexivity). constructor; [|constructor]. split; lia.
  - match goal with HC : c_fixed _ _ _ |- _ => destruct (fixed2_range _ _ _ HC ltac:(lia)) as [_ He] end. destruct (longer_code 4 rep e (or_introl eq_refl) Hr He) as [_ Hl]. rewrite repeat_length.
    assert (Hrr : 0 <= rep) by (destruct Hr; lia).
    repeat split; try lia; try (right; lia); try (left; reflexivity). apply Forall_forall. intros y Hy. apply repeat_spec in Hy. subst y. split; lia.
  - match goal with HC : c_fixed _ _ _ |- _ => destruct (fixed2_range _ _ _ HC ltac:(lia)) as [_ He] end. destruct (longer_code 8 zero e (or_intror eq_refl) Hz He) as [_ Hl]. rewrite repeat_length.
    assert (Hrr : 0 <= zero) by (destruct Hz; lia).
    repeat split; try lia; try (right; lia); try (left; reflexivity).
    + apply Forall_forall. intros y Hy. apply repeat_spec in Hy. subst y. split; lia.
    + rewrite kraft_all_repeat. reflexivity.
Qed.
Lemma item2_lens (D : code Z) A done prev rep zero cd c0 c x o rep' zero' prev' sum c2 r : (length done < A)%nat -> 1 <= prev <= 15 -> run_ok rep -> run_ok zero ->
  D c0 cd -> item2 A done prev rep zero cd c x o rep' zero' prev' -> o = 0%nat -> sum < 2 ^ 15 ->
  c_lens2 D (Z.of_nat (A - length done) - Z.of_nat (length x)) prev' rep' zero' (sum + kraft_all 15 x) c2 r ->
  c_lens2 D (Z.of_nat (A - length done)) prev rep zero sum (c0 ++ c ++ c2) (x ++ r).
Proof.
  intros HA Hp Hr Hz HD Hi Ho Hs H. destruct Hi as [Hv1 Hv2|c e Hcd Hc1 Hc2 Hc3|c e Hcd Hc1].
  - cbn [app length] in *. apply cl2_len; try assumption; try lia. replace (if cd =? 0 then 0 else 2 ^ (15 - cd)) with (kraft_all 15 [cd]).
    { exact H. }
    { rewrite kraft_all_cons. change (kraft_all 15 []) with 0. destruct (Z.eqb_spec cd 0), (Z.ltb_spec 0 cd); lia. }
  - subst cd. destruct (fixed2_range _ _ _ Hc1 ltac:(lia)) as [_ He]. destruct (longer_code 4 rep e (or_introl eq_refl) Hr He) as [_ Hl].
    apply (cl2_rep D _ prev rep zero sum c0 c e c2 r); try assumption; try lia.
    rewrite repeat_length, Z2Nat.id in H by lia. rewrite kraft_all_repeat, Z2Nat.id in H by lia. destruct (Z.ltb_spec 0 prev); [|lia].
    replace (rep + (longer 4 rep e - rep)) with (longer 4 rep e) by lia. exact H.
  - subst cd. destruct (fixed2_range _ _ _ Hc1 ltac:(lia)) as [_ He]. destruct (longer_code 8 zero e (or_intror eq_refl) Hz He) as [_ Hl].
    replace (Nat.min (A - length done) (Z.to_nat (longer 8 zero e - zero))) with (Z.to_nat (longer 8 zero e - zero)) in * by lia.
    apply (cl2_zero D _ prev rep zero sum c0 c e c2 r); try assumption; try lia.
    rewrite repeat_length, Z2Nat.id in H by lia. rewrite kraft_all_repeat in H. cbn [Z.ltb Z.compare] in H. rewrite Z.add_0_r in H.
    replace (zero + (longer 8 zero e - zero)) with (longer 8 zero e) by lia. exact H.
Qed.
Lemma lens2_item (D : code Z) A done prev rep zero sum c r : (forall c v, D c v -> 0 <= v <= 17) -> (length done < A)%nat -> 1 <= prev <= 15 -> run_ok rep -> run_ok zero ->
  sum < 2 ^ 15 -> Forall (lenok A) r -> c_lens2 D (Z.of_nat (A - length done)) prev rep zero sum c r ->
  exists c0 cd c1 x rep' zero' prev' c2 r', c = c0 ++ c1 ++ c2 /\ r = x ++ r' /\ D c0 cd /\ item2 A done prev rep zero cd c1 x 0 rep' zero' prev' /\
    c_lens2 D (Z.of_nat (A - length done) - Z.of_nat (length x)) prev' rep' zero' (sum + kraft_all 15 x) c2 r'.
Proof.
  intros Hrange HA Hp Hr Hz Hs Hall H. inversion H; subst.
  - lia.
  - match goal with HD : D ?c1 ?v |- _ => exists c1, v, []; pose proof (Hrange _ _ HD) end.
    pose proof (Forall_inv Hall) as [Hv1 Hv2].
    do 6 eexists. split; [|split; [|split; [eassumption|split; [apply i2_len; lia|]]]]; [reflexivity|exact (eq_refl (_ :: _))|].
    cbn [length]. replace (kraft_all 15 [v]) with (if v =? 0 then 0 else 2 ^ (15 - v)).
    { eassumption. }
    { rewrite kraft_all_cons. change (kraft_all 15 []) with 0. destruct (Z.eqb_spec v 0), (Z.ltb_spec 0 v); lia. }
  - match goal with HD : D ?c1 16, HC : c_fixed 2 ?c2 ?e |- _ => exists c1, 16, c2; rename e into ee; rename HC into HC0 end.
    destruct (fixed2_range _ _ _ HC0 ltac:(lia)) as [_ He]. destruct (longer_code 4 rep ee (or_introl eq_refl) Hr He) as [_ Hl].
    subst k. set (k := longer 4 rep ee - rep) in *.
    assert (Hpa : prev <= Z.of_nat A).
    { apply Forall_app in Hall. destruct Hall as [Ha _]. replace (Z.to_nat k) with (S (Z.to_nat k - 1)) in Ha by lia. cbn [repeat] in Ha. apply Forall_inv in Ha. destruct Ha. assumption. }
    do 6 eexists. split; [|split; [|split; [eassumption|split; [apply i2_rep; try eassumption; reflexivity|]]]]; [reflexivity|reflexivity|].
    rewrite repeat_length. fold k. rewrite Z2Nat.id by lia. rewrite kraft_all_repeat, Z2Nat.id by lia. destruct (Z.ltb_spec 0 prev); [|lia].
    replace (longer 4 rep ee) with (rep + k) by (unfold k; lia). assumption.
  - match goal with HD : D ?c1 17, HC : c_fixed 3 ?c2 ?e |- _ => exists c1, 17, c2; rename e into ee; rename HC into HC0 end.
    destruct (fixed2_range _ _ _ HC0 ltac:(lia)) as [_ He]. destruct (longer_code 8 zero ee (or_intror eq_refl) Hz He) as [_ Hl].
    subst k. set (k := longer 8 zero ee - zero) in *.
    pose proof (i2_zero A done prev rep zero 17 _ ee eq_refl HC0) as Hi. fold k in Hi.
    replace (Nat.min (A - length done) (Z.to_nat k)) with (Z.to_nat k) in Hi by lia. replace (Z.to_nat k - (A - length done))%nat with 0%nat in Hi by lia.
    do 6 eexists. split; [|split; [|split; [eassumption|split; [exact Hi|]]]]; [reflexivity|reflexivity|].
    rewrite repeat_length. rewrite Z2Nat.id by lia. rewrite kraft_all_repeat. cbn [Z.ltb Z.compare]. rewrite Z.add_0_r.
    replace (longer 8 zero ee) with (zero + k) by (unfold k; lia). assumption.
Qed.
Lemma out2_st2 A done x rep zero prev : (length x <= A - length done)%nat -> out2 A done x 0 rep zero prev = st2 A (done ++ x) rep zero prev.
Proof.
  intros H. unfold out2, st2. cbn [repeat]. rewrite app_nil_r, app_length, <- app_assoc. now rewrite Nat.sub_add_distr.
Qed.
Lemma mech2_sound (D : code Z) A : (forall c v, D c v -> 0 <= v <= 17) -> forall fuel done rep zero prev c st',
  (length done <= A)%nat -> kraft_all 15 done < 2 ^ 15 -> 1 <= prev <= 15 -> run_ok rep -> run_ok zero ->
  mech2 fuel D (Z.of_nat A) (Z.of_nat (length done)) (st2 A done rep zero prev) c st' ->
  exists r o, l2_len st' = done ++ r /\ (length done + length r = A)%nat /\ l2_cnt st' = cnts (S A) (done ++ r ++ repeat 0 o) /\
    l2_total st' = kraft_all 15 (done ++ r) /\ Forall (lenok A) r /\
    (o = 0%nat -> c_lens2 D (Z.of_nat (A - length done)) prev rep zero (kraft_all 15 done) c r) /\ ((0 < o)%nat -> kraft_all 15 (done ++ r) < 2 ^ 15).
Proof.
  intros Hrange. induction fuel as [|f IH]; intros done rep zero prev c st' HA Hk Hp Hr Hz H; cbn [mech2] in H; [destruct H|].
  destruct (Z.leb_spec (Z.of_nat A) (Z.of_nat (length done))) as [G|G].
  - destruct H as [-> ->]. exists [], 0%nat. cbn [st2 l2_len l2_cnt l2_total repeat app length]. rewrite !app_nil_r.
    replace (A - length done)%nat with 0%nat by lia. cbn [repeat]. rewrite app_nil_r. repeat split; try lia; [constructor|].
    intros _. change (@nil Z) with (repeat 0 (Z.to_nat (Z.of_nat 0))). apply cl2_stop; lia.
  - destruct H as (c0 & c' & cd & -> & HD & c1 & c2 & [i' st1] & -> & Hst & H). pose proof (Hrange _ _ HD) as Hcd.
    apply step2_item in Hst; try assumption; try lia. destruct Hst as (x & o & rep' & zero' & prev' & Hi & E).
    apply pair_equal_spec in E. destruct E as [-> ->].
    assert (HlA : (length done < A)%nat) by lia.
    destruct (item2_facts _ _ _ _ _ _ _ _ _ _ _ _ HlA Hp Hr Hz Hi) as (Hx & Hxall & Hp' & Hr' & Hz' & Ho).
    cbn [out2 l2_total l2_cnt l2_len l2_rep l2_zero l2_prev] in H.
    destruct (Z.leb_spec 32768 (kraft_all 15 (done ++ x))) as [Gk|Gk].
    + assert (o = 0%nat) as ->. { destruct o as [|o]; [reflexivity|]. destruct (Ho ltac:(lia)) as [_ E]. rewrite kraft_all_app in Gk. change (2 ^ 15) with 32768 in Hk. lia. }
      destruct H as (c3 & c4 & cn & -> & [-> Hb] & -> & ->). cbn [repeat] in Hb. rewrite app_nil_r in Hb.
      set (n := (A - length done - length x)%nat) in *.
      rewrite (bump_ok _ _ _ _ (done ++ (x ++ repeat 0 n))) in Hb.
      2: lia.
      2:{ intros u. rewrite !cnt_app, cnt_repeat. destruct (Z.eqb_spec 0 u), (Z.eqb_spec u 0); lia. }
      injection Hb as <-. exists (x ++ repeat 0 n), 0%nat. cbn [l2_len l2_cnt l2_total repeat]. rewrite app_nil_r. split; [reflexivity|].
      split; [rewrite app_length, repeat_length; lia|]. split; [reflexivity|]. split; [rewrite app_assoc, (kraft_all_app 15 (done ++ x)), kraft_all_repeat; cbn [Z.ltb Z.compare]; lia|].
      split; [apply Forall_app; split; [assumption|apply Forall_forall; intros y Hy; apply repeat_spec in Hy; subst y; split; lia]|].
      split; [|lia]. intros _. cbn [app]. 
      apply (item2_lens D A done prev rep zero cd c0 c1 x 0 rep' zero' prev'); try assumption; try lia.
      replace n with (Z.to_nat (Z.of_nat (A - length done) - Z.of_nat (length x))) by lia. apply cl2_stop; [lia|]. right. rewrite <- kraft_all_app. exact Gk.
    + destruct o as [|o].
      * rewrite out2_st2 in H by lia. replace (Z.of_nat (length done + length x + 0) - 1 + 1) with (Z.of_nat (length (done ++ x))) in H by (rewrite app_length; lia).
        apply IH in H; try assumption; try (rewrite app_length; lia). destruct H as (r & o & H1 & H2 & H3 & H4 & H5 & H6 & H7).
        rewrite <- !app_assoc in *. rewrite app_length in *. exists (x ++ r), o. rewrite <- !app_assoc. rewrite app_length.
        split; [assumption|]. split; [lia|]. split; [assumption|]. split; [assumption|]. split; [apply Forall_app; auto|]. split; [|assumption].
        intros Eo. specialize (H6 Eo). apply (item2_lens D A done prev rep zero cd c0 c1 x 0 rep' zero' prev'); try assumption; try lia.
        rewrite <- kraft_all_app. replace (Z.of_nat (A - length done) - Z.of_nat (length x)) with (Z.of_nat (A - (length done + length x))) by lia. assumption.
      * destruct (Ho ltac:(lia)) as [Hxl Hxk]. destruct f as [|f]; cbn [mech2] in H; [destruct H|].
        destruct (Z.leb_spec (Z.of_nat A) (Z.of_nat (length done + length x + S o) - 1 + 1)); [|lia]. destruct H as [-> ->].
        exists x, (S o). cbn [out2 l2_len l2_cnt l2_total]. replace (A - length done - length x)%nat with 0%nat by lia. cbn [repeat]. rewrite app_nil_r.
        repeat split; try assumption; try lia.
Qed.
Lemma mech2_complete (D : code Z) A : (forall c v, D c v -> 0 <= v <= 17) -> forall fuel done rep zero prev c r,
  (length done <= A)%nat -> (A - length done < fuel)%nat -> kraft_all 15 done < 2 ^ 15 -> 1 <= prev <= 15 -> run_ok rep -> run_ok zero ->
  c_lens2 D (Z.of_nat (A - length done)) prev rep zero (kraft_all 15 done) c r -> Forall (lenok A) r ->
  exists st', mech2 fuel D (Z.of_nat A) (Z.of_nat (length done)) (st2 A done rep zero prev) c st' /\
    l2_len st' = done ++ r /\ l2_cnt st' = cnts (S A) (done ++ r) /\ l2_total st' = kraft_all 15 (done ++ r).
Proof.
  intros Hrange. induction fuel as [|f IH]; intros done rep zero prev c r HA Hf Hk Hp Hr Hz H Hall; [lia|]. cbn [mech2].
  destruct (Z.leb_spec (Z.of_nat A) (Z.of_nat (length done))) as [G|G].
  - assert (E0 : (A - length done = 0)%nat) by lia. rewrite E0 in H. inversion H; subst; try lia.
    exists (st2 A done rep zero prev). split; [split; reflexivity|]. cbn [st2 l2_len l2_cnt l2_total]. rewrite E0. change (repeat 0 (Z.to_nat (Z.of_nat 0))) with (@nil Z).
    cbn [repeat]. rewrite !app_nil_r. repeat split; reflexivity.
  - destruct (lens2_item D A done prev rep zero (kraft_all 15 done) c r Hrange ltac:(lia) Hp Hr Hz Hk Hall H) as (c0 & cd & c1 & x & rep' & zero' & prev' & c2 & r' & -> & -> & HD & Hi & H').
    pose proof (Hrange _ _ HD) as Hcd.
    assert (HlA : (length done < A)%nat) by lia.
    destruct (item2_facts _ _ _ _ _ _ _ _ _ _ _ _ HlA Hp Hr Hz Hi) as (Hx & Hxall & Hp' & Hr' & Hz' & _).
    assert (Hst : step2 (Z.of_nat (length done)) (st2 A done rep zero prev) cd c1 (Z.of_nat (length done + length x + 0) - 1, out2 A done x 0 rep' zero' prev')).
    { apply step2_item; try assumption; try lia. exists x, 0%nat, rep', zero', prev'. split; [assumption|reflexivity]. }
    apply Forall_app in Hall. destruct Hall as [_ Hall'].
    rewrite <- kraft_all_app in H'.
    destruct (Z_lt_le_dec (kraft_all 15 (done ++ x)) 32768) as [Gk|Gk].
    + replace (Z.of_nat (A - length done) - Z.of_nat (length x)) with (Z.of_nat (A - length (done ++ x))) in H' by (rewrite app_length; lia).
      destruct (IH (done ++ x) rep' zero' prev' c2 r' ltac:(rewrite app_length; lia) ltac:(rewrite app_length; lia) Gk Hp' Hr' Hz' H' Hall') as (st' & M & E1 & E2 & E3).
      rewrite <- !app_assoc in *. exists st'. split; [|auto].
      exists c0, (c1 ++ c2), cd. split; [reflexivity|]. split; [assumption|]. exists c1, c2, (Z.of_nat (length done + length x + 0) - 1, out2 A done x 0 rep' zero' prev').
      split; [reflexivity|]. split; [assumption|]. cbv beta iota. cbn [out2 l2_total]. destruct (Z.leb_spec 32768 (kraft_all 15 (done ++ x))); [lia|].
      fold (out2 A done x 0 rep' zero' prev'). rewrite out2_st2 by lia.
      replace (Z.of_nat (length done + length x + 0) - 1 + 1) with (Z.of_nat (length (done ++ x))) by (rewrite app_length; lia). exact M.
    + set (n := (A - length done - length x)%nat).
      assert (c2 = [] /\ r' = repeat 0 n) as [-> ->].
      { change (2 ^ 15) with 32768 in *. inversion H'; subst; try lia. split; [reflexivity|]. f_equal. lia. }
      eexists. split.
      * exists c0, (c1 ++ []), cd. split; [reflexivity|]. split; [assumption|]. exists c1, [], (Z.of_nat (length done + length x + 0) - 1, out2 A done x 0 rep' zero' prev').
        split; [reflexivity|]. split; [assumption|]. cbv beta iota. cbn [out2 l2_total l2_cnt l2_len l2_rep l2_zero l2_prev repeat]. rewrite app_nil_r. destruct (Z.leb_spec 32768 (kraft_all 15 (done ++ x))); [|lia].
        exists [], [], (cnts (S A) (done ++ x ++ repeat 0 n)). split; [reflexivity|]. split; [split; [reflexivity|]|split; reflexivity].
        apply bump_ok; [lia|]. intros u. rewrite !cnt_app, cnt_repeat. destruct (Z.eqb_spec 0 u), (Z.eqb_spec u 0); lia.
      * cbn [l2_len l2_cnt l2_total]. split; [reflexivity|]. split; [reflexivity|].
        rewrite app_assoc, (kraft_all_app 15 (done ++ x)), kraft_all_repeat. cbn [Z.ltb Z.compare]. lia.
Qed.

(* ---- the second-level table ---- *)
Lemma scramble_bad lens K : forall i c (sl ss : list Z), (i <= length lens)%nat -> length c = K -> Forall (fun x => 0 <= x < Z.of_nat K) lens ->
  (exists j v, (j < i)%nat /\ nth j lens 0 = v /\ Z.of_nat (length sl) < nth (Z.to_nat v) c 0) -> forall r, scramble i lens (c, sl, ss) <> Ok r.
Proof.
  induction i as [|i IH]; intros c sl ss Hi Hc HK (j & v & Hj & Hv & Hbig) r; [lia|]. cbn [scramble].
  rewrite (slice_get_ok _ _ 0) by lia. cbn [obind]. rewrite Nat2Z.id.
  assert (Hl : 0 <= nth i lens 0 < Z.of_nat K) by (rewrite Forall_forall in HK; apply HK, nth_In; lia).
  rewrite (slice_get_ok _ _ 0) by lia. cbn [obind]. rewrite slice_set_ok by lia. cbn [obind].
  destruct (Nat.eq_dec j i) as [->|N].
  - rewrite Hv. unfold slice_set at 1. replace (_ || _) with true by lia. discriminate.
  - destruct (Z.eq_dec (nth i lens 0) v) as [E|E].
    + rewrite E. unfold slice_set at 1. replace (_ || _) with true by lia. discriminate.
    + destruct (slice_set sl _ _) as [sl'| |] eqn:E1; [|discriminate|discriminate]. cbn [obind].
      destruct (slice_set ss _ _) as [ss'| |]; [|discriminate|discriminate]. cbn [obind].
      apply IH; [lia|now rewrite list_set_length|assumption|]. exists j, v. split; [lia|]. split; [assumption|].
      assert (Hlv : 0 <= v < Z.of_nat K) by (rewrite <- Hv; rewrite Forall_forall in HK; apply HK, nth_In; lia).
      rewrite nth_list_set_neq by lia. unfold slice_set in E1. destruct (_ || _); [discriminate|]. injection E1 as <-. now rewrite list_set_length.
Qed.
Lemma list_max_in (l : list Z) : l <> [] -> exists m, In m l /\ Forall (fun x => x <= m) l.
Proof.
  induction l as [|x l IH]; intros H; [congruence|]. destruct l as [|y l].
  - exists x. split; [now left|]. constructor; [lia|constructor].
  - destruct IH as (m & H1 & H2); [discriminate|]. destruct (Z_le_dec x m).
    + exists m. split; [now right|]. now constructor.
    + exists x. split; [now left|]. constructor; [lia|]. eapply Forall_impl; [|exact H2]. cbv beta. lia.
Qed.
Lemma sort_bad ls A o : length ls = A -> ls <> [] -> Forall (lenok A) ls -> (0 < o)%nat ->
  forall r, scramble A ls (sumsFrom 0 (cnts (S A) (ls ++ repeat 0 o)), repeat 0 A, repeat 0 A) <> Ok r.
Proof.
  intros Hlen Hne Hall Ho r. destruct (list_max_in ls Hne) as (m & Hm1 & Hm2).
  assert (Hm : 0 <= m <= Z.of_nat A) by (rewrite Forall_forall in Hall; destruct (Hall m Hm1); lia).
  apply (scramble_bad ls (S A)); [lia|now rewrite sumsFrom_length, cnts_length| |].
  - eapply Forall_impl; [|exact Hall]. intros x [? ?]. lia.
  - destruct (In_nth ls m 0 Hm1) as (j & Hj & Ej). exists j, m. split; [lia|]. split; [assumption|].
    rewrite sumsFrom_nth by (rewrite cnts_length; lia). rewrite repeat_length.
    rewrite (sums_buckets (ls ++ repeat 0 o) (cnts (S A) (ls ++ repeat 0 o)) (S A)).
    + rewrite total_count, app_length, repeat_length; [lia|]. apply Forall_app. split.
      * rewrite Forall_forall in *. intros x Hx. specialize (Hm2 x Hx). destruct (Hall x Hx). lia.
      * apply Forall_forall. intros x Hx. apply repeat_spec in Hx. lia.
    + apply cnts_length.
    + intros v Hv. now apply cnts_nth.
    + lia.
Qed.
Definition tail2 (A : nat) (st : L2) : RM VLC :=
  c0 <- rlift (slice_get (l2_cnt st) 0) ;;
  if negb (l2_total st =? 32768) && (c0 <? Z.of_nat A - 1) then rerr
  else
    sc2 <- rlift (scramble A (l2_len st) (sumsFrom 0 (l2_cnt st), repeat 0 A, repeat 0 A)) ;;
    let '(_, sl2, ss2) := sc2 in
    rlift (NewVLCTableWithSymbols 15 sl2 ss2).
Lemma cnts0_get A l : slice_get (cnts (S A) l) 0 = Ok (Z.of_nat (cnt 0 l)).
Proof. rewrite (slice_get_ok _ _ 0) by (rewrite cnts_length; lia). change (Z.to_nat 0) with 0%nat. rewrite cnts_nth by lia. reflexivity. Qed.
Lemma tail2_ok A st ls : length ls = A -> ls <> [] -> Forall (lenok A) ls -> l2_len st = ls -> l2_cnt st = cnts (S A) ls -> l2_total st = kraft_all 15 ls ->
  kraft_all 15 ls = 2 ^ 15 -> exists t, (forall s, tail2 A st s = (Ok t, s)) /\ exact_ahead 15 (GetVLC t) (canon_code ls).
Proof.
  intros Hlen Hne Hall E1 E2 E3 Hk.
  destruct (canon_exact 15 ls (S A)) as (t & Et & Hx); [lia|assumption| |exact Hk|].
  { eapply Forall_impl; [|exact Hall]. intros x [? ?]. lia. }
  destruct (sort_ok ls (S A) (cnts (S A) ls)) as (c' & Es).
  { eapply Forall_impl; [|exact Hall]. intros x [? ?]. lia. }
  { apply cnts_length. }
  { intros v Hv. now apply cnts_nth. }
  rewrite Hlen in Es. exists t. split; [|assumption]. intros s. unfold tail2. rewrite E1, E2, E3, Hk. unfold rbind, rlift. rewrite cnts0_get.
  change (negb (2 ^ 15 =? 32768)) with false. cbn [andb]. rewrite Es. change 15 with (Z.of_nat 15). rewrite Et. reflexivity.
Qed.
Lemma tail2_bad A st ls o : length ls = A -> ls <> [] -> Forall (lenok A) ls -> l2_len st = ls -> l2_cnt st = cnts (S A) (ls ++ repeat 0 o) ->
  ((0 < o)%nat \/ kraft_all 15 ls <> 2 ^ 15) -> forall s t s', tail2 A st s <> (Ok t, s').
Proof.
  intros Hlen Hne Hall E1 E2 Hk s t s'. unfold tail2. rewrite E1, E2. unfold rbind, rlift. rewrite cnts0_get.
  destruct (_ && _); [unfold rerr; congruence|]. destruct o as [|o].
  - destruct Hk as [?|Hk]; [lia|]. cbn [repeat]. rewrite app_nil_r.
    destruct (sort_ok ls (S A) (cnts (S A) ls)) as (c' & Es).
    { eapply Forall_impl; [|exact Hall]. intros x [? ?]. lia. }
    { apply cnts_length. }
    { intros v Hv. now apply cnts_nth. }
    rewrite Hlen in Es. rewrite Es. rewrite canon_incomplete; [congruence|assumption| |assumption]. eapply Forall_impl; [|exact Hall]. intros x [? ?]. lia.
  - pose proof (sort_bad ls A (S o) Hlen Hne Hall ltac:(lia)) as Hb.
    destruct (scramble A ls _) as [r| |]; [now destruct (Hb r)|congruence|congruence].
Qed.

(* ---- the whole complex code ---- *)
Definition tail1 (A : nat) (st : L1) : RM VLC :=
  if (negb (l1_total st =? 32) && (2 <=? l1_num st)) || (l1_num st <? 1) then rerr
  else
    sc <- rlift (scramble 18 (l1_len st) (sumsFrom 0 (l1_cnt st), repeat 0 18, repeat 0 18)) ;;
    let '(_, sl, ss) := sc in
    level1Table <- (if l1_num st =? 1 then
                      s17 <- rlift (slice_get ss 17) ;; rret (mkVLC 0 [(s17, 0)])
                    else rlift (NewVLCTableWithSymbols 5 sl ss)) ;;
    st2 <- level2Loop (S A) level1Table (Z.of_nat A) 0 (mkL2 (repeat 0 A) (repeat 0 (S A)) 0 0 0 8) ;;
    tail2 A st2.
Lemma complex_split A h s : populateComplexPrefix (Z.of_nat A) h s =
  rbind (level1Loop (Z.to_nat (18 - h)) h (mkL1 (repeat 0 18) (h :: repeat 0 18) 0 0)) (tail1 A) s.
Proof. unfold populateComplexPrefix, tail1, tail2. rewrite Nat2Z.id. reflexivity. Qed.
Lemma st1_start h : (h = 0 \/ h = 2 \/ h = 3) -> mkL1 (repeat 0 18) (h :: repeat 0 18) 0 0 = st1 (Z.to_nat h) [].
Proof. intros [->|[->| ->]]; reflexivity. Qed.
Lemma st2_start A : mkL2 (repeat 0 A) (repeat 0 (S A)) 0 0 0 8 = st2 A [] 0 0 8.
Proof.
  unfold st2. cbn [length app]. rewrite Nat.sub_0_r. f_equal. symmetry. apply all_repeat; [apply cnts_length|].
  apply Forall_forall. intros x Hx. unfold cnts in Hx. apply in_map_iff in Hx. destruct Hx as (v & <- & _). reflexivity.
Qed.
Lemma tail1_table A h vs s t : (forall s, table1 h vs s = (Ok t, s)) -> (nonzeros vs = 1 \/ kraft_all 5 vs = 32 /\ nonzeros vs <> 0) ->
  tail1 A (fin1 h vs) s = (st2 <- level2Loop (S A) t (Z.of_nat A) 0 (st2 A [] 0 0 8) ;; tail2 A st2) s.
Proof.
  intros Ht Hk. unfold tail1. cbn [fin1 l1_total l1_num l1_len l1_cnt]. rewrite <- st2_start.
  assert (0 <= nonzeros vs) by (unfold nonzeros; lia).
  replace (_ || _) with false by lia. specialize (Ht s). unfold table1 in Ht. fold (padded h vs).
  unfold rbind at 1. unfold rbind at 1 in Ht. unfold rlift at 1. unfold rlift at 1 in Ht.
  destruct (scramble 18 _ _) as [[[cc sl] ss]| |]; [|discriminate|discriminate].
  unfold rbind at 1. rewrite Ht. reflexivity.
Qed.
Lemma nonzeros_kraft vs : nonzeros vs = 0 -> kraft_all 5 vs = 0.
Proof.
  unfold nonzeros, kraft_all. intros H. replace (filter (fun l => 0 <? l) vs) with (@nil Z); [reflexivity|].
  symmetry. apply filter_none. apply Forall_forall. intros x Hx.
  destruct (Z.eq_dec x 0) as [->|N]; [reflexivity|]. assert (In x (filter (fun x => negb (x =? 0)) vs)) as Hi by (apply filter_In; split; [assumption|lia]).
  destruct (filter _ vs); [destruct Hi|cbn [length] in H; lia].
Qed.
Lemma code_of_some used lens c v : code_of used lens c v -> length used = 1%nat \/ kraft_all 5 lens = 32.
Proof. destruct used as [|s [|s' t]]; cbn [code_of length]; intros H; [right; apply (proj1 H)|now left|right; apply (proj1 H)]. Qed.
Lemma items_code_cases lens c v : items_code lens c v -> length (items_of lens) = 1%nat \/ kraft_all 5 lens = 32.
Proof. intros H. exact (code_of_some _ _ _ _ H). Qed.
Lemma items_code_some h vs c v : (h + length vs <= 18)%nat -> items_code (lens1 h vs) c v -> nonzeros vs = 1 \/ kraft_all 5 vs = 32 /\ nonzeros vs <> 0.
Proof.
  intros Hn H. apply items_code_cases in H. destruct H as [H|H].
  - left. rewrite <- (items_of_length h vs Hn), H. reflexivity.
  - right. rewrite lens1_kraft in H by exact Hn. split; [exact H|]. intros G. apply nonzeros_kraft in G. rewrite G in H. discriminate.
Qed.
Lemma lens1_prog A h : (h = 0 \/ h = 2 \/ h = 3) ->
  exact_ahead 4 (level1Loop (Z.to_nat (18 - h)) h (mkL1 (repeat 0 18) (h :: repeat 0 18) 0 0))
    (fun c st => exists r, c_lens1 (18 - Z.to_nat h) 0 c r /\ st = fin1 (Z.to_nat h) r) /\ (A = A :> nat).
Proof.
  intros Hh. split; [|reflexivity]. rewrite st1_start by assumption. replace (Z.to_nat (18 - h)) with (18 - Z.to_nat h)%nat by lia.
  pose proof (lens1_loop (Z.to_nat h) (18 - Z.to_nat h) [] ltac:(cbn [length]; lia) ltac:(reflexivity)) as H. cbn [length] in H. rewrite Nat.add_0_r, Z2Nat.id in H by lia. exact H.
Qed.
Lemma lens2_first D n prev rep zero sum c r : 0 < n -> sum < 2 ^ 15 -> c_lens2 D n prev rep zero sum c r -> exists c v, D c v.
Proof. intros Hn Hs H. inversion H; subst; try lia; eauto. Qed.
Lemma lens2_length D n prev rep zero sum c r : run_ok rep -> run_ok zero -> c_lens2 D n prev rep zero sum c r -> length r = Z.to_nat n.
Proof.
  intros Hr Hz H. induction H.
  - now rewrite repeat_length.
  - cbn [length]. rewrite IHc_lens2 by (left; reflexivity). lia.
  - match goal with HC : c_fixed _ _ _ |- _ => destruct (fixed2_range _ _ _ HC ltac:(lia)) as [_ He] end.
    destruct (longer_code 4 rep e (or_introl eq_refl) Hr He) as [_ Hl]. fold k in Hl. assert (0 <= rep) by (destruct Hr; lia).
    rewrite app_length, repeat_length, IHc_lens2 by ((left; reflexivity) || (right; lia)). lia.
  - match goal with HC : c_fixed _ _ _ |- _ => destruct (fixed2_range _ _ _ HC ltac:(lia)) as [_ He] end.
    destruct (longer_code 8 zero e (or_intror eq_refl) Hz He) as [_ Hl]. fold k in Hl. assert (0 <= zero) by (destruct Hz; lia).
    rewrite app_length, repeat_length, IHc_lens2 by ((left; reflexivity) || (right; lia)). lia.
Qed.
Lemma lens2_range (D : code Z) n prev rep zero sum c r : (forall c v, D c v -> 0 <= v <= 17) -> 1 <= prev <= 15 -> c_lens2 D n prev rep zero sum c r -> Forall (fun x => 0 <= x <= 15) r.
Proof.
  intros HD Hp H. induction H.
  - apply Forall_forall. intros x Hx. apply repeat_spec in Hx. lia.
  - match goal with H : D _ _ |- _ => apply HD in H end. constructor; [lia|]. apply IHc_lens2. destruct (Z.eqb_spec v 0); lia.
  - apply Forall_app. split; [|auto]. apply Forall_forall. intros x Hx. apply repeat_spec in Hx. lia.
  - apply Forall_app. split; [|auto]. apply Forall_forall. intros x Hx. apply repeat_spec in Hx. lia.
Qed.
Lemma complex_complete A h c x : (2 <= A)%nat -> (h = 0 \/ h = 2 \/ h = 3) -> complex_code (Z.of_nat A) h c x ->
  exists t ls, x = canon ls /\ reads_ahead 5 (populateComplexPrefix (Z.of_nat A) h) c t /\ exact_ahead 15 (GetVLC t) (canon_code ls).
Proof.
  intros HA Hh (c1 & c' & vs & -> & Hvs & c2 & c3 & ls & -> & Hls & Hk & -> & ->). rewrite app_nil_r.
  destruct (c_lens1_facts _ _ _ _ Hvs) as [Hn Hr]. assert (Hn' : (Z.to_nat h + length vs <= 18)%nat) by lia.
  set (D := items_code (lens1 (Z.to_nat h) vs)) in *.
  assert (HD : forall c v, D c v -> 0 <= v <= 17) by (intros c v; apply items_range, lens1_length).
  assert (HA0 : 0 < Z.of_nat A) by lia.
  assert (H15 : 0 < 2 ^ 15) by reflexivity.
  destruct (lens2_first _ _ _ _ _ _ _ _ HA0 H15 Hls) as (w & v & Hwv).
  pose proof (items_code_some _ _ _ _ Hn' Hwv) as Hnz.
  destruct (table1_ok (Z.to_nat h) vs Hn' Hr ltac:(tauto)) as (t1 & Et1 & Ht1).
  pose proof (lens2_length _ _ _ _ _ _ _ _ (or_introl eq_refl) (or_introl eq_refl) Hls) as Hlen. rewrite Nat2Z.id in Hlen.
  assert (H8 : 1 <= 8 <= 15) by lia.
  pose proof (lens2_range _ _ _ _ _ _ _ _ HD H8 Hls) as Hrange.
  pose proof (complete_short ls Hrange Hk) as Hshort. rewrite Hlen in Hshort.
  assert (Hall : Forall (lenok A) ls).
  { rewrite Forall_forall in *. intros y Hy. specialize (Hrange y Hy). specialize (Hshort y Hy). cbv beta in *. split; lia. }
  assert (Hne : ls <> []) by (intros ->; cbn [length] in Hlen; lia).
  destruct (mech2_complete D A HD (S A) [] 0 0 8 c2 ls ltac:(cbn [length]; lia) ltac:(cbn [length]; lia) ltac:(reflexivity) ltac:(lia) (or_introl eq_refl) (or_introl eq_refl)) as (st' & M & E1 & E2 & E3).
  { cbn [length]. rewrite Nat.sub_0_r. exact Hls. }
  { assumption. }
  destruct (tail2_ok A st' ls Hlen Hne Hall E1 E2 E3 Hk) as (t & Et & Ht).
  exists t, ls. split; [reflexivity|]. split; [|assumption].
  intros s d p Hsr Hb Hp. rewrite complex_split. apply bits_at_app in Hb. destruct Hb as [Hb1 Hb2]. rewrite app_length in Hp.
  destruct (proj1 (proj1 (lens1_prog A h Hh)) c1 (fin1 (Z.to_nat h) vs) (ex_intro _ vs (conj Hvs eq_refl)) s d p Hsr Hb1 ltac:(lia)) as (s1 & Es1 & Hr1).
  unfold rbind at 1. rewrite Es1. rewrite (tail1_table A _ vs s1 t1 Et1 Hnz).
  destruct (proj1 (mech2_semi 5 t1 D (Z.of_nat A) Ht1 (S A) 0 (st2 A [] 0 0 8)) c2 st' M s1 d _ Hr1 Hb2 ltac:(lia)) as (s2 & Es2 & Hr2).
  exists s2. unfold rbind. rewrite Es2, Et. split; [reflexivity|]. now rewrite app_length, Nat.add_assoc.
Qed.
Lemma complex_sound A h s d p t s' : (2 <= A)%nat -> (h = 0 \/ h = 2 \/ h = 3) -> reader_at s d p -> populateComplexPrefix (Z.of_nat A) h s = (Ok t, s') ->
  exists c ls, bits_at d p c /\ complex_code (Z.of_nat A) h c (canon ls) /\ reader_at s' d (p + length c) /\ exact_ahead 15 (GetVLC t) (canon_code ls).
Proof.
  intros HA Hh Hsr E. rewrite complex_split in E. unfold rbind at 1 in E.
  pose proof (proj2 (proj1 (lens1_prog A h Hh)) s d p Hsr) as H1.
  destruct (level1Loop _ _ _ s) as [[st1| |] s1]; [|discriminate|discriminate].
  destruct H1 as (c1 & Hb1 & (vs & Hvs & ->) & Hr1).
  destruct (c_lens1_facts _ _ _ _ Hvs) as [Hn Hr]. assert (Hn' : (Z.to_nat h + length vs <= 18)%nat) by lia.
  assert (Hnz : nonzeros vs = 1 \/ kraft_all 5 vs = 32 /\ nonzeros vs <> 0).
  { unfold tail1 in E. cbn [fin1 l1_total l1_num l1_len l1_cnt] in E. destruct (_ || _) eqn:Eb; [discriminate|]. unfold nonzeros in *. lia. }
  destruct (table1_ok (Z.to_nat h) vs Hn' Hr ltac:(tauto)) as (t1 & Et1 & Ht1).
  rewrite (tail1_table A _ vs s1 t1 Et1 Hnz) in E.
  set (D := items_code (lens1 (Z.to_nat h) vs)) in *.
  assert (HD : forall c v, D c v -> 0 <= v <= 17) by (intros c v; apply items_range, lens1_length).
  unfold rbind in E. destruct (level2Loop _ _ _ _ _ s1) as [[st'| |] s2] eqn:E2; [|discriminate|discriminate].
  destruct (proj2 (mech2_semi 5 t1 D (Z.of_nat A) Ht1 (S A) 0 (st2 A [] 0 0 8)) s1 d _ st' s2 Hr1 E2) as (c2 & Hb2 & M & Hr2).
  apply (mech2_sound D A HD (S A) [] 0 0 8) in M; try (left; reflexivity); try lia; try (cbn [length]; lia); [|reflexivity].
  destruct M as (ls & o & L1 & L2 & L3 & L4 & L5 & L6 & L7). cbn [app length] in *.
  assert (Hne : ls <> []) by (intros ->; cbn [length] in L2; lia).
  destruct o as [|o]; [|now apply (tail2_bad A st' ls (S o) L2 Hne L5 L1 L3 ltac:(left; lia)) in E].
  destruct (Z.eq_dec (kraft_all 15 ls) (2 ^ 15)) as [Ek|Nk]; [|now apply (tail2_bad A st' ls 0 L2 Hne L5 L1 L3 (or_intror Nk)) in E].
  cbn [repeat] in L3. rewrite app_nil_r in L3.
  destruct (tail2_ok A st' ls L2 Hne L5 L1 L3 L4 Ek) as (t' & Et & Ht). rewrite Et in E. injection E as <- <-.
  exists (c1 ++ c2), ls. split; [apply bits_at_app; auto|]. split; [|split; [now rewrite app_length, Nat.add_assoc|assumption]].
  exists c1, c2, vs. split; [reflexivity|]. split; [assumption|]. exists c2, [], ls. rewrite app_nil_r. split; [reflexivity|]. 
  specialize (L6 eq_refl). rewrite Nat.sub_0_r in L6. split; [exact L6|]. split; [assumption|]. split; reflexivity.
Qed.
