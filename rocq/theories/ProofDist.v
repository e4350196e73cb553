(* Reading ANS distribution descriptions. *)
From Coq Require Import ZArith List Bool Lia Arith ZifyBool ZifyNat.
From Verif Require Import GoBase GoLoop Bits ModelBitReader ModelUtil ModelEntropy SpecBitReader SpecCodes SpecGrammar SpecEntropy SpecDist
  ProofBitReader ProofBitReader2 ProofReads ProofCodes ProofGrammar ProofHeader ProofVLC ProofAlias ProofUtil.
Import ListNotations.
Open Scope Z_scope.

Lemma ahead_of {A} k (m : RM A) (R : code A) : exact m R -> exact_ahead k m R.
Proof. intros [H1 H2]. split; [|exact H2]. intros c v Hc s d p Hr Hb _. exact (H1 c v Hc s d p Hr Hb). Qed.
Lemma ahead_bind {A B} k (m : RM A) (f : A -> RM B) (R : code A) S :
  exact_ahead k m R -> (forall v, (exists c, R c v) -> exact_ahead k (f v) (S v)) -> exact_ahead k (rbind m f) (c_seq R S).
Proof.
  intros [Hm1 Hm2] Hf. split.
  - intros c w (c1 & c2 & v & -> & H1 & H2) s d p Hr Hb Hk. apply bits_at_app in Hb. destruct Hb as [Hb1 Hb2].
    rewrite app_length in *.
    destruct (Hm1 _ _ H1 s d p Hr Hb1 ltac:(lia)) as (s1 & E1 & Hr1).
    destruct (proj1 (Hf v (ex_intro _ c1 H1)) _ _ H2 s1 d _ Hr1 Hb2 ltac:(lia)) as (s2 & E2 & Hr2).
    exists s2. unfold rbind. rewrite E1. split; auto. now rewrite Nat.add_assoc.
  - intros s d p Hr. specialize (Hm2 s d p Hr). unfold rbind. destruct (m s) as [[v| |] s1]; auto.
    destruct Hm2 as (c1 & Hb1 & Hc1 & Hr1).
    destruct (Hf v (ex_intro _ c1 Hc1)) as [_ Hf2]. specialize (Hf2 s1 d _ Hr1).
    destruct (f v s1) as [[w| |] s2]; auto. destruct Hf2 as (c2 & Hb2 & Hc2 & Hr2).
    exists (c1 ++ c2). split; [now apply bits_at_app|]. split; [unfold c_seq; eauto 10|].
    rewrite app_length, Nat.add_assoc. auto.
Qed.
Lemma ahead_iff {A} k (m : RM A) (R S : code A) : (forall c v, R c v <-> S c v) -> exact_ahead k m R -> exact_ahead k m S.
Proof.
  intros H [H1 H2]. split.
  - intros c v Hc. apply H1. now apply H.
  - intros s d p Hr. specialize (H2 s d p Hr). destruct (m s) as [[v| |] s']; auto.
    destruct H2 as (c & ? & ? & ?). exists c. split; auto. split; auto. now apply H.
Qed.
Lemma ahead_eq {A} k (m m' : RM A) (R : code A) : (forall s, m s = m' s) -> exact_ahead k m R -> exact_ahead k m' R.
Proof.
  intros E [H1 H2]. split.
  - intros c v Hc s d p Hr Hb Hk. rewrite <- E. now apply (H1 c v Hc).
  - intros s d p Hr. rewrite <- E. now apply H2.
Qed.
Lemma ahead_ret {A} k (v : A) : exact_ahead k (rret v) (c_ret v).
Proof. apply ahead_of, exact_ret. Qed.
Lemma ahead_ret' {A} k (v w : A) : v = w -> exact_ahead k (rret v) (c_ret w).
Proof. intros ->. apply ahead_ret. Qed.
Lemma ahead_err {A} k (R : code A) : (forall c v, ~ R c v) -> exact_ahead k rerr R.
Proof. intros H. apply ahead_of, exact_err, H. Qed.
Lemma ahead_guard {A} k (b : bool) (P : Prop) (m : RM A) (R : code A) : (b = false <-> P) -> (P -> exact_ahead k m R) ->
  exact_ahead k (if b then rerr else m) (c_guard P R).
Proof.
  intros Hb Hm. destruct b.
  - apply ahead_err. intros c v [H _]. apply Hb in H. discriminate.
  - assert (HP : P) by now apply Hb. eapply ahead_iff; [|apply Hm, HP].
    intros c v. unfold c_guard. tauto.
Qed.
Lemma ahead_lift_l {A B} k (o : Outcome A) (v : A) (f : A -> RM B) (R : code B) : o = Ok v ->
  exact_ahead k (f v) R -> exact_ahead k (rbind (rlift o) f) R.
Proof. intros ->. apply ahead_eq. reflexivity. Qed.
Lemma ahead_ret_l {A B} k (v : A) (f : A -> RM B) (R : code B) : exact_ahead k (f v) R -> exact_ahead k (rbind (rret v) f) R.
Proof. apply ahead_eq. reflexivity. Qed.
Lemma ahead_assoc {A B C} k (m : RM A) (f : A -> RM B) (g : B -> RM C) (R : code C) :
  exact_ahead k (a <- m ;; b <- f a ;; g b) R -> exact_ahead k (b <- (a <- m ;; f a) ;; g b) R.
Proof. apply ahead_eq. intros s. unfold rbind. destruct (m s) as [[a| |] s']; auto. Qed.

Lemma exact_u8 : exact ReadU8 u8_code.
Proof.
  split; [exact ReadU8_reads|]. intros s d p Hr. unfold ReadU8.
  pose proof (proj2 exact_bool s d p Hr) as H. unfold rbind at 1.
  destruct (ReadBool s) as [[b| |] s1]; auto. destruct H as (c & Hc & -> & Hr1). destruct b; cbn [negb].
  2: { cbn [rret]. exists [false]. split; auto. split; [constructor|auto]. }
  pose proof (proj2 (exact_bits 3 3 eq_refl ltac:(lia)) s1 d _ Hr1) as H3. unfold rbind at 1.
  destruct (ReadBits 3 s1) as [[n| |] s2]; auto. destruct H3 as (c3 & Hc3 & [-> Hn] & Hr2).
  change (2 ^ Z.of_nat 3) with 8 in Hn. destruct (Z.eqb_spec n 0) as [->|Hn0].
  - cbn [rret]. exists ([true] ++ zbits 3 0). split; [now apply bits_at_app|].
    split; [exact (u8c_n 0 0 ltac:(lia) ltac:(cbn; lia))|]. rewrite app_length, Nat.add_assoc. auto.
  - rewrite u32_small by lia.
    pose proof (proj2 (exact_bits (Z.to_nat n) n ltac:(lia) ltac:(lia)) s2 d _ Hr2) as Hx. unfold rbind.
    destruct (ReadBits n s2) as [[x| |] s3]; auto. destruct Hx as (cx & Hcx & [-> Hx] & Hr3). cbn [rret].
    exists ([true] ++ zbits 3 n ++ zbits (Z.to_nat n) x).
    split; [apply bits_at_app; split; auto; apply bits_at_app; split; auto|]. split.
    + rewrite Z2Nat.id in Hx by lia.
      assert (2 ^ n <= 2 ^ 7) by (apply Z.pow_le_mono_r; lia).
      replace (i64 (u64 (x + u64 (Z.shiftl 1 n)))) with (2 ^ n + x).
      * cbn [app]. pose proof (u8c_n (Z.to_nat n) x) as H0. rewrite Z2Nat.id in H0 by lia. apply H0; lia.
      * rewrite Z.shiftl_1_l. assert (0 <= 2 ^ n) by (apply Z.pow_nonneg; lia).
        rewrite (u64_small (2 ^ n)) by lia. rewrite u64_small by lia. rewrite i64_small by lia. lia.
    + rewrite !app_length, !Nat.add_assoc in *. exact Hr3.
Qed.
Lemma u8_range c v : u8_code c v -> 0 <= v <= 255.
Proof.
  intros H. inversion H; subst; try lia.
  match goal with |- 0 <= 2 ^ ?k + _ <= _ => assert (2 ^ k <= 2 ^ 7) by (apply Z.pow_le_mono_r; lia); assert (0 <= 2 ^ k) by (apply Z.pow_nonneg; lia) end.
  lia.
Qed.

Lemma ahead_vlc B table (R : code Z) : (B <= 31)%nat -> length table = Z.to_nat (2 ^ Z.of_nat B) ->
  (forall c v, R c v -> (length c <= B)%nat /\ forall x, 0 <= x < 2 ^ Z.of_nat B -> zbits (length c) x = c ->
     nth (Z.to_nat x) table (0, 0) = (v, Z.of_nat (length c))) ->
  (forall x, 0 <= x < 2 ^ Z.of_nat B -> let '(v, l) := nth (Z.to_nat x) table (0, 0) in
     0 <= l <= Z.of_nat B /\ R (zbits (Z.to_nat l) x) v) ->
  exact_ahead B (GetVLC (mkVLC (Z.of_nat B) table)) R.
Proof.
  intros HB Hlen H1 H2. split.
  - intros c v Hc s d p Hr Hb Hk. destruct (H1 c v Hc) as [Hl Ht].
    exact (lookup_ok B table d p s c v HB Hlen Hl Ht Hr Hb ltac:(lia)).
  - intros s d p Hr. destruct (le_lt_dec (p + B) (8 * length d)) as [Hl|Hl].
    + destruct (readbits_field s d p B Hr ltac:(lia) Hl) as (x & _ & _ & Hf & _).
      pose proof (H2 x (proj1 Hf)) as Hx. destruct (nth (Z.to_nat x) table (0, 0)) as [v l] eqn:E. destruct Hx as [Hl0 Hc].
      assert (Hb : bits_at d p (zbits (Z.to_nat l) x)).
      { split; rewrite zbits_length; [lia|]. intros i Hi. rewrite nth_zbits by auto. symmetry. apply (proj2 Hf). lia. }
      destruct (H1 _ _ Hc) as [Hl1 Ht].
      destruct (lookup_ok B table d p s _ v HB Hlen Hl1 Ht Hr Hb Hl) as (s' & -> & Hr').
      exists (zbits (Z.to_nat l) x). auto.
    + destruct (lookup_short B table d p s HB Hr Hl) as (s' & ->). exact Logic.I.
Qed.

Lemma all_below (P : Z -> bool) n : (forallb (fun k => P (Z.of_nat k)) (seq 0 n) = true) -> forall x, 0 <= x < Z.of_nat n -> P x = true.
Proof.
  intros H x Hx. rewrite forallb_forall in H. specialize (H (Z.to_nat x)). rewrite Z2Nat.id in H by lia. apply H. apply in_seq. lia.
Qed.
Definition beqlist (a b : list bool) : bool := if list_eq_dec bool_dec a b then true else false.
Lemma beqlist_ok a b : beqlist a b = true -> a = b.
Proof. unfold beqlist. destruct (list_eq_dec bool_dec a b); auto. discriminate. Qed.

Lemma ahead_log : exact_ahead 7 (GetVLC distPrefixTable) c_log.
Proof.
  apply (ahead_vlc 7).
  - lia.
  - reflexivity.
  - intros c v [Hv ->]. split.
    + assert (H : forall x, 0 <= x < Z.of_nat 14 -> (length (nth (Z.to_nat x) log_codewords []) <=? 7)%nat = true)
        by (apply (all_below (fun x => (length (nth (Z.to_nat x) log_codewords []) <=? 7)%nat)); reflexivity).
      specialize (H v ltac:(lia)). lia.
    + intros x Hx E. change (2 ^ Z.of_nat 7) with 128 in Hx.
      assert (H : forall x, 0 <= x < Z.of_nat 128 -> forallb (fun k => let w := nth k log_codewords [] in
         negb (beqlist (zbits (length w) x) w) || (let '(s, l) := nth (Z.to_nat x) (vt_table distPrefixTable) (0, 0) in
           (s =? Z.of_nat k) && (l =? Z.of_nat (length w)))) (seq 0 14) = true).
      { apply (all_below (fun x => forallb (fun k => let w := nth k log_codewords [] in
         negb (beqlist (zbits (length w) x) w) || (let '(s, l) := nth (Z.to_nat x) (vt_table distPrefixTable) (0, 0) in
           (s =? Z.of_nat k) && (l =? Z.of_nat (length w)))) (seq 0 14))). vm_compute. reflexivity. }
      specialize (H x ltac:(lia)). rewrite forallb_forall in H. specialize (H (Z.to_nat v) ltac:(apply in_seq; lia)). cbv zeta in H.
      rewrite E in H. unfold beqlist in H. destruct (list_eq_dec bool_dec _ _) as [_|N]; [|now destruct N]. cbn [negb orb] in H.
      change (vt_table distPrefixTable) with (vt_table distPrefixTable) in H. unfold distPrefixTable in H at 1. cbn [vt_table] in H.
      destruct (nth (Z.to_nat x) _ (0, 0)) as [s l]. f_equal; lia.
  - intros x Hx. change (2 ^ Z.of_nat 7) with 128 in Hx.
    assert (H : forall x, 0 <= x < Z.of_nat 128 -> (let '(s, l) := nth (Z.to_nat x) (vt_table distPrefixTable) (0, 0) in
       (0 <=? l) && (l <=? 7) && (0 <=? s) && (s <=? 13) && beqlist (zbits (Z.to_nat l) x) (nth (Z.to_nat s) log_codewords [])) = true).
    { apply (all_below (fun x => let '(s, l) := nth (Z.to_nat x) (vt_table distPrefixTable) (0, 0) in
       (0 <=? l) && (l <=? 7) && (0 <=? s) && (s <=? 13) && beqlist (zbits (Z.to_nat l) x) (nth (Z.to_nat s) log_codewords []))). vm_compute. reflexivity. }
    specialize (H x ltac:(lia)). unfold distPrefixTable in H at 1. cbn [vt_table] in H.
    destruct (nth (Z.to_nat x) _ (0, 0)) as [s l].
    apply andb_true_iff in H. destruct H as [H E]. apply beqlist_ok in E. split; [lia|]. split; [lia|exact E].
Qed.

(* ---- the logarithms ---- *)
Fixpoint put_lc (i : Z) (its : list item) (lc : list Z) : list Z :=
  match its with
  | [] => lc
  | Log l :: t => put_lc (i + 1) t (list_set lc (Z.to_nat i) l)
  | Run n :: t => put_lc (i + n) t (list_set lc (Z.to_nat i) 13)
  end.
Fixpoint put_same (i : Z) (its : list item) (sm : list Z) : list Z :=
  match its with
  | [] => sm
  | Log l :: t => put_same (i + 1) t sm
  | Run n :: t => put_same (i + n) t (list_set sm (Z.to_nat i) (n + 1))
  end.
Fixpoint best (i : Z) (its : list item) (ol op : Z) : Z :=
  match its with
  | [] => op
  | Log l :: t => if ol <? l then best (i + 1) t l i else best (i + 1) t ol op
  | Run n :: t => best (i + n) t ol op
  end.
Definition items_val (a i : Z) (lc sm : list Z) (ol op : Z) : code (list Z * list Z * Z) :=
  fun c v => exists its, c_items (a - i) c its /\ v = (put_lc i its lc, put_same i its sm, best i its ol op).

Lemma log_range c l : c_log c l -> 0 <= l <= 13. Proof. intros [H _]. exact H. Qed.

Lemma items_loop a : a <= 2 ^ 20 -> forall fuel i lc sm ol op, 0 <= i -> Z.of_nat (length lc) = a -> Z.of_nat (length sm) = a -> Z.max 0 (a - i) < Z.of_nat fuel ->
  exact_ahead 7 (logCountLoop fuel a i lc sm ol op) (items_val a i lc sm ol op).
Proof.
  intros Ha. induction fuel as [|f IH]; intros i lc sm ol op Hi Hl Hs Hf.
  { lia. }
  cbn [logCountLoop]. destruct (Z.leb_spec a i) as [H|H].
  - eapply ahead_iff; [|apply ahead_ret]. intros c v. split.
    + intros [-> ->]. exists []. split; [constructor; lia|reflexivity].
    + intros (its & Hc & ->). inversion Hc; subst; try lia. split; reflexivity.
  - apply (ahead_iff _ _ (c_seq c_log (fun l => if l =? 13 then c_seq u8_code (fun r => items_val a (i + r + 4) (list_set lc (Z.to_nat i) 13)
        (list_set sm (Z.to_nat i) (r + 5)) ol op) else items_val a (i + 1) (list_set lc (Z.to_nat i) l) sm (if ol <? l then l else ol) (if ol <? l then i else op)))).
    + intros c v. split.
      * intros (c1 & c2 & l & -> & H1 & H2). destruct (Z.eqb_spec l 13) as [->|Hl13].
        -- destruct H2 as (c3 & c4 & r & -> & H3 & its & H4 & ->). exists (Run (r + 4) :: its). split.
           ++ apply ci_run; auto; [lia|]. replace (a - i - (r + 4)) with (a - (i + r + 4)) by lia. exact H4.
           ++ cbn [put_lc put_same best]. replace (i + (r + 4)) with (i + r + 4) by lia. replace (r + 4 + 1) with (r + 5) by lia. reflexivity.
        -- destruct H2 as (its & H4 & ->). exists (Log l :: its). split.
           ++ apply ci_log; auto; [lia|apply log_range in H1; lia|]. replace (a - i - 1) with (a - (i + 1)) by lia. exact H4.
           ++ cbn [put_lc put_same best]. destruct (ol <? l); reflexivity.
      * intros (its & Hc & ->). inversion Hc; subst; try lia.
        -- exists c1, c2, l. split; auto. split; auto. destruct (Z.eqb_spec l 13); [lia|]. exists its0.
           split. { replace (Z.of_nat (length lc) - (i + 1)) with (Z.of_nat (length lc) - i - 1) by lia. assumption. }
           cbn [put_lc put_same best]. destruct (ol <? l); reflexivity.
        -- exists c1, (c2 ++ c3), 13. split; auto. split; auto. cbn [Z.eqb Pos.eqb]. exists c2, c3, r. split; auto. split; auto.
           exists its0. split. { replace (Z.of_nat (length lc) - (i + r + 4)) with (Z.of_nat (length lc) - i - (r + 4)) by lia. assumption. }
           cbn [put_lc put_same best]. replace (i + (r + 4)) with (i + r + 4) by lia. replace (r + 4 + 1) with (r + 5) by lia. reflexivity.
    + apply ahead_bind; [apply ahead_log|]. intros l [cl Hcl]. apply log_range in Hcl.
      eapply ahead_lift_l; [apply slice_set_ok; lia|].
      destruct (Z.eqb_spec l 13) as [->|Hl13].
      * apply ahead_bind; [apply ahead_of, exact_u8|]. intros r [cr Hcr]. apply u8_range in Hcr.
        eapply ahead_lift_l; [apply slice_set_ok; lia|].
        rewrite i32_small by lia. replace (i + (r + 3) + 1) with (i + r + 4) by lia.
        apply IH; rewrite ?list_set_length; try lia.
      * destruct (ol <? l); apply IH; rewrite ?list_set_length; lia.
Qed.

(* What the two arrays say about the items *)
Fixpoint agree (a i : Z) (its : list item) (lc sm : list Z) : Prop :=
  match its with
  | [] => a <= i
  | Log l :: t => 0 <= l <= 12 /\ i < a /\ nth (Z.to_nat i) lc 0 = l /\ nth (Z.to_nat i) sm 0 = 0 /\ agree a (i + 1) t lc sm
  | Run n :: t => 4 <= n <= 259 /\ i < a /\ nth (Z.to_nat i) lc 0 = 13 /\ nth (Z.to_nat i) sm 0 = n + 1 /\
      (forall j, i < j < i + n -> nth (Z.to_nat j) sm 0 = 0) /\ agree a (i + n) t lc sm
  end.

Definition item_ok (x : item) : Prop := match x with Log l => 0 <= l <= 12 | Run n => 4 <= n <= 259 end.
Lemma items_size c its n : c_items n c its -> Forall item_ok its.
Proof.
  intros H. induction H; constructor; auto; cbn [item_ok].
  - apply log_range in H0. lia.
  - apply u8_range in H1. lia.
Qed.
Lemma put_lc_length its : forall i lc, length (put_lc i its lc) = length lc.
Proof. induction its as [|[l|n] t IH]; intros i lc; cbn [put_lc]; auto; rewrite IH, list_set_length; auto. Qed.
Lemma put_same_length its : forall i lc, length (put_same i its lc) = length lc.
Proof. induction its as [|[l|n] t IH]; intros i lc; cbn [put_same]; auto; rewrite IH, ?list_set_length; auto. Qed.

Lemma put_lc_before its : Forall item_ok its -> forall i j lc, 0 <= j < i -> nth (Z.to_nat j) (put_lc i its lc) 0 = nth (Z.to_nat j) lc 0.
Proof.
  induction 1 as [|[l|n] t Hx _ IH]; intros i j lc Hj; cbn [put_lc item_ok] in *; auto;
  rewrite IH by lia; apply nth_list_set_neq; lia.
Qed.
Lemma put_same_before its : Forall item_ok its -> forall i j lc, 0 <= j < i -> nth (Z.to_nat j) (put_same i its lc) 0 = nth (Z.to_nat j) lc 0.
Proof.
  induction 1 as [|[l|n] t Hx _ IH]; intros i j lc Hj; cbn [put_same item_ok] in *; auto;
  rewrite IH by lia; auto; apply nth_list_set_neq; lia.
Qed.

Lemma agree_put a its : Forall item_ok its -> forall i c lc sm, 0 <= i -> c_items (a - i) c its -> Z.of_nat (length lc) = a -> Z.of_nat (length sm) = a ->
  (forall j, i <= j -> nth (Z.to_nat j) sm 0 = 0) -> agree a i its (put_lc i its lc) (put_same i its sm).
Proof.
  induction 1 as [|[l|n] t Hx Ht IH]; intros i c lc sm Hi Hc Hl Hs Hz; cbn [agree put_lc put_same item_ok] in *.
  - inversion Hc; lia.
  - inversion Hc; subst. split; [auto|]. split; [lia|].
    rewrite put_lc_before, put_same_before by (auto; lia). rewrite nth_list_set_eq by lia. split; auto. split; [apply Hz; lia|].
    apply (IH (i + 1) c2); rewrite ?list_set_length; [lia| |lia|lia|].
    + replace (Z.of_nat (length lc) - (i + 1)) with (Z.of_nat (length lc) - i - 1) by lia. assumption.
    + intros j Hj. apply Hz. lia.
  - inversion Hc; subst. split; [auto|]. split; [lia|].
    rewrite put_lc_before, put_same_before by (auto; lia). rewrite !nth_list_set_eq by lia. split; auto. split; auto.
    split.
    + intros j Hj. rewrite put_same_before by (auto; lia). rewrite nth_list_set_neq by lia. apply Hz. lia.
    + apply (IH (i + (r + 4)) c3); rewrite ?list_set_length; [lia| |lia|lia|].
      * replace (Z.of_nat (length lc) - (i + (r + 4))) with (Z.of_nat (length lc) - i - (r + 4)) by lia. assumption.
      * intros j Hj. rewrite nth_list_set_neq by lia. apply Hz. lia.
Qed.

(* the omitted position *)
Lemma logs_ge its : Forall item_ok its -> forall i j l, In (j, l) (logs_from i its) -> i <= j /\ 0 <= l.
Proof.
  induction 1 as [|[l|n] t Hx _ IH]; intros i j l' H; cbn [logs_from item_ok] in *; [destruct H| |].
  - destruct H as [E|H]; [inversion E; lia|]. apply IH in H. lia.
  - apply IH in H. lia.
Qed.
Lemma best_spec its : Forall item_ok its -> forall i ol op, let o := best i its ol op in
  (o = op /\ forall j l, In (j, l) (logs_from i its) -> l <= ol) \/
  (exists l, ol < l /\ In (o, l) (logs_from i its) /\ forall j l', In (j, l') (logs_from i its) -> l' < l \/ (l' = l /\ o <= j)).
Proof.
  induction 1 as [|[l|n] t Hx Ht IH]; intros i ol op; cbv zeta; cbn [best logs_from item_ok] in *.
  - left. split; auto. intros j l [].
  - destruct (Z.ltb_spec ol l) as [H|H].
    + right. destruct (IH (i + 1) l i) as [[-> Hall]|(l1 & H1 & H2 & H3)].
      * exists l. split; [lia|]. split; [now left|]. intros j l' [E|Hin]; [inversion E; lia|].
        pose proof (Hall _ _ Hin). pose proof (logs_ge t Ht _ _ _ Hin). lia.
      * exists l1. split; [lia|]. split; [now right|]. intros j l' [E|Hin]; [inversion E; lia|]. eauto.
    + destruct (IH (i + 1) ol op) as [[E Hall]|(l1 & H1 & H2 & H3)].
      * left. split; auto. intros j l' [E'|Hin]; [inversion E'; lia|]. eauto.
      * right. exists l1. split; auto. split; [now right|]. intros j l' [E|Hin]; [inversion E; lia|]. eauto.
  - apply IH.
Qed.
Lemma omitted_unique its o o' : omitted its o -> omitted its o' -> o = o'.
Proof.
  intros (l & H1 & H2) (l' & H1' & H2'). pose proof (H2 _ _ H1'). pose proof (H2' _ _ H1). lia.
Qed.
Lemma best_omitted its : Forall item_ok its ->
  (best 0 its (-1) (-1) = -1 /\ forall o, ~ omitted its o) \/ (0 <= best 0 its (-1) (-1) /\ omitted its (best 0 its (-1) (-1))).
Proof.
  intros H. destruct (best_spec its H 0 (-1) (-1)) as [[E Ha]|(l & H1 & H2 & H3)].
  - left. split; auto. intros o (l & H1 & _). pose proof (Ha _ _ H1). pose proof (logs_ge its H _ _ _ H1). lia.
  - right. split; [apply (logs_ge its H _ _ _ H2)|]. exists l. auto.
Qed.
Lemma run_ge its : Forall item_ok its -> forall i o, run_at i its o -> i <= o.
Proof.
  induction 1 as [|[l|n] t Hx _ IH]; intros i o H; cbn [run_at item_ok] in *; [destruct H| |].
  - apply IH in H. lia.
  - destruct H as [->|H]; [lia|]. apply IH in H. lia.
Qed.
Lemma run_at_lc a its : Forall item_ok its -> forall i o lc sm, 0 <= i <= o -> o < a -> agree a i its lc sm ->
  (exists l, In (o - 1, l) (logs_from i its)) \/ o = i -> (run_at i its o <-> nth (Z.to_nat o) lc 0 = 13).
Proof.
  induction 1 as [|[l|n] t Hx Ht IH]; intros i o lc sm Hi Ho Ha Hin; cbn [agree run_at logs_from item_ok] in *.
  - lia.
  - destruct Ha as (_ & _ & E & _ & Ha). destruct (Z.eq_dec o i) as [->|Hne].
    + split; [|intros; lia]. intros Hr. apply run_ge in Hr; auto. lia.
    + apply (IH (i + 1) o lc sm); auto; [lia|]. destruct Hin as [(l' & [E'|Hin])|]; [|left; eauto|lia]. inversion E'. right. lia.
  - destruct Ha as (_ & _ & E & _ & _ & Ha). destruct (Z.eq_dec o i) as [->|Hne].
    + split; auto.
    + destruct Hin as [(l' & Hin)|]; [|lia]. pose proof (logs_ge t Ht _ _ _ Hin).
      rewrite (IH (i + n) o lc sm); auto; [|lia|left; eauto].
      split; [intros [|]; [lia|auto]|auto].
Qed.

(* ---- the frequencies ---- *)
Lemma seq_assoc {A B C} (R : code A) (S : A -> code B) (T : B -> code C) c v :
  c_seq (c_seq R S) T c v <-> c_seq R (fun x => c_seq (S x) T) c v.
Proof.
  split.
  - intros (c1 & c2 & b & -> & (c3 & c4 & x & -> & H1 & H2) & H3). exists c3, (c4 ++ c2), x. rewrite app_assoc. split; auto. split; auto.
    exists c4, c2, b. auto.
  - intros (c1 & c2 & x & -> & H1 & c3 & c4 & b & -> & H2 & H3). exists (c1 ++ c3), c4, b. rewrite app_assoc. split; auto. split; auto.
    exists c1, c3, x. auto.
Qed.
Lemma seq_ret {A B} (a : A) (T : A -> code B) c v : c_seq (c_ret a) T c v <-> T a c v.
Proof.
  split.
  - intros (c1 & c2 & b & -> & [-> ->] & H). exact H.
  - intros H. exists [], c, a. split; auto. split; auto. split; reflexivity.
Qed.
Lemma seq_ext {A B} (R : code A) (S T : A -> code B) c v : (forall x c v, S x c v <-> T x c v) -> c_seq R S c v <-> c_seq R T c v.
Proof. intros H. split; intros (c1 & c2 & b & -> & H1 & H2); exists c1, c2, b; (split; [auto|split; [auto|now apply H]]). Qed.

Lemma ahead_seq_assoc {A B C} k (m : RM C) (R : code A) (S : A -> code B) (T : B -> code C) :
  exact_ahead k m (c_seq R (fun x => c_seq (S x) T)) -> exact_ahead k m (c_seq (c_seq R S) T).
Proof. apply ahead_iff. intros c v. symmetry. apply seq_assoc. Qed.
Lemma ahead_seq_ret {A B} k (m : RM B) (a : A) (T : A -> code B) : exact_ahead k m (T a) -> exact_ahead k m (c_seq (c_ret a) T).
Proof. apply ahead_iff. intros c v. symmetry. apply seq_ret. Qed.
Lemma ahead_map {A B C} k (m : RM C) (R : code A) (g : A -> B) (T : B -> code C) :
  exact_ahead k m (c_seq R (fun x => T (g x))) -> exact_ahead k m (c_seq (c_seq R (fun x => c_ret (g x))) T).
Proof. intros H. apply ahead_seq_assoc. eapply ahead_iff; [|exact H]. intros c v. apply seq_ext. intros. symmetry. apply seq_ret. Qed.

Definition fine (f : Z) : Prop := 0 <= f <= 4095.
Lemma sum_fine l : Forall fine l -> 0 <= sumZ l <= 4095 * Z.of_nat (length l).
Proof. induction 1 as [|x l Hx _ IH]; cbn [sumZ fold_right length]; [lia|]. unfold fine in Hx. unfold sumZ in IH. lia. Qed.

Lemma set_next (done : list Z) n v : list_set (done ++ repeat 0 (S n)) (length done) v = (done ++ [v]) ++ repeat 0 n.
Proof. cbn [repeat]. rewrite list_set_app. now rewrite <- app_assoc. Qed.
Lemma keep_next (done : list Z) n : done ++ repeat 0 (S n) = (done ++ [0]) ++ repeat 0 n.
Proof. rewrite <- app_assoc. reflexivity. Qed.
Lemma last_snoc (l : list Z) x : last (l ++ [x]) 0 = x. Proof. apply last_last. Qed.

Lemma freq_run a lc sm shift o prev : fine prev -> a <= 2 ^ 15 -> Z.of_nat (length sm) = a ->
  forall m n done s, Z.of_nat (length done) + Z.of_nat n = a -> Forall fine done ->
  (forall j, Z.of_nat (length done) <= j < Z.of_nat (length done) + Z.of_nat m -> nth (Z.to_nat j) sm 0 = 0) ->
  let done' := done ++ repeat prev (min m n) in
  freqLoop n (Z.of_nat (length done)) shift o lc sm (done ++ repeat 0 n) (sumZ done) (Z.of_nat m) prev s =
  freqLoop (n - m) (Z.of_nat (length done')) shift o lc sm (done' ++ repeat 0 (n - m)) (sumZ done') 0 prev s.
Proof.
  intros Hp Ha Hs. induction m as [|m IH]; intros n done s Hn Hd Hz; cbv zeta.
  { cbn [min]. cbn [repeat]. rewrite app_nil_r, Nat.sub_0_r. reflexivity. }
  destruct n as [|n].
  { cbn [min repeat Nat.sub freqLoop]. rewrite !app_nil_r. reflexivity. }
  cbn [freqLoop]. unfold rbind at 1, rlift at 1. rewrite (slice_get_ok _ _ 0) by lia. rewrite Hz by lia. cbn [Z.eqb].
  unfold rbind at 1. cbn [rret]. destruct (Z.eqb_spec (Z.of_nat (S m)) 0) as [E|_]; [lia|]. cbn [negb].
  unfold rbind, rlift. rewrite slice_set_ok by (rewrite app_length, repeat_length; lia). rewrite Nat2Z.id, set_next.
  pose proof (sum_fine done Hd) as Hsum. unfold fine in Hp.
  assert (E : i32 (sumZ done + prev) = sumZ (done ++ [prev])).
  { rewrite sumZ_app. cbn [sumZ fold_right]. rewrite Z.add_0_r. apply i32_small. lia. }
  rewrite E. replace (Z.of_nat (S m) - 1) with (Z.of_nat m) by lia.
  replace (Z.of_nat (length done) + 1) with (Z.of_nat (length (done ++ [prev]))) by (rewrite app_length; cbn [length]; lia).
  rewrite IH.
  - cbv zeta. cbn [Nat.sub min repeat]. replace ((done ++ [prev]) ++ repeat prev (min m n)) with (done ++ prev :: repeat prev (min m n)) by (now rewrite <- app_assoc).
    reflexivity.
  - rewrite app_length. cbn [length]. lia.
  - apply Forall_app. split; auto.
  - intros j Hj. rewrite app_length in Hj. cbn [length] in Hj. apply Hz. lia.
Qed.

Lemma sent_ok shift l : 0 <= shift <= 13 -> 2 <= l <= 12 ->
  (let bc := shift - Z.shiftr (12 - l + 1) 1 in let bc := if bc <? 0 then 0 else bc in if l - 1 <? bc then l - 1 else bc) = sent_bits shift l.
Proof.
  intros Hs Hl. unfold sent_bits. rewrite Z.shiftr_div_pow2 by lia. change (2 ^ 1) with 2. replace (12 - l + 1) with (13 - l) by lia.
  set (q := (13 - l) / 2). cbv zeta. destruct (Z.ltb_spec (shift - q) 0); [destruct (Z.ltb_spec (l - 1) 0)|destruct (Z.ltb_spec (l - 1) (shift - q))]; lia.
Qed.
Lemma sent_range shift l : 2 <= l <= 12 -> 0 <= sent_bits shift l <= l - 1.
Proof. unfold sent_bits. lia. Qed.
Lemma freq_value l b x : 2 <= l <= 12 -> 0 <= b <= l - 1 -> 0 <= x < 2 ^ b ->
  i32 (Z.shiftl 1 (l - 1) + i32 (Z.shiftl (i32 x) (l - 1 - b))) = 2 ^ (l - 1) + x * 2 ^ (l - 1 - b) /\
  fine (2 ^ (l - 1) + x * 2 ^ (l - 1 - b)).
Proof.
  intros Hl Hb Hx. rewrite Z.shiftl_1_l.
  assert (E : 2 ^ b * 2 ^ (l - 1 - b) = 2 ^ (l - 1)) by (rewrite <- Z.pow_add_r by lia; f_equal; lia).
  assert (H11 : 2 ^ (l - 1) <= 2 ^ 11) by (apply Z.pow_le_mono_r; lia).
  assert (Hb11 : 2 ^ b <= 2 ^ 11) by (apply Z.pow_le_mono_r; lia).
  assert (H0 : 0 < 2 ^ (l - 1 - b)) by (apply Z.pow_pos_nonneg; lia).
  assert (H1 : 0 < 2 ^ (l - 1)) by (apply Z.pow_pos_nonneg; lia).
  assert (Hm : 0 <= x * 2 ^ (l - 1 - b) < 2 ^ (l - 1)) by nia.
  rewrite (i32_small x) by lia. rewrite Z.shiftl_mul_pow2 by lia. rewrite (i32_small (x * _)) by lia.
  rewrite i32_small by lia. split; auto. unfold fine. lia.
Qed.

Lemma freq_loop k a lc sm shift o : 0 <= shift <= 13 -> a <= 2 ^ 15 -> Z.of_nat (length lc) = a -> Z.of_nat (length sm) = a ->
  forall its, Forall item_ok its -> forall i done prev0,
  agree a i its lc sm -> Z.of_nat (length done) = i -> i <= a -> Forall fine done ->
  exact_ahead k (freqLoop (Z.to_nat (a - i)) i shift o lc sm (done ++ repeat 0 (Z.to_nat (a - i))) (sumZ done) 0 prev0)
    (c_seq (c_freqs shift o i (last done 0) its) (fun r => c_ret (firstn (Z.to_nat a) (done ++ r), sumZ (firstn (Z.to_nat a) (done ++ r))))).
Proof.
  intros Hsh Ha Hlc Hsm. induction 1 as [|[l|n] t Hx Ht IH]; intros i done prev0 Hag Hi Hia Hd; cbn [c_freqs agree item_ok] in *.
  - apply ahead_seq_ret. replace (Z.to_nat (a - i)) with 0%nat by lia. cbn [freqLoop repeat]. rewrite !app_nil_r.
    rewrite firstn_all2 by lia. apply ahead_ret.
  - destruct Hag as (_ & Hlt & El & Es & Hag). replace (Z.to_nat (a - i)) with (S (Z.to_nat (a - (i + 1)))) by lia.
    set (n := Z.to_nat (a - (i + 1))). cbn [freqLoop].
    eapply ahead_lift_l; [apply (slice_get_ok _ _ 0); lia|]. rewrite Es. cbn [Z.eqb]. apply ahead_ret_l. cbn [Z.eqb negb].
    eapply ahead_lift_l; [apply (slice_get_ok _ _ 0); lia|]. rewrite El.
    destruct (Z.eqb_spec i o) as [E|E]; cbn [orb].
    + apply ahead_map. rewrite keep_next.
      pose proof (IH (i + 1) (done ++ [0]) prev0 Hag ltac:(rewrite app_length; cbn [length]; lia) ltac:(lia) ltac:(apply Forall_app; split; auto; constructor; [unfold fine; lia|constructor])) as G.
      rewrite last_snoc in G. rewrite sumZ_app in G. cbn [sumZ fold_right] in G. rewrite !Z.add_0_r in G. fold n in G.
      eapply ahead_iff; [|exact G]. intros c v. apply seq_ext. intros r c' v'. rewrite <- app_assoc. reflexivity.
    + assert (Hstep : forall f, fine f -> exact_ahead k
         (freqs' <- rlift (slice_set (done ++ repeat 0 (S n)) i f) ;;
          freqLoop n (i + 1) shift o lc sm freqs' (i32 (sumZ done + f)) 0 prev0)
         (c_seq (c_freqs shift o (i + 1) f t) (fun r => c_ret (firstn (Z.to_nat a) (done ++ f :: r), sumZ (firstn (Z.to_nat a) (done ++ f :: r)))))).
      { intros f Hf. eapply ahead_lift_l; [apply slice_set_ok; rewrite app_length, repeat_length; lia|].
        rewrite <- Hi, Nat2Z.id, set_next, Hi.
        pose proof (IH (i + 1) (done ++ [f]) prev0 Hag ltac:(rewrite app_length; cbn [length]; lia) ltac:(lia) ltac:(apply Forall_app; split; auto)) as G.
        rewrite last_snoc in G. rewrite sumZ_app in G. cbn [sumZ fold_right] in G. rewrite !Z.add_0_r in G. fold n in G.
        rewrite i32_small; [|pose proof (sum_fine done Hd); unfold fine in Hf; lia].
        eapply ahead_iff; [|exact G]. intros c v. apply seq_ext. intros r c' v'. rewrite <- app_assoc. reflexivity. }
      assert (Hgr : forall m, exact_ahead k m (c_seq (c_freq shift l) (fun f => c_seq (c_freqs shift o (i + 1) f t)
           (fun r => c_ret (firstn (Z.to_nat a) (done ++ f :: r), sumZ (firstn (Z.to_nat a) (done ++ f :: r)))))) ->
         exact_ahead k m (c_seq (c_seq (c_freq shift l) (fun f => c_seq (c_freqs shift o (i + 1) f t) (fun r => c_ret (f :: r))))
           (fun r => c_ret (firstn (Z.to_nat a) (done ++ r), sumZ (firstn (Z.to_nat a) (done ++ r)))))).
      { intros m G. apply ahead_seq_assoc. eapply ahead_iff; [|exact G]. intros c v. apply seq_ext. intros f c' v'.
        rewrite seq_assoc. apply seq_ext. intros. rewrite seq_ret. reflexivity. }
      apply Hgr. clear Hgr. unfold c_freq. destruct (Z.eqb_spec l 0) as [E0|E0].
      { destruct (Z.leb_spec l 1); [|lia]. apply ahead_seq_ret. rewrite E0. specialize (Hstep 0 ltac:(unfold fine; lia)).
        eapply ahead_eq; [|exact Hstep]. intros s. unfold rbind, rlift. rewrite slice_set_ok by (rewrite app_length, repeat_length; lia).
        replace (Z.to_nat i) with (length done) by lia. rewrite set_next, keep_next.
        rewrite i32_small by (pose proof (sum_fine done Hd); lia). now rewrite Z.add_0_r. }
      destruct (Z.eqb_spec l 1) as [E1|E1].
      { destruct (Z.leb_spec l 1); [|lia]. apply ahead_ret_l. apply ahead_seq_ret. rewrite E1. apply Hstep. unfold fine. lia. }
      destruct (Z.leb_spec l 1); [lia|]. pose proof (sent_ok shift l Hsh ltac:(lia)) as Eb. cbv zeta in Eb. cbv zeta. rewrite Eb.
      pose proof (sent_range shift l ltac:(lia)) as Hb. set (b := sent_bits shift l) in *.
      apply ahead_assoc. apply ahead_seq_assoc. apply ahead_bind.
      { apply ahead_of, exact_bits; [rewrite u32_small by lia; lia|lia]. }
      intros x [cx [_ Hx']]. rewrite Z2Nat.id in Hx' by lia. apply ahead_ret_l. apply ahead_seq_ret.
      destruct (freq_value l b x ltac:(lia) Hb Hx') as [-> Hf]. apply Hstep, Hf.
  - destruct Hag as (_ & Hlt & El & Es & Hz & Hag). apply ahead_map.
    replace (Z.to_nat (a - i)) with (S (Z.to_nat (a - (i + 1)))) by lia.
    set (n1 := Z.to_nat (a - (i + 1))). cbn [freqLoop].
    eapply ahead_lift_l; [apply (slice_get_ok _ _ 0); lia|]. rewrite Es.
    destruct (Z.eqb_spec (n + 1) 0); [lia|].
    set (prev := last done 0).
    assert (Hprev : fine prev).
    { unfold prev. destruct done as [|x done'] using rev_ind; [unfold fine; cbn; lia|]. rewrite last_snoc. apply Forall_app in Hd. destruct Hd as [_ Hd]. now inversion Hd. }
    assert (Hload : exact_ahead k (freqs' <- rlift (slice_set (done ++ repeat 0 (S n1)) i prev) ;;
         freqLoop n1 (i + 1) shift o lc sm freqs' (i32 (sumZ done + prev)) (n - 1) prev)
       (c_seq (c_freqs shift o (i + n) prev t) (fun r => c_ret (firstn (Z.to_nat a) (done ++ repeat prev (Z.to_nat n) ++ r),
           sumZ (firstn (Z.to_nat a) (done ++ repeat prev (Z.to_nat n) ++ r)))))).
    { eapply ahead_lift_l; [apply slice_set_ok; rewrite app_length, repeat_length; lia|].
      rewrite <- Hi, Nat2Z.id, set_next. set (done1 := done ++ [prev]).
      assert (L1 : Z.of_nat (length done1) = i + 1) by (unfold done1; rewrite app_length; cbn [length]; lia).
      assert (F1 : Forall fine done1) by (apply Forall_app; split; auto).
      replace (i32 (sumZ done + prev)) with (sumZ done1).
      2: { unfold done1. rewrite sumZ_app. cbn [sumZ fold_right]. rewrite Z.add_0_r. symmetry. apply i32_small.
           pose proof (sum_fine done Hd). unfold fine in Hprev. lia. }
      rewrite Hi. rewrite <- L1. replace (n - 1) with (Z.of_nat (Z.to_nat (n - 1))) by lia.
      eapply ahead_eq.
      { intros s. symmetry. apply (freq_run a lc sm shift o prev Hprev Ha Hsm (Z.to_nat (n - 1)) n1 done1 s); [lia|exact F1|].
        intros j Hj. apply Hz. lia. }
      set (m := Z.to_nat (n - 1)). set (done2 := done1 ++ repeat prev (min m n1)).
      assert (L2 : length done2 = (length done1 + min m n1)%nat) by (unfold done2; rewrite app_length, repeat_length; lia).
      assert (Hrep : forall q, Forall fine (repeat prev q)) by (intros q; apply Forall_forall; intros x Hin; apply repeat_spec in Hin; now subst).
      assert (F2 : Forall fine done2) by (apply Forall_app; split; auto).
      assert (Ej : forall q, done1 ++ repeat prev q = done ++ repeat prev (S q)) by (intros q; unfold done1; rewrite <- app_assoc; reflexivity).
      destruct (Z.le_gt_cases (i + n) a) as [Hle|Hgt].
      - assert (Em : min m n1 = m) by lia.
        assert (E2 : done2 = done ++ repeat prev (Z.to_nat n)) by (unfold done2; rewrite Em, Ej; do 2 f_equal; lia).
        pose proof (IH (i + n) done2 prev Hag ltac:(rewrite E2, app_length, repeat_length; lia) Hle F2) as G.
        replace (Z.of_nat (length done2)) with (i + n) by (rewrite E2, app_length, repeat_length; lia).
        replace (n1 - m)%nat with (Z.to_nat (a - (i + n))) by lia.
        replace (last done2 0) with prev in G.
        2: { rewrite E2. replace (Z.to_nat n) with (S m) by lia. cbn [repeat]. replace (repeat prev m) with (repeat prev m) by auto.
             clear. rewrite <- (app_nil_r (prev :: repeat prev m)). change (prev :: repeat prev m) with (repeat prev (S m)).
             replace (S m) with (m + 1)%nat by lia. rewrite repeat_app. rewrite app_nil_r, app_assoc. cbn [repeat]. now rewrite last_snoc. }
        eapply ahead_iff; [|exact G]. intros c v. apply seq_ext. intros r c' v'. rewrite E2, <- app_assoc. reflexivity.
      - destruct t as [|x t].
        2: { exfalso. destruct x; cbn [agree] in Hag; lia. }
        cbn [c_freqs]. apply ahead_seq_ret. replace (n1 - m)%nat with 0%nat by lia. cbn [freqLoop repeat]. rewrite !app_nil_r.
        apply ahead_ret'.
        assert (E2 : done2 = firstn (Z.to_nat a) (done ++ repeat prev (Z.to_nat n))).
        { rewrite firstn_app. rewrite (firstn_all2 done) by lia. unfold done2. rewrite Ej. f_equal.
          replace (Z.to_nat n) with (S (min m n1) + (Z.to_nat n - S (min m n1)))%nat by lia. rewrite repeat_app, firstn_app, repeat_length.
          rewrite firstn_all2 by (rewrite repeat_length; lia).
          replace (Z.to_nat a - length done - S (min m n1))%nat with 0%nat by lia. cbn [firstn]. now rewrite app_nil_r. }
        rewrite E2. reflexivity. }
    destruct (Z.ltb_spec 0 i).
    + apply ahead_assoc. eapply ahead_lift_l; [apply (slice_get_ok _ _ 0); rewrite app_length; lia|]. apply ahead_ret_l.
      replace (n + 1 - 1) with n by lia. destruct (Z.eqb_spec n 0); [lia|]. cbn [negb].
      replace (nth (Z.to_nat (i - 1)) (done ++ repeat 0 (S n1)) 0) with prev; [exact Hload|].
      unfold prev. destruct done as [|x done'] using rev_ind; [cbn [length] in Hi; lia|]. rewrite last_snoc.
      rewrite app_length in Hi. cbn [length] in Hi. rewrite <- app_assoc. rewrite app_nth2 by lia.
      replace (Z.to_nat (i - 1) - length done')%nat with 0%nat by lia. reflexivity.
    + apply ahead_ret_l. replace (n + 1 - 1) with n by lia. destruct (Z.eqb_spec n 0); [lia|]. cbn [negb].
      assert (Ep : prev = 0) by (unfold prev; destruct done; [reflexivity|cbn [length] in Hi; lia]). clearbody prev. subst prev. exact Hload.
Qed.

Lemma ahead_bind_val {A B X} k (m : RM A) (f : A -> RM B) (R : code X) (g : X -> A) (S : X -> code B) :
  exact_ahead k m (fun c v => exists x, R c x /\ v = g x) -> (forall x, (exists c, R c x) -> exact_ahead k (f (g x)) (S x)) ->
  exact_ahead k (rbind m f) (c_seq R S).
Proof.
  intros [Hm1 Hm2] Hf. split.
  - intros c w (c1 & c2 & v & -> & H1 & H2) s d p Hr Hb Hk. apply bits_at_app in Hb. destruct Hb as [Hb1 Hb2].
    rewrite app_length in *.
    destruct (Hm1 c1 (g v) (ex_intro _ v (conj H1 eq_refl)) s d p Hr Hb1 ltac:(lia)) as (s1 & E1 & Hr1).
    destruct (proj1 (Hf v (ex_intro _ c1 H1)) _ _ H2 s1 d _ Hr1 Hb2 ltac:(lia)) as (s2 & E2 & Hr2).
    exists s2. unfold rbind. rewrite E1. split; auto. now rewrite Nat.add_assoc.
  - intros s d p Hr. specialize (Hm2 s d p Hr). unfold rbind. destruct (m s) as [[v| |] s1]; auto.
    destruct Hm2 as (c1 & Hb1 & (x & Hc1 & ->) & Hr1).
    destruct (Hf x (ex_intro _ c1 Hc1)) as [_ Hf2]. specialize (Hf2 s1 d _ Hr1).
    destruct (f (g x) s1) as [[w| |] s2]; auto. destruct Hf2 as (c2 & Hb2 & Hc2 & Hr2).
    exists (c1 ++ c2). split; [now apply bits_at_app|]. split; [unfold c_seq; eauto 10|].
    rewrite app_length, Nat.add_assoc. auto.
Qed.
Lemma ahead_unique {A} k (m : RM A) X (P : X -> Prop) (x : X) (T : X -> code A) : P x -> (forall y, P y -> y = x) ->
  exact_ahead k m (T x) -> exact_ahead k m (c_seq (fun c o => c = [] /\ P o) T).
Proof.
  intros Hx Hu. apply ahead_iff. intros c v. split.
  - intros H. exists [], c, x. auto.
  - intros (c1 & c2 & o & -> & [-> Ho] & H). now rewrite (Hu o Ho) in H.
Qed.

Lemma exact_shift : exact (l <- countOnes 3 ;; sh <- ReadBits (u32 l) ;; rret (u64 (Z.lor sh (Z.shiftl 1 l) - 1))) c_shift.
Proof.
  assert (Hl : exact (countOnes 3) (fun c v => exists l, (l <= 3)%nat /\ c = repeat true l ++ (if (l <? 3)%nat then [false] else []) /\ v = Z.of_nat l)).
  { assert (G : forall n, exact (countOnes n) (fun c v => exists l, (l <= n)%nat /\ c = repeat true l ++ (if (l <? n)%nat then [false] else []) /\ v = Z.of_nat l)).
    { induction n as [|n IH]; cbn [countOnes].
      - eapply exact_iff; [|apply exact_ret]. intros c v. split.
        + intros [-> ->]. exists 0%nat. auto.
        + intros (l & H & -> & ->). assert (l = 0%nat) by lia. subst. split; reflexivity.
      - apply (exact_iff _ (c_seq c_bool (fun b => if b : bool then c_seq (fun c v => exists l, (l <= n)%nat /\ c = repeat true l ++ (if (l <? n)%nat then [false] else []) /\ v = Z.of_nat l)
             (fun v => c_ret (v + 1)) else c_ret 0))).
        + intros c v. split.
          * intros (c1 & c2 & b & -> & -> & H). destruct b.
            -- destruct H as (c3 & c4 & w & -> & (l & Hl & -> & ->) & [-> ->]). exists (S l). rewrite app_nil_r. split; [lia|].
               split; [|lia]. cbn [repeat app]. do 2 f_equal.
            -- destruct H as [-> ->]. exists 0%nat. split; [lia|]. split; reflexivity.
          * intros (l & Hl & -> & ->). destruct l as [|l].
            -- exists [false], [], false. split; auto. split; [reflexivity|]. split; reflexivity.
            -- exists [true], (repeat true l ++ (if (l <? n)%nat then [false] else [])), true. split; [reflexivity|]. split; [reflexivity|].
               exists (repeat true l ++ (if (l <? n)%nat then [false] else [])), [], (Z.of_nat l). rewrite app_nil_r. split; auto. split.
               ++ exists l. split; [lia|auto].
               ++ split; [reflexivity|lia].
        + apply exact_bind; [apply exact_bool|]. intros b _. destruct b; [|apply exact_ret].
          apply exact_bind; [exact IH|]. intros v _. apply exact_ret. }
    apply G. }
  apply (exact_iff _ (c_seq (fun c v => exists l, (l <= 3)%nat /\ c = repeat true l ++ (if (l <? 3)%nat then [false] else []) /\ v = Z.of_nat l)
     (fun l => c_seq (c_fixed (Z.to_nat l)) (fun x => c_ret (2 ^ l - 1 + x))))).
  - intros c v. split.
    + intros (c1 & c2 & v1 & -> & (l & Hl3 & -> & ->) & c3 & c4 & x & -> & [-> Hx] & [-> ->]). exists l, x. rewrite Nat2Z.id in *.
      rewrite app_nil_r, <- app_assoc. auto.
    + intros (l & x & Hl3 & Hx & -> & ->). exists (repeat true l ++ (if (l <? 3)%nat then [false] else [])), (zbits l x), (Z.of_nat l).
      rewrite <- app_assoc. split; auto. split; [eauto|]. rewrite Nat2Z.id. exists (zbits l x), [], x. rewrite app_nil_r. split; auto.
      split; [split; auto|]. split; reflexivity.
  - apply exact_bind; [exact Hl|]. intros v [c (l & Hl3 & _ & ->)]. apply exact_bind.
    + apply exact_bits; [rewrite u32_small by lia; lia|lia].
    + intros x [cx [_ Hx]]. rewrite Nat2Z.id in Hx.
      replace (u64 (Z.lor x (Z.shiftl 1 (Z.of_nat l)) - 1)) with (2 ^ Z.of_nat l - 1 + x); [apply exact_ret|].
      assert (E : Z.lor x (Z.shiftl 1 (Z.of_nat l)) = x + 2 ^ Z.of_nat l) by (rewrite lor_shift_add by lia; lia).
      rewrite E. assert (2 ^ Z.of_nat l <= 2 ^ 3) by (apply Z.pow_le_mono_r; lia). rewrite u64_small by lia. lia.
Qed.

Lemma list_set_put (l : list Z) o v : 0 <= o < Z.of_nat (length l) -> list_set l (Z.to_nat o) v = put o v l.
Proof.
  intros Ho. unfold put. apply (nth_ext_len _ _ 0).
  - rewrite list_set_length, app_length. cbn [length]. rewrite firstn_length, skipn_length. lia.
  - rewrite list_set_length. intros n Hn. rewrite nth_list_set by lia. destruct (Nat.eqb_spec n (Z.to_nat o)) as [->|Hne].
    + rewrite app_nth2; rewrite firstn_length; [|lia]. replace (Z.to_nat o - min (Z.to_nat o) (length l))%nat with 0%nat by lia. reflexivity.
    + destruct (Nat.lt_ge_cases n (Z.to_nat o)).
      * rewrite app_nth1 by (rewrite firstn_length; lia). now rewrite nth_firstn by lia.
      * rewrite app_nth2; rewrite firstn_length; [|lia]. replace (n - min (Z.to_nat o) (length l))%nat with (S (n - S (Z.to_nat o))) by lia.
        cbn [nth]. rewrite nth_skipn. f_equal. lia.
Qed.

Lemma logs_lt a its : forall i lc sm, agree a i its lc sm -> forall o l, In (o, l) (logs_from i its) -> o < a.
Proof.
  induction its as [|[l|n] t IH]; intros i lc sm Ha o l' H; cbn [agree logs_from] in *; [destruct H| |].
  - destruct Ha as (_ & Hlt & _ & _ & Ha). destruct H as [E|H]; [inversion E; lia|]. eapply IH; eauto.
  - destruct Ha as (_ & Hlt & _ & _ & _ & Ha). eapply IH; eauto.
Qed.

Lemma freqs_length shift o its : Forall item_ok its -> forall i prev c r, c_freqs shift o i prev its c r ->
  forall a lc sm, agree a i its lc sm -> a - i <= Z.of_nat (length r).
Proof.
  induction 1 as [|[l|n] t Hx Ht IH]; intros i prev c r Hc a lc sm Ha; cbn [c_freqs agree item_ok] in *.
  - destruct Hc as [_ ->]. cbn [length]. lia.
  - destruct Ha as (_ & Hlt & _ & _ & Ha). destruct (i =? o).
    + destruct Hc as (c1 & c2 & r' & -> & Hc & [_ ->]). cbn [length]. pose proof (IH _ _ _ _ Hc a lc sm Ha). lia.
    + destruct Hc as (c1 & c2 & f & -> & _ & c3 & c4 & r' & -> & Hc & [_ ->]). cbn [length]. pose proof (IH _ _ _ _ Hc a lc sm Ha). lia.
  - destruct Ha as (_ & Hlt & _ & _ & _ & Ha). destruct Hc as (c1 & c2 & r' & -> & Hc & [_ ->]).
    pose proof (IH _ _ _ _ Hc a lc sm Ha). rewrite app_length, repeat_length. lia.
Qed.
Lemma freqs_fine shift o its : Forall item_ok its -> 0 <= shift <= 13 -> forall i prev c r, fine prev -> c_freqs shift o i prev its c r -> Forall fine r.
Proof.
  intros H Hsh. induction H as [|[l|n] t Hx Ht IH]; intros i prev c r Hp Hc; cbn [c_freqs item_ok] in *.
  - destruct Hc as [_ ->]. constructor.
  - destruct (i =? o).
    + destruct Hc as (c1 & c2 & r' & -> & Hc & [_ ->]). constructor; [unfold fine; lia|]. eapply IH; [|exact Hc]. unfold fine; lia.
    + destruct Hc as (c1 & c2 & f & -> & Hf & c3 & c4 & r' & -> & Hc & [_ ->]).
      assert (Hfine : fine f).
      { unfold c_freq in Hf. destruct (Z.leb_spec l 1).
        - destruct Hf as [_ ->]. unfold fine. lia.
        - destruct Hf as (c5 & c6 & x & -> & [_ Hx'] & [_ ->]). pose proof (sent_range shift l ltac:(lia)).
          rewrite Z2Nat.id in Hx' by lia. apply (freq_value l (sent_bits shift l) x); lia. }
      constructor; auto. eapply IH; eauto.
  - destruct Hc as (c1 & c2 & r' & -> & Hc & [_ ->]). apply Forall_app. split.
    + apply Forall_forall. intros x Hin. apply repeat_spec in Hin. now subst.
    + eapply IH; eauto.
Qed.

Lemma run_lt a its lc sm : forall i o, run_at i its o -> agree a i its lc sm -> o < a.
Proof.
  induction its as [|[l|n] t IH]; intros i o Hr Ha; cbn [run_at agree] in *; [tauto| |].
  - apply (IH (i + 1)); tauto.
  - destruct Hr as [E|Hr]; [lia|]. apply (IH (i + n)); tauto.
Qed.
Lemma firstn_fine n l : Forall fine l -> Forall fine (firstn n l).
Proof. intros H. rewrite <- (firstn_skipn n l) in H. now apply Forall_app in H. Qed.

Lemma ahead_general las : 0 <= las -> exact_ahead 7
  (l <- countOnes 3 ;;
   sh <- ReadBits (u32 l) ;;
   let shift := u64 (Z.lor sh (Z.shiftl 1 l) - 1) in
   if 13 <? shift then rerr
   else
     r <- ReadU8 ;;
     let alphabetSize := 3 + r in
     if Z.shiftl 1 las <? alphabetSize then rerr
     else
       let n := Z.to_nat alphabetSize in
       t <- logCountLoop (S n) alphabetSize 0 (repeat 0 n) (repeat 0 n) (-1) (-1) ;;
       let '(lc, same, omitPos) := t in
       bad <- (if omitPos <? 0 then rret true
               else if omitPos + 1 <? alphabetSize then
                 c <- rlift (slice_get lc (omitPos + 1)) ;; rret (c =? 13)
               else rret false) ;;
       if bad : bool then rerr
       else
         ft <- freqLoop n 0 shift omitPos lc same (repeat 0 n) 0 0 0 ;;
         let '(freqs, total) := ft in
         freqs' <- rlift (slice_set freqs omitPos (i32 (4096 - total))) ;;
         rret (alphabetSize, -1, freqs')) (dist_general las).
Proof.
  intros Hlas. unfold dist_general.
  apply (ahead_eq _ (shift <- (l <- countOnes 3 ;; sh <- ReadBits (u32 l) ;; rret (u64 (Z.lor sh (Z.shiftl 1 l) - 1))) ;;
   if 13 <? shift then rerr
   else
     r <- ReadU8 ;;
     let alphabetSize := 3 + r in
     if Z.shiftl 1 las <? alphabetSize then rerr
     else
       let n := Z.to_nat alphabetSize in
       t <- logCountLoop (S n) alphabetSize 0 (repeat 0 n) (repeat 0 n) (-1) (-1) ;;
       let '(lc, same, omitPos) := t in
       bad <- (if omitPos <? 0 then rret true
               else if omitPos + 1 <? alphabetSize then
                 c <- rlift (slice_get lc (omitPos + 1)) ;; rret (c =? 13)
               else rret false) ;;
       if bad : bool then rerr
       else
         ft <- freqLoop n 0 shift omitPos lc same (repeat 0 n) 0 0 0 ;;
         let '(freqs, total) := ft in
         freqs' <- rlift (slice_set freqs omitPos (i32 (4096 - total))) ;;
         rret (alphabetSize, -1, freqs'))).
  { intros s. unfold rbind. destruct (countOnes 3 s) as [[l| |] s1]; auto.
    destruct (ReadBits (u32 l) s1) as [[sh| |] s2]; auto. }
  apply ahead_bind; [apply ahead_of, exact_shift|]. intros shift [cs Hcs].
  assert (Hsh0 : 0 <= shift).
  { destruct Hcs as (l & x & Hl & Hx & _ & ->). assert (0 < 2 ^ Z.of_nat l) by (apply Z.pow_pos_nonneg; lia). lia. }
  apply ahead_guard; [lia|]. intros Hsh.
  apply ahead_bind; [apply ahead_of, exact_u8|]. intros r [cr Hcr]. apply u8_range in Hcr. cbv zeta.
  rewrite Z.shiftl_1_l. apply ahead_guard; [lia|]. intros Hr. replace (3 + r) with (r + 3) by lia.
  set (a := r + 3) in *. set (n := Z.to_nat a).
  eapply (ahead_bind_val 7 _ _ (c_items a) (fun its => (put_lc 0 its (repeat 0 n), put_same 0 its (repeat 0 n), best 0 its (-1) (-1)))).
  { pose proof (items_loop a ltac:(lia) (S n) 0 (repeat 0 n) (repeat 0 n) (-1) (-1) ltac:(lia)) as G. rewrite repeat_length in G.
    specialize (G ltac:(lia) ltac:(lia) ltac:(lia)). eapply ahead_iff; [|exact G]. intros c v. unfold items_val. rewrite Z.sub_0_r. reflexivity. }
  intros its [ci Hci]. pose proof (items_size _ _ _ Hci) as Hok.
  assert (Hag : agree a 0 its (put_lc 0 its (repeat 0 n)) (put_same 0 its (repeat 0 n))).
  { apply (agree_put a its Hok 0 ci); rewrite ?repeat_length; try lia.
    - now rewrite Z.sub_0_r.
    - intros j Hj. apply nth_repeat0. }
  set (lc := put_lc 0 its (repeat 0 n)) in *. set (sm := put_same 0 its (repeat 0 n)) in *.
  assert (Ll : Z.of_nat (length lc) = a) by (unfold lc; rewrite put_lc_length, repeat_length; lia).
  assert (Ls : Z.of_nat (length sm) = a) by (unfold sm; rewrite put_same_length, repeat_length; lia).
  destruct (best_omitted its Hok) as [[E Hno]|[Hpos Hom]].
  { rewrite E. apply ahead_ret_l. apply ahead_err. intros c v (c1 & c2 & o & _ & [_ Ho] & _). exact (Hno o Ho). }
  set (o := best 0 its (-1) (-1)) in *.
  apply (ahead_unique 7 _ Z (omitted its) o).
  { exact Hom. } { intros y Hy. exact (omitted_unique its y o Hy Hom). }
  assert (Hoa : o < a). { destruct Hom as (l & Hin & _). exact (logs_lt a its 0 lc sm Hag o l Hin). }
  destruct (Z.ltb_spec o 0); [lia|].
  assert (Hbad : (if o + 1 <? a then nth (Z.to_nat (o + 1)) lc 0 =? 13 else false) = false <-> ~ run_at 0 its (o + 1)).
  { destruct (Z.ltb_spec (o + 1) a).
    - rewrite (run_at_lc a its Hok 0 (o + 1) lc sm ltac:(lia) ltac:(lia) Hag).
      + destruct (Z.eqb_spec (nth (Z.to_nat (o + 1)) lc 0) 13); [split; [discriminate|tauto]|tauto].
      + left. destruct Hom as (l & Hin & _). exists l. replace (o + 1 - 1) with o by lia. exact Hin.
    - split; [|auto]. intros _ Hr'. pose proof (run_lt a its lc sm 0 (o + 1) Hr' Hag). lia. }
  apply (ahead_eq _ (if (if o + 1 <? a then nth (Z.to_nat (o + 1)) lc 0 =? 13 else false) then rerr else
         ft <- freqLoop n 0 shift o lc sm (repeat 0 n) 0 0 0 ;;
         let '(freqs, total) := ft in
         freqs' <- rlift (slice_set freqs o (i32 (4096 - total))) ;;
         rret (a, -1, freqs'))).
  { intros s. destruct (Z.ltb_spec (o + 1) a).
    - unfold rbind at 2 3, rlift at 2. rewrite (slice_get_ok _ _ 0) by lia. cbn [rret]. reflexivity.
    - reflexivity. }
  apply ahead_guard; [exact Hbad|]. intros _.
  eapply (ahead_bind_val 7 _ _ (c_freqs shift o 0 0 its) (fun fs => (firstn (Z.to_nat a) fs, sumZ (firstn (Z.to_nat a) fs)))).
  { pose proof (freq_loop 7 a lc sm shift o ltac:(lia) ltac:(lia) Ll Ls its Hok 0 [] 0 Hag eq_refl ltac:(lia) ltac:(constructor)) as G.
    rewrite Z.sub_0_r in G. cbn [app last sumZ fold_right] in G. fold n in G. eapply ahead_iff; [|exact G].
    intros c v. split.
    - intros (c1 & c2 & fs & -> & H1 & [-> ->]). rewrite app_nil_r. exists fs. auto.
    - intros (fs & H1 & ->). exists c, [], fs. rewrite app_nil_r. split; auto. split; auto. split; reflexivity. }
  intros fs [cf Hcf]. fold n.
  pose proof (freqs_length shift o its Hok 0 0 cf fs Hcf a lc sm Hag) as Hlen.
  pose proof (freqs_fine shift o its Hok ltac:(lia) 0 0 cf fs ltac:(unfold fine; lia) Hcf) as Hfine.
  assert (L : length (firstn n fs) = n) by (rewrite firstn_length; lia).
  pose proof (sum_fine (firstn n fs) ltac:(now apply firstn_fine)) as Hsum. rewrite L in Hsum.
  rewrite i32_small by lia.
  eapply ahead_lift_l; [apply slice_set_ok; rewrite L; lia|]. rewrite list_set_put by (rewrite L; lia). apply ahead_ret.
Qed.

Lemma pair_list v1 v2 f a : 0 <= v1 < a -> 0 <= v2 < a -> v1 <> v2 ->
  list_set (list_set (repeat 0 (Z.to_nat a)) (Z.to_nat v1) f) (Z.to_nat v2) (4096 - f) =
  map (fun i => if Z.of_nat i =? v1 then f else if Z.of_nat i =? v2 then 4096 - f else 0) (seq 0 (Z.to_nat a)).
Proof.
  intros H1 H2 Hne. apply (nth_ext_len _ _ 0); [rewrite !list_set_length, repeat_length, map_length, seq_length; auto|].
  intros n Hn. rewrite !list_set_length, repeat_length in Hn.
  rewrite nth_map_seq by lia. rewrite nth_list_set by (rewrite list_set_length, repeat_length; lia).
  destruct (Nat.eqb_spec n (Z.to_nat v2)).
  - destruct (Z.eqb_spec (Z.of_nat n) v1); [lia|]. destruct (Z.eqb_spec (Z.of_nat n) v2); [auto|lia].
  - rewrite nth_list_set by (rewrite repeat_length; lia). destruct (Nat.eqb_spec n (Z.to_nat v1)).
    + destruct (Z.eqb_spec (Z.of_nat n) v1); [auto|lia].
    + destruct (Z.eqb_spec (Z.of_nat n) v1); [lia|]. destruct (Z.eqb_spec (Z.of_nat n) v2); [lia|]. apply nth_repeat0.
Qed.
Lemma nth_repeat_lt (x d : Z) n k : (k < n)%nat -> nth k (repeat x n) d = x.
Proof. revert k; induction n; intros [|k] H; cbn [repeat nth]; try lia; auto. apply IHn. lia. Qed.
Lemma flat_list q m a : 0 <= m <= a ->
  map (fun i => q + (if Z.of_nat i <? m then 1 else 0)) (seq 0 (Z.to_nat a)) = repeat (q + 1) (Z.to_nat m) ++ repeat q (Z.to_nat (a - m)).
Proof.
  intros H. apply (nth_ext_len _ _ 0); [rewrite map_length, seq_length, app_length, !repeat_length; lia|].
  intros n Hn. rewrite map_length, seq_length in Hn. rewrite nth_map_seq by lia. destruct (Z.ltb_spec (Z.of_nat n) m).
  - rewrite app_nth1 by (rewrite repeat_length; lia). now rewrite nth_repeat_lt by lia.
  - rewrite app_nth2; rewrite repeat_length; [|lia]. rewrite nth_repeat_lt by lia. lia.
Qed.

Lemma ahead_dist las : 0 <= las -> exact_ahead 7 (readFrequencies las) (dist_code las).
Proof.
  intros Hlas. unfold readFrequencies, dist_code. apply ahead_bind; [apply ahead_of, exact_bool|]. intros simple _. destruct simple.
  - apply ahead_bind; [apply ahead_of, exact_bool|]. intros pair _. destruct pair.
    + unfold dist_pair. apply ahead_bind; [apply ahead_of, exact_u8|]. intros v1 [c1 H1]. apply u8_range in H1.
      apply ahead_bind; [apply ahead_of, exact_u8|]. intros v2 [c2 H2]. apply u8_range in H2. cbv zeta. rewrite Z.shiftl_1_l.
      eapply ahead_eq; [|apply (ahead_guard 7 ((v1 =? v2) || (2 ^ las <? 1 + Z.max v1 v2)) (v1 <> v2 /\ v1 < 2 ^ las /\ v2 < 2 ^ las)
         (freq <- ReadBits 12 ;;
          f1 <- rlift (slice_set (repeat 0 (Z.to_nat (1 + Z.max v1 v2))) v1 (i32 freq)) ;;
          f2 <- rlift (slice_set f1 v2 (4096 - i32 freq)) ;;
          rret (1 + Z.max v1 v2, if i32 freq =? 0 then v2 else -1, f2)))].
      * intros s. destruct (v1 =? v2); cbn [orb]; [reflexivity|]. destruct (2 ^ las <? 1 + Z.max v1 v2); reflexivity.
      * lia.
      * intros (Hne & Hv1 & Hv2). apply ahead_bind; [apply ahead_of, exact_bits; [reflexivity|lia]|]. intros f [cf [_ Hf]].
        change (2 ^ Z.of_nat 12) with 4096 in Hf. rewrite i32_small by lia.
        eapply ahead_lift_l; [apply slice_set_ok; rewrite repeat_length; lia|].
        eapply ahead_lift_l; [apply slice_set_ok; rewrite list_set_length, repeat_length; lia|].
        apply ahead_ret'. replace (1 + Z.max v1 v2) with (Z.max v1 v2 + 1) by lia. rewrite pair_list by lia. reflexivity.
    + unfold dist_single. apply ahead_bind; [apply ahead_of, exact_u8|]. intros x [cx Hx]. apply u8_range in Hx.
      eapply ahead_lift_l; [apply slice_set_ok; rewrite repeat_length; lia|]. apply ahead_ret'. f_equal; [f_equal; lia|].
      replace (Z.to_nat (1 + x)) with (Z.to_nat x + 1)%nat by lia. rewrite repeat_app. cbn [repeat].
      rewrite <- (repeat_length 0 (Z.to_nat x)) at 2. apply list_set_app.
  - apply ahead_bind; [apply ahead_of, exact_bool|]. intros flat _. destruct flat.
    + unfold dist_flat. apply ahead_bind; [apply ahead_of, exact_u8|]. intros r [cr Hr]. apply u8_range in Hr. cbv zeta. rewrite Z.shiftl_1_l.
      apply ahead_guard; [lia|]. intros Hg. apply ahead_ret'. replace (1 + r) with (r + 1) by lia.
      pose proof (Z.mod_pos_bound 4096 (r + 1) ltac:(lia)).
      rewrite flat_list by lia. f_equal. f_equal. destruct (Z.eqb_spec (r + 1) 1), (Z.eqb_spec r 0); auto; lia.
    + exact (ahead_general las Hlas).
Qed.

(* ---- the values ---- *)
Lemma sumZ_repeat x n : sumZ (repeat x n) = x * Z.of_nat n.
Proof. induction n; cbn [repeat]; [cbn; lia|]. rewrite sumZ_cons, IHn. lia. Qed.
Lemma sumZ_put o v l : 0 <= o < Z.of_nat (length l) -> sumZ (put o v l) = sumZ l - nth (Z.to_nat o) l 0 + v.
Proof.
  intros Ho. unfold put. rewrite sumZ_app, sumZ_cons.
  assert (E : sumZ l = sumZ (firstn (Z.to_nat o) l) + (nth (Z.to_nat o) l 0 + sumZ (skipn (S (Z.to_nat o)) l))).
  { rewrite <- sumZ_cons, <- sumZ_app. f_equal. apply (nth_ext_len _ _ 0).
    - rewrite app_length. cbn [length]. rewrite firstn_length, skipn_length. lia.
    - intros n Hn. destruct (Nat.lt_ge_cases n (Z.to_nat o)).
      + rewrite app_nth1 by (rewrite firstn_length; lia). now rewrite nth_firstn by lia.
      + rewrite app_nth2; rewrite firstn_length; [|lia]. destruct (Nat.eq_dec n (Z.to_nat o)) as [->|].
        * replace (Z.to_nat o - min (Z.to_nat o) (length l))%nat with 0%nat by lia. reflexivity.
        * replace (n - min (Z.to_nat o) (length l))%nat with (S (n - S (Z.to_nat o))) by lia. cbn [nth]. rewrite nth_skipn. f_equal. lia. }
  rewrite E. lia.
Qed.
(* the omitted frequency is still 0 *)
Lemma freqs_omit shift o its : Forall item_ok its -> forall i prev c r l, c_freqs shift o i prev its c r -> In (o, l) (logs_from i its) ->
  nth (Z.to_nat (o - i)) r 0 = 0.
Proof.
  induction 1 as [|[l0|n] t Hx Ht IH]; intros i prev c r l Hc Hin; cbn [c_freqs logs_from item_ok] in *.
  - destruct Hin.
  - destruct (Z.eqb_spec i o) as [E|E].
    + destruct Hc as (c1 & c2 & r' & -> & Hc & [_ ->]). replace (Z.to_nat (o - i)) with 0%nat by lia. reflexivity.
    + destruct Hc as (c1 & c2 & f & -> & _ & c3 & c4 & r' & -> & Hc & [_ ->]). destruct Hin as [E'|Hin]; [inversion E'; lia|].
      pose proof (logs_ge t Ht _ _ _ Hin). replace (Z.to_nat (o - i)) with (S (Z.to_nat (o - (i + 1)))) by lia. cbn [nth]. eapply IH; eauto.
  - destruct Hc as (c1 & c2 & r' & -> & Hc & [_ ->]). pose proof (logs_ge t Ht _ _ _ Hin).
    rewrite app_nth2; rewrite repeat_length; [|lia]. replace (Z.to_nat (o - i) - Z.to_nat n)%nat with (Z.to_nat (o - (i + n))) by lia. eapply IH; eauto.
Qed.

Definition dist_facts (las a u : Z) (fs : list Z) : Prop :=
  Z.of_nat (length fs) = a /\ sumZ fs = 4096 /\
  ((u = -1 /\ a <= 2 ^ las) \/ (0 <= u < a /\ nth (Z.to_nat u) fs 0 = 4096)) /\
  exists o, 0 <= o < a /\ forall i, 0 <= i < a -> i <> o -> 0 <= nth (Z.to_nat i) fs 0 <= 4096.

Lemma pair_sum v1 v2 f n : 0 <= v1 < Z.of_nat n -> 0 <= v2 < Z.of_nat n -> v1 <> v2 ->
  sumZ (map (fun i => if Z.of_nat i =? v1 then f else if Z.of_nat i =? v2 then 4096 - f else 0) (seq 0 n)) = 4096.
Proof.
  intros H1 H2 Hne. rewrite <- (Nat2Z.id n). rewrite <- pair_list by lia.
  rewrite !list_set_put by (rewrite ?list_set_length, repeat_length; lia).
  rewrite sumZ_put by (rewrite <- list_set_put by (rewrite repeat_length; lia); rewrite list_set_length, repeat_length; lia).
  rewrite sumZ_put by (rewrite repeat_length; lia).
  rewrite <- list_set_put by (rewrite repeat_length; lia).
  rewrite nth_list_set_neq by lia. rewrite !nth_repeat0, sumZ_repeat0. lia.
Qed.

Lemma dist_ok las c a u fs : 0 <= las -> dist_code las c (a, u, fs) -> dist_facts las a u fs.
Proof.
  intros Hlas (c1 & c2 & simple & -> & _ & H). destruct simple; destruct H as (c3 & c4 & b & -> & _ & H); destruct b.
  - destruct H as (c5 & c6 & v1 & -> & H1 & c7 & c8 & v2 & -> & H2 & (Hne & Hv1 & Hv2) & c9 & c10 & f & -> & [_ Hf] & [_ E]).
    inversion E; subst; clear E. apply u8_range in H1, H2. change (2 ^ Z.of_nat 12) with 4096 in Hf.
    set (a := Z.max v1 v2 + 1). unfold dist_facts. rewrite map_length, seq_length. split; [lia|]. split; [apply pair_sum; lia|].
    assert (N : forall i, 0 <= i < a -> nth (Z.to_nat i) (map (fun i => if Z.of_nat i =? v1 then f else if Z.of_nat i =? v2 then 4096 - f else 0) (seq 0 (Z.to_nat a))) 0 =
                if i =? v1 then f else if i =? v2 then 4096 - f else 0).
    { intros i Hi. rewrite nth_map_seq by lia. now rewrite Z2Nat.id by lia. }
    split.
    + destruct (Z.eqb_spec f 0) as [->|]; [right|left; lia]. split; [lia|]. rewrite N by lia. destruct (Z.eqb_spec v2 v1); [lia|]. rewrite Z.eqb_refl. lia.
    + exists 0. split; [lia|]. intros i Hi _. rewrite N by lia. destruct (i =? v1), (i =? v2); lia.
  - destruct H as (c5 & c6 & x & -> & H1 & [_ E]). injection E as -> -> ->. apply u8_range in H1. unfold dist_facts.
    rewrite app_length, repeat_length, sumZ_app, sumZ_repeat0. cbn [length sumZ fold_right]. split; [lia|]. split; [lia|].
    assert (N : nth (Z.to_nat x) (repeat 0 (Z.to_nat x) ++ [4096]) 0 = 4096).
    { rewrite app_nth2; rewrite repeat_length; [|lia]. now rewrite Nat.sub_diag. }
    split; [right; split; [lia|auto]|]. exists x. split; [lia|]. intros i Hi Hne. rewrite app_nth1 by (rewrite repeat_length; lia). rewrite nth_repeat0. lia.
  - destruct H as (c5 & c6 & r & -> & H1 & Hg & [_ E]). inversion E; subst; clear E. apply u8_range in H1. unfold dist_facts.
    pose proof (Z.mod_pos_bound 4096 (r + 1) ltac:(lia)). pose proof (Z.div_mod 4096 (r + 1) ltac:(lia)).
    assert (0 <= 4096 / (r + 1)) by (apply Z.div_pos; lia).
    set (q := 4096 / (r + 1)) in *. set (m := 4096 mod (r + 1)) in *.
    rewrite app_length, !repeat_length, sumZ_app, !sumZ_repeat. split; [lia|]. split; [rewrite !Z2Nat.id by lia; lia|]. split.
    + destruct (Z.eqb_spec r 0) as [->|]; [right|left; split; [reflexivity|assumption]]. split; [lia|]. unfold q, m. reflexivity.
    + exists 0. split; [lia|]. intros i Hi _.
      assert (Hq : q <= 4096 /\ (r = 0 \/ q + 1 <= 4096)).
      { assert (q <= 4096) by nia. split; [assumption|]. destruct (Z.eq_dec r 0); [left; assumption|right]. nia. }
      destruct (Z.lt_ge_cases i m).
      * rewrite app_nth1 by (rewrite repeat_length; lia). rewrite nth_repeat_lt by lia. lia.
      * rewrite app_nth2; rewrite repeat_length; [|lia]. rewrite nth_repeat_lt by lia. lia.
  - destruct H as (c5 & c6 & shift & -> & Hcs & Hsh & c7 & c8 & r & -> & Hr & Hg & c9 & c10 & its & -> & Hits & c11 & c12 & o & -> & [_ Ho] & _ & c13 & c14 & f & -> & Hf & [_ E]).
    cbv zeta in E. apply pair_equal_spec in E. destruct E as [E ->]. apply pair_equal_spec in E. destruct E as [-> ->]. apply u8_range in Hr.
    assert (Hsh0 : 0 <= shift).
    { destruct Hcs as (l & x & Hl & Hx & _ & ->). assert (0 < 2 ^ Z.of_nat l) by (apply Z.pow_pos_nonneg; lia). lia. }
    set (a := r + 3) in *. set (n := Z.to_nat a) in *. pose proof (items_size _ _ _ Hits) as Hok.
    assert (Hag : agree a 0 its (put_lc 0 its (repeat 0 n)) (put_same 0 its (repeat 0 n))).
    { apply (agree_put a its Hok 0 c9); rewrite ?repeat_length; try lia.
      - now rewrite Z.sub_0_r.
      - intros j Hj. apply nth_repeat0. }
    destruct Ho as (l & Hin & Hmax). pose proof (logs_lt a its 0 _ _ Hag o l Hin) as Hoa. pose proof (logs_ge its Hok 0 o l Hin) as Ho0.
    pose proof (freqs_length shift o its Hok 0 0 c13 f Hf a _ _ Hag) as Hlen.
    pose proof (freqs_fine shift o its Hok ltac:(lia) 0 0 c13 f ltac:(unfold fine; lia) Hf) as Hfine.
    assert (L : length (firstn n f) = n) by (rewrite firstn_length; lia).
    pose proof (freqs_omit shift o its Hok 0 0 c13 f l Hf Hin) as Hz. rewrite Z.sub_0_r in Hz.
    unfold dist_facts. split.
    { rewrite <- list_set_put by (rewrite L; lia). rewrite list_set_length. lia. }
    split. { rewrite sumZ_put by (rewrite L; lia). rewrite nth_firstn by lia. rewrite Hz. lia. }
    split; [left; split; [reflexivity|assumption]|]. exists o. split; [lia|]. intros i Hi Hne.
    rewrite <- list_set_put by (rewrite L; lia). rewrite nth_list_set_neq by lia. rewrite nth_firstn by lia.
    assert (Hfi : fine (nth (Z.to_nat i) f 0)) by (rewrite Forall_forall in Hfine; apply Hfine, nth_In; lia). unfold fine in Hfi. lia.
Qed.
