(* C114: comparisons of parameter sets and of channels. *)
From Coq Require Import ZArith List Bool Lia Arith.
From Verif Require Import GoBase ModelHelpers ModelImage ModelDecode ModelCompare SpecCompare.
Import ListNotations.
Open Scope Z_scope.

Lemma fEq_same a b : fEq a b = true <-> same a b.
Proof.
  unfold same. destruct a as [|x], b as [|y]; cbn; split; intros H; try discriminate; try (destruct H as (n & E1 & E2); discriminate).
  - apply Z.eqb_eq in H. subst. eexists. split; reflexivity.
  - destruct H as (n & E1 & E2). injection E1 as ->. injection E2 as ->. apply Z.eqb_refl.
Qed.
Lemma compareRow_iff {T} (c : T -> T -> bool) (P : T -> T -> Prop) : (forall x y, c x y = true <-> P x y) -> forall a b, length a = length b -> (compareRow c a b = true <-> Forall2 P a b).
Proof.
  intros HP. induction a as [|x a IH]; intros [|y b] L; cbn in L; try discriminate; cbn [compareRow]; [split; constructor|].
  injection L as L. specialize (IH b L). destruct (c x y) eqn:E; cbn [negb].
  - rewrite IH. split; intros H; [constructor; [apply HP, E|exact H]|inversion H; assumption].
  - split; intros H; [discriminate|]. inversion H; subst. apply HP in H3. congruence.
Qed.
Lemma Forall2_len {A B} (P : A -> B -> Prop) a b : Forall2 P a b -> length a = length b.
Proof. induction 1; cbn; congruence. Qed.
Lemma CompareMatrix2D_iff {T} (c : T -> T -> bool) (P : T -> T -> Prop) a b : (forall x y, c x y = true <-> P x y) -> (CompareMatrix2D c a b = true <-> Forall2 (Forall2 P) a b).
Proof.
  intros HP. unfold CompareMatrix2D. destruct (Nat.eqb_spec (length a) (length b)) as [L|L]; cbn [negb].
  - revert b L. induction a as [|x a IH]; intros [|y b] L; cbn in L; try discriminate; cbn [compareRows]; [split; constructor|].
    injection L as L. specialize (IH b L). destruct (Nat.eqb_spec (length x) (length y)) as [L2|L2]; cbn [negb].
    + pose proof (compareRow_iff c P HP x y L2) as R. destruct (compareRow c x y); cbn [negb].
      * rewrite IH. split; intros H; [constructor; [apply R; reflexivity|exact H]|inversion H; assumption].
      * split; intros H; [discriminate|]. inversion H; subst. apply R in H3. discriminate.
    + split; intros H; [discriminate|]. inversion H; subst. apply Forall2_len in H3. contradiction.
  - split; intros H; [discriminate|]. apply Forall2_len in H. contradiction.
Qed.
Lemma same_matrix_iff a b : CompareMatrix2D fEq a b = true <-> same_matrix a b.
Proof. apply CompareMatrix2D_iff, fEq_same. Qed.

(* C114.  Equals tells whether two parameter sets are the same. *)
Theorem C114_params : forall a b, Equals a b = true <-> same_params a b.
Proof.
  intros a b. unfold Equals, same_params. rewrite <- !same_matrix_iff, <- fEq_same.
  destruct (Z.eqb_spec (mode a) (mode b)) as [->|N]; cbn [negb]; [|split; intros H; [discriminate|destruct H; contradiction]].
  destruct (fEq (denominator a) (denominator b)); cbn [negb]; [|split; intros H; [discriminate|destruct H as (_ & H & _); discriminate]].
  destruct (Nat.eqb_spec (length (dctParam a)) (length (dctParam b))) as [L1|L1]; cbn [negb].
  2: { split; intros H; [discriminate|]. destruct H as (_ & _ & H & _). apply same_matrix_iff, Forall2_len in H. contradiction. }
  destruct (Nat.eqb_spec (length (param a)) (length (param b))) as [L2|L2]; cbn [negb].
  2: { split; intros H; [discriminate|]. destruct H as (_ & _ & _ & H & _). apply same_matrix_iff, Forall2_len in H. contradiction. }
  destruct (CompareMatrix2D fEq (dctParam a) (dctParam b)), (CompareMatrix2D fEq (param a) (param b)), (CompareMatrix2D fEq (params4x4 a) (params4x4 b)); cbn [negb]; intuition discriminate.
Qed.
Print Assumptions C114_params.
Lemma same_row_refl l : Forall2 same l l <-> Forall number l.
Proof.
  induction l as [|x l IH]; [split; constructor|]. split; intros H; inversion H; subst; constructor; try (apply IH; assumption).
  - destruct H3 as (n & E & _). unfold number. congruence.
  - destruct x as [|n]; [contradiction H2; reflexivity|exists n; split; reflexivity].
Qed.
Lemma same_matrix_refl m : same_matrix m m <-> numbers m.
Proof. unfold same_matrix, numbers. induction m as [|x m IH]; [split; constructor|]. split; intros H; inversion H; subst; constructor; try (apply IH; assumption); apply same_row_refl; assumption. Qed.
(* Finding: a parameter set is equal to itself only if it has no NaN. *)
Theorem C114_nan_refuted : forall a, Equals a a = true <-> all_numbers a.
Proof.
  intros a. rewrite C114_params. unfold same_params, all_numbers. rewrite !same_matrix_refl.
  assert (D : same (denominator a) (denominator a) <-> number (denominator a)).
  { destruct (denominator a) as [|n]; split; intros H; [destruct H as (n & E & _); discriminate|contradiction H; reflexivity|unfold number; discriminate|exists n; split; reflexivity]. }
  rewrite D. intuition reflexivity.
Qed.
Print Assumptions C114_nan_refuted.

Lemma slicesCompare_iff a b : slicesCompare a b = 0 <-> a = b.
Proof.
  revert b. induction a as [|x a IH]; intros [|y b]; cbn [slicesCompare]; try (split; intros H; [reflexivity || discriminate|reflexivity || discriminate]).
  assert (C : fCompare x y = 0 <-> x = y).
  { destruct x as [|x], y as [|y]; cbn; split; intros H; try reflexivity; try discriminate.
    - destruct (Z.ltb_spec x y); [discriminate|]. destruct (Z.gtb_spec x y); [discriminate|]. f_equal. lia.
    - injection H as ->. rewrite Z.ltb_irrefl. destruct (Z.gtb_spec y y); [lia|reflexivity]. }
  destruct (Z.eqb_spec (fCompare x y) 0) as [E|E]; cbn [negb].
  - rewrite IH. apply C in E. subst. split; congruence.
  - split; intros H; [contradiction|]. exfalso. apply E, C. congruence.
Qed.
Lemma xyMatches_iff a b : a <> None -> exists r, xyMatches a b = Ok r /\ (r = true <-> close_xy a b).
Proof.
  intros H. destruct a as [(X, Y)|]; [|contradiction]. unfold close_xy. destruct b as [(X', Y')|]; cbn.
  - eexists. split; [reflexivity|]. rewrite Z.ltb_lt. split; intros L; [exists (X, Y), (X', Y'); repeat split; exact L|]. destruct L as (p & q & E1 & E2 & L). injection E1 as <-. injection E2 as <-. exact L.
  - exists false. split; [reflexivity|]. split; intros L; [discriminate|]. destruct L as (p & q & _ & E & _). discriminate.
Qed.
(* Matches tells whether two inverse matrices are the same, but for close chromaticities. *)
Theorem C114_opsin : forall a b, there (Primaries a) -> exists r, Matches a b = Ok r /\ (r = true <-> same_opsin a b).
Proof.
  intros a b (T1 & T2 & T3). 
  assert (Q : same_opsin a b <-> CompareMatrix2D fEq (Matrix a) (Matrix b) = true /\ slicesCompare (OpsinBias a) (OpsinBias b) = 0 /\ slicesCompare (QuantBias a) (QuantBias b) = 0 /\
    fEq (QuantBiasNumerator a) (QuantBiasNumerator b) = true /\ close_primaries (Primaries a) (Primaries b) /\ close (WhitePoint a) (WhitePoint b)).
  { unfold same_opsin. rewrite same_matrix_iff, fEq_same, !slicesCompare_iff. reflexivity. }
  cut (exists r, Matches a b = Ok r /\ (r = true <-> CompareMatrix2D fEq (Matrix a) (Matrix b) = true /\ slicesCompare (OpsinBias a) (OpsinBias b) = 0 /\ slicesCompare (QuantBias a) (QuantBias b) = 0 /\
    fEq (QuantBiasNumerator a) (QuantBiasNumerator b) = true /\ close_primaries (Primaries a) (Primaries b) /\ close (WhitePoint a) (WhitePoint b))).
  { intros (r & E & R). exists r. split; [exact E|]. rewrite Q. exact R. }
  clear Q. unfold Matches, close_primaries.
  assert (F : forall (P : Prop), ~ P -> exists r, @Ok bool false = Ok r /\ (r = true <-> P)) by (intros P N; exists false; split; [reflexivity|]; split; intros H; [discriminate|contradiction]).
  destruct (CompareMatrix2D fEq (Matrix a) (Matrix b)); cbn [negb]; [|apply F; intuition discriminate].
  destruct (Z.eqb_spec (slicesCompare (OpsinBias a) (OpsinBias b)) 0) as [->|N]; cbn [negb]; [|apply F; intuition].
  destruct (Z.eqb_spec (slicesCompare (QuantBias a) (QuantBias b)) 0) as [->|N]; cbn [negb]; [|apply F; intuition].
  destruct (fEq (QuantBiasNumerator a) (QuantBiasNumerator b)); cbn [negb]; [|apply F; intuition discriminate].
  destruct (xyMatches_iff _ (Red (Primaries b)) T1) as (r1 & -> & R1). cbn [obind]. destruct r1; cbn [negb]; [|apply F; intros H; assert (X : false = true) by (apply R1; tauto); discriminate X].
  destruct (xyMatches_iff _ (Green (Primaries b)) T2) as (r2 & -> & R2). cbn [obind]. destruct r2; cbn [negb]; [|apply F; intros H; assert (X : false = true) by (apply R2; tauto); discriminate X].
  destruct (xyMatches_iff _ (Blue (Primaries b)) T3) as (r3 & -> & R3). cbn [obind]. destruct r3; cbn [negb]; [|apply F; intros H; assert (X : false = true) by (apply R3; tauto); discriminate X].
  destruct (WhitePoint a) as (X, Y), (WhitePoint b) as (X', Y'). cbn [xyMatches obind]. unfold close. cbn [fst snd].
  destruct (Z.ltb_spec (Z.abs (X - X') + Z.abs (Y - Y')) 100); cbn [negb]; [|apply F; intuition lia].
  exists true. split; [reflexivity|]. intuition.
Qed.
Print Assumptions C114_opsin.
(* Primaries match if all three points are close. *)
Theorem C114_primaries : forall a b, there a -> exists r, primMatches a b = Ok r /\ (r = true <-> close_primaries a b).
Proof.
  intros a b (T1 & T2 & T3). unfold primMatches, close_primaries.
  destruct (xyMatches_iff _ (Red b) T1) as (r1 & -> & R1). cbn [obind]. destruct r1; cbn [negb]; [|exists false; split; [reflexivity|]; split; intros H; [discriminate|apply R1, H]].
  destruct (xyMatches_iff _ (Green b) T2) as (r2 & -> & R2). cbn [obind]. destruct r2; cbn [negb]; [|exists false; split; [reflexivity|]; split; intros H; [discriminate|apply R2, H]].
  destruct (xyMatches_iff _ (Blue b) T3) as (r3 & -> & R3). exists r3. split; [reflexivity|]. rewrite R3. intuition.
Qed.
Print Assumptions C114_primaries.
(* The order of the two does not matter. *)
Lemma close_sym p q : close p q -> close q p.
Proof. unfold close. lia. Qed.
Lemma close_xy_sym a b : close_xy a b -> close_xy b a.
Proof. intros (p & q & E1 & E2 & C). exists q, p. split; [exact E2|]. split; [exact E1|]. apply close_sym, C. Qed.
Lemma same_sym a b : same a b -> same b a.
Proof. intros (n & E1 & E2). exists n. split; assumption. Qed.
Lemma Forall2_sym {A} (P Q : A -> A -> Prop) : (forall x y, P x y -> Q y x) -> forall a b, Forall2 P a b -> Forall2 Q b a.
Proof. intros H a b F. induction F; constructor; auto. Qed.
Lemma same_matrix_sym a b : same_matrix a b -> same_matrix b a.
Proof. apply Forall2_sym. intros x y. apply Forall2_sym. apply same_sym. Qed.
Theorem C114_symmetric : (forall a b, Equals a b = Equals b a) /\ (forall a b, there (Primaries a) -> there (Primaries b) -> Matches a b = Matches b a).
Proof.
  split.
  - intros a b. assert (S : forall a b, Equals a b = true -> Equals b a = true).
    { intros x y H. apply C114_params in H. apply C114_params. destruct H as (H1 & H2 & H3 & H4 & H5). split; [congruence|]. split; [apply same_sym, H2|]. repeat split; apply same_matrix_sym; assumption. }
    destruct (Equals a b) eqn:E1, (Equals b a) eqn:E2; try reflexivity; [apply S in E1|apply S in E2]; congruence.
  - intros a b Ta Tb. destruct (C114_opsin a b Ta) as (r & -> & R). destruct (C114_opsin b a Tb) as (q & -> & Q). f_equal.
    assert (S : forall x y, same_opsin x y -> same_opsin y x).
    { intros x y (H1 & H2 & H3 & H4 & (P1 & P2 & P3) & H6). split; [apply same_matrix_sym, H1|]. split; [congruence|]. split; [congruence|]. split; [apply same_sym, H4|]. split; [|apply close_sym, H6]. repeat split; apply close_xy_sym; assumption. }
    destruct r, q; try reflexivity; [symmetry; apply Q, S, R; reflexivity|apply R, S, Q; reflexivity].
Qed.
Print Assumptions C114_symmetric.
(* Findings: Matches is not transitive, NaN in a bias is equal to itself but NaN in the
   matrix is not, and missing primaries do not match themselves and make Matches panic
   when those of the other one are there. *)
Definition prim (d : Z) : CIEPrimaries := mkPrim (Some (640000 + d, 330000)) (Some (300000, 600000)) (Some (150000, 60000)).
Definition opsin (m bias : Float) (p : CIEPrimaries) : Opsin := mkOpsin [[m]] [bias] [Num 3] (Num 4) p (312700, 329000).
Theorem C114_opsin_refuted :
  (exists a b c, Matches a b = Ok true /\ Matches b c = Ok true /\ Matches a c = Ok false) /\
  (exists a, In NaN (OpsinBias a) /\ Matches a a = Ok true) /\ (exists a, there (Primaries a) /\ Matches a a = Ok false) /\
  (exists a b, Matches a a = Ok false /\ Matches a b = Panic /\ Matches b a = Ok false).
Proof.
  split; [exists (opsin (Num 1) (Num 2) (prim 0)), (opsin (Num 1) (Num 2) (prim 60)), (opsin (Num 1) (Num 2) (prim 120)); repeat split|].
  split; [exists (opsin (Num 1) NaN (prim 0)); split; [left; reflexivity|reflexivity]|].
  split; [exists (opsin NaN (Num 2) (prim 0)); split; [repeat split; discriminate|reflexivity]|].
  exists (opsin (Num 1) (Num 2) (mkPrim None None None)), (opsin (Num 1) (Num 2) (prim 0)). repeat split.
Qed.
Print Assumptions C114_opsin_refuted.

(* Channels: the samples of the kind of the channels are compared, all of them. *)
Lemma listEq_iff {A} (eq : A -> A -> bool) (P : A -> A -> Prop) : (forall x y, eq x y = true <-> P x y) -> forall a b, listEq eq a b = true <-> Forall2 P a b.
Proof.
  intros HP. induction a as [|x a IH]; intros [|y b]; cbn [listEq]; try (split; intros H; [discriminate|inversion H]); [split; constructor|].
  rewrite andb_true_iff, HP, IH. split; intros H; [constructor; apply H|inversion H; split; assumption].
Qed.
Lemma Forall2_eq {A} (P : A -> A -> Prop) : (forall x y, P x y <-> x = y) -> forall a b, Forall2 P a b <-> a = b.
Proof. intros HP a b. split; [induction 1; [reflexivity|]; f_equal; [apply HP; assumption|assumption]|]. intros <-. induction a; constructor; [apply HP; reflexivity|assumption]. Qed.
Lemma plane_iff a b : ModelDecode.CompareMatrix2D a b = true <-> a = b.
Proof.
  unfold ModelDecode.CompareMatrix2D. rewrite (listEq_iff _ (Forall2 eq)); [|intros x y; apply listEq_iff; intros; apply Z.eqb_eq].
  apply Forall2_eq. intros x y. apply Forall2_eq. intros; reflexivity.
Qed.
Theorem C114_channels : forall a b, ImageBufferSliceEquals a b = true <-> Forall2 same_channel a b.
Proof.
  apply listEq_iff. intros x y. unfold ModelDecode.Equals, same_channel.
  destruct (Z.eqb_spec (ib_w x) (ib_w y)) as [->|N]; cbn [negb orb]; [|split; intros H; [discriminate|destruct H; contradiction]].
  destruct (Z.eqb_spec (ib_h x) (ib_h y)) as [->|N]; cbn [negb]; [|split; intros H; [discriminate|destruct H as (_ & H & _); contradiction]].
  destruct (Z.eqb_spec (ib_type x) (ib_type y)) as [->|N]; cbn [negb]; [|split; intros H; [discriminate|destruct H as (_ & _ & H & _); contradiction]].
  destruct (Z.eqb_spec (ib_type y) TYPE_INT) as [->|N]; [rewrite plane_iff; assert (TYPE_INT <> TYPE_FLOAT) by discriminate; intuition|].
  destruct (Z.eqb_spec (ib_type y) TYPE_FLOAT) as [->|N2]; [rewrite plane_iff; assert (TYPE_FLOAT <> TYPE_INT) by discriminate; intuition|]. split; intros H; [discriminate|intuition].
Qed.
Print Assumptions C114_channels.

(* Equality of parameter sets and of channels is transitive. *)
Lemma Forall2_trans {A} (P : A -> A -> Prop) : (forall x y z, P x y -> P y z -> P x z) -> forall a b c, Forall2 P a b -> Forall2 P b c -> Forall2 P a c.
Proof. intros H a b c F. revert c. induction F; intros c G; inversion G; subst; constructor; eauto. Qed.
Lemma same_matrix_trans a b c : same_matrix a b -> same_matrix b c -> same_matrix a c.
Proof. apply Forall2_trans. intros x y z. apply Forall2_trans. intros u v w (n & -> & ->) (m & E & ->). exists n. split; congruence. Qed.
Theorem C114_transitive : (forall a b c, Equals a b = true -> Equals b c = true -> Equals a c = true) /\
  (forall a b c, ImageBufferSliceEquals a b = true -> ImageBufferSliceEquals b c = true -> ImageBufferSliceEquals a c = true).
Proof.
  split; intros a b c.
  - rewrite !C114_params. intros (A1 & (n & A2 & A2') & A3 & A4 & A5) (B1 & (m & B2 & B2') & B3 & B4 & B5). split; [congruence|]. split; [exists n; split; congruence|]. repeat split; eapply same_matrix_trans; eassumption.
  - rewrite !C114_channels. apply Forall2_trans. intros x y z (A1 & A2 & A3 & A4) (B1 & B2 & B3 & B4). split; [congruence|]. split; [congruence|]. split; [congruence|].
    destruct A4 as [(A4 & A5)|(A4 & A5)], B4 as [(B4 & B5)|(B4 & B5)]; [left; split; congruence|exfalso; assert (TYPE_INT = TYPE_FLOAT) by congruence; discriminate|exfalso; assert (TYPE_INT = TYPE_FLOAT) by congruence; discriminate|right; split; congruence].
Qed.
Print Assumptions C114_transitive.

Example C114_example : let a := mkDCTParam [[Num 1; Num 2]; [Num 3]] [[Num 5]] 6 (Num 1) [] in let b := mkDCTParam [[Num 1]; [Num 2; Num 3]] [[Num 5]] 6 (Num 1) [] in
  Equals a a = true /\ all_numbers a /\ Equals a b = false /\ Equals a NewDCTParam = false /\
  there (prim 0) /\ Matches (opsin (Num 1) (Num 2) (prim 0)) (opsin (Num 1) (Num 2) (prim 7)) = Ok true /\ Matches (opsin (Num 1) (Num 2) (prim 0)) (opsin (Num 1) (Num 5) (prim 0)) = Ok false /\
  ImageBufferSliceEquals [mkIB 2 1 TYPE_INT [] [[4; 5]]] [mkIB 2 1 TYPE_INT [] [[4; 5]]] = true.
Proof. repeat (split; [reflexivity || (repeat split; repeat constructor; discriminate)|]). reflexivity. Qed.
