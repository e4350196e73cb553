(* Lemmas about colour spaces, white points and XYB. *)
From Coq Require Import ZArith List Bool Lia Arith Reals Lra Psatz.
From Verif Require Import GoBase GoLoop GoMatrix ModelDCT SpecDCT ProofDCTMath ProofDCT ModelColour SpecColour ProofColour.
Import ListNotations.
Open Scope R_scope.

Lemma rrect_nth h w m : length m = h -> (forall y, (y < h)%nat -> length (nth y m []) = w) -> rrect h w m.
Proof. intros L H. split; [exact L|]. apply Forall_forall. intros r Hr. apply (In_nth _ _ []) in Hr as (y & Hy & <-). apply H. lia. Qed.
Lemma app_ext n A A' v v' i : (forall k, (k < n)%nat -> A i k = A' i k) -> (forall k, (k < n)%nat -> v k = v' k) -> app n A v i = app n A' v' i.
Proof. intros H1 H2. unfold app. apply sum_ext. intros k Hk. rewrite H1, H2 by lia. reflexivity. Qed.
Lemma app_prod A B v i : app 3 (prod 3 A B) v i = app 3 A (app 3 B v) i.
Proof. unfold app, prod. cbn [sum]. ring. Qed.
Lemma app_delta v i : (i < 3)%nat -> app 3 delta v i = v i.
Proof. intros H. three; unfold app, delta; cbn [sum Nat.eqb]; ring. Qed.
Lemma app_inverse A B v i : inverse3 A B -> (i < 3)%nat -> app 3 A (app 3 B v) i = v i /\ app 3 B (app 3 A v) i = v i.
Proof.
  intros H Hi. rewrite <- !app_prod. split.
  - rewrite (app_ext 3 _ delta v v) by (intros; auto; apply H; lia). now apply app_delta.
  - rewrite (app_ext 3 (prod 3 B A) delta v v) by (intros; auto; apply H; lia). now apply app_delta.
Qed.

Lemma GetXYZ_ok xy : chromaticity xy -> validateXY xy = true /\ exists l, GetXYZ xy = Ok l /\ length l = 3%nat /\ forall i, (i < 3)%nat -> nth i l 0 = XYZ xy i.
Proof.
  intros [H1 H2]. assert (V : validateXY xy = true).
  { unfold validateXY. destruct (Rlt_dec (fst xy) 0); [lra|]. destruct (Rlt_dec 1 (fst xy)); [lra|]. destruct (Rle_dec (snd xy) 0); [lra|]. destruct (Rlt_dec 1 (snd xy)); [lra|]. reflexivity. }
  split; [exact V|]. unfold GetXYZ. rewrite V. eexists. split; [reflexivity|]. split; [reflexivity|].
  intros i Hi. three; cbn [nth XYZ]; try reflexivity; field; lra.
Qed.
Lemma GetXYZ_err xy : ~ chromaticity xy -> GetXYZ xy = Err.
Proof.
  intros H. unfold GetXYZ. replace (validateXY xy) with false; [reflexivity|]. symmetry. unfold validateXY.
  destruct (Rlt_dec (fst xy) 0); [reflexivity|]. destruct (Rlt_dec 1 (fst xy)); [reflexivity|]. destruct (Rle_dec (snd xy) 0); [reflexivity|]. destruct (Rlt_dec 1 (snd xy)); [reflexivity|].
  exfalso. apply H. split; lra.
Qed.
Definition primary (p : CIEPrimaries) (j : nat) : R * R := match j with O => pr_red p | 1%nat => pr_green p | _ => pr_blue p end.
Lemma primaries_matrix p : (forall j, (j < 3)%nat -> chromaticity (primary p j)) ->
  exists r g b P, GetXYZ (pr_red p) = Ok r /\ GetXYZ (pr_green p) = Ok g /\ GetXYZ (pr_blue p) = Ok b /\
    TransposeMatrix [r; g; b] 3 3 = Ok P /\ rrect 3 3 P /\ forall i j, (i < 3)%nat -> (j < 3)%nat -> pixel P i j = XYZ (primary p j) i.
Proof.
  intros H. destruct (GetXYZ_ok _ (H 0%nat ltac:(lia))) as [_ (r & Er & Lr & Hr)]. destruct (GetXYZ_ok _ (H 1%nat ltac:(lia))) as [_ (g & Eg & Lg & Hg)].
  destruct (GetXYZ_ok _ (H 2%nat ltac:(lia))) as [_ (b & Eb & Lb & Hb)]. cbn [primary] in *.
  destruct (transpose_ok [r; g; b] (repeat (repeat 0 3) 3) 0 0 0 0 3 3) as (P & E & L & Lw & HP).
  { split; [cbn; lia|]. intros y Hy. three; cbn [nth Nat.add]; lia. }
  { split; [cbn; lia|]. intros y Hy. three; cbn; lia. }
  exists r, g, b, P. do 3 (split; [assumption|]). split; [exact E|]. split.
  - apply rrect_nth; [rewrite L; reflexivity|]. intros y Hy. rewrite Lw. three; reflexivity.
  - intros i j Hi Hj. rewrite HP. replace (in_block 0 0 3 3 i j) with true by (three; reflexivity). rewrite !Nat.sub_0_r. cbn [Nat.add].
    unfold pixel. destruct j as [|[|[|j]]]; try lia; cbn [nth primary]; auto.
Qed.
Lemma primaries_ok p w : (forall j, (j < 3)%nat -> chromaticity (primary p j)) -> chromaticity w -> spans (primary p) ->
  exists M, primariesToXYZ p w = Ok M /\ rrect 3 3 M /\ rgb_matrix (primary p) w (pixel M).
Proof.
  intros H Hw (N' & HN). destruct (primaries_matrix p H) as (r & g & b & P & Er & Eg & Eb & EP & RP & HP). destruct (GetXYZ_ok w Hw) as [V (wl & Ew & Lw & Hwl)].
  unfold primariesToXYZ. rewrite V, Er, Eg, Eb. cbn [negb obind]. rewrite EP. cbn [obind].
  assert (D : det3 (pixel P) <> 0).
  { apply (inverse_det _ N'). intros i j Hi Hj. destruct (HN i j Hi Hj) as [A _]. rewrite <- A. unfold prod. apply sum_ext. intros k Hk. rewrite HP by lia. reflexivity. }
  destruct (proj2 (invert_ok P RP) D) as (N & EN & RN & IN). rewrite EN. cbn [obind]. rewrite Ew. cbn [obind].
  destruct (mulvec_ok 3 3 N wl ltac:(lia) ltac:(lia) RN Lw) as (x & Ex & Lx & Hx). rewrite Ex. cbn [obind].
  rewrite (get_nth x 0 0), (get_nth x 1 0), (get_nth x 2 0) by (auto; lia). cbn [obind].
  destruct (mul_ok 3 3 3 P [[nth 0 x 0; 0; 0]; [0; nth 1 x 0; 0]; [0; 0; nth 2 x 0]] ltac:(lia) ltac:(lia) RP) as (M & EM & RM & HM).
  { split; [reflexivity|repeat constructor]. }
  exists M. split; [exact EM|]. split; [exact RM|].
  assert (E : forall i j, (i < 3)%nat -> (j < 3)%nat -> pixel M i j = nth j x 0 * XYZ (primary p j) i).
  { intros i j Hi Hj. rewrite HM, <- HP by assumption. unfold prod. destruct j as [|[|[|j]]]; try lia; cbn [sum]; unfold pixel at 2 4 6; cbn [nth]; ring. }
  split.
  - intros j Hj. exists (nth j x 0). intros i Hi. apply E; assumption.
  - intros i Hi. transitivity (app 3 (pixel P) (app 3 (pixel N) (fun k => nth k wl 0)) i).
    + unfold app at 1 2. apply sum_ext. intros k Hk. rewrite E, HP, <- Hx by lia. ring.
    + rewrite (proj1 (app_inverse _ _ _ _ IN Hi)). apply Hwl, Hi.
Qed.
Lemma rgb_det p w M : spans p -> rgb_matrix p w M -> (forall N, inverse3 (fun i j => XYZ (p j) i) N -> forall j, (j < 3)%nat -> app 3 N (XYZ w) j <> 0) -> det3 M <> 0.
Proof.
  intros (N & HN) [H1 H2] Hw. specialize (Hw N HN).
  destruct (H1 0%nat ltac:(lia)) as [s0 E0]. destruct (H1 1%nat ltac:(lia)) as [s1 E1]. destruct (H1 2%nat ltac:(lia)) as [s2 E2].
  set (P := fun i j => XYZ (p j) i) in *.
  assert (S : forall j, (j < 3)%nat -> app 3 N (XYZ w) j = match j with O => s0 | 1%nat => s1 | _ => s2 end).
  { intros j Hj. rewrite (app_ext 3 N N (XYZ w) (app 3 P (fun j => match j with O => s0 | 1%nat => s1 | _ => s2 end))); [exact (proj2 (app_inverse P N (fun j => match j with O => s0 | 1%nat => s1 | _ => s2 end) j HN Hj))|reflexivity|].
    intros k Hk. rewrite <- H2 by assumption. unfold app. cbn [sum]. rewrite E0, E1, E2 by assumption. unfold P. ring. }
  assert (D : det3 M = det3 P * (s0 * s1 * s2)).
  { unfold det3. rewrite !E0, !E1, !E2 by lia. unfold P. ring. }
  rewrite D. apply Rmult_integral_contrapositive_currified; [apply (inverse_det _ N); intros; apply HN; assumption|].
  pose proof (S 0%nat ltac:(lia)) as S0. pose proof (S 1%nat ltac:(lia)) as S1. pose proof (S 2%nat ltac:(lia)) as S2. cbv beta iota in S0, S1, S2.
  rewrite <- S0, <- S1, <- S2. repeat apply Rmult_integral_contrapositive_currified; apply Hw; lia.
Qed.

(* ---- white points ---- *)
Lemma bradford_rect : rrect 3 3 BRADFORD.
Proof. split; [reflexivity|repeat constructor]. Qed.
Lemma bradford_px i j : (i < 3)%nat -> (j < 3)%nat -> pixel BRADFORD i j = bradford i j.
Proof. intros Hi Hj. three; reflexivity. Qed.
Lemma bradford_inverse : rrect 3 3 BRADFORD_INVERSE /\ inverse3 (pixel BRADFORD) (pixel BRADFORD_INVERSE).
Proof.
  unfold BRADFORD_INVERSE. destruct (proj2 (invert_ok BRADFORD bradford_rect)) as (N & E & R & I).
  - unfold det3, pixel, BRADFORD. cbn [nth]. lra.
  - rewrite E. auto.
Qed.
Lemma adapt_ok c t : chromaticity c -> chromaticity t -> (forall i, (i < 3)%nat -> 1 / 100000000 <= Rabs (app 3 bradford (XYZ c) i)) ->
  exists A, AdaptWhitePoint t c = Ok A /\ rrect 3 3 A /\ adapts bradford c t (pixel A).
Proof.
  intros Hc Ht Hb. unfold AdaptWhitePoint. destruct (GetXYZ_ok c Hc) as [_ (cl & Ec & Lc & Hcl)]. destruct (GetXYZ_ok t Ht) as [_ (tl & Et & Lt & Htl)].
  rewrite Ec. cbn [obind]. destruct (mulvec_ok 3 3 BRADFORD cl ltac:(lia) ltac:(lia) bradford_rect Lc) as (lc & E1 & L1 & H1). rewrite E1. cbn [obind].
  rewrite Et. cbn [obind]. destruct (mulvec_ok 3 3 BRADFORD tl ltac:(lia) ltac:(lia) bradford_rect Lt) as (lt & E2 & L2 & H2). rewrite E2. cbn [obind].
  assert (B1 : forall i, (i < 3)%nat -> nth i lc 0 = app 3 bradford (XYZ c) i).
  { intros i Hi. rewrite H1 by assumption. apply app_ext; intros; [apply bradford_px|apply Hcl]; assumption. }
  assert (B2 : forall i, (i < 3)%nat -> nth i lt 0 = app 3 bradford (XYZ t) i).
  { intros i Hi. rewrite H2 by assumption. apply app_ext; intros; [apply bradford_px|apply Htl]; assumption. }
  replace (isLMSValid lc) with true.
  2:{ symmetry. unfold isLMSValid. apply forallb_forall. intros v Hv. apply (In_nth _ _ 0) in Hv as (i & Hi & <-). rewrite B1 by lia.
      destruct (Rlt_dec (Rabs (app 3 bradford (XYZ c) i)) (1 / 100000000)); [|reflexivity]. specialize (Hb i ltac:(lia)). lra. }
  cbn [negb].
  match goal with |- exists zz, obind (oloop _ _ ?F ?D) _ = _ /\ _ =>
    destruct (oloop_inv (fun k (a : list (list R)) => rrect 3 3 a /\ forall i j, (i < 3)%nat -> (j < 3)%nat ->
      pixel a i j = if (i =? j)%nat && (i <? k)%nat then nth i lt 0 / nth i lc 0 else 0) F 3%nat 0%nat D) as (a & Ea & Ra & Ha) end.
  { split; [apply rrect_repeat|]. intros i j Hi Hj. rewrite andb_false_r. unfold pixel. rewrite nth_rep by assumption. apply nth_repeat. }
  { intros i a Hi [Ra Ha]. rewrite (get_nth lt i 0), (get_nth lc i 0) by (auto; lia). cbn [obind].
    destruct (rset2_ok a i i (nth i lt 0 / nth i lc 0)) as (a' & E' & La & Lr & Pa); [destruct Ra; lia|rewrite (rrect_row 3 3) by (auto; lia); lia|].
    exists a'. split; [exact E'|]. split.
    - apply rrect_nth; [destruct Ra; lia|]. intros y Hy. rewrite Lr. apply (rrect_row 3 3); assumption.
    - intros y x Hy Hx. rewrite Pa, Ha by assumption.
      destruct (Nat.eqb_spec y i) as [->|N]; cbn [andb].
      + destruct (Nat.eqb_spec x i) as [->|N]; [rewrite Nat.eqb_refl|].
        * replace (i <? S i)%nat with true by (symmetry; apply Nat.ltb_lt; lia). reflexivity.
        * replace (i =? x)%nat with false by (symmetry; apply Nat.eqb_neq; lia). reflexivity.
      + destruct (Nat.ltb_spec y i), (Nat.ltb_spec y (S i)); try lia; reflexivity. }
  rewrite Ea. cbn [obind]. unfold MatrixMultiply3. destruct bradford_inverse as [RI II].
  destruct (mul_ok 3 3 3 _ a ltac:(lia) ltac:(lia) RI Ra) as (C & EC & RC & HC). rewrite EC. cbn [obind].
  destruct (mul_ok 3 3 3 C BRADFORD ltac:(lia) ltac:(lia) RC bradford_rect) as (A & EA & RA & HA).
  exists A. split; [exact EA|]. split; [exact RA|]. intros v i Hi.
  transitivity (app 3 (pixel BRADFORD) (app 3 (pixel BRADFORD_INVERSE) (app 3 (pixel a) (app 3 (pixel BRADFORD) v))) i).
  - apply app_ext; [intros; symmetry; now apply bradford_px|]. intros k Hk. rewrite <- !app_prod. apply app_ext; [|reflexivity].
    intros q Hq. rewrite HA by assumption. unfold prod. apply sum_ext. intros z Hz. rewrite HC by assumption. reflexivity.
  - rewrite (proj1 (app_inverse _ _ _ _ II Hi)). rewrite <- B1, <- B2 by assumption. unfold app at 1. cbn [sum].
    rewrite (app_ext 3 bradford (pixel BRADFORD) v v i) by (intros; auto; symmetry; now apply bradford_px).
    rewrite !Ha by lia. three; cbn [Nat.eqb Nat.ltb Nat.leb Nat.add andb]; ring.
Qed.
Lemma adapts_white c t A : chromaticity c -> adapts bradford c t A -> (forall i, (i < 3)%nat -> 1 / 100000000 <= Rabs (app 3 bradford (XYZ c) i)) ->
  forall i, (i < 3)%nat -> app 3 A (XYZ c) i = XYZ t i.
Proof.
  intros Hc HA Hb i Hi. destruct bradford_inverse as [_ I].
  etransitivity; [symmetry; exact (proj2 (app_inverse _ _ (app 3 A (XYZ c)) i I Hi))|]. etransitivity; [|exact (proj2 (app_inverse _ _ (XYZ t) i I Hi))].
  apply app_ext; [reflexivity|]. intros k Hk.
  rewrite (app_ext 3 (pixel BRADFORD) bradford (app 3 A (XYZ c)) (app 3 A (XYZ c)) k); [|intros; now apply bradford_px|reflexivity].
  rewrite HA by assumption.
  rewrite (app_ext 3 (pixel BRADFORD) bradford (XYZ t) (XYZ t) k); [|intros; now apply bradford_px|reflexivity].
  field. specialize (Hb k Hk). intros E. rewrite E, Rabs_R0 in Hb. lra.
Qed.

(* ---- conversion ---- *)
Lemma conversion_ok p w p' w' :
  (forall j, (j < 3)%nat -> chromaticity (primary p j)) -> chromaticity w -> spans (primary p) ->
  (forall j, (j < 3)%nat -> chromaticity (primary p' j)) -> chromaticity w' -> spans (primary p') ->
  (forall N, inverse3 (fun i j => XYZ (primary p' j) i) N -> forall j, (j < 3)%nat -> app 3 N (XYZ w') j <> 0) ->
  (forall i, (i < 3)%nat -> 1 / 100000000 <= Rabs (app 3 bradford (XYZ w) i)) ->
  (pr_matches p' p = true -> xy_matches w' w = true -> p' = p /\ w' = w) -> (xy_matches w' w = true -> w' = w) ->
  exists C F T A, GetConversionMatrix p' w' p w = Ok C /\ rrect 3 3 C /\ rgb_matrix (primary p) w F /\ rgb_matrix (primary p') w' T /\ adapts bradford w w' A /\
    (forall v i, (i < 3)%nat -> app 3 T (app 3 (pixel C) v) i = app 3 A (app 3 F v) i) /\
    (forall i, (i < 3)%nat -> app 3 (pixel C) (fun _ => 1) i = 1).
Proof.
  intros Hp Hw Sp Hp' Hw' Sp' Nz Hb M1 M2.
  destruct (primaries_ok p w Hp Hw Sp) as (F & EF & RF & GF). destruct (primaries_ok p' w' Hp' Hw' Sp') as (T & ET & RT & GT).
  destruct (proj2 (invert_ok T RT) (rgb_det _ _ _ Sp' GT Nz)) as (T' & ET' & RT' & IT).
  assert (ID : w' = w -> adapts bradford w w' delta).
  { intros -> v i Hi. rewrite (app_ext 3 bradford bradford (app 3 delta v) v) by (intros; auto; now apply app_delta). field. specialize (Hb i Hi). intros E. rewrite E, Rabs_R0 in Hb. lra. }
  assert (IF : forall i, (i < 3)%nat -> app 3 (pixel F) (fun _ => 1) i = XYZ w i) by apply GF.
  assert (WT : forall C A, adapts bradford w w' A -> (forall v i, (i < 3)%nat -> app 3 (pixel T) (app 3 C v) i = app 3 A (app 3 (pixel F) v) i) ->
    forall i, (i < 3)%nat -> app 3 C (fun _ => 1) i = 1).
  { intros C A HA HC i Hi. rewrite <- (proj2 (app_inverse _ _ (app 3 C (fun _ => 1)) i IT Hi)). transitivity (app 3 (pixel T') (app 3 (pixel T) (fun _ => 1)) i).
    - apply app_ext; [reflexivity|]. intros k Hk. rewrite HC by assumption. rewrite (app_ext 3 A A _ (XYZ w)) by (intros; auto).
      rewrite (adapts_white w w' A Hw HA Hb k Hk). symmetry. apply GT, Hk.
    - exact (proj2 (app_inverse _ _ (fun _ => 1) i IT Hi)). }
  unfold GetConversionMatrix. destruct (pr_matches p' p && xy_matches w' w) eqn:Em.
  - apply andb_prop in Em as [E1 E2]. destruct (M1 E1 E2) as [-> ->].
    exists (MatrixIdentity 3), (pixel F), (pixel T), delta. split; [reflexivity|].
    assert (RI : rrect 3 3 (MatrixIdentity 3)) by (split; [reflexivity|repeat constructor]).
    assert (PI : forall i j, (i < 3)%nat -> (j < 3)%nat -> pixel (MatrixIdentity 3) i j = delta i j) by (intros i j Hi Hj; three; reflexivity).
    split; [exact RI|]. split; [exact GF|]. split; [exact GT|]. split; [now apply ID|]. rewrite EF in ET. injection ET as <-.
    assert (HC : forall v i, (i < 3)%nat -> app 3 (pixel F) (app 3 (pixel (MatrixIdentity 3)) v) i = app 3 delta (app 3 (pixel F) v) i).
    { intros v i Hi. rewrite app_delta by assumption. apply app_ext; [reflexivity|]. intros k Hk. rewrite (app_ext 3 _ delta v v) by (intros; auto). now apply app_delta. }
    split; [exact HC|]. apply (WT _ delta); [now apply ID|exact HC].
  - destruct (xy_matches w' w) eqn:Ew; cbn [negb obind].
    + rewrite EF, ET. cbn [obind]. rewrite ET'. cbn [obind]. unfold MatrixMultiply3.
      replace (MatrixMatrixMultiply T' []) with (Ok T') by (destruct T' as [|t l]; [destruct RT' as [X _]; discriminate X|reflexivity]). cbn [obind].
      destruct (mul_ok 3 3 3 T' F ltac:(lia) ltac:(lia) RT' RF) as (C & EC & RC & PC).
      exists C, (pixel F), (pixel T), delta. do 4 (split; [assumption|]). split; [apply ID, M2; reflexivity|].
      assert (HC : forall v i, (i < 3)%nat -> app 3 (pixel T) (app 3 (pixel C) v) i = app 3 delta (app 3 (pixel F) v) i).
      { intros v i Hi. rewrite app_delta by assumption. rewrite <- (proj1 (app_inverse _ _ (app 3 (pixel F) v) i IT Hi)). apply app_ext; [reflexivity|].
        intros k Hk. rewrite <- app_prod. apply app_ext; intros; auto. }
      split; [exact HC|]. apply (WT _ delta); [apply ID, M2; reflexivity|exact HC].
    + destruct (adapt_ok w w' Hw Hw' Hb) as (A & EA & RA & HA). rewrite EA. cbn [obind]. rewrite EF, ET. cbn [obind]. rewrite ET'. cbn [obind]. unfold MatrixMultiply3.
      destruct (mul_ok 3 3 3 T' A ltac:(lia) ltac:(lia) RT' RA) as (B & EB & RB & PB). rewrite EB. cbn [obind].
      destruct (mul_ok 3 3 3 B F ltac:(lia) ltac:(lia) RB RF) as (C & EC & RC & PC).
      exists C, (pixel F), (pixel T), (pixel A). do 5 (split; [assumption|]).
      assert (HC : forall v i, (i < 3)%nat -> app 3 (pixel T) (app 3 (pixel C) v) i = app 3 (pixel A) (app 3 (pixel F) v) i).
      { intros v i Hi. rewrite <- (proj1 (app_inverse _ _ (app 3 (pixel A) (app 3 (pixel F) v)) i IT Hi)). apply app_ext; [reflexivity|].
        intros k Hk. rewrite <- !app_prod. apply app_ext; [|reflexivity]. intros q Hq. rewrite PC by assumption. unfold prod. apply sum_ext. intros z Hz. rewrite PB by assumption. reflexivity. }
      split; [exact HC|]. apply (WT _ (pixel A)); assumption.
Qed.
