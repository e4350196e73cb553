(* Lemmas about XYB and the transfer functions. *)
From Coq Require Import ZArith List Bool Lia Arith Reals Lra Psatz.
From Verif Require Import GoBase GoLoop GoMatrix ModelDCT SpecDCT ProofDCTMath ProofDCT ModelColour SpecColour ProofColour ProofColour2.
Import ListNotations.
Open Scope R_scope.

Lemma cube_pos x : 0 < x -> Rpower (cube x) (1 / 3) = x.
Proof.
  intros H. replace (cube x) with (Rpower x 3).
  - rewrite Rpower_mult. replace (3 * (1 / 3)) with 1 by lra. now apply Rpower_1.
  - change 3 with (IZR (Z.of_nat 3)). rewrite <- INR_IZR_INZ. rewrite Rpower_pow by assumption. unfold cube. ring.
Qed.
Lemma cube_sign x : (0 < x -> 0 < cube x) /\ (x < 0 -> cube x < 0) /\ (x = 0 -> cube x = 0).
Proof.
  unfold cube. split; [|split].
  - intros H. apply Rmult_lt_0_compat; [apply Rmult_lt_0_compat|]; assumption.
  - intros H. assert (0 < x * x) by nra. nra.
  - intros ->. ring.
Qed.
Lemma signed_cbrt c b : cube c = b -> SignedPow b (1 / 3) = Some c.
Proof.
  intros <-. unfold SignedPow, gpow. destruct (cube_sign c) as (P & N & Z0). destruct (Rtotal_order c 0) as [H|[H|H]].
  - specialize (N H). destruct (Rlt_dec (cube c) 0); [|lra]. destruct (Rlt_dec (- cube c) 0); [lra|]. destruct (Req_EM_T (- cube c) 0); [lra|].
    cbn [option_map]. replace (- cube c) with (cube (- c)) by (unfold cube; ring). rewrite cube_pos by lra. f_equal. ring.
  - rewrite (Z0 H). destruct (Rlt_dec 0 0); [lra|]. destruct (Req_EM_T 0 0); [|lra]. now rewrite H.
  - specialize (P H). destruct (Rlt_dec (cube c) 0); [lra|]. destruct (Req_EM_T (cube c) 0); [lra|]. now rewrite cube_pos.
Qed.

Section xyb.
  Context (M : list (list R)) (bias : list R) (A C : nat -> nat -> R) (target : R).
  Hypothesis HM : rrect 3 3 M.
  Hypothesis Hb : length bias = 3%nat.
  Hypothesis HA : forall v i, (i < 3)%nat -> app 3 (pixel M) (app 3 A v) i = app 3 C v i.
  Hypothesis Ht : 0 < target.
  Let oim := NewOpsinInverseMatrix M bias.
  Lemma baked i z : (i < 3)%nat -> z = Z.of_nat i -> forall c, cube c = nth i bias 0 -> slice_get (oim_CbrtOpsinBias oim) z = Ok c.
  Proof.
    intros Hi Hz c Hc. cbn [oim oim_CbrtOpsinBias NewOpsinInverseMatrix]. unfold bakeCbrtBias. rewrite (get_nth _ i 0) by (auto; rewrite map_length; lia).
    set (f := fun b : R => match SignedPow b (1 / 3) with Some v => v | None => 0 end).
    rewrite (nth_indep _ 0 (f 0)) by (rewrite map_length; lia). rewrite map_nth. unfold f. now rewrite (signed_cbrt c _ Hc).
  Qed.
  Lemma pixel_ok rgb xyb : xyb_of A (fun i => nth i bias 0) target rgb xyb ->
    xybPixel oim (255 / target) (xyb 0%nat) (xyb 1%nat) (xyb 2%nat) = Ok (app 3 C rgb 0, app 3 C rgb 1, app 3 C rgb 2).
  Proof.
    intros (g & Hg & E0 & E1 & E2).
    destruct (Hg 0%nat ltac:(lia)) as (r0 & c0 & R0 & C0 & G0). destruct (Hg 1%nat ltac:(lia)) as (r1 & c1 & R1' & C1 & G1). destruct (Hg 2%nat ltac:(lia)) as (r2 & c2 & R2 & C2 & G2).
    unfold xybPixel. rewrite (baked 0 0 ltac:(lia) eq_refl c0 C0), (baked 1 1 ltac:(lia) eq_refl c1 C1), (baked 2 2 ltac:(lia) eq_refl c2 C2). cbn [obind].
    cbn [oim oim_OpsinBias oim_Matrix NewOpsinInverseMatrix].
    rewrite (get_nth bias 0 0), (get_nth bias 1 0), (get_nth bias 2 0) by (auto; lia). cbn [obind].
    rewrite (rrect_get 3 3 M 0 0 0 0), (rrect_get 3 3 M 0 1 0 1), (rrect_get 3 3 M 0 2 0 2), (rrect_get 3 3 M 1 0 1 0), (rrect_get 3 3 M 1 1 1 1),
      (rrect_get 3 3 M 1 2 1 2), (rrect_get 3 3 M 2 0 2 0), (rrect_get 3 3 M 2 1 2 1), (rrect_get 3 3 M 2 2 2 2) by (auto; lia). cbn [obind]. cbv zeta.
    rewrite E0, E1, E2, G0, G1, G2. unfold cube in R0, R1', R2.
    replace ((r0 + c0 + (r1 + c1)) / 2 + (r0 + c0 - (r1 + c1)) / 2 - c0) with r0 by lra.
    replace ((r0 + c0 + (r1 + c1)) / 2 - (r0 + c0 - (r1 + c1)) / 2 - c1) with r1 by lra.
    replace (r2 + c2 - c2) with r2 by lra. rewrite R0, R1', R2.
    assert (K : forall i, (i < 3)%nat -> ((app 3 A rgb 0 * (target / 255) - nth 0 bias 0 + nth 0 bias 0) * pixel M i 0 +
      (app 3 A rgb 1 * (target / 255) - nth 1 bias 0 + nth 1 bias 0) * pixel M i 1 + (app 3 A rgb 2 * (target / 255) - nth 2 bias 0 + nth 2 bias 0) * pixel M i 2) * (255 / target) = app 3 C rgb i).
    { intros i Hi. transitivity (app 3 (pixel M) (app 3 A rgb) i); [|exact (HA rgb i Hi)].
      unfold app at 4. cbn [sum]. field. lra. }
    rewrite !K by lia. reflexivity.
  Qed.
  Lemma invert_xyb h w b0 b1 b2 rest (rgb : nat -> nat -> nat -> R) : rrect h w b0 -> rrect h w b1 -> rrect h w b2 ->
    (forall y x, (y < h)%nat -> (x < w)%nat -> xyb_of A (fun i => nth i bias 0) target (rgb y x) (fun i => pixel (nth i [b0; b1; b2] []) y x)) ->
    exists o0 o1 o2, InvertXYB oim (b0 :: b1 :: b2 :: rest) target = Ok (o0 :: o1 :: o2 :: rest) /\ rrect h w o0 /\ rrect h w o1 /\ rrect h w o2 /\
      forall y x, (y < h)%nat -> (x < w)%nat -> pixel o0 y x = app 3 C (rgb y x) 0 /\ pixel o1 y x = app 3 C (rgb y x) 1 /\ pixel o2 y x = app 3 C (rgb y x) 2.
  Proof.
    intros H0 H1 H2 HX. unfold InvertXYB. cbn [length Nat.ltb Nat.leb]. change (slice_get (b0 :: b1 :: b2 :: rest) 0) with (Ok b0). cbn [obind]. cbv zeta. rewrite (proj1 H0).
    set (done := fun (k q : nat) (B : list (list (list R))) => exists o0 o1 o2, B = o0 :: o1 :: o2 :: rest /\ rrect h w o0 /\ rrect h w o1 /\ rrect h w o2 /\
      forall y x, (y < h)%nat -> (x < w)%nat -> (pixel o0 y x, pixel o1 y x, pixel o2 y x) =
        if (y <? k)%nat || (y =? k)%nat && (x <? q)%nat then (app 3 C (rgb y x) 0, app 3 C (rgb y x) 1, app 3 C (rgb y x) 2) else (pixel b0 y x, pixel b1 y x, pixel b2 y x)).
    match goal with |- exists o0 o1 o2, oloop _ _ ?F ?D = _ /\ _ => destruct (oloop_inv (fun k B => done k 0%nat B) F h 0%nat D) as (B & E & Q) end.
    - exists b0, b1, b2. do 4 (split; [auto|]). intros y x Hy Hx. rewrite andb_false_r. reflexivity.
    - intros y B Hy (o0 & o1 & o2 & -> & R0 & R1 & R2 & P). change (slice_get (o0 :: o1 :: o2 :: rest) 0) with (Ok o0). cbn [obind].
      rewrite (get_nth o0 y []) by (auto; destruct R0; lia). cbn [obind]. rewrite (rrect_row h w) by (auto; lia).
      match goal with |- exists zz, oloop _ _ ?F ?D = _ /\ _ => destruct (oloop_inv (fun q B => done y q B) F w 0%nat D) as (B & E & Q) end.
      + exists o0, o1, o2. auto 10.
      + clear o0 o1 o2 R0 R1 R2 P. intros x B Hx (o0 & o1 & o2 & -> & R0 & R1 & R2 & P).
        change (slice_get (o0 :: o1 :: o2 :: rest) 0) with (Ok o0). change (slice_get (o0 :: o1 :: o2 :: rest) 1) with (Ok o1). change (slice_get (o0 :: o1 :: o2 :: rest) 2) with (Ok o2). cbn [obind].
        rewrite (rrect_get h w o0 y x _ _ R0), (rrect_get h w o1 y x _ _ R1), (rrect_get h w o2 y x _ _ R2) by (auto; lia). cbn [obind].
        pose proof (P y x ltac:(lia) ltac:(lia)) as Pyx. rewrite !Nat.ltb_irrefl, andb_false_r in Pyx. cbn [orb] in Pyx. injection Pyx as -> -> ->.
        pose proof (pixel_ok _ _ (HX y x ltac:(lia) ltac:(lia))) as EP. cbn [nth] in EP. rewrite EP. cbn [obind fst snd].
        destruct (rset2_ok o0 y x (app 3 C (rgb y x) 0)) as (p0 & Ep0 & L0 & Lr0 & P0); [destruct R0; lia|rewrite (rrect_row h w) by (auto; lia); lia|].
        destruct (rset2_ok o1 y x (app 3 C (rgb y x) 1)) as (p1 & Ep1 & L1 & Lr1 & P1); [destruct R1; lia|rewrite (rrect_row h w) by (auto; lia); lia|].
        destruct (rset2_ok o2 y x (app 3 C (rgb y x) 2)) as (p2 & Ep2 & L2 & Lr2 & P2); [destruct R2; lia|rewrite (rrect_row h w) by (auto; lia); lia|].
        rewrite Ep0, Ep1, Ep2. cbn [obind].
        replace (slice_set (o0 :: o1 :: o2 :: rest) 0 p0) with (Ok (p0 :: o1 :: o2 :: rest)) by (rewrite slice_set_ok by (cbn [length]; lia); reflexivity). cbn [obind].
        replace (slice_set (p0 :: o1 :: o2 :: rest) 1 p1) with (Ok (p0 :: p1 :: o2 :: rest)) by (rewrite slice_set_ok by (cbn [length]; lia); reflexivity). cbn [obind].
        replace (slice_set (p0 :: p1 :: o2 :: rest) 2 p2) with (Ok (p0 :: p1 :: p2 :: rest)) by (rewrite slice_set_ok by (cbn [length]; lia); reflexivity).
        eexists. split; [reflexivity|]. exists p0, p1, p2. split; [reflexivity|].
        split; [apply rrect_nth; [destruct R0; lia|intros; rewrite Lr0; apply (rrect_row h w); assumption]|].
        split; [apply rrect_nth; [destruct R1; lia|intros; rewrite Lr1; apply (rrect_row h w); assumption]|].
        split; [apply rrect_nth; [destruct R2; lia|intros; rewrite Lr2; apply (rrect_row h w); assumption]|].
        intros y' x' Hy' Hx'. rewrite P0, P1, P2. specialize (P y' x' Hy' Hx'). destruct (Nat.eqb_spec y' y) as [->|Ny]; cbn [andb] in *; [|exact P].
        destruct (Nat.eqb_spec x' x) as [->|Nx].
        * replace (x <? S x)%nat with true by (symmetry; apply Nat.ltb_lt; lia). rewrite orb_true_r. reflexivity.
        * rewrite P. replace (x' <? S x)%nat with (x' <? x)%nat; [reflexivity|]. destruct (Nat.ltb_spec x' x), (Nat.ltb_spec x' (S x)); lia || reflexivity.
      + exists B. split; [exact E|]. destruct Q as (p0 & p1 & p2 & -> & S0 & S1 & S2 & Q). exists p0, p1, p2. do 4 (split; [auto|]).
        intros y' x' Hy' Hx'. rewrite Q by assumption. cbn [Nat.add]. replace (x' <? w)%nat with true by (symmetry; apply Nat.ltb_lt; lia). rewrite andb_true_r.
        replace (x' <? 0)%nat with false by reflexivity. rewrite andb_false_r, orb_false_r.
        replace ((y' <? y)%nat || (y' =? y)%nat) with (y' <? S y)%nat; [reflexivity|].
        destruct (Nat.ltb_spec y' (S y)), (Nat.ltb_spec y' y), (Nat.eqb_spec y' y); try lia; reflexivity.
    - destruct Q as (o0 & o1 & o2 & -> & R0 & R1 & R2 & P). exists o0, o1, o2. split; [exact E|]. do 3 (split; [assumption|]).
      intros y x Hy Hx. specialize (P y x Hy Hx). cbn [Nat.add] in P. replace (y <? h)%nat with true in P by (symmetry; apply Nat.ltb_lt; lia). cbn [orb] in P.
      injection P as -> -> ->. auto.
  Qed.
End xyb.

(* ---- transfer functions ---- *)
Lemma gpow_inv x a b : 0 <= x -> a * b = 1 -> 0 < a -> exists y, gpow x a = Some y /\ 0 <= y /\ gpow y b = Some x.
Proof.
  intros Hx Hab Ha. unfold gpow. destruct (Rlt_dec x 0); [lra|]. destruct (Req_EM_T x 0) as [->|N].
  - exists 0. split; [reflexivity|]. split; [lra|]. destruct (Rlt_dec 0 0); [lra|]. destruct (Req_EM_T 0 0); [reflexivity|lra].
  - exists (Rpower x a). assert (P : 0 < Rpower x a) by apply exp_pos. split; [reflexivity|]. split; [lra|].
    destruct (Rlt_dec (Rpower x a) 0); [lra|]. destruct (Req_EM_T (Rpower x a) 0); [lra|]. rewrite Rpower_mult, Hab. rewrite Rpower_1 by lra. reflexivity.
Qed.
Lemma Rpower_one_base y : Rpower 1 y = 1.
Proof. unfold Rpower. rewrite ln_1, Rmult_0_r. apply exp_0. Qed.
Lemma Rpower_small x y : 0 < x < 1 -> 1 < y -> Rpower x y < x.
Proof.
  intros Hx Hy. unfold Rpower. apply Rlt_le_trans with (exp (ln x)); [|rewrite exp_ln by lra; lra]. apply exp_increasing.
  assert (L : ln x < 0) by (rewrite <- ln_1; apply ln_increasing; lra). nra.
Qed.
Lemma Rpower_big x y : 0 < x < 1 -> 0 < y < 1 -> x < Rpower x y.
Proof.
  intros Hx Hy. unfold Rpower. apply Rle_lt_trans with (exp (ln x)); [rewrite exp_ln by lra; lra|]. apply exp_increasing.
  assert (L : ln x < 0) by (rewrite <- ln_1; apply ln_increasing; lra). nra.
Qed.
