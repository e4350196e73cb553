From Coq Require Import ZArith List Bool Lia Arith ZifyBool ZifyNat.
From Verif Require Import GoBase GoLoop GoMatrix ModelBitReader ModelUtil ModelEntropy ModelMATree ModelModular ModelModStream.
From Verif Require Import SpecModular SpecPalette SpecModStream ProofUtil ProofCodes ProofSqueeze ProofModular ProofPalette ProofModStream2.
Import ListNotations.
Open Scope Z_scope.

Definition sized (p : Plane) : Prop := Z.of_nat (p_h p) < 2 ^ 31 - 1 /\ Z.of_nat (p_w p) < 2 ^ 31 - 1.
Lemma good_sized P : Forall good_plane P -> Forall sized P.
Proof. apply Forall_impl. intros p (_ & H). exact H. Qed.
Lemma half_low n : Z.of_nat n < 2 ^ 31 - 1 -> u32 (Z.of_nat n + 1) / 2 = Z.of_nat ((n + 1) / 2).
Proof. intros H. rewrite u32_small by lia. rewrite Nat2Z.inj_div, Nat2Z.inj_add. reflexivity. Qed.
Lemma half_high n : Z.of_nat n / 2 = Z.of_nat (n / 2).
Proof. rewrite Nat2Z.inj_div. reflexivity. Qed.
Lemma laid_low hor c p : laid c p -> sized p -> laid (lowc hor c) (low hor p).
Proof.
  intros (E1 & E2 & E3 & E4 & E5 & E6 & E7) [S1 S2]. unfold laid, lowc, low, set_size. destruct hor; cbn [c_height c_width c_vshift c_hshift c_buf c_decoded c_forceWP p_h p_w p_vs p_hs];
    rewrite ?E1, ?E2, half_low, ?E3, ?E4 by assumption; repeat split; assumption.
Qed.
Lemma laid_high hor c p : laid c p -> laid (highc hor c) (high hor p).
Proof.
  intros (E1 & E2 & E3 & E4 & E5 & E6 & E7). unfold laid, highc, lowc, high, set_size. destruct hor; cbn [c_height c_width c_vshift c_hshift c_buf c_decoded c_forceWP p_h p_w p_vs p_hs];
    rewrite ?E1, ?E2, half_high, ?E3, ?E4; repeat split; assumption.
Qed.
Lemma half_le n : ((n + 1) / 2 <= n /\ n / 2 <= n)%nat.
Proof. destruct (half_facts n) as (A & B & C). split; lia. Qed.
Lemma sized_low hor p : sized p -> sized (low hor p).
Proof. intros [A B]. pose proof (half_le (p_h p)). pose proof (half_le (p_w p)). unfold low, sized; destruct hor; cbn [p_h p_w]; lia. Qed.
Lemma sized_high hor p : sized p -> sized (high hor p).
Proof. intros [A B]. pose proof (half_le (p_h p)). pose proof (half_le (p_w p)). unfold high, sized; destruct hor; cbn [p_h p_w]; lia. Qed.
Lemma laid_small c p : laid c p -> sized p -> small_chan c.
Proof. intros (E1 & E2 & E3 & E4 & E5 & E6 & E7) [S1 S2]. unfold small_chan. rewrite E1, E2, E5. split; [reflexivity|lia]. Qed.
Lemma Forall2_map {A B C D} (R : A -> B -> Prop) (S : C -> D -> Prop) (f : A -> C) (g : B -> D) l m :
  Forall2 R l m -> (forall a b, R a b -> In b m -> S (f a) (g b)) -> Forall2 S (map f l) (map g m).
Proof. induction 1; intros H'; cbn; constructor; [apply H'; [assumption|left; reflexivity]|]. apply IHForall2. intros. apply H'; [assumption|right; assumption]. Qed.
Lemma Forall2_length {A B} (R : A -> B -> Prop) l m : Forall2 R l m -> length l = length m.
Proof. induction 1; cbn; congruence. Qed.
Lemma Forall2_In_r {A B} (R : A -> B -> Prop) l m a : Forall2 R l m -> In a l -> exists b, In b m /\ R a b.
Proof. induction 1; intros []; [subst; eexists; split; [left; reflexivity|assumption]|]. destruct (IHForall2 H1) as (b & ? & ?). exists b. split; [right|]; assumption. Qed.
Ltac f2 H := let a := fresh "c" in let b := fresh "c" in let Ha := fresh "F" in let Hb := fresh "F" in
  apply Forall2_app_inv_r in H as (a & b & Ha & Hb & ->).

Lemma squeezed_sized p s s' : squeezed p s s' -> Forall sized (snd s) -> Forall sized (snd s').
Proof.
  intros [meta pre mid post Eb En F Hm] S. cbn [snd] in *. apply Forall_app in S as [S1 S]. apply Forall_app in S as [S2 S3].
  assert (L : Forall sized (map (low (sp_horizontal p)) mid)) by (apply Forall_map; revert S2; apply Forall_impl; intros; apply sized_low; assumption).
  assert (H : Forall sized (map (high (sp_horizontal p)) mid)) by (apply Forall_map; revert S2; apply Forall_impl; intros; apply sized_high; assumption).
  apply Forall_app. split; [exact S1|]. apply Forall_app. split; [exact L|]. destruct (sp_inPlace p); apply Forall_app; split; assumption.
Qed.
Lemma metaSqueeze_layout p s s' : squeezed p s s' -> forall chs, Forall2 laid chs (snd s) -> Forall sized (snd s) ->
  exists chs', metaSqueezeStep p (Z.of_nat (fst s), chs) = Ok (Z.of_nat (fst s'), chs') /\ Forall2 laid chs' (snd s').
Proof.
  intros [meta pre mid post Eb En F Hm] chs H S. cbn [fst snd] in *.
  apply Forall_app in S as [S1 S]. apply Forall_app in S as [S2 S3].
  f2 H. rename c into cpre. f2 F1. rename c into cmid. rename c1 into cpost.
  pose proof (Forall2_length _ _ _ F0) as L0. pose proof (Forall2_length _ _ _ F2) as L2.
  eexists. split; [rewrite metaSqueezeStep_ok; [rewrite L0, L2; reflexivity|lia|lia| |]|].
  - apply Forall_forall. intros c Hc. destruct (Forall2_In_r _ _ _ _ F2 Hc) as (q & Hq & Lq). apply (laid_small c q Lq). rewrite Forall_forall in S2. auto.
  - rewrite L0, L2. exact Hm.
  - assert (FL : Forall2 laid (map (lowc (sp_horizontal p)) cmid) (map (low (sp_horizontal p)) mid)).
    { apply (Forall2_map laid); [exact F2|]. intros a b Hab Hb. apply laid_low; [exact Hab|]. rewrite Forall_forall in S2. auto. }
    assert (FH : Forall2 laid (map (highc (sp_horizontal p)) cmid) (map (high (sp_horizontal p)) mid)).
    { apply (Forall2_map laid); [exact F2|]. intros a b Hab Hb. apply laid_high; exact Hab. }
    apply Forall2_app; [exact F0|]. apply Forall2_app; [exact FL|]. destruct (sp_inPlace p); apply Forall2_app; assumption.
Qed.
Lemma metaSqueezes_layout l s s' : squeezed_by l s s' -> forall chs, Forall2 laid chs (snd s) -> Forall sized (snd s) ->
  exists chs', metaSqueezes l (Z.of_nat (fst s), chs) = Ok (Z.of_nat (fst s'), chs') /\ Forall2 laid chs' (snd s').
Proof.
  induction 1 as [s|p l s s1 s2 H1 H2 IH]; intros chs HL S.
  - exists chs. split; [reflexivity|exact HL].
  - destruct (metaSqueeze_layout p s s1 H1 chs HL S) as (chs1 & E1 & L1). cbn [metaSqueezes]. rewrite E1. cbn [obind].
    apply IH; [exact L1|]. exact (squeezed_sized p s s1 H1 S).
Qed.

Lemma rounds_ok first count : forall f w h l, rounds first count w h l -> 0 <= w <= 2 ^ Z.of_nat f + 7 -> 0 <= h <= 2 ^ Z.of_nat f + 7 -> w < 2 ^ 31 -> h < 2 ^ 31 ->
  squeezeRounds f first count w h = l.
Proof.
  induction f as [|f IH]; intros w h l R Hw Hh Bw Bh.
  - change (2 ^ Z.of_nat 0) with 1 in *. destruct R; try lia. reflexivity.
  - assert (P : 2 ^ Z.of_nat (S f) = 2 * 2 ^ Z.of_nat f) by (rewrite Nat2Z.inj_succ, Z.pow_succ_r by lia; reflexivity).
    assert (D : forall v, 8 < v -> v <= 2 ^ Z.of_nat (S f) + 7 -> v < 2 ^ 31 -> u32 (v + 1) / 2 = (v + 1) / 2 /\ 0 <= (v + 1) / 2 <= 2 ^ Z.of_nat f + 7 /\ (v + 1) / 2 < 2 ^ 31).
    { intros v H1 H2 H3. rewrite u32_small by lia. split; [reflexivity|]. split; [split; [apply Z.div_pos; lia|apply Z.div_le_upper_bound; lia]|apply Z.div_lt_upper_bound; lia]. }
    assert (PP : 1 <= 2 ^ Z.of_nat f) by (pose proof (Z.pow_pos_nonneg 2 (Z.of_nat f)); lia).
    cbn [squeezeRounds]. destruct R as [w h R1 R2|w h l R1 R2 R|w h l R1 R2 R|w h l R1 R2 R].
    + replace (8 <? w) with false by lia. replace (8 <? h) with false by lia. reflexivity.
    + replace (8 <? w) with true by lia. replace (8 <? h) with false by lia. cbn [orb app]. destruct (D w) as (-> & B1 & B2); try lia. f_equal.
      apply IH; try assumption; try lia.
    + replace (8 <? w) with false by lia. replace (8 <? h) with true by lia. cbn [orb app]. destruct (D h) as (-> & B1 & B2); try lia. f_equal.
      apply IH; try assumption; lia.
    + replace (8 <? w) with true by lia. replace (8 <? h) with true by lia. cbn [orb app]. destruct (D w) as (-> & B1 & B2); try lia. destruct (D h) as (-> & B3 & B4); try lia. do 2 f_equal.
      apply IH; try assumption; lia.
Qed.
Lemma Forall2_nth {A B} (R : A -> B -> Prop) l m da db : Forall2 R l m -> forall i, (i < length l)%nat -> R (nth i l da) (nth i m db).
Proof. induction 1; intros i Hi; [cbn in Hi; lia|]. destruct i; cbn; [assumption|]. apply IHForall2. cbn in Hi. lia. Qed.
Lemma defaults_ok meta P l chs : default_squeezes meta P l -> first_like_meta meta P -> Forall2 laid chs P -> Forall sized P ->
  defaultSqueezeList (Z.of_nat meta) chs = Ok l.
Proof.
  intros [Hm D] [E1 E2] F S. pose proof (Forall2_length _ _ _ F) as L. unfold defaultSqueezeList. cbv zeta in *.
  set (dc := newChan 0 0 0 0 false). rewrite (slice_get_ok chs 0 dc) by lia. cbn [obind]. change (Z.to_nat 0) with 0%nat.
  pose proof (Forall2_nth _ _ _ dc blankPlane F 0 ltac:(lia)) as (H1 & H2 & _). rewrite H1, H2, E1, E2. clear H1 H2 E1 E2.
  assert (SZ : sized (nth meta P blankPlane)) by (rewrite Forall_forall in S; apply S, nth_In; lia). destruct SZ as [SH SW].
  set (w := p_w (nth meta P blankPlane)) in *. set (h := p_h (nth meta P blankPlane)) in *. rewrite L.
  destruct D as (r & -> & D). 
  match goal with |- obind ?m _ = _ => match type of D with _ => 
    assert (EM : m = Ok ((2 <? Z.of_nat (length P) - Z.of_nat meta) && (w =? p_w (nth (meta + 1) P blankPlane))%nat && (h =? p_h (nth (meta + 1) P blankPlane))%nat)) end end.
  { destruct (Z.ltb_spec 2 (Z.of_nat (length P) - Z.of_nat meta)) as [C|C]; [|reflexivity].
    rewrite (slice_get_ok chs _ dc) by lia. cbn [obind andb]. replace (Z.to_nat (Z.of_nat meta + 1)) with (meta + 1)%nat by lia.
    pose proof (Forall2_nth _ _ _ dc blankPlane F (meta + 1) ltac:(lia)) as (H1 & H2 & _). rewrite H1, H2.
    f_equal. lia. }
  rewrite EM. cbn [obind]. clear EM.
  do 2 f_equal. 
  destruct (Z.leb_spec (Z.of_nat w) (Z.of_nat h)) as [T|T]; destruct (Z.ltb_spec 8 (Z.of_nat h)) as [T2|T2]; cbn [andb app] in *.
  2,3,4: apply rounds_ok; [exact D|..]; change (2 ^ Z.of_nat 64) with (2 ^ 64); lia.
  destruct D as (r' & -> & D). f_equal. rewrite u32_small by lia. apply rounds_ok; [exact D|..]; change (2 ^ Z.of_nat 64) with (2 ^ 64); try lia.
Qed.

Section layout.
  Context (depth : Z) (behind : list Plane -> Prop) (default : nat -> list Plane -> Prop) (delta : nat -> nat -> Z).
  Hypothesis Hdef : forall m P, default m P -> first_like_meta m P.
  Notation encoded := (encoded depth behind default delta).
  Notation transformed := (transformed depth behind default delta).

  Lemma metaPalette_ok t meta pre c0 rest post : ti_beginC t = Z.of_nat (length pre) -> ti_numC t = Z.of_nat (S (length rest)) -> ti_dPred t <> 6 ->
    0 <= ti_nbColours t < 2 ^ 20 -> Z.of_nat (S (length rest)) < 2 ^ 31 -> ((length pre < meta)%nat -> (length pre + S (length rest) <= meta)%nat) ->
    metaPalette t (Z.of_nat meta, pre ++ (c0 :: rest) ++ post) =
    Ok (Z.of_nat (if (length pre <? meta)%nat then meta + 2 - S (length rest) else meta + 1)%nat,
        newChan (Z.of_nat (S (length rest))) (ti_nbColours t) (-1) (-1) false :: pre ++ [c0] ++ post).
  Proof.
    intros Eb En Ed Hc Hr Hm. unfold metaPalette. rewrite Eb, En. cbv zeta.
    assert (ER : oloop (Z.to_nat (Z.of_nat (length pre) + Z.of_nat (S (length rest)) - (Z.of_nat (length pre) + 1))) 0 (fun _ l => removeAt l (Z.of_nat (length pre) + 1)) (pre ++ (c0 :: rest) ++ post) = Ok ((pre ++ [c0]) ++ post)).
    { replace (pre ++ (c0 :: rest) ++ post) with ((pre ++ [c0]) ++ rest ++ post) by (rewrite <- app_assoc; reflexivity).
      apply removeMany_ok; [lia|]. rewrite app_length. cbn [length]. lia. }
    rewrite ER. cbn [obind]. replace (ti_dPred t =? 6) with false by lia. rewrite andb_false_r. cbn [obind].
    rewrite !i32_small by lia. rewrite <- app_assoc. do 2 f_equal. destruct (Nat.ltb_spec (length pre) meta); 
    [replace (Z.of_nat (length pre) <? Z.of_nat meta) with true by lia; specialize (Hm ltac:(lia)); lia|replace (Z.of_nat (length pre) <? Z.of_nat meta) with false by lia; lia].
  Qed.

  Lemma meta_step t sq s s' : transformed t sq s s' -> Forall good_plane (snd s) -> forall chs, Forall2 laid chs (snd s) ->
    exists chs', (if ti_tr t =? PALETTE then st <o- metaPalette t (Z.of_nat (fst s), chs) ;; Ok (st, [])
             else if ti_tr t =? SQUEEZE then
               sq <o- (match ti_sp t with [] => defaultSqueezeList (Z.of_nat (fst s)) chs | _ => Ok (ti_sp t) end) ;;
               st <o- metaSqueezes sq (Z.of_nat (fst s), chs) ;; Ok (st, sq)
             else if ti_tr t =? RCT then Ok ((Z.of_nat (fst s), chs), [])
             else Err) = Ok ((Z.of_nat (fst s'), chs'), sq) /\ Forall2 laid chs' (snd s').
  Proof.
    intros T G chs F. unfold PALETTE, SQUEEZE, RCT.
    destruct T as [meta pre o post Et Eb Hr Ho p ty a b c mk|sq s s' Et Hsq H1 H2|meta pre outs post idx pal Et Eb En Nn No Hb Hc Hd Hp Hp6 Hm Lp Rp Hh Hw Si Gi Fi Fo Ho]; rewrite Et; cbn [Z.eqb Pos.eqb].
    - exists chs. cbn [fst snd] in *. split; [reflexivity|]. apply Forall2_app_inv_r in F as (c0 & c1 & F0 & F1 & ->). apply Forall2_app_inv_r in F1 as (c2 & c3 & F2 & F3 & ->). apply Forall2_app; [exact F0|]. apply Forall2_app; [|exact F3].
      destruct (Ho 0 ltac:(lia)) as ((A1 & A2 & A3 & A4) & _). destruct (Ho 1 ltac:(lia)) as ((B1 & B2 & B3 & B4) & _). destruct (Ho 2 ltac:(lia)) as ((C1 & C2 & C3 & C4) & _).
      inversion F2 as [|x0 y0 l0 m0 L0 F4]; subst. inversion F4 as [|x1 y1 l1 m1 L1 F5]; subst. inversion F5 as [|x2 y2 l2 m2 L2 F6]; subst. inversion F6; subst.
      assert (TR : forall x q f, laid x q -> p_h q = p_h (o 0) -> p_w q = p_w (o 0) -> p_vs q = p_vs (o 0) -> p_hs q = p_hs (o 0) -> laid x (mk f)).
      { intros x q f (X1 & X2 & X3 & X4 & X5 & X6 & X7) Q1 Q2 Q3 Q4. unfold laid, mk. cbn [p_h p_w p_vs p_hs]. rewrite X1, X2, X3, X4, X5, X6, X7, Q1, Q2, Q3, Q4. repeat split. }
constructor; [apply (TR _ (o 0)); auto|]. constructor; [apply (TR _ (o 1)); auto|]. constructor; [apply (TR _ (o 2)); auto|]. constructor.
    - destruct (metaSqueezes_layout sq s s' Hsq chs F (good_sized _ G)) as (chs' & E & F').
      exists chs'. split; [|exact F']. destruct (ti_sp t) as [|q l] eqn:Es.
      + destruct (H2 eq_refl) as [D1 D2]. rewrite (defaults_ok _ _ _ _ D1 (Hdef _ _ D2) F (good_sized _ G)). cbn [obind]. rewrite E. reflexivity.
      + rewrite <- (H1 ltac:(discriminate)). cbn [obind]. rewrite E. reflexivity.
    - cbn [fst snd] in *. apply Forall2_app_inv_r in F as (c & c1 & F0 & F1 & ->). apply Forall2_app_inv_r in F1 as (couts & c2 & F2 & F3 & ->). pose proof (Forall2_length _ _ _ F0) as L0. pose proof (Forall2_length _ _ _ F2) as L2.
      destruct couts as [|c0 rest]; [destruct outs; [congruence|discriminate L2]|].
      destruct outs as [|o0 outs]; [congruence|]. cbn [length] in L2, Hm, En |- *. injection L2 as L2.
      inversion F2 as [|x y lx ly Lxy Fr]; subst. inversion Fo as [|? ? Fo1 Fo2]; subst.
      assert (NB : Z.of_nat (S (length outs)) < 2 ^ 31) by lia.
      rewrite (metaPalette_ok t meta c c0 rest c2); try (rewrite ?L0, ?L2; assumption || lia).
      cbn [obind]. rewrite L0, L2. eexists. split; [reflexivity|].
      constructor; [|apply Forall2_app; [exact F0|apply Forall2_app; [|exact F3]]].
      + destruct Lp as (P1 & P2 & P3 & P4). cbn [p_h p_w p_vs p_hs length] in P1, P2, P3, P4. unfold laid, newChan. cbn [c_height c_width c_vshift c_hshift c_buf c_decoded c_forceWP].
        rewrite P1, P2, P3, P4. rewrite !u32_small by lia. rewrite Z2Nat.id by lia. repeat split.
      + constructor; [|constructor]. destruct Lxy as (X1 & X2 & X3 & X4 & X5 & X6 & X7). destruct Fo1 as (Y1 & Y2 & Y3 & Y4). unfold laid. rewrite X1, X2, X3, X4, X5, X6, X7, Y1, Y2, Y3, Y4. repeat split.
  Qed.

  Lemma meta_ok l s s' : encoded l s s' -> forall chs, Forall2 laid chs (snd s) ->
    exists chs', metaTransforms (map fst l) (Z.of_nat (fst s), chs) = Ok ((Z.of_nat (fst s'), chs'), map snd l) /\ Forall2 laid chs' (snd s').
  Proof.
    induction 1 as [s|t sq l s s1 s2 G T E IH]; intros chs F; [exists chs; split; [reflexivity|exact F]|].
    destruct (meta_step t sq s s1 T G chs F) as (chs1 & E1 & F1). cbn [map fst snd metaTransforms]. cbn [fst snd] in E1. rewrite E1. cbn [obind].
    destruct (IH chs1 F1) as (chs2 & E2 & F2). rewrite E2. cbn [obind]. exists chs2. split; [reflexivity|exact F2].
  Qed.
End layout.
