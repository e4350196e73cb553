From Coq Require Import ZArith List Bool Lia Arith ZifyBool ZifyNat.
From Verif Require Import GoBase GoLoop GoMatrix ModelBitReader ModelUtil ModelEntropy ModelMATree ModelModular ModelModStream.
From Verif Require Import SpecModular SpecPalette SpecModStream ProofUtil ProofCodes ProofSqueeze ProofModular ProofPalette ProofModStream2 ProofModStream3.
Import ListNotations.
Open Scope Z_scope.

Lemma shows_full c p : shows c p -> (1 <= p_h p)%nat -> (1 <= p_w p)%nat -> c_buf c = p_px p.
Proof. intros (_ & _ & _ & _ & [H|[[H|H] _]]); [auto|lia|lia]. Qed.
Lemma loop2_w0 {S} h (f : nat -> nat -> S -> Outcome S) s : loop2 h 0 f s = Ok s.
Proof. unfold loop2. cbn [oloop]. generalize 0%nat. induction h as [|h IH]; intros i; [reflexivity|]. cbn [oloop obind]. apply IH. Qed.
Lemma horizontal_nores ch orig res b : c_width res = 0 -> inverseHorizontalSqueeze ch orig (set_buf res b) = inverseHorizontalSqueeze ch orig res.
Proof.
  intros H. unfold inverseHorizontalSqueeze. change (c_width (set_buf res b)) with (c_width res). change (c_height (set_buf res b)) with (c_height res).
  rewrite H. change (Z.to_nat 0) with 0%nat. rewrite !loop2_w0. reflexivity.
Qed.

Definition unsqueeze (hor : bool) (ch residu : Chan) : Outcome Chan :=
  if hor then inverseHorizontalSqueeze (newChan (i32 (c_height ch)) (i32 (u32 (c_width ch + c_width residu))) (c_vshift ch) (c_hshift ch - 1) false) ch residu
  else inverseVerticalSqueeze (newChan (i32 (u32 (c_height ch + c_height residu))) (i32 (c_width ch)) (c_vshift ch - 1) (c_hshift ch) false) ch residu.
Lemma unsqueeze_ok hor p cl cr : good_plane p -> (1 <= p_h p)%nat /\ (1 <= p_w p)%nat /\ samples_within (2 ^ 28 - 1) (p_px p) ->
  shows cl (low hor p) -> shows cr (high hor p) -> exists out, unsqueeze hor cl cr = Ok out /\ shows out p.
Proof.
  intros (Rp & Sh & Sw) (Hh & Hw & Sm) SL SR.
  pose proof (half_facts (p_w p)) as (W1 & W2 & W3). pose proof (half_facts (p_h p)) as (H1 & H2 & H3).
  assert (BL : c_buf cl = p_px (low hor p)).
  { apply (shows_full _ _ SL); unfold low; destruct hor; cbn [p_h p_w]; lia. }
  destruct SL as (L1 & L2 & L3 & L4 & _). destruct SR as (R1 & R2 & R3 & R4 & R5).
  unfold unsqueeze. rewrite L1, L2, L3, L4, R1, R2. unfold low, high in *.
  destruct hor; cbn [p_h p_w p_vs p_hs p_px] in *.
  - replace (p_hs p + 1 - 1) with (p_hs p) by lia.
    set (ch := newChan _ _ _ _ _).
    assert (Bl : blank (p_h p) (p_w p) ch).
    { unfold blank, ch, newChan. cbn [c_height c_width c_buf]. rewrite (u32_small (_ + _)) by lia. rewrite !i32_small by lia. rewrite !u32_small by lia. repeat split; lia. }
    assert (E : inverseHorizontalSqueeze ch cl cr = Ok (set_buf ch (p_px p))).
    { destruct R5 as [R5|[R5 R6]].
      - apply (horizontal_ok tend (2 ^ 28 - 1) (p_h p) (p_w p) (p_px p) ch cl cr ltac:(lia) (fun a b c => tendancy_ok a b c) Rp Sm Hh Hw ltac:(lia) Bl); repeat split; assumption.
      - rewrite <- (horizontal_nores ch cl cr (squeezeH_res tend (p_h p) (p_w p) (p_px p))) by lia.
        apply (horizontal_ok tend (2 ^ 28 - 1) (p_h p) (p_w p) (p_px p) ch cl _ ltac:(lia) (fun a b c => tendancy_ok a b c) Rp Sm Hh Hw ltac:(lia) Bl); repeat split; assumption. }
    exists (set_buf ch (p_px p)). split; [exact E|]. destruct Bl as (B1 & B2 & _). unfold shows, set_buf. cbn [c_height c_width c_vshift c_hshift c_buf].
    rewrite B1, B2. unfold ch, newChan. cbn [c_vshift c_hshift]. auto 10.
  - replace (p_vs p + 1 - 1) with (p_vs p) by lia.
    set (ch := newChan _ _ _ _ _).
    assert (Bl : blank (p_h p) (p_w p) ch).
    { unfold blank, ch, newChan. cbn [c_height c_width c_buf]. rewrite (u32_small (_ + _)) by lia. rewrite !i32_small by lia. rewrite !u32_small by lia. repeat split; lia. }
    assert (E : inverseVerticalSqueeze ch cl cr = Ok (set_buf ch (p_px p))).
    { assert (R7 : c_buf cr = squeezeV_res tend (p_h p) (p_w p) (p_px p)).
      { destruct R5 as [R5|[R5 R6]]; [exact R5|]. rewrite R6. unfold squeezeV_res. assert (E0 : (p_h p / 2 = 0)%nat) by lia. rewrite E0. reflexivity. }
      apply (vertical_ok tend (2 ^ 28 - 1) (p_h p) (p_w p) (p_px p) ch cl cr ltac:(lia) (fun a b c => tendancy_ok a b c) Rp Sm Hh Hw ltac:(lia) Bl); repeat split; assumption. }
    exists (set_buf ch (p_px p)). split; [exact E|]. destruct Bl as (B1 & B2 & _). unfold shows, set_buf. cbn [c_height c_width c_vshift c_hshift c_buf].
    rewrite B1, B2. unfold ch, newChan. cbn [c_vshift c_hshift]. auto 10.
Qed.

Lemma applySqueezeStep_ok p pre lows highs outs post : sp_beginC p = Z.of_nat (length pre) -> sp_numC p = Z.of_nat (length lows) ->
  length highs = length lows -> length outs = length lows ->
  (forall k d, (k < length lows)%nat -> unsqueeze (sp_horizontal p) (nth k lows d) (nth k highs d) = Ok (nth k outs d)) ->
  applySqueezeStep p (pre ++ lows ++ (if sp_inPlace p then highs ++ post else post ++ highs)) = Ok (pre ++ outs ++ post).
Proof.
  intros Eb En LH LO HU. unfold applySqueezeStep. rewrite Eb, En. rewrite !Nat2Z.id.
  set (offset := if sp_inPlace p then _ else _). set (tail := if sp_inPlace p then highs ++ post else post ++ highs).
  set (d := newChan 0 0 0 0 false).
  assert (G : forall k u, (k < length lows)%nat -> length u = length lows -> slice_get (pre ++ u ++ tail) (offset + (Z.of_nat (length pre) + Z.of_nat k) - Z.of_nat (length pre)) = Ok (nth k highs d)).
  { intros k u Hk Hu. unfold tail, offset. destruct (sp_inPlace p).
    - rewrite app_assoc. apply slice_get_mid; [rewrite app_length; lia|lia].
    - replace (pre ++ u ++ post ++ highs) with ((pre ++ u ++ post) ++ highs ++ []) by (rewrite app_nil_r, <- !app_assoc; reflexivity).
      apply slice_get_mid; [rewrite !app_length; lia|lia]. }
  match goal with |- obind (oloop _ _ ?f _) _ = _ =>
    destruct (oloop_inv (fun k l => (k <= length lows)%nat -> l = pre ++ upto k outs lows ++ tail) f (length lows) 0 (pre ++ lows ++ tail)) as (l & E & HL) end.
  - intros _. reflexivity.
  - intros k l Hk Hl. cbn [Nat.add] in Hk. rewrite Hl by lia. clear Hl.
    pose proof (upto_length k outs lows LO) as UL.
    rewrite (slice_get_mid pre (upto k outs lows) tail k _ d) by lia. cbn [obind]. rewrite nth_upto by lia.
    rewrite G by lia. cbn [obind].
    match goal with |- exists s', obind ?m _ = _ /\ _ => change m with (unsqueeze (sp_horizontal p) (nth k lows d) (nth k highs d)) end.
    rewrite (HU k d) by lia. cbn [obind]. rewrite (slice_set_mid pre (upto k outs lows) tail k) by lia. rewrite upto_step by lia.
    eexists. split; [reflexivity|]. intros _. reflexivity.
  - cbn [Nat.add] in HL. match type of E with ?m = _ => match goal with |- obind ?m' _ = _ => change m' with m end end.
    rewrite E. cbn [obind]. rewrite HL by lia. rewrite upto_all by lia. unfold tail, offset. destruct (sp_inPlace p).
    + rewrite app_assoc. rewrite removeMany_ok; [rewrite <- app_assoc; reflexivity|lia|rewrite app_length; lia].
    + replace (pre ++ outs ++ post ++ highs) with ((pre ++ outs ++ post) ++ highs ++ []) by (rewrite app_nil_r, <- !app_assoc; reflexivity).
      rewrite removeMany_ok; [rewrite app_nil_r; reflexivity|lia|rewrite !app_length; lia].
Qed.

Lemma squeezed_good p s s' : squeezed p s s' -> Forall good_plane (snd s) -> Forall good_plane (snd s').
Proof.
  intros [meta pre mid post Eb En F Hm] S. cbn [snd] in *. apply Forall_app in S as [S1 S]. apply Forall_app in S as [S2 S3].
  assert (L : Forall good_plane (map (low (sp_horizontal p)) mid)).
  { apply Forall_map; revert S2; apply Forall_impl; intros q [R Z2]. split; [|apply (sized_low (sp_horizontal p) q Z2)]. unfold low. destruct (sp_horizontal p); apply rect_mat. }
  assert (H : Forall good_plane (map (high (sp_horizontal p)) mid)).
  { apply Forall_map; revert S2; apply Forall_impl; intros q [R Z2]. split; [|apply (sized_high (sp_horizontal p) q Z2)]. unfold high. destruct (sp_horizontal p); apply rect_mat. }
  apply Forall_app. split; [exact S1|]. apply Forall_app. split; [exact L|]. destruct (sp_inPlace p); apply Forall_app; split; assumption.
Qed.
Lemma apply_squeeze p s s' : squeezed p s s' -> Forall good_plane (snd s) -> forall chs, Forall2 shows chs (snd s') ->
  exists chs', applySqueezeStep p chs = Ok chs' /\ Forall2 shows chs' (snd s).
Proof.
  intros [meta pre mid post Eb En F Hm] G chs H. cbn [snd] in *.
  apply Forall_app in G as [G1 G]. apply Forall_app in G as [G2 G3].
  apply Forall2_app_inv_r in H as (cpre & c1 & F0 & F1 & ->). apply Forall2_app_inv_r in F1 as (lows & c2 & FL & F2 & ->).
  assert (exists highs cpost, c2 = (if sp_inPlace p then highs ++ cpost else cpost ++ highs) /\ Forall2 shows highs (map (high (sp_horizontal p)) mid) /\ Forall2 shows cpost post) as (highs & cpost & -> & FH & FP).
  { destruct (sp_inPlace p); apply Forall2_app_inv_r in F2 as (a & b & Fa & Fb & ->); [exists a, b|exists b, a]; auto. }
  pose proof (Forall2_length _ _ _ F0) as L0. pose proof (Forall2_length _ _ _ FL) as LL. pose proof (Forall2_length _ _ _ FH) as LH. rewrite map_length in LL, LH.
  assert (exists outs, Forall2 shows outs mid /\ forall k d, (k < length lows)%nat -> unsqueeze (sp_horizontal p) (nth k lows d) (nth k highs d) = Ok (nth k outs d)) as (outs & FO & HO).
  { clear - FL FH G2 F. revert lows highs FL FH. induction mid as [|q mid IH]; intros lows highs FL FH.
    - inversion FL; subst. exists []. split; [constructor|]. cbn. intros; lia.
    - cbn [map] in *. inversion FL as [|cl ? ls ? SL FL']; subst. inversion FH as [|cr ? rs ? SR FH']; subst.
      inversion F; subst. inversion G2; subst. destruct (IH ltac:(assumption) ltac:(assumption) ls rs FL' FH') as (outs & FO & HO).
      destruct (unsqueeze_ok (sp_horizontal p) q cl cr) as (out & EO & SO); try assumption.
      exists (out :: outs). split; [constructor; assumption|]. intros [|k] d Hk; cbn [nth]; [exact EO|]. apply HO. cbn in Hk. lia. }
  pose proof (Forall2_length _ _ _ FO) as LO.
  exists (cpre ++ outs ++ cpost). split; [apply applySqueezeStep_ok; try lia; exact HO|]. apply Forall2_app; [exact F0|]. apply Forall2_app; assumption.
Qed.
Lemma apply_squeezes l s s' : squeezed_by l s s' -> Forall good_plane (snd s) -> forall chs, Forall2 shows chs (snd s') ->
  exists chs', applySqueezes l chs = Ok chs' /\ Forall2 shows chs' (snd s).
Proof.
  induction 1 as [s|p l s s1 s2 H1 H2 IH]; intros G chs F; [exists chs; split; [reflexivity|exact F]|].
  cbn [applySqueezes]. destruct (IH (squeezed_good p s s1 H1 G) chs F) as (c1 & E1 & F1). rewrite E1. cbn [obind].
  exact (apply_squeeze p s s1 H1 G c1 F1).
Qed.

(* ---- colour transform ---- *)
Lemma rct_empty h w rctType pre post (o : Z -> Chan) : 0 <= rctType < 42 -> (h = O \/ w = O) ->
  (forall j, 0 <= j <= 2 -> c_height (o j) = Z.of_nat h /\ c_width (o j) = Z.of_nat w) ->
  let p := rctType / 7 in
  inverseRCT rctType (Z.of_nat (length pre)) (pre ++ [o (rct_position p 0); o (rct_position p 1); o (rct_position p 2)] ++ post) = Ok (pre ++ [o 0; o 1; o 2] ++ post).
Proof.
  intros Hr He Ho p. unfold inverseRCT.
  rewrite Z.quot_div_nonneg, Z.rem_mod_nonneg by lia. fold p. cbv zeta.
  assert (Hp : 0 <= p < 6) by (split; [apply Z.div_pos|apply Z.div_lt_upper_bound]; lia).
  assert (Pb : 0 <= rct_position p 0 <= 2).
  { unfold rct_position. pose proof (Z.mod_pos_bound p 3). cbn [Z.eqb]. lia. }
  destruct (Ho _ Pb) as (A1 & A2).
  set (fa := o (rct_position p 0)) in *. set (fb := o (rct_position p 1)) in *. set (fc := o (rct_position p 2)) in *.
  rewrite <- (Z.add_0_r (Z.of_nat (length pre))) at 1.
  rewrite (get_pre pre [fa; fb; fc] post 0 fa), (get_pre pre [fa; fb; fc] post 1 fa), (get_pre pre [fa; fb; fc] post 2 fa) by (cbn; lia). cbn [obind].
  change (Z.to_nat 0) with 0%nat. change (Z.to_nat 1) with 1%nat. change (Z.to_nat 2) with 2%nat. cbn [nth].
  rewrite A1, A2, !Nat2Z.id.
  assert (EL : forall {S} (f : nat -> nat -> S -> Outcome S) s, loop2 h w f s = Ok s) by (intros; destruct He as [->| ->]; [reflexivity|apply loop2_w0]).
  rewrite EL. cbn [obind]. rewrite !set_buf_id. unfold fa, fb, fc.
  assert (Cases : p = 0 \/ p = 1 \/ p = 2 \/ p = 3 \/ p = 4 \/ p = 5) by lia.
  assert (S3 : forall (x0 x1 x2 : Chan) k v, 0 <= k < 3 -> slice_set (pre ++ [x0; x1; x2] ++ post) (Z.of_nat (length pre) + k) v = Ok (pre ++ list_set [x0; x1; x2] (Z.to_nat k) v ++ post))
    by (intros; apply set_pre; cbn; lia).
  clearbody p. clear - Cases S3.
  destruct Cases as [->|[->|[->|[->|[->| ->]]]]];
  match goal with |- context [rct_position ?q 0] => let r := eval vm_compute in (rct_position q 0) in change (rct_position q 0) with r end;
  match goal with |- context [rct_position ?q 1] => let r := eval vm_compute in (rct_position q 1) in change (rct_position q 1) with r end;
  match goal with |- context [rct_position ?q 2] => let r := eval vm_compute in (rct_position q 2) in change (rct_position q 2) with r end;
  unfold permutationLUT;
  repeat (match goal with |- context [slice_get ?l ?k] => let r := eval vm_compute in (slice_get l k) in change (slice_get l k) with r end; cbn [obind]);
  rewrite S3 by lia; cbn [obind]; change (Z.to_nat 0) with 0%nat; change (Z.to_nat 1) with 1%nat; change (Z.to_nat 2) with 2%nat; cbn [list_set];
  rewrite S3 by lia; cbn [obind]; change (Z.to_nat 0) with 0%nat; change (Z.to_nat 1) with 1%nat; change (Z.to_nat 2) with 2%nat; cbn [list_set];
  rewrite S3 by lia; change (Z.to_nat 0) with 0%nat; change (Z.to_nat 1) with 1%nat; change (Z.to_nat 2) with 2%nat; cbn [list_set]; reflexivity.
Qed.
Lemma position_inv p : 0 <= p < 6 -> exists inv : Z -> Z, (forall i, 0 <= i <= 2 -> inv (rct_position p i) = i /\ 0 <= rct_position p i <= 2) /\ forall j, 0 <= j <= 2 -> 0 <= inv j <= 2 /\ rct_position p (inv j) = j.
Proof.
  intros Hp. exists (fun j => if rct_position p 0 =? j then 0 else if rct_position p 1 =? j then 1 else 2).
  assert (p = 0 \/ p = 1 \/ p = 2 \/ p = 3 \/ p = 4 \/ p = 5) as [->|[->|[->|[->|[->| ->]]]]] by lia;
  (split; intros i Hi; assert (i = 0 \/ i = 1 \/ i = 2) as [->|[->| ->]] by lia; vm_compute; repeat split; discriminate || reflexivity).
Qed.
Lemma rect_w0 h a b : rect h 0 a -> rect h 0 b -> a = b.
Proof. intros Ha Hb. apply (rect_ext h 0); auto. intros; lia. Qed.
Lemma rect_h0 w a : rect 0 w a -> a = [].
Proof. intros [H _]. destruct a; [reflexivity|discriminate]. Qed.

Section inverse.
  Context (depth : Z) (behind : list Plane -> Prop) (default : nat -> list Plane -> Prop).
  Hypothesis Hbehind : forall P, behind P -> P = [].
  Hypothesis Hdepth : 3 <= depth <= 24.
  Notation encoded := (encoded depth behind default deltaTable).
  Notation transformed := (transformed depth behind default deltaTable).

  Lemma apply_rct rt pre o post chs : 0 <= rt < 42 ->
    (forall j, 0 <= j <= 2 -> same_layout (o j) (o 0) /\ rect (p_h (o 0)) (p_w (o 0)) (p_px (o j)) /\ samples_i32 (p_px (o j))) ->
    let p := rt / 7 in let ty := rt mod 7 in
    let a := p_px (o (rct_position p 0)) in let b := p_px (o (rct_position p 1)) in let c := p_px (o (rct_position p 2)) in
    let mk f := mkPl (p_h (o 0)) (p_w (o 0)) (p_vs (o 0)) (p_hs (o 0)) (plane (p_h (o 0)) (p_w (o 0)) f ty a b c) in
    Forall2 shows chs (pre ++ [mk fst3; mk snd3; mk thd3] ++ post) ->
    exists chs', inverseRCT rt (Z.of_nat (length pre)) chs = Ok chs' /\ Forall2 shows chs' (pre ++ [o 0; o 1; o 2] ++ post).
  Proof.
    intros Hr Ho p ty a b c mk F.
    apply Forall2_app_inv_r in F as (cpre & c1 & F0 & F1 & ->). apply Forall2_app_inv_r in F1 as (c3 & cpost & F2 & F3 & ->).
    rewrite <- (Forall2_length _ _ _ F0).
    inversion F2 as [|x0 y0 l0 m0 S0 F4]; subst. inversion F4 as [|x1 y1 l1 m1 S1 F5]; subst. inversion F5 as [|x2 y2 l2 m2 S2 F6]; subst. inversion F6; subst. clear F2 F4 F5 F6.
    set (h := p_h (o 0)) in *. set (w := p_w (o 0)) in *.
    assert (Hp : 0 <= p < 6) by (split; [apply Z.div_pos|apply Z.div_lt_upper_bound]; lia).
    destruct (position_inv p Hp) as (inv & I1 & I2).
    set (x := fun i => if i =? 0 then x0 else if i =? 1 then x1 else x2).
    assert (SX : forall i, c_height (x i) = Z.of_nat h /\ c_width (x i) = Z.of_nat w /\ c_vshift (x i) = p_vs (o 0) /\ c_hshift (x i) = p_hs (o 0)).
    { intros i. destruct S0 as (? & ? & ? & ? & _), S1 as (? & ? & ? & ? & _), S2 as (? & ? & ? & ? & _). unfold x. destruct (i =? 0); [auto|destruct (i =? 1); auto]. }
    assert (RES : forall co : Z -> Chan, (forall j, 0 <= j <= 2 -> c_height (co j) = Z.of_nat h /\ c_width (co j) = Z.of_nat w /\ c_vshift (co j) = p_vs (o 0) /\ c_hshift (co j) = p_hs (o 0) /\
              (c_buf (co j) = p_px (o j) \/ (h = O \/ w = O) /\ c_buf (co j) = [])) -> Forall2 shows (cpre ++ [co 0; co 1; co 2] ++ cpost) (pre ++ [o 0; o 1; o 2] ++ post)).
    { intros co Hco. apply Forall2_app; [exact F0|]. apply Forall2_app; [|exact F3].
      assert (T : forall j, 0 <= j <= 2 -> shows (co j) (o j)).
      { intros j Hj. destruct (Hco j Hj) as (E1 & E2 & E3 & E4 & E5). destruct (Ho j Hj) as ((L1 & L2 & L3 & L4) & _). unfold shows. rewrite L1, L2, L3, L4. auto 10. }
      constructor; [apply T; lia|]. constructor; [apply T; lia|]. constructor; [apply T; lia|]. constructor. }
    destruct (Nat.eq_dec (h * w) 0) as [Z0|NZ].
    - (* empty channels *)
      assert (He : h = O \/ w = O) by (apply Nat.eq_mul_0; exact Z0).
      exists (cpre ++ [x (inv 0); x (inv 1); x (inv 2)] ++ cpost). split.
      + pose proof (rct_empty h w rt cpre cpost (fun j => x (inv j)) Hr He ltac:(intros; split; apply SX)) as E. cbv beta zeta in E. fold p in E.
        rewrite (proj1 (I1 0 ltac:(lia))), (proj1 (I1 1 ltac:(lia))), (proj1 (I1 2 ltac:(lia))) in E. exact E.
      + apply (RES (fun j => x (inv j))). intros j Hj. destruct (SX (inv j)) as (E1 & E2 & E3 & E4). repeat (split; [assumption|]).
        destruct (Ho j Hj) as (_ & Rj & _).
        assert (BX : c_buf (x (inv j)) = [] \/ rect h w (c_buf (x (inv j)))).
        { destruct S0 as (_ & _ & _ & _ & T0), S1 as (_ & _ & _ & _ & T1), S2 as (_ & _ & _ & _ & T2). cbn [p_px p_h p_w mk] in T0, T1, T2.
          unfold x. destruct (inv j =? 0); [|destruct (inv j =? 1)]; [destruct T0 as [T|[_ T]]|destruct T1 as [T|[_ T]]|destruct T2 as [T|[_ T]]]; rewrite T; auto; right; apply rect_mat. }
        destruct BX as [BX|BX]; [right; auto|]. left. destruct He as [He|He]; fold h w in Rj; rewrite He in *.
        * rewrite (rect_h0 _ _ BX), (rect_h0 _ _ Rj). reflexivity.
        * exact (rect_w0 h _ _ BX Rj).
    - assert (Hh : (1 <= h)%nat) by nia. assert (Hw : (1 <= w)%nat) by nia.
      assert (B0 : c_buf x0 = p_px (mk fst3)) by (apply (shows_full _ _ S0); assumption). assert (B1 : c_buf x1 = p_px (mk snd3)) by (apply (shows_full _ _ S1); assumption). assert (B2 : c_buf x2 = p_px (mk thd3)) by (apply (shows_full _ _ S2); assumption).
      set (co := fun j => set_buf (x (inv j)) (p_px (o j))).
      exists (cpre ++ [co 0; co 1; co 2] ++ cpost). split.
      + pose proof (rct_ok h w rt cpre cpost co Hr) as E. cbv zeta in E. fold p ty in E. rewrite <- E; clear E.
        * f_equal. f_equal. f_equal. unfold co. rewrite (proj1 (I1 0 ltac:(lia))), (proj1 (I1 1 ltac:(lia))), (proj1 (I1 2 ltac:(lia))).
          rewrite !set_set. cbn [c_buf set_buf x Z.eqb Pos.eqb].
          change (c_buf (set_buf ?u ?v)) with v. fold a b c.
          change (x 0) with x0. change (x 1) with x1. change (x 2) with x2.
          f_equal; [rewrite <- (set_buf_id x0) at 1; rewrite B0; reflexivity|]. f_equal; [rewrite <- (set_buf_id x1) at 1; rewrite B1; reflexivity|].
          f_equal. rewrite <- (set_buf_id x2) at 1. rewrite B2. reflexivity.
        * intros j Hj. destruct (SX (inv j)) as (E1 & E2 & _). destruct (Ho j Hj) as (_ & Rj & Sj). unfold co, set_buf. cbn [c_height c_width c_buf]. auto.
      + apply RES. intros j Hj. destruct (SX (inv j)) as (E1 & E2 & E3 & E4). unfold co, set_buf. cbn [c_height c_width c_vshift c_hshift c_buf]. auto 10.
  Qed.

  Lemma apply_palette t pre outs idx pal chs : ti_numC t = Z.of_nat (length outs) -> outs <> [] ->
      0 <= ti_nbColours t < 2 ^ 20 -> 0 <= ti_nbDeltas t < 2 ^ 20 -> 0 <= ti_dPred t <= 13 -> ti_dPred t <> 6 ->
      same_layout pal (mkPl (length outs) (Z.to_nat (ti_nbColours t)) (-1) (-1) []) -> rect (length outs) (Z.to_nat (ti_nbColours t)) (p_px pal) ->
      (1 <= p_h idx)%nat -> (1 <= p_w idx)%nat -> samples_i32 (p_px idx) -> good_plane idx ->
      Forall (Forall (fun v => ti_nbDeltas t <= v)) (p_px idx) ->
      Forall (fun o => same_layout o idx) outs ->
      (forall k, (k < length outs)%nat -> let o := p_px (nth k outs blankPlane) in rect (p_h idx) (p_w idx) o /\
         forall y x, (y < p_h idx)%nat -> (x < p_w idx)%nat -> px o y x = pal_value deltaTable (p_px pal) (ti_nbColours t) depth k (px (p_px idx) y x)) ->
      Forall2 shows chs (pal :: pre ++ [idx]) ->
      exists chs', inversePalette (Z.of_nat (length pre)) (ti_numC t) (ti_nbColours t) (ti_nbDeltas t) (ti_dPred t) depth chs = Ok chs' /\ Forall2 shows chs' (pre ++ outs).
  Proof.
    intros En No Hc Hd Hp Hp6 Lp Rp Hh Hw Si (Gi1 & Gi2 & Gi3) Fi Fo Ho F.
    inversion F as [|cpal ? rest ? SP FR]; subst. apply Forall2_app_inv_r in FR as (cpre & c1 & F0 & F1 & ->). inversion F1 as [|cidx ? r ? SI FN]; subst. inversion FN; subst.
    rewrite <- (Forall2_length _ _ _ F0), En. pose proof (shows_full _ _ SI Hh Hw) as BI. destruct SI as (I1 & I2 & I3 & I4 & _).
    destruct Lp as (P1 & P2 & _). cbn [p_h p_w] in P1, P2. destruct SP as (_ & _ & _ & _ & SP).
    assert (ln : (1 <= length outs)%nat) by (destruct outs; [congruence|cbn; lia]).
    assert (PB : ti_nbColours t = 0 \/ c_buf cpal = p_px pal) by (destruct SP as [SP|[[SP|SP] _]]; [auto|lia|left; lia]).
    destruct (palette_list (ti_nbColours t) depth (ti_nbDeltas t) (ti_dPred t) (p_h idx) (p_w idx) (length outs) cpal cpre cidx) as (couts & E & LO & PO); try assumption; try lia; try (rewrite BI; assumption).
    { destruct PB as [PB|PB]; [left; exact PB|right; rewrite PB; exact Rp]. }
    exists (cpre ++ couts). split; [exact E|]. apply Forall2_app; [exact F0|].
    assert (N2 : forall k, (k < length outs)%nat -> shows (nth k couts cpal) (nth k outs blankPlane)).
    { intros k Hk. destruct (PO k Hk) as (out & -> & RO & PX). destruct (Ho k Hk) as (Rk & Pk).
      assert (LK : same_layout (nth k outs blankPlane) idx) by (rewrite Forall_forall in Fo; apply Fo, nth_In; exact Hk). destruct LK as (K1 & K2 & K3 & K4).
      assert (EB : out = p_px (nth k outs blankPlane)).
      { apply (rect_ext (p_h idx) (p_w idx)); [exact RO|exact Rk|]. intros y x Hy Hx. destruct (PX y x Hy Hx) as (pr & _ & ->). rewrite Pk by assumption. rewrite BI.
        assert (GE : ti_nbDeltas t <= px (p_px idx) y x).
        { unfold px. rewrite Forall_forall in Fi. destruct Gi1 as [G1 G2]. assert (In (nth y (p_px idx) []) (p_px idx)) as IN by (apply nth_In; lia).
          specialize (Fi _ IN). rewrite Forall_forall in Fi. apply Fi, nth_In. rewrite (rect_row (p_h idx) (p_w idx)); [exact Hx|split; assumption|exact Hy]. }
        replace (px (p_px idx) y x <? ti_nbDeltas t) with false by lia.
        unfold pal_value. destruct PB as [PB| ->]; [|reflexivity]. rewrite PB.
        replace (px (p_px idx) y x <? 0) with false by lia. reflexivity. }
      unfold shows. rewrite K1, K2, K3, K4, EB. destruct (k =? 0)%nat; unfold set_buf, copyOf; cbn [c_height c_width c_vshift c_hshift c_buf]; auto 10. }
    clear - LO N2. revert couts LO N2. induction outs as [|q outs IH]; intros [|c couts] LO N2; cbn in LO; try lia; constructor.
    - exact (N2 0%nat ltac:(cbn; lia)).
    - apply IH; [lia|]. intros k Hk. exact (N2 (S k) ltac:(cbn; lia)).
  Qed.

  Lemma apply_ok l s s' : encoded l s s' -> forall chs, Forall2 shows chs (snd s') ->
    exists chs', applyTransforms depth l chs = Ok chs' /\ Forall2 shows chs' (snd s).
  Proof.
    induction 1 as [s|t sq l s s1 s2 G T E IH]; intros chs F; [exists chs; split; [reflexivity|exact F]|].
    cbn [applyTransforms]. destruct (IH chs F) as (c1 & E1 & F1). rewrite E1. cbn [obind]. clear IH E1 F E. unfold PALETTE, SQUEEZE, RCT.
    destruct T as [meta pre o post Et Eb Hr Ho p ty a b c mk|sq s s' Et Hsq H1 H2|meta pre outs post idx pal Et Eb En Nn No Hb Hc Hd Hp Hp6 Hm Lp Rp Hh Hw Si Gi Fi Fo Ho]; rewrite Et; cbn [Z.eqb Pos.eqb].
    - cbn [snd] in *. rewrite Eb. exact (apply_rct (ti_rctType t) pre o post c1 Hr Ho F1).
    - exact (apply_squeezes sq s s' Hsq G c1 F1).
    - cbn [snd] in *. rewrite (Hbehind _ Hb) in *. rewrite app_nil_r in F1 |- *. rewrite Eb. eapply apply_palette; eassumption.
  Qed.
End inverse.
