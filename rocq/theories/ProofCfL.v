(* Lemmas about the correlation of X and B with Y. *)
From Coq Require Import ZArith List Bool Lia Arith Reals Lra ZifyBool ZifyNat.
From Verif Require Import GoBase GoLoop GoMatrix ModelUtil ModelDCT ModelHF ModelHFWeights ModelHFDequant SpecDCT SpecColour SpecHFDequant.
From Verif Require Import ProofCodes ProofDCT GoMatrixR ProofHFDequant.
Import ListNotations.
Open Scope nat_scope.

Lemma tile_of y : 64 * (y / 64) <= y < 64 * (y / 64) + 64.
Proof. pose proof (Nat.div_mod y 64 ltac:(lia)). pose proof (Nat.mod_upper_bound y 64 ltac:(lia)). lia. Qed.
Lemma tile_unique y t : 64 * t <= y < 64 * t + 64 -> y / 64 = t.
Proof. intros H. pose proof (tile_of y). lia. Qed.

(* cells visited so far *)
Lemma before_next oy ox w iy ix y x : ix < w -> GoMatrixR.before oy ox w (oy + iy) (ox + S ix) y x =
  ((y =? oy + iy) && (x =? ox + ix)) || GoMatrixR.before oy ox w (oy + iy) (ox + ix) y x.
Proof. intros H. unfold GoMatrixR.before. apply eq_true_iff_eq. lia. Qed.
Lemma before_row oy ox w iy y x : GoMatrixR.before oy ox w (oy + S iy) (ox + 0) y x = GoMatrixR.before oy ox w (oy + iy) (ox + w) y x.
Proof. unfold GoMatrixR.before. apply eq_true_iff_eq. lia. Qed.
Lemma before_start oy ox w y x : GoMatrixR.before oy ox w (oy + 0) (ox + 0) y x = false.
Proof. unfold GoMatrixR.before. apply not_true_iff_false. lia. Qed.
Lemma before_end oy ox h w y x : GoMatrixR.before oy ox w (oy + h) (ox + 0) y x = in_block oy ox h w y x.
Proof. unfold GoMatrixR.before, in_block. apply eq_true_iff_eq. lia. Qed.
Lemma before_at oy ox w iy ix : GoMatrixR.before oy ox w (oy + iy) (ox + ix) (oy + iy) (ox + ix) = false.
Proof. unfold GoMatrixR.before. apply not_true_iff_false. lia. Qed.
(* the corner of the tile of a sample has been visited if it is in the block *)
Lemma corner_before oy ox h w iy ix cy cx : iy < h -> ix < w -> cy <= oy + iy -> cx <= ox + ix -> ~ (cy = oy + iy /\ cx = ox + ix) ->
  GoMatrixR.before oy ox w (oy + iy) (ox + ix) cy cx = in_block oy ox h w cy cx.
Proof. intros. unfold GoMatrixR.before, in_block. apply eq_true_iff_eq. lia. Qed.
Lemma tile_next ty tx ty' tx' a b : 64 * ty = a -> 64 * tx = b -> ((64 * ty' =? a) && (64 * tx' =? b)) = ((ty' =? ty) && (tx' =? tx)).
Proof. intros. apply eq_true_iff_eq. lia. Qed.
Lemma no_corner ty tx ty' tx' a b : 64 * ty <= a < 64 * ty + 64 -> 64 * tx <= b < 64 * tx + 64 -> ~ (64 * ty = a /\ 64 * tx = b) -> ((64 * ty' =? a) && (64 * tx' =? b)) = false.
Proof. intros. apply not_true_iff_false. lia. Qed.

Lemma existsb_snoc {A} (f : A -> bool) l a : existsb f (l ++ [a]) = existsb f l || f a.
Proof. rewrite existsb_app. cbn. now rewrite orb_false_r. Qed.

Section Block.
Variables (Y0 X0 h w Hc Wc : nat) (c0 : list (list R)) (hf : list (list Z)) (base inv : R).
Hypotheses (HY : Y0 + h <= 64 * Hc) (HX : X0 + w <= 64 * Wc) (RH : rect Hc Wc hf).
Definition kval (ty tx : nat) : R := (base + IZR (px hf ty tx) * inv)%R.
Definition seen (iy ix ty tx : nat) : bool := GoMatrixR.before Y0 X0 w (Y0 + iy) (X0 + ix) (64 * ty) (64 * tx).
Definition store (iy ix : nat) (c : list (list R)) : Prop := rrect Hc Wc c /\ forall ty tx, pixel c ty tx = if seen iy ix ty tx then kval ty tx else pixel c0 ty tx.
Definition used (ty tx : nat) : R := if in_block Y0 X0 h w (64 * ty) (64 * tx) then kval ty tx else pixel c0 ty tx.
Lemma tile_step iy ix c : iy < h -> ix < w -> store iy ix c ->
  exists c', tileFactor ((64 * ((Y0 + iy) / 64) =? Y0 + iy) && (64 * ((X0 + ix) / 64) =? X0 + ix)) base inv hf (Z.of_nat ((Y0 + iy) / 64)) (Z.of_nat ((X0 + ix) / 64)) c =
    Ok (used ((Y0 + iy) / 64) ((X0 + ix) / 64), c') /\ store iy (S ix) c'.
Proof.
  intros Hy Hx [Rc Pc]. pose proof (tile_of (Y0 + iy)) as Ty. pose proof (tile_of (X0 + ix)) as Tx. set (ty := (Y0 + iy) / 64) in *. set (tx := (X0 + ix) / 64) in *. clearbody ty tx.
  unfold tileFactor. destruct ((64 * ty =? Y0 + iy) && (64 * tx =? X0 + ix)) eqn:EC.
  - assert (64 * ty = Y0 + iy /\ 64 * tx = X0 + ix) as [Ey Ex] by lia. clear EC.
    rewrite (get2_ok Hc Wc) by (assumption || lia). cbn [obind]. rewrite !Nat2Z.id.
    destruct (rset2_rect Hc Wc c ty tx (base + IZR (px hf ty tx) * inv)%R (Z.of_nat ty) (Z.of_nat tx)) as (c' & E & R' & P'); try reflexivity; try lia; try assumption.
    rewrite E. cbn [obind]. exists c'. split.
    + f_equal. f_equal. unfold used. replace (in_block Y0 X0 h w (64 * ty) (64 * tx)) with true; [reflexivity|]. rewrite Ey, Ex. unfold in_block. clear - Hy Hx. lia.
    + split; [exact R'|]. intros a b. rewrite P', Pc. unfold seen. rewrite (before_next Y0 X0 w iy ix _ _ Hx). rewrite (tile_next ty tx a b _ _ Ey Ex).
      destruct ((a =? ty) && (b =? tx)) eqn:E2; [|reflexivity]. assert (a = ty /\ b = tx) as [-> ->] by lia. reflexivity.
  - assert (NC : ~ (64 * ty = Y0 + iy /\ 64 * tx = X0 + ix)) by lia. clear EC.
    rewrite (rget2_rect Hc Wc c ty tx) by (assumption || lia). cbn [obind]. exists c. split.
    + f_equal. f_equal. rewrite Pc. unfold used, seen. rewrite (corner_before Y0 X0 h w iy ix) by (assumption || lia). reflexivity.
    + split; [exact Rc|]. intros a b. rewrite Pc. unfold seen. rewrite (before_next Y0 X0 w iy ix _ _ Hx), (no_corner ty tx a b _ _ Ty Tx NC). reflexivity.
Qed.
End Block.

Section Frame.
Variables (p : HFParams) (H W Hc Wc : nat) (inv baseX baseB : R) (hfX hfB : list (list Z)) (my : list (list R)).
Hypotheses (RX : rect Hc Wc hfX) (RB : rect Hc Wc hfB) (RY : rrect H W my) (H256 : H <= 256) (W256 : W <= 256).
(* the group starts at a multiple of 256 samples, the block is inside the
   group and inside the tiles *)
Definition placed (b : HFBlock) : Prop :=
  (0 <= hb_y b - hp_groupY p /\ 0 <= hb_x b - hp_groupX p /\ 0 <= hb_y b /\ 0 <= hb_x b /\ 0 <= tt_pixelHeight (hb_type b) /\ 0 <= tt_pixelWidth (hb_type b))%Z /\
  b_top p 0 b + b_h b <= H /\ b_left p 0 b + b_w b <= W /\ 8 * Z.to_nat (hb_y b) + b_h b <= 64 * Hc /\ 8 * Z.to_nat (hb_x b) + b_w b <= 64 * Wc.
Hypotheses (GY : (hp_groupY p mod 32 = 0)%Z) (GX : (hp_groupX p mod 32 = 0)%Z).
Definition lfy (b : HFBlock) : nat := 8 * Z.to_nat (hb_y b).
Definition lfx (b : HFBlock) : nat := 8 * Z.to_nat (hb_x b).
Lemma top0 b : placed b -> Z.of_nat (b_top p 0 b) = (8 * (hb_y b - hp_groupY p))%Z /\ Z.of_nat (b_left p 0 b) = (8 * (hb_x b - hp_groupX p))%Z.
Proof. intros ((A1 & A2 & _) & _). unfold b_top, b_left. change (2 ^ 0)%Z with 1%Z. rewrite !Z.div_1_r. lia. Qed.
Lemma mask a g t i : (0 <= t -> g mod 32 = 0 -> t = 8 * (a - g) -> 0 <= a -> 0 <= i -> t + i < 256 -> Z.land (8 * a + i) 255 = t + i)%Z.
Proof.
  intros Ht Hg -> Ha Hi Hl. change 255%Z with (Z.ones 8). rewrite Z.land_ones by lia. change (2 ^ 8)%Z with 256%Z.
  pose proof (Z.div_mod g 32 ltac:(lia)) as Dg. rewrite Hg in Dg. replace (8 * a + i)%Z with (8 * (a - g) + i + (g / 32) * 256)%Z by lia.
  rewrite Z.mod_add by lia. apply Z.mod_small. lia.
Qed.
Definition factor_of (base : R) (hf : list (list Z)) (b : HFBlock) (c0 : list (list R)) (y x : nat) : R :=
  used (lfy b) (lfx b) (b_h b) (b_w b) c0 hf base inv (y / 64) (x / 64).
Definition cfl_rel (base : R) (hf : list (list Z)) (b : HFBlock) (m c m' c' : list (list R)) : Prop :=
  rrect H W m' /\ rrect Hc Wc c' /\
  (forall ty tx, pixel c' ty tx = if in_lf_block b (64 * ty) (64 * tx) then kval hf base inv ty tx else pixel c ty tx) /\
  (forall y x, pixel m' y x = if covers_px p 0 0 b y x then (pixel m y x + factor_of base hf b c (lfy b + (y - b_top p 0 b)) (lfx b + (x - b_left p 0 b)) * pixel my y x)%R else pixel m y x).
Lemma cflBlock_ok b mx cx mb cb : placed b -> rrect H W mx -> rrect H W mb -> rrect Hc Wc cx -> rrect Hc Wc cb ->
  exists mx' cx' mb' cb', cflBlock inv baseX baseB hfX hfB my b ((mx, cx), (mb, cb)) = Ok ((mx', cx'), (mb', cb')) /\
    cfl_rel baseX hfX b mx cx mx' cx' /\ cfl_rel baseB hfB b mb cb mb' cb'.
Proof.
  intros HP RMx RMb RCx RCb. destruct (top0 b HP) as [T0 L0]. destruct HP as ((A1 & A2 & A3 & A4 & A5 & A6) & B1 & B2 & B3 & B4).
  set (oy := b_top p 0 b) in *. set (ox := b_left p 0 b) in *.
  pose (Q := fun base hf m0 c0 iy ix (mc : list (list R) * list (list R)) => rrect H W (fst mc) /\ store (lfy b) (lfx b) (b_w b) Hc Wc c0 hf base inv iy ix (snd mc) /\
    forall y x, pixel (fst mc) y x = if GoMatrixR.before oy ox (b_w b) (oy + iy) (ox + ix) y x then (pixel m0 y x + factor_of base hf b c0 (lfy b + (y - oy)) (lfx b + (x - ox)) * pixel my y x)%R else pixel m0 y x).
  destruct (rloop2_inv (fun iy ix s => Q baseX hfX mx cx iy ix (fst s) /\ Q baseB hfB mb cb iy ix (snd s))
    (fun iy s =>
      let y := (Z.shiftl (hb_y b) 3 + Z.of_nat iy)%Z in
      obind (slice_get (snd (fst s)) (Z.shiftr y 6)) (fun _ => obind (slice_get (snd (snd s)) (Z.shiftr y 6)) (fun _ =>
      obind (slice_get hfX (Z.shiftr y 6)) (fun _ => obind (slice_get hfB (Z.shiftr y 6)) (fun _ =>
      oloop (Z.to_nat (tt_pixelWidth (hb_type b))) 0 (fun ix s => cflPixel inv baseX baseB hfX hfB my y (Z.shiftl (hb_x b) 3 + Z.of_nat ix) s) s)))))
    (fun iy ix s => cflPixel inv baseX baseB hfX hfB my (Z.shiftl (hb_y b) 3 + Z.of_nat iy) (Z.shiftl (hb_x b) 3 + Z.of_nat ix) s)
    0 (b_h b) 0 (b_w b) ((mx, cx), (mb, cb))) as ([[mx' cx'] [mb' cb']] & E & Q1 & Q2).
  - split; (split; [assumption|]; split; [split; [assumption|]; intros ty tx; unfold seen; now rewrite before_start|]; intros y x; now rewrite before_start).
  - intros iy [[m1 c1] [m2 c2]] Hy [(R1 & [S1 _] & _) (R2 & [S2 _] & _)]. cbn [fst snd] in *. cbv zeta.
    assert (EY : Z.shiftr (Z.shiftl (hb_y b) 3 + Z.of_nat iy) 6 = Z.of_nat ((lfy b + iy) / 64)).
    { rewrite Z.shiftr_div_pow2, Z.shiftl_mul_pow2 by lia. rewrite Nat2Z.inj_div. f_equal. unfold lfy. lia. }
    rewrite EY. assert (TY : (lfy b + iy) / 64 < Hc) by (pose proof (tile_of (lfy b + iy)); unfold lfy in *; lia).
    rewrite (get_row Hc Wc c1 _ _ S1 TY eq_refl). cbn [obind]. rewrite (get_row Hc Wc c2 _ _ S2 TY eq_refl). cbn [obind].
    rewrite (slice_get_ok hfX _ []) by (destruct RX; lia). cbn [obind]. rewrite (slice_get_ok hfB _ []) by (destruct RB; lia). cbn [obind]. reflexivity.
  - intros iy ix [[m1 c1] [m2 c2]] Hy Hx [(R1 & S1 & P1) (R2 & S2 & P2)]. cbn [fst snd] in *. unfold cflPixel.
    assert (EY : Z.shiftr (Z.shiftl (hb_y b) 3 + Z.of_nat iy) 6 = Z.of_nat ((lfy b + iy) / 64)).
    { rewrite Z.shiftr_div_pow2, Z.shiftl_mul_pow2 by lia. rewrite Nat2Z.inj_div. f_equal. unfold lfy. lia. }
    assert (EX : Z.shiftr (Z.shiftl (hb_x b) 3 + Z.of_nat ix) 6 = Z.of_nat ((lfx b + ix) / 64)).
    { rewrite Z.shiftr_div_pow2, Z.shiftl_mul_pow2 by lia. rewrite Nat2Z.inj_div. f_equal. unfold lfx. lia. }
    rewrite EY, EX.
    replace ((Z.shiftl (Z.of_nat ((lfy b + iy) / 64)) 6 =? Z.shiftl (hb_y b) 3 + Z.of_nat iy)%Z) with (64 * ((lfy b + iy) / 64) =? lfy b + iy)
      by (rewrite !Z.shiftl_mul_pow2 by lia; change (2 ^ 6)%Z with 64%Z; change (2 ^ 3)%Z with 8%Z; set (u := (lfy b + iy) / 64); clearbody u; unfold lfy; lia).
    replace ((Z.shiftl (Z.of_nat ((lfx b + ix) / 64)) 6 =? Z.shiftl (hb_x b) 3 + Z.of_nat ix)%Z) with (64 * ((lfx b + ix) / 64) =? lfx b + ix)
      by (rewrite !Z.shiftl_mul_pow2 by lia; change (2 ^ 6)%Z with 64%Z; change (2 ^ 3)%Z with 8%Z; set (u := (lfx b + ix) / 64); clearbody u; unfold lfx; lia).
    destruct (tile_step (lfy b) (lfx b) (b_h b) (b_w b) Hc Wc cx hfX baseX inv B3 B4 RX iy ix c1) as (c1' & E1 & S1'); [lia|lia|exact S1|].
    destruct (tile_step (lfy b) (lfx b) (b_h b) (b_w b) Hc Wc cb hfB baseB inv B3 B4 RB iy ix c2) as (c2' & E2 & S2'); [lia|lia|exact S2|].
    rewrite E1. cbn [obind]. rewrite E2. cbn [obind fst snd].
    assert (MY : Z.land (Z.shiftl (hb_y b) 3 + Z.of_nat iy) 255 = Z.of_nat (oy + iy)).
    { rewrite Z.shiftl_mul_pow2 by lia. change (2 ^ 3)%Z with 8%Z. rewrite (Z.mul_comm (hb_y b)). rewrite (mask (hb_y b) (hp_groupY p) (Z.of_nat oy)); lia. }
    assert (MX : Z.land (Z.shiftl (hb_x b) 3 + Z.of_nat ix) 255 = Z.of_nat (ox + ix)).
    { rewrite Z.shiftl_mul_pow2 by lia. change (2 ^ 3)%Z with 8%Z. rewrite (Z.mul_comm (hb_x b)). rewrite (mask (hb_x b) (hp_groupX p) (Z.of_nat ox)); lia. }
    rewrite MY, MX. rewrite (rget2_rect H W my (oy + iy) (ox + ix)) by (assumption || lia). cbn [obind].
    rewrite (rget2_rect H W m1 (oy + iy) (ox + ix)) by (assumption || lia). cbn [obind].
    destruct (rset2_rect H W m1 (oy + iy) (ox + ix) (pixel m1 (oy + iy) (ox + ix) + used (lfy b) (lfx b) (b_h b) (b_w b) cx hfX baseX inv ((lfy b + iy) / 64) ((lfx b + ix) / 64) * pixel my (oy + iy) (ox + ix))%R
      (Z.of_nat (oy + iy)) (Z.of_nat (ox + ix))) as (m1' & F1 & R1' & P1'); try reflexivity; try assumption; try lia. rewrite F1. cbn [obind].
    rewrite (rget2_rect H W m2 (oy + iy) (ox + ix)) by (assumption || lia). cbn [obind].
    destruct (rset2_rect H W m2 (oy + iy) (ox + ix) (pixel m2 (oy + iy) (ox + ix) + used (lfy b) (lfx b) (b_h b) (b_w b) cb hfB baseB inv ((lfy b + iy) / 64) ((lfx b + ix) / 64) * pixel my (oy + iy) (ox + ix))%R
      (Z.of_nat (oy + iy)) (Z.of_nat (ox + ix))) as (m2' & F2 & R2' & P2'); try reflexivity; try assumption; try lia. rewrite F2. cbn [obind].
    exists ((m1', c1'), (m2', c2')). split; [reflexivity|]. cbn [fst snd].
    split; (split; [assumption|]; split; [assumption|]; cbn [fst]; intros y x).
    + rewrite P1', !P1, (before_next oy ox (b_w b) iy ix y x) by lia. destruct ((y =? oy + iy) && (x =? ox + ix)) eqn:E3; [|reflexivity].
      assert (y = oy + iy /\ x = ox + ix) as [-> ->] by lia. rewrite before_at. cbn [orb]. unfold factor_of.
      replace (oy + iy - oy) with iy by lia. replace (ox + ix - ox) with ix by lia. reflexivity.
    + rewrite P2', !P2, (before_next oy ox (b_w b) iy ix y x) by lia. destruct ((y =? oy + iy) && (x =? ox + ix)) eqn:E3; [|reflexivity].
      assert (y = oy + iy /\ x = ox + ix) as [-> ->] by lia. rewrite before_at. cbn [orb]. unfold factor_of.
      replace (oy + iy - oy) with iy by lia. replace (ox + ix - ox) with ix by lia. reflexivity.
  - intros iy [[m1 c1] [m2 c2]] Hy [(R1 & [S1 T1] & P1) (R2 & [S2 T2] & P2)]. cbn [fst snd] in *. rewrite Nat.add_0_l in *.
    split; (split; [assumption|]; split; [split; [assumption|]; cbn [snd]; intros ty tx; rewrite ?T1, ?T2; unfold seen; now rewrite before_row|]; cbn [fst]; intros y x; rewrite ?P1, ?P2; now rewrite before_row).
  - exists mx', cx', mb', cb'. split; [exact E|].
    destruct Q1 as (R1 & [S1 T1] & P1). destruct Q2 as (R2 & [S2 T2] & P2). cbn [fst snd] in *. rewrite Nat.add_0_l in *.
    split; (split; [assumption|]; split; [assumption|]; split; [intros ty tx; rewrite ?T1, ?T2; unfold in_lf_block, seen; now rewrite before_end|]; intros y x; rewrite ?P1, ?P2; unfold covers_px; fold oy ox; now rewrite before_end).
Qed.
Definition tile_done (bs : list HFBlock) (ty tx : nat) : bool := existsb (fun b => in_lf_block b (64 * ty) (64 * tx)) bs.
Definition tile_used (base : R) (hf : list (list Z)) (bs : list HFBlock) (ty tx : nat) : R := if tile_done bs ty tx then kval hf base inv ty tx else 0%R.
Definition cfl_res (base : R) (hf : list (list Z)) (pre bs : list HFBlock) (m m' : list (list R)) : Prop :=
  rrect H W m' /\
  (forall p1 b p2 y x, bs = p1 ++ b :: p2 -> y < b_h b -> x < b_w b ->
     pixel m' (b_top p 0 b + y) (b_left p 0 b + x) = (pixel m (b_top p 0 b + y) (b_left p 0 b + x) +
       tile_used base hf (pre ++ p1 ++ [b]) ((lfy b + y) / 64) ((lfx b + x) / 64) * pixel my (b_top p 0 b + y) (b_left p 0 b + x))%R) /\
  (forall y x, (forall b, In b bs -> covers_px p 0 0 b y x = false) -> pixel m' y x = pixel m y x).
Definition disjoint_px (a b : HFBlock) : Prop := forall y x, covers_px p 0 0 a y x = true -> covers_px p 0 0 b y x = false.
Lemma cfl_cons base hf pre b bs m c m1 c1 m' : (forall a, In a bs -> disjoint_px b a) -> (forall ty tx, pixel c ty tx = tile_used base hf pre ty tx) ->
  cfl_rel base hf b m c m1 c1 -> cfl_res base hf (pre ++ [b]) bs m1 m' -> cfl_res base hf pre (b :: bs) m m'.
Proof.
  intros D HC (R1 & _ & _ & P1) (R' & In' & Out'). split; [exact R'|]. split.
  - intros p1 a p2 y x Es Hy Hx. destruct p1 as [|b' p1]; cbn [Datatypes.app] in Es; injection Es as <- ->.
    + rewrite Out' by (intros a Ha; apply D; [exact Ha|]; now apply covers_at). rewrite P1, covers_at by assumption.
      f_equal. f_equal. unfold factor_of, used, tile_used, tile_done. cbn [Datatypes.app]. rewrite existsb_snoc.
      replace (b_top p 0 b + y - b_top p 0 b) with y by lia. replace (b_left p 0 b + x - b_left p 0 b) with x by lia.
      unfold in_lf_block. fold (lfy b) (lfx b). rewrite HC. unfold tile_used, tile_done. destruct (in_block (lfy b) (lfx b) (b_h b) (b_w b) _ _); [now rewrite orb_true_r|now rewrite orb_false_r].
    + rewrite (In' p1 a p2 y x eq_refl Hy Hx). rewrite <- app_assoc. cbn [Datatypes.app]. f_equal.
      rewrite P1. destruct (covers_px p 0 0 b _ _) eqn:C; [|reflexivity]. exfalso.
      pose proof (D a ltac:(apply in_or_app; right; now left) _ _ C) as C2. now rewrite covers_at in C2.
  - intros y x Hn. rewrite Out' by (intros a Ha; apply Hn; now right). rewrite P1. now rewrite (Hn b (or_introl eq_refl)).
Qed.
Lemma cfl_store base hf pre b m c m1 c1 : (forall ty tx, pixel c ty tx = tile_used base hf pre ty tx) -> cfl_rel base hf b m c m1 c1 ->
  forall ty tx, pixel c1 ty tx = tile_used base hf (pre ++ [b]) ty tx.
Proof.
  intros HC (_ & _ & P & _) ty tx. rewrite P, HC. unfold tile_used, tile_done. rewrite existsb_snoc.
  destruct (in_lf_block b _ _); [now rewrite orb_true_r|now rewrite orb_false_r].
Qed.
Lemma cfl_fold : forall bs pre mx cx mb cb, Forall placed bs -> ForallOrdPairs disjoint_px bs -> rrect H W mx -> rrect H W mb -> rrect Hc Wc cx -> rrect Hc Wc cb ->
  (forall ty tx, pixel cx ty tx = tile_used baseX hfX pre ty tx) -> (forall ty tx, pixel cb ty tx = tile_used baseB hfB pre ty tx) ->
  exists mx' cx' mb' cb', eachBlock (cflBlock inv baseX baseB hfX hfB my) bs ((mx, cx), (mb, cb)) = Ok ((mx', cx'), (mb', cb')) /\
    cfl_res baseX hfX pre bs mx mx' /\ cfl_res baseB hfB pre bs mb mb'.
Proof.
  induction bs as [|b bs IH]; intros pre mx cx mb cb HP HD R1 R2 R3 R4 C1 C2.
  - exists mx, cx, mb, cb. split; [reflexivity|]. split; (split; [assumption|]; split; [intros [|? ?] ? ? ? ? E; discriminate|reflexivity]).
  - inversion HP as [|? ? Pb Pbs]; subst. inversion HD as [|? ? Db Dbs]; subst. rewrite Forall_forall in Db.
    destruct (cflBlock_ok b mx cx mb cb Pb R1 R2 R3 R4) as (mx1 & cx1 & mb1 & cb1 & E & X1 & B1). cbn [eachBlock]. rewrite E. cbn [obind].
    destruct (IH (pre ++ [b]) mx1 cx1 mb1 cb1) as (mx' & cx' & mb' & cb' & E' & X' & B'); try assumption; try apply X1; try apply B1.
    + exact (cfl_store _ _ _ _ _ _ _ _ C1 X1).
    + exact (cfl_store _ _ _ _ _ _ _ _ C2 B1).
    + exists mx', cx', mb', cb'. split; [exact E'|]. split; [exact (cfl_cons _ _ _ _ _ _ _ _ _ _ Db C1 X1 X')|exact (cfl_cons _ _ _ _ _ _ _ _ _ _ Db C2 B1 B')].
Qed.
End Frame.
