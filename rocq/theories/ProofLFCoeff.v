(* Lemmas about the LF image. *)
From Coq Require Import ZArith List Bool Lia Arith Reals Lra ZifyBool ZifyNat.
From Verif Require Import GoBase GoLoop GoMatrix ModelDCT ModelLF ModelLFCoeff SpecDCT SpecColour SpecLFCoeff ProofDCT GoMatrixR.
Import ListNotations.
Open Scope nat_scope.

Lemma get_int_row h w (q : list (list Z)) y : rect h w q -> y < h -> slice_get q (Z.of_nat y) = Ok (nth y q []).
Proof. intros [L F] Hy. rewrite (slice_get_ok q _ []) by lia. now rewrite Nat2Z.id. Qed.
Lemma get_int h w (q : list (list Z)) y x : rect h w q -> y < h -> x < w -> slice_get (nth y q []) (Z.of_nat x) = Ok (px q y x).
Proof.
  intros H Hy Hx. rewrite (slice_get_ok _ _ 0%Z); [|rewrite (rect_row h w q) by assumption; lia]. now rewrite Nat2Z.id.
Qed.

Lemma dequant_ok h w q sd m : rect h w q -> rrect h w m -> dequantChannel q sd m = Ok (rmat h w (fun y x => IZR (px q y x) * sd)%R).
Proof.
  intros Hq Hm. unfold dequantChannel. destruct (Hq) as [Lq _]. rewrite Lq.
  rfill h w (fun y x => IZR (px q y x) * sd)%R; try assumption.
  - intros y m1 Hy R1. rewrite (get_row h w m1 y) by (auto; lia). cbn [obind]. rewrite (get_int_row h w) by (auto; lia). cbn [obind].
    rewrite (rect_row h w q) by (auto; lia). reflexivity.
  - lia.
  - lia.
  - intros y x m1 Hy Hx R1 _. cbv beta. rewrite (get_int h w) by (auto; lia). cbn [obind]. apply rset2_rect; auto; lia.
  - intros y x Hy Hx. now rewrite in_full.
Qed.

Lemma correlate_ok h w kX kB a s b : rrect h w a -> rrect h w s -> rrect h w b ->
  correlate kX kB a s b = Ok (rmat h w (fun y x => pixel a y x + kX * pixel s y x)%R, rmat h w (fun y x => pixel b y x + kB * pixel s y x)%R).
Proof.
  intros Ha Hs Hb. unfold correlate. destruct (Hs) as [Ls _]. rewrite Ls.
  rfill2 h w h w (fun y x => pixel a y x + kX * pixel s y x)%R (fun y x => pixel b y x + kB * pixel s y x)%R; try assumption.
  - intros y u v Hy Ru Rv. cbn [fst snd]. rewrite (get_row h w s y) by (auto; lia). cbn [obind]. rewrite (get_row h w u y), (get_row h w v y) by (auto; lia). cbn [obind].
    rewrite (rrect_row h w s) by (auto; lia). reflexivity.
  - intros y x u v Hy Hx Ru Rv Eu Ev. cbn [fst snd]. rewrite (get_pixel h w s y x) by (auto; lia). cbn [obind].
    rewrite (rget2_rect h w u y x), (rget2_rect h w v y x) by (auto; lia). cbn [obind]. rewrite Eu, Ev.
    destruct (rset2_rect h w u y x (pixel a y x + kX * pixel s y x)%R (Z.of_nat y) (Z.of_nat x)) as (u' & E1 & U1); auto; try lia.
    destruct (rset2_rect h w v y x (pixel b y x + kB * pixel s y x)%R (Z.of_nat y) (Z.of_nat x)) as (v' & E2 & U2); auto; try lia.
    rewrite E1. cbn [obind]. rewrite E2. cbn [obind]. exists u', v'. auto.
  - intros y x Hy Hx. now rewrite in_full.
  - intros y x Hy Hx. now rewrite in_full.
Qed.

(* ---- smoothing ---- *)
Lemma block_rows h w y x : y < h -> x < w -> in_block 1 0 (h - 2) w y x = inner_row h y.
Proof. intros Hy Hx. unfold in_block, inner_row. bcases. Qed.
Lemma block_inner h w y x : y < h -> x < w -> in_block 1 1 (h - 2) (w - 2) y x = inner h w y x.
Proof. intros Hy Hx. unfold in_block, inner, inner_row. bcases. Qed.

Lemma initGap_ok h w : initGap h w = Ok (rmat h w (fun y x => if inner_row h y then 1 / 2 else 0)%R).
Proof.
  unfold initGap. destruct (le_lt_dec h 1) as [Hs|Hs].
  { replace (h - 2) with 0 by lia. cbn [oloop]. f_equal. apply (rrect_ext h w); [apply rrect_repeat|apply rrect_rmat|]. intros y x Hy Hx.
    rewrite pixel_rmat by auto. unfold inner_row. replace (S y <? h) with false by lia. rewrite andb_false_r.
    unfold pixel. rewrite !nth_indep with (d' := repeat 0%R w) by (rewrite repeat_length; lia). rewrite nth_repeat. apply nth_repeat. }
  rfill h w (fun y x : nat => 0.5%R).
  - intros y m Hy Rm. rewrite (get_row h w m y) by (auto; lia). reflexivity.
  - apply rrect_repeat.
  - lia.
  - lia.
  - intros y x m Hy Hx Rm _. apply rset2_rect; auto; lia.
  - intros y x Hy Hx. rewrite block_rows by assumption. destruct (inner_row h y); [lra|].
    unfold pixel. rewrite (nth_indep _ [] (repeat 0%R w)) by (rewrite repeat_length; lia). rewrite nth_repeat. apply nth_repeat.
Qed.

Definition mean (c : list (list R)) := neighbourhood (pixel c).
Lemma smoothWeights_ok h w c sd wt gp : rrect h w c -> rrect h w wt -> rrect h w gp ->
  smoothWeights c sd wt gp = Ok (rmat h w (fun y x => if inner h w y x then mean c y x else pixel wt y x),
    rmat h w (fun y x => if inner h w y x then Rmax (pixel gp y x) (Rabs (pixel c y x - mean c y x) * sd)%R else pixel gp y x)).
Proof.
  intros Hc Hw Hg. unfold smoothWeights. destruct (Hc) as [Lc _]. rewrite Lc.
  rfill2 h w h w (mean c) (fun y x => Rmax (pixel gp y x) (Rabs (pixel c y x - mean c y x) * sd)%R); try assumption.
  - intros y u v Hy Ru Rv. cbn [fst snd]. rewrite (get_row h w c y), (get_row h w c (y - 1)), (get_row h w c (y + 1)) by (auto; lia). cbn [obind].
    rewrite (get_row h w u y), (get_row h w v y) by (auto; lia). cbn [obind]. rewrite (rrect_row h w c) by (auto; lia). reflexivity.
  - intros y x u v Hy Hx Ru Rv Eu Ev. cbv beta zeta. cbn [fst snd].
    rewrite (get_pixel h w c y x), (get_pixel h w c y (x - 1)), (get_pixel h w c y (x + 1)), (get_pixel h w c (y - 1) x), (get_pixel h w c (y + 1) x) by (auto; lia). cbn [obind].
    rewrite (get_pixel h w c (y - 1) (x - 1)), (get_pixel h w c (y - 1) (x + 1)), (get_pixel h w c (y + 1) (x - 1)), (get_pixel h w c (y + 1) (x + 1)) by (auto; lia). cbn [obind].
    match goal with |- context [rset2 u _ _ ?e] => replace e with (mean c y x) by reflexivity end.
    destruct (rset2_rect h w u y x (mean c y x) (Z.of_nat y) (Z.of_nat x)) as (u' & E1 & U1); auto; try lia. rewrite E1. cbn [obind].
    rewrite (rget2_rect h w v y x) by (auto; lia). cbn [obind]. rewrite Ev.
    match goal with |- context [(Rabs (_ - ?e) * sd)%R] => change e with (mean c y x) end.
    set (g := (Rabs (pixel c y x - mean c y x) * sd)%R).
    destruct (Rlt_dec (pixel gp y x) g) as [Hl|Hl].
    + destruct (rset2_rect h w v y x g (Z.of_nat y) (Z.of_nat x)) as (v' & E2 & U2); auto; try lia. rewrite E2. cbn [obind].
      exists u', v'. split; [reflexivity|]. split; [exact U1|]. rewrite Rmax_right by lra. exact U2.
    + cbn [obind]. exists u', v. split; [reflexivity|]. split; [exact U1|]. rewrite Rmax_left by lra. rewrite <- Ev. now apply upd_same.
  - intros y x Hy Hx. now rewrite block_inner.
  - intros y x Hy Hx. now rewrite block_inner.
Qed.

Lemma gapFactors_ok h w gp : rrect h w gp ->
  gapFactors h gp = Ok (rmat h w (fun y x => if inner_row h y then Rmax 0 (3 - 4 * pixel gp y x) else pixel gp y x)%R).
Proof.
  intros Hg. unfold gapFactors. destruct (le_lt_dec h 1) as [Hs|Hs].
  { replace (h - 2) with 0 by lia. cbn [oloop]. f_equal. apply (rrect_ext h w); [assumption|apply rrect_rmat|]. intros y x Hy Hx.
    rewrite pixel_rmat by auto. unfold inner_row. replace (S y <? h) with false by lia. now rewrite andb_false_r. }
  rfill h w (fun y x => Rmax 0 (3 - 4 * pixel gp y x))%R.
  - intros y m Hy Rm. rewrite (get_row h w m y) by (auto; lia). cbn [obind]. rewrite (rrect_row h w m) by (auto; lia). reflexivity.
  - assumption.
  - lia.
  - lia.
  - intros y x m Hy Hx Rm E. cbv beta. rewrite (rget2_rect h w m y x) by (auto; lia). cbn [obind]. rewrite E. apply rset2_rect; auto; lia.
  - intros y x Hy Hx. now rewrite block_rows.
Qed.

Lemma slice_set_row h w m y r : rrect h w m -> y < h -> length r = w ->
  exists m', slice_set m (Z.of_nat y) r = Ok m' /\ rrect h w m' /\ forall y' x', pixel m' y' x' = if y' =? y then nth x' r 0%R else pixel m y' x'.
Proof.
  intros Hm Hy Hr. destruct (Hm) as [L F]. rewrite slice_set_ok by lia. rewrite Nat2Z.id. eexists. split; [reflexivity|]. split.
  - split; [now rewrite list_set_length|]. apply Forall_forall. intros q Hq. apply list_set_In in Hq as [->|Hq]; [assumption|].
    rewrite Forall_forall in F. auto.
  - intros y' x'. unfold pixel. rewrite nth_rows_set by lia. destruct (y' =? y); reflexivity.
Qed.

Lemma smoothBlend_ok h w c wt gp dq : 0 < w -> rrect h w c -> rrect h w wt -> rrect h w gp -> rrect h w dq ->
  smoothBlend c wt gp dq = Ok (rmat h w (fun y x => if inner h w y x then (pixel c y x - pixel wt y x) * pixel gp y x + pixel wt y x else pixel c y x)%R).
Proof.
  intros W0 Hc Hw Hg Hd. unfold smoothBlend. destruct (Hc) as [Lc _]. rewrite Lc.
  set (G := fun y x => if inner h w y x then ((pixel c y x - pixel wt y x) * pixel gp y x + pixel wt y x)%R else pixel c y x).
  match goal with |- oloop _ _ ?f _ = _ => destruct (oloop_inv (fun y m => rrect h w m /\ forall y' x', y' < y -> x' < w -> pixel m y' x' = G y' x') f h 0 dq) as (m & E & R & P) end.
  - split; [assumption|]. intros; lia.
  - intros y m Hy [Rm P]. rewrite (get_row h w c y), (get_row h w m y) by (auto; lia). cbn [obind].
    destruct ((y =? 0) || (S y =? h)) eqn:Eb.
    + assert (Ec : copySlice (nth y m []) (nth y c []) = nth y c []).
      { unfold copySlice. rewrite !(rrect_row h w) by (auto; lia). rewrite skipn_all2 by (rewrite (rrect_row h w m) by (auto; lia); lia).
        rewrite app_nil_r. apply firstn_all2. rewrite (rrect_row h w c) by (auto; lia). lia. }
      rewrite Ec. destruct (slice_set_row h w m y (nth y c [])) as (m' & E & R' & P'); auto; [lia|apply (rrect_row h w); auto; lia|].
      exists m'. split; [exact E|]. split; [exact R'|]. intros y' x' Hy' Hx'. rewrite P'. destruct (Nat.eqb_spec y' y) as [->|]; [|apply P; lia].
      unfold G, inner, inner_row. replace ((0 <? y) && (S y <? h)) with false by lia. reflexivity.
    + rewrite (get_row h w gp y), (get_row h w wt y) by (auto; lia). cbn [obind]. rewrite (get_pixel h w c y 0) by (auto; lia). cbn [obind].
      destruct (rset2_rect h w m y 0 (pixel c y 0) (Z.of_nat y) 0%Z) as (m1 & E1 & [R1 P1]); auto; try lia. rewrite E1. cbn [obind].
      rewrite (rrect_row h w c) by (auto; lia). rewrite (get_pixel h w c y (w - 1)) by (auto; lia). cbn [obind].
      destruct (rset2_rect h w m1 y (w - 1) (pixel c y (w - 1)) (Z.of_nat y) (Z.of_nat w - 1)%Z) as (m2 & E2 & [R2 P2]); auto; try lia. rewrite E2. cbn [obind].
      match goal with |- exists s', oloop _ _ ?f _ = _ /\ _ => destruct (oloop_inv (fun x n => rrect h w n /\
        forall y' x', pixel n y' x' = if (y' =? y) && (1 <=? x') && (x' <? x) then G y x' else pixel m2 y' x') f (w - 2) 1 m2) as (m3 & E3 & R3 & P3) end.
      * split; [assumption|]. intros y' x'. bcases.
      * intros x n Hx [Rn Pn]. rewrite (get_pixel h w c y x), (get_pixel h w wt y x), (get_pixel h w gp y x) by (auto; lia). cbn [obind].
        destruct (rset2_rect h w n y x ((pixel c y x - pixel wt y x) * pixel gp y x + pixel wt y x)%R (Z.of_nat y) (Z.of_nat x)) as (n' & E' & [R' P']); auto; try lia.
        exists n'. split; [exact E'|]. split; [exact R'|]. intros y' x'. rewrite P', Pn.
        destruct (Nat.eqb_spec y' y) as [->|]; cbn [andb]; [|reflexivity]. destruct (Nat.eqb_spec x' x) as [->|]; cbn [andb]; [|bcases].
        replace ((1 <=? x) && (x <? S x)) with true by lia. unfold G, inner, inner_row. replace ((0 <? y) && (S y <? h) && ((0 <? x) && (S x <? w))) with true by lia. reflexivity.
      * exists m3. split; [exact E3|]. split; [exact R3|]. intros y' x' Hy' Hx'. rewrite P3, P2, P1.
        destruct (Nat.eqb_spec y' y) as [->|]; cbn [andb]; [|apply P; lia].
        destruct ((1 <=? x') && (x' <? 1 + (w - 2))) eqn:Ex; [reflexivity|]. unfold G, inner, inner_row.
        replace ((0 <? y) && (S y <? h) && ((0 <? x') && (S x' <? w))) with false by lia.
        destruct (Nat.eqb_spec x' (w - 1)) as [->|]; [reflexivity|]. destruct (Nat.eqb_spec x' 0) as [->|]; [reflexivity|]. lia.
  - rewrite E. f_equal. apply (rrect_ext h w); [assumption|apply rrect_rmat|]. intros y x Hy Hx. rewrite pixel_rmat by auto. apply P; lia.
Qed.

Definition code_measure (d step : R) : R := (d * step)%R.
Lemma adaptiveSmooth_ok h w c0 c1 c2 s0 s1 s2 : 0 < h -> 0 < w -> rrect h w c0 -> rrect h w c1 -> rrect h w c2 ->
  let f := smoothed code_measure h w (three s0 s1 s2) (fun i => pixel (three c0 c1 c2 i)) in
  adaptiveSmooth c0 c1 c2 s0 s1 s2 = Ok (rmat h w (f 0), rmat h w (f 1), rmat h w (f 2)).
Proof.
  intros Hh Hw H0 H1 H2 f. unfold adaptiveSmooth. rewrite (get_row h w c0 0) by (auto; lia). cbn [obind]. cbv zeta.
  rewrite (rrect_row h w c0) by (auto; lia). destruct (H0) as [L0 _]. rewrite L0. rewrite initGap_ok. cbn [obind].
  rewrite (smoothWeights_ok h w c0) by (auto using rrect_repeat, rrect_rmat). cbn [obind fst snd].
  rewrite (smoothWeights_ok h w c1) by (auto using rrect_repeat, rrect_rmat). cbn [obind fst snd].
  rewrite (smoothWeights_ok h w c2) by (auto using rrect_repeat, rrect_rmat). cbn [obind fst snd].
  rewrite (gapFactors_ok h w) by apply rrect_rmat. cbn [obind].
  rewrite (smoothBlend_ok h w c0) by (auto using rrect_repeat, rrect_rmat). cbn [obind].
  rewrite (smoothBlend_ok h w c1) by (auto using rrect_repeat, rrect_rmat). cbn [obind].
  rewrite (smoothBlend_ok h w c2) by (auto using rrect_repeat, rrect_rmat). cbn [obind].
  assert (EI : forall y x, inner h w y x = ((0 <? y) && (S y <? h) && (0 <? x) && (S x <? w))).
  { intros. unfold inner, inner_row. now rewrite !andb_assoc. }
  assert (ER : forall y x, inner h w y x = true -> inner_row h y = true) by (intros y x E; unfold inner in E; now apply andb_true_iff in E).
  f_equal. f_equal; [f_equal|]; apply rmat_ext; intros y x Hy Hx; unfold f, smoothed; rewrite <- EI; rewrite !pixel_rmat by assumption;
    destruct (inner h w y x) eqn:E; try reflexivity; rewrite (ER y x E); cbn [three];
    unfold keep, code_measure, mean; cbn [three]; ring.
Qed.

Lemma oloop_pres {S} (P : S -> Prop) f : (forall i s s', P s -> f i s = Ok s' -> P s') -> forall n i0 s s', P s -> oloop n i0 f s = Ok s' -> P s'.
Proof.
  intros Hf. induction n as [|n IH]; intros i0 s s' Hs H; cbn [oloop] in H; [now injection H as <-|].
  destruct (f i0 s) as [t| |] eqn:E; cbn [obind] in H; try discriminate. eapply IH; [|exact H]. eauto.
Qed.
Lemma slice_set_rect h w m z r m' : rrect h w m -> length r = w -> slice_set m z r = Ok m' -> rrect h w m'.
Proof.
  intros [L F] Hr E. unfold slice_set in E. destruct ((z <? 0)%Z || (Z.of_nat (length m) <=? z)%Z); [discriminate|]. injection E as <-.
  split; [now rewrite list_set_length|]. apply Forall_forall. intros q Hq. apply list_set_In in Hq as [->|Hq]; [assumption|]. rewrite Forall_forall in F. auto.
Qed.
Lemma rset2_pres h w m y x v m' : rrect h w m -> rset2 m y x v = Ok m' -> rrect h w m'.
Proof.
  intros H E. unfold rset2 in E. destruct (slice_get m y) as [r| |] eqn:E1; cbn [obind] in E; try discriminate.
  destruct (slice_set r x v) as [r'| |] eqn:E2; cbn [obind] in E; try discriminate.
  apply (slice_set_rect h w m y r' m' H); [|exact E].
  assert (length r = w). { unfold slice_get in E1. destruct (y <? 0)%Z; [discriminate|].
    destruct (nth_error m (Z.to_nat y)) eqn:E3; [|discriminate]. injection E1 as ->. destruct H as [_ F]. rewrite Forall_forall in F. apply F. eapply nth_error_In; eauto. }
  unfold slice_set in E2. destruct ((x <? 0)%Z || (Z.of_nat (length r) <=? x)%Z); [discriminate|]. injection E2 as <-. now rewrite list_set_length.
Qed.
Lemma copy_pres h w b pY pX m m' : rrect h w m -> copyLFFrame b pY pX m = Ok m' -> rrect h w m'.
Proof.
  intros H E. unfold copyLFFrame in E. revert E. apply oloop_pres; [|exact H]. clear m m' H. intros y m m' H E.
  destruct (slice_get m (Z.of_nat y)) as [r| |]; cbn [obind] in E; try discriminate. revert E. apply oloop_pres; [|exact H]. clear m m' H. intros x m m' H E.
  destruct (rget2 b _ _) as [v| |]; cbn [obind] in E; try discriminate. eapply rset2_pres; eauto.
Qed.


Lemma lfBefore_shape p b d : shifts_ok p -> lfBefore p b = Ok d -> forall i, rrect (chan_h p i) (chan_w p i) (part d i).
Proof.
  intros HS E. unfold lfBefore in E. destruct (negb (lp_skipSmoothing p || lp_useLFFrame p) && subSampled p)%bool; [discriminate|].
  unfold shifts_ok in HS. unfold chan_h, chan_w. destruct (lp_shiftY p) as [[y0 y1] y2], (lp_shiftX p) as [[x0 x1] x2].
  pose proof (HS 0) as S0. pose proof (HS 1) as S1. pose proof (HS 2) as S2. cbn [part three] in S0, S1, S2. clear HS.
  rewrite !Z.shiftr_div_pow2 in E by apply S0 || apply S1 || apply S2. destruct (lp_useLFFrame p).
  - destruct (slice_get b 0) as [b0| |]; cbn [obind] in E; try discriminate. destruct (copyLFFrame b0 _ _ _) as [d0| |] eqn:E0; cbn [obind] in E; try discriminate.
    destruct (slice_get b 1) as [b1| |]; cbn [obind] in E; try discriminate. destruct (copyLFFrame b1 _ _ _) as [d1| |] eqn:E1; cbn [obind] in E; try discriminate.
    destruct (slice_get b 2) as [b2| |]; cbn [obind] in E; try discriminate. destruct (copyLFFrame b2 _ _ _) as [d2| |] eqn:E2; cbn [obind] in E; try discriminate.
    injection E as <-. intros i. destruct i as [|[|i]]; cbn [part three]; eapply copy_pres; eauto; apply rrect_repeat.
  - injection E as <-. intros i. destruct i as [|[|i]]; cbn [part three]; apply rrect_repeat.
Qed.

(* which channel of the stream holds channel i *)
Definition stream_channel (i : nat) : nat := three 1 0 2 i.
Definition chan_value (p : LFParams) (e : Z) (qs : list (list (list Z))) (i y x : nat) : R :=
  (IZR (px (nth (stream_channel i) qs []) y x) * (part (lp_scaled p) i / IZR (Z.shiftl 1 e)))%R.
Definition correlated (p : LFParams) (e : Z) (qs : list (list (list Z))) (i y x : nat) : R :=
  match i with
  | 0 => (chan_value p e qs 0 y x + correlation (lp_baseX p) (lp_xFactorLF p) (lp_colorFactor p) * chan_value p e qs 1 y x)%R
  | 1 => chan_value p e qs 1 y x
  | _ => (chan_value p e qs 2 y x + correlation (lp_baseB p) (lp_bFactorLF p) (lp_colorFactor p) * chan_value p e qs 1 y x)%R
  end.

Lemma not_subsampled p i : subSampled p = false -> chan_h p i = Z.to_nat (lp_height p) /\ chan_w p i = Z.to_nat (lp_width p).
Proof.
  unfold subSampled, chan_h, chan_w. destruct (lp_shiftY p) as [[y0 y1] y2], (lp_shiftX p) as [[x0 x1] x2]. cbn [is0]. intros H.
  assert (y0 = 0 /\ y1 = 0 /\ y2 = 0 /\ x0 = 0 /\ x1 = 0 /\ x2 = 0)%Z as (-> & -> & -> & -> & -> & ->) by lia.
  destruct i as [|[|i]]; cbn [part three]; rewrite !Z.div_1_r; auto.
Qed.

Definition image (p : LFParams) (f : nat -> nat -> nat -> R) : list (list R) * list (list R) * list (list R) :=
  (rmat (chan_h p 0) (chan_w p 0) (f 0), rmat (chan_h p 1) (chan_w p 1) (f 1), rmat (chan_h p 2) (chan_w p 2) (f 2)).

Lemma lfAfter_ok p d e qs : length qs = 3 -> (forall i, rrect (chan_h p i) (chan_w p i) (part d i)) ->
  (forall i, i < 3 -> rect (chan_h p i) (chan_w p i) (nth (stream_channel i) qs [])) ->
  (lp_skipSmoothing p || lp_useLFFrame p = false -> subSampled p = false /\ (0 < lp_height p)%Z /\ (0 < lp_width p)%Z) ->
  lfAfter p d e qs = Ok (image p
    (if lp_skipSmoothing p || lp_useLFFrame p then if subSampled p then chan_value p e qs else correlated p e qs
     else smoothed code_measure (chan_h p 0) (chan_w p 0) (part (lp_scaled p)) (correlated p e qs))).
Proof.
  intros L3 Hd Hq Hs. unfold lfAfter, image. destruct d as [[d0 d1] d2]. pose proof (Hd 0) as R0. pose proof (Hd 1) as R1. pose proof (Hd 2) as R2. cbn [part three] in R0, R1, R2.
  pose proof (Hq 0 ltac:(lia)) as Q0. pose proof (Hq 1 ltac:(lia)) as Q1. pose proof (Hq 2 ltac:(lia)) as Q2. cbn [stream_channel three] in Q0, Q1, Q2.
  destruct qs as [|q0 [|q1 [|q2 [|q3 qs]]]]; cbn [length] in L3; try lia. cbn [nth] in Q0, Q1, Q2.
  destruct (lp_scaled p) as [[s0 s1] s2] eqn:ES. cbv zeta. change (slice_get cMap 0) with (Ok 1%Z). change (slice_get cMap 1) with (Ok 0%Z). change (slice_get cMap 2) with (Ok 2%Z). cbn [obind].
  change (slice_get [q0; q1; q2] 1) with (Ok q1). change (slice_get [q0; q1; q2] 0) with (Ok q0). change (slice_get [q0; q1; q2] 2) with (Ok q2). cbn [obind].
  rewrite (dequant_ok _ _ _ _ _ Q0 R0), (dequant_ok _ _ _ _ _ Q1 R1), (dequant_ok _ _ _ _ _ Q2 R2). cbn [obind].
  assert (V0 : chan_value p e [q0; q1; q2] 0 = (fun y x => IZR (px q1 y x) * (s0 / IZR (Z.shiftl 1 e)))%R) by (unfold chan_value; now rewrite ES).
  assert (V1 : chan_value p e [q0; q1; q2] 1 = (fun y x => IZR (px q0 y x) * (s1 / IZR (Z.shiftl 1 e)))%R) by (unfold chan_value; now rewrite ES).
  assert (V2 : chan_value p e [q0; q1; q2] 2 = (fun y x => IZR (px q2 y x) * (s2 / IZR (Z.shiftl 1 e)))%R) by (unfold chan_value; now rewrite ES).
  rewrite <- V0, <- V1, <- V2. clear V0 V1 V2. destruct (subSampled p) eqn:ESub.
  - cbn [obind]. destruct (lp_skipSmoothing p || lp_useLFFrame p) eqn:EK; [reflexivity|]. destruct (Hs eq_refl). discriminate.
  - destruct (not_subsampled p 0 ESub) as [h0 w0]. destruct (not_subsampled p 1 ESub) as [h1 w1]. destruct (not_subsampled p 2 ESub) as [h2 w2].
    rewrite h0, w0, h1, w1, h2, w2. rewrite (correlate_ok (Z.to_nat (lp_height p)) (Z.to_nat (lp_width p))) by apply rrect_rmat. cbn [obind fst snd].
    set (H := Z.to_nat (lp_height p)) in *. set (W := Z.to_nat (lp_width p)) in *. set (cv := chan_value p e [q0; q1; q2]).
    assert (E0 : rmat H W (fun y x => pixel (rmat H W (cv 0%nat)) y x + correlation (lp_baseX p) (lp_xFactorLF p) (lp_colorFactor p) * pixel (rmat H W (cv 1%nat)) y x)%R = rmat H W (correlated p e [q0; q1; q2] 0)).
    { apply rmat_ext. intros y x Hy Hx. rewrite !pixel_rmat by assumption. reflexivity. }
    assert (E2 : rmat H W (fun y x => pixel (rmat H W (cv 2%nat)) y x + correlation (lp_baseB p) (lp_bFactorLF p) (lp_colorFactor p) * pixel (rmat H W (cv 1%nat)) y x)%R = rmat H W (correlated p e [q0; q1; q2] 2)).
    { apply rmat_ext. intros y x Hy Hx. rewrite !pixel_rmat by assumption. reflexivity. }
    rewrite E0, E2. change (cv 1%nat) with (correlated p e [q0; q1; q2] 1).
    destruct (lp_skipSmoothing p || lp_useLFFrame p) eqn:EK; [reflexivity|]. destruct (Hs eq_refl) as (_ & PH & PW).
    rewrite (adaptiveSmooth_ok H W) by (try apply rrect_rmat; unfold H, W; lia).
    assert (ET : forall c y x, y < H -> x < W -> c < 3 -> smoothed code_measure H W (three s0 s1 s2)
        (fun i => pixel (three (rmat H W (correlated p e [q0; q1; q2] 0)) (rmat H W (correlated p e [q0; q1; q2] 1)) (rmat H W (correlated p e [q0; q1; q2] 2)) i)) c y x =
        smoothed code_measure H W (part (s0, s1, s2)) (correlated p e [q0; q1; q2]) c y x).
    { intros c y x Hy Hx Hc. unfold smoothed. destruct ((0 <? y) && (S y <? H) && (0 <? x) && (S x <? W)) eqn:EI.
      - unfold keep, neighbourhood. cbn [three part]. rewrite !pixel_rmat by lia.
        assert (c = 0 \/ c = 1 \/ c = 2) as [->|[->| ->]] by lia; cbn [three]; rewrite !pixel_rmat by lia; reflexivity.
      - assert (c = 0 \/ c = 1 \/ c = 2) as [->|[->| ->]] by lia; cbn [three]; rewrite !pixel_rmat by lia; reflexivity. }
    f_equal. f_equal; [f_equal|]; apply rmat_ext; intros y x Hy Hx; apply ET; auto; lia.
Qed.

(* ---- mathematics of the smoothing ---- *)
Lemma weights_sum : (w_self + 4 * w_side + 4 * w_corner = 1)%R.
Proof. unfold w_self, w_side, w_corner. lra. Qed.
Lemma keep_range m s f y x : (0 <= keep m s f y x <= 1)%R.
Proof.
  unfold keep. cbv zeta. set (a := Rmax _ (m (Rabs (f 2 _ _ - _)) _)). split; [apply Rmax_l|].
  assert (1 / 2 <= a)%R. { unfold a. eapply Rle_trans; [|apply Rmax_l]. eapply Rle_trans; [|apply Rmax_l]. apply Rmax_l. }
  apply Rmax_lub; lra.
Qed.
Lemma keep_all m s f y x : (forall c, (c < 3)%nat -> m (Rabs (f c y x - neighbourhood (f c) y x)) (s c) <= 1 / 2)%R -> keep m s f y x = 1%R.
Proof.
  intros H. unfold keep. cbv zeta. rewrite (Rmax_left (1 / 2)) by (apply H; lia). rewrite (Rmax_left (1 / 2)) by (apply H; lia).
  rewrite (Rmax_left (1 / 2)) by (apply H; lia). rewrite Rmax_right; lra.
Qed.
Lemma neighbourhood_const f v y x : (forall y' x', f y' x' = v) -> neighbourhood f y x = v.
Proof. intros H. unfold neighbourhood. rewrite !H. pose proof weights_sum. nra. Qed.
Lemma neighbourhood_bounds f lo hi y x : (forall y' x', lo <= f y' x' <= hi)%R -> (lo <= neighbourhood f y x <= hi)%R.
Proof.
  intros H. unfold neighbourhood, w_self, w_side, w_corner.
  pose proof (H y x). pose proof (H y (x - 1)). pose proof (H y (x + 1)). pose proof (H (y - 1) x). pose proof (H (y + 1) x).
  pose proof (H (y - 1) (x - 1)). pose proof (H (y - 1) (x + 1)). pose proof (H (y + 1) (x - 1)). pose proof (H (y + 1) (x + 1)). lra.
Qed.
