(* The inverse palette transform. *)
From Coq Require Import ZArith List Bool Lia Arith ZifyBool ZifyNat.
From Verif Require Import GoBase GoLoop GoMatrix ModelUtil ModelEntropy ModelModular SpecModular SpecPalette ProofUtil ProofCodes ProofSqueeze ProofModular ProofPredict.
Import ListNotations.
Open Scope Z_scope.

Lemma delta_entry i c : (i < 72)%nat -> (c < 3)%nat -> px kDeltaPalette i c = deltaTable i c.
Proof. intros Hi Hc. do 72 (destruct i as [|i]; [destruct c as [|[|[|c]]]; [reflexivity|reflexivity|reflexivity|lia]|]). lia. Qed.
Lemma delta_rect : rect 72 3 kDeltaPalette.
Proof. split; [reflexivity|]. repeat constructor. Qed.
Lemma delta_small i c : (i < 72)%nat -> (c < 3)%nat -> - 144 <= deltaTable i c <= 144.
Proof.
  intros Hi Hc. rewrite <- delta_entry by assumption. apply (rect_within 144 72 3); [exact delta_rect| |assumption|assumption].
  unfold samples_within. repeat (constructor; [repeat (constructor; [lia|]); constructor|]). constructor.
Qed.
Lemma divN_ok c : forall i, 0 <= i -> divN c i = i / 5 ^ Z.of_nat c.
Proof.
  unfold divN. induction c as [|c IH]; intros i Hi; cbn [Nat.iter]; [symmetry; apply Z.div_1_r|].
  change (Nat.iter (S c) (fun i => Z.quot i 5) i) with (Z.quot (Nat.iter c (fun i => Z.quot i 5) i) 5). rewrite IH by assumption.
  pose proof (Z.pow_pos_nonneg 5 (Z.of_nat c) ltac:(lia) ltac:(lia)).
  rewrite Z.quot_div_nonneg by (try apply Z.div_pos; lia). rewrite Z.div_div by lia. f_equal.
  replace (Z.of_nat (S c)) with (Z.succ (Z.of_nat c)) by lia. rewrite Z.pow_succ_r by lia. lia.
Qed.
Lemma shl32_1 d : 0 <= d <= 30 -> shl32 1 d = 2 ^ d.
Proof.
  intros H. unfold shl32. destruct (Z.leb_spec 32 d); [lia|]. rewrite Z.shiftl_mul_pow2 by lia. rewrite Z.mul_1_l.
  assert (2 ^ d <= 2 ^ 30) by (apply Z.pow_le_mono_r; lia). pose proof (Z.pow_pos_nonneg 2 d ltac:(lia) ltac:(lia)). apply i32_small. lia.
Qed.
Lemma pow_bound d : 3 <= d <= 24 -> 8 <= 2 ^ d <= 2 ^ 24.
Proof. intros H. split; [change 8 with (2 ^ 3)|]; apply Z.pow_le_mono_r; lia. Qed.

Section value.
  Context (palette : list (list Z)) (nb depth : Z) (nc : nat).
  Hypothesis HP : nb = 0 \/ rect nc (Z.to_nat nb) palette. Hypothesis Hnb : 0 <= nb < 2 ^ 20. Hypothesis Hd : 3 <= depth <= 24.
  Lemma value_ok c index : (c < nc)%nat -> - 2 ^ 31 <= index < 2 ^ 31 ->
    paletteValue palette nb depth c index = Ok (pal_value deltaTable palette nb depth c index).
  Proof.
    intros Hc Hi. unfold paletteValue, pal_value. rewrite (i32_small nb) by lia. pose proof (pow_bound depth Hd) as PB.
    destruct (Z.ltb_spec index 0) as [N|N].
    - replace (0 <=? index) with false by lia. cbn [andb]. replace (nb <=? index) with false by lia.
      destruct (Nat.ltb_spec c 3) as [C|C]; [|replace (Z.of_nat c <? 3) with false by lia; reflexivity].
      replace (Z.of_nat c <? 3) with true by lia. cbv zeta. rewrite (i32_small (- index - 1)) by lia. rewrite Z.rem_mod_nonneg by lia.
      pose proof (Z.mod_pos_bound (- index - 1) 143 ltac:(lia)) as MB. set (j := (- index - 1) mod 143) in *. clearbody j.
      rewrite shr1. assert (JB : 0 <= (j + 1) / 2 < 72) by (split; [apply Z.div_pos; lia|apply Z.div_lt_upper_bound; lia]).
      rewrite (get2_ok 72 3) by (exact delta_rect || lia). cbn [obind]. rewrite Nat2Z.id.
      rewrite (delta_entry (Z.to_nat ((j + 1) / 2)) c) by (exact C || lia).
      pose proof (delta_small (Z.to_nat ((j + 1) / 2)) c ltac:(lia) C) as DB. set (v := deltaTable _ _) in *. clearbody v.
      rewrite land1. rewrite (i32_small (- v)) by lia. set (v' := if j mod 2 =? 0 then - v else v).
      assert (VB : - 144 <= v' <= 144) by (unfold v'; destruct (j mod 2 =? 0); lia). clearbody v'. f_equal.
      destruct (Z.ltb_spec 8 depth); [|lia]. unfold shl32. replace (Z.min depth 24) with depth by lia.
      destruct (Z.leb_spec 32 (depth - 8)); [lia|]. rewrite Z.shiftl_mul_pow2 by lia.
      assert (1 <= 2 ^ (depth - 8) <= 2 ^ 16) by (split; [change 1 with (2 ^ 0)|]; apply Z.pow_le_mono_r; lia).
      apply i32_small. nia.
    - replace (0 <=? index) with true by lia. cbn [andb]. destruct (Z.ltb_spec index nb) as [B|B].
      + destruct HP as [HP0|HP1]; [lia|]. rewrite (get2_ok nc (Z.to_nat nb)) by (assumption || lia). rewrite Nat2Z.id. reflexivity.
      + replace (nb <=? index) with true by lia. cbv zeta. rewrite (i32_small (index - nb)) by lia.
        rewrite shl32_1 by lia. rewrite (i32_small (2 ^ depth - 1)) by lia.
        destruct (Z.ltb_spec (index - nb) 64) as [L|L].
        * rewrite Z.shiftr_div_pow2 by lia. replace (2 ^ (2 * Z.of_nat c)) with (4 ^ Z.of_nat c) by (rewrite Z.pow_mul_r by lia; reflexivity).
          pose proof (Z.pow_pos_nonneg 4 (Z.of_nat c) ltac:(lia) ltac:(lia)). pose proof (Z.div_pos (index - nb) (4 ^ Z.of_nat c) ltac:(lia) ltac:(lia)) as QB.
          set (q := (index - nb) / 4 ^ Z.of_nat c) in *. clearbody q. rewrite Z.rem_mod_nonneg by lia. pose proof (Z.mod_pos_bound q 4 ltac:(lia)) as MB. set (r := q mod 4) in *. clearbody r.
          assert (RB : 0 <= r * (2 ^ depth - 1) <= 3 * 2 ^ 24) by nia. rewrite (i32_small (r * _)) by lia. rewrite Z.quot_div_nonneg by lia.
          rewrite (u32_small (depth - 3)) by lia. rewrite shl32_1 by lia. f_equal.
          assert (0 <= r * (2 ^ depth - 1) / 4 <= 2 ^ 24) by (split; [apply Z.div_pos; lia|apply Z.div_le_upper_bound; lia]).
          assert (2 ^ Z.max 0 (depth - 3) <= 2 ^ 24) by (apply Z.pow_le_mono_r; lia). pose proof (Z.pow_pos_nonneg 2 (Z.max 0 (depth - 3)) ltac:(lia) ltac:(lia)).
          apply i32_small. lia.
        * rewrite (i32_small (index - nb - 64)) by lia. rewrite divN_ok by lia.
          pose proof (Z.pow_pos_nonneg 5 (Z.of_nat c) ltac:(lia) ltac:(lia)). pose proof (Z.div_pos (index - nb - 64) (5 ^ Z.of_nat c) ltac:(lia) ltac:(lia)) as QB.
          set (q := (index - nb - 64) / 5 ^ Z.of_nat c) in *. clearbody q. rewrite Z.rem_mod_nonneg by lia. pose proof (Z.mod_pos_bound q 5 ltac:(lia)) as MB. set (r := q mod 5) in *. clearbody r.
          assert (RB : 0 <= r * (2 ^ depth - 1) <= 4 * 2 ^ 24) by nia. rewrite (i32_small (r * _)) by lia. rewrite Z.quot_div_nonneg by lia. reflexivity.
  Qed.

  (* one channel *)
  Context (nbDeltas dPred : Z) (h w : nat).
  Hypothesis HD : 0 <= nbDeltas < 2 ^ 20. Hypothesis Hk : 0 <= dPred <= 13. Hypothesis Hk6 : dPred <> 6.
  Hypothesis Hw : Z.of_nat w < 2 ^ 31 - 1.
  Lemma pred_nowp b p1 p2 y x : prediction (Z.of_nat w) b p1 y x dPred = prediction (Z.of_nat w) b p2 y x dPred.
  Proof.
    assert (C : In dPred [0;1;2;3;4;5;7;8;9;10;11;12;13]) by (cbn; lia). clear Hk Hk6.
    cbn in C. repeat (destruct C as [<-|C]); try reflexivity. destruct C.
  Qed.
  Lemma channel_ok c ch : (c < nc)%nat -> c_width ch = Z.of_nat w -> rect h w (c_buf ch) -> samples_i32 (c_buf ch) ->
    exists out, paletteChannel palette nb nbDeltas dPred depth c (Z.of_nat h) (Z.of_nat w) ch = Ok (set_buf ch out) /\ rect h w out /\
      forall y x, (y < h)%nat -> (x < w)%nat -> exists p, prediction (Z.of_nat w) out (c_pred ch) (Z.of_nat y) (Z.of_nat x) dPred = Ok p /\
        px out y x = if px (c_buf ch) y x <? nbDeltas then i32 (pal_value deltaTable palette nb depth c (px (c_buf ch) y x) + p)
                     else pal_value deltaTable palette nb depth c (px (c_buf ch) y x).
  Proof.
    intros Hc Ew R S. unfold paletteChannel. rewrite !Nat2Z.id. set (B := c_buf ch) in *.
    set (V := fun y x => pal_value deltaTable palette nb depth c (px B y x)).
    set (P := fun (y x : nat) (m : list (list Z)) => rect h w m /\
      forall y' x', (y' < h)%nat -> (x' < w)%nat ->
        (before y' x' y x -> exists p, prediction (Z.of_nat w) m (c_pred ch) (Z.of_nat y') (Z.of_nat x') dPred = Ok p /\ px m y' x' = if px B y' x' <? nbDeltas then i32 (V y' x' + p) else V y' x')
        /\ (~ before y' x' y x -> px m y' x' = px B y' x')).
    match goal with |- context [loop2 _ _ ?body _] => destruct (loop2_inv P body h w B) as (out & E & RO & PO) end.
    - split; [exact R|]. intros y' x' _ _. unfold before. split; [lia|reflexivity].
    - intros y x m Hy Hx [Rm Pm]. cbv zeta. rewrite (get2_ok h w) by (assumption || lia). cbn [obind]. rewrite !Nat2Z.id.
      destruct (Pm y x Hy Hx) as [_ Pc]. rewrite Pc by (unfold before; lia).
      rewrite value_ok by (assumption || (apply (rect_i32 h w); assumption)). cbn [obind]. fold (V y x). rewrite (i32_small nbDeltas) by lia.
      destruct (set2_ok h w m (Z.of_nat y) (Z.of_nat x) (V y x) Rm ltac:(lia) ltac:(lia)) as (m1 & E1 & R1 & P1). rewrite E1. cbn [obind]. rewrite !Nat2Z.id in P1.
      rewrite Ew, (i32_small (Z.of_nat w)) by lia.
      assert (L : forall m' v, rect h w m' -> (forall y' x', px m' y' x' = if (y' =? y)%nat && (x' =? x)%nat then v else px m y' x') ->
        (exists p, prediction (Z.of_nat w) m' (c_pred ch) (Z.of_nat y) (Z.of_nat x) dPred = Ok p /\ v = if px B y x <? nbDeltas then i32 (V y x + p) else V y x) -> P y (Datatypes.S x) m').
      { intros m' v R' P' (p & Ep & Ev). split; [exact R'|]. intros y' x' Hy' Hx'.
        assert (LOC : before y' x' y (Datatypes.S x) -> prediction (Z.of_nat w) m' (c_pred ch) (Z.of_nat y') (Z.of_nat x') dPred = prediction (Z.of_nat w) m (c_pred ch) (Z.of_nat y') (Z.of_nat x') dPred).
        { intros Hb. apply (prediction_local h w); try assumption. intros y2 x2 B2 _ _. rewrite P'.
          destruct (Nat.eqb_spec y2 y), (Nat.eqb_spec x2 x); cbn [andb]; try reflexivity. unfold before in *. lia. }
        split.
        - intros Hb. destruct (Nat.eqb_spec y' y) as [->|Ny]; [destruct (Nat.eqb_spec x' x) as [->|Nx]|].
          + exists p. split; [exact Ep|]. rewrite P', !Nat.eqb_refl. cbn [andb]. exact Ev.
          + rewrite LOC by assumption. rewrite P'. replace (x' =? x)%nat with false by lia. rewrite andb_false_r.
            apply (proj1 (Pm y x' Hy' Hx')). unfold before in *. lia.
          + rewrite LOC by assumption. rewrite P'. replace (y' =? y)%nat with false by lia. cbn [andb].
            apply (proj1 (Pm y' x' Hy' Hx')). unfold before in *. lia.
        - intros Hb. rewrite P'. replace ((y' =? y)%nat && (x' =? x)%nat) with false by (unfold before in Hb; lia).
          apply (proj2 (Pm y' x' Hy' Hx')). unfold before in *. lia. }
      destruct (prediction_value h w m1 y x R1 Hy Hx Hw m1 dPred R1 ltac:(lia)) as (p & Ep).
      rewrite (pred_nowp m1 m1 (c_pred ch)) in Ep.
      destruct (Z.ltb_spec (px B y x) nbDeltas) as [D|D].
      + rewrite Ep. cbn [obind].
        destruct (set2_ok h w m1 (Z.of_nat y) (Z.of_nat x) (i32 (V y x + p)) R1 ltac:(lia) ltac:(lia)) as (m2 & E2 & R2 & P2). rewrite !Nat2Z.id in P2.
        exists m2. split; [exact E2|]. apply (L m2 (i32 (V y x + p)) R2).
        * intros y' x'. rewrite P2, P1. destruct ((y' =? y)%nat && (x' =? x)%nat); reflexivity.
        * exists p. split; [|destruct (Z.ltb_spec (px B y x) nbDeltas); [reflexivity|lia]].
          rewrite <- Ep. apply (prediction_local h w); try assumption. intros y2 x2 B2 _ _. rewrite P2.
          destruct (Nat.eqb_spec y2 y), (Nat.eqb_spec x2 x); cbn [andb]; try reflexivity. unfold before in B2. lia.
      + exists m1. split; [reflexivity|]. apply (L m1 (V y x) R1 P1). exists p. split; [exact Ep|]. destruct (Z.ltb_spec (px B y x) nbDeltas); [lia|reflexivity].
    - intros y m Hy [Rm Pm]. split; [exact Rm|]. intros y' x' Hy' Hx'. destruct (Pm y' x' Hy' Hx') as [P1 P2]. unfold before in *.
      split; intros Hb; [apply P1|apply P2]; lia.
    - exists out. rewrite E. split; [reflexivity|]. split; [exact RO|]. intros y x Hy Hx. apply (proj1 (PO y x Hy Hx)). unfold before. lia.
  Qed.
End value.

(* ---- the list of channels ---- *)
Lemma addList_Add {A} pad1 pad2 (s : GoSlice A) p e : (sl_off s + sl_len s <= length (sl_arr s))%nat -> (p <= length (contents s))%nat ->
  exists s', Add pad1 pad2 s p e = Ok s' /\ addList (contents s) (Z.of_nat p) e = Ok (contents s').
Proof.
  intros Hs Hp. pose proof (contents_length s Hs) as CL. rewrite CL in Hp.
  destruct (Add_ok pad1 pad2 s p e Hs Hp) as (s' & E & C). exists s'. split; [exact E|]. unfold addList. rewrite C.
  replace (Z.of_nat p <? 0) with false by lia. replace (Z.of_nat (length (contents s)) <? Z.of_nat p) with false by lia. cbn [orb]. rewrite Nat2Z.id.
  rewrite CL. destruct (Nat.eqb_spec p (sl_len s)) as [->|N].
  - replace (sl_len s <? sl_len s)%nat with false by lia. reflexivity.
  - replace (p <? sl_len s)%nat with true by lia. reflexivity.
Qed.

Lemma nth_repeat_lt {A} (a d : A) n : forall i, (i < n)%nat -> nth i (repeat a n) d = a.
Proof. induction n as [|n IH]; intros [|i] H; cbn; try lia; [reflexivity|apply IH; lia]. Qed.
Lemma copyRow_same d s : length d = length s -> copyRow d s = s.
Proof. intros H. unfold copyRow. rewrite H, firstn_all, <- H, skipn_all, app_nil_r. reflexivity. Qed.
Lemma chanFromChan_ok h w ch : c_height ch = Z.of_nat h -> c_width ch = Z.of_nat w -> (1 <= h)%nat -> (1 <= w)%nat -> Z.of_nat h < 2 ^ 31 -> Z.of_nat w < 2 ^ 31 ->
  rect h w (c_buf ch) -> chanFromChan ch = Ok (mkChan (c_height ch) (c_width ch) (c_vshift ch) (c_hshift ch) (c_forceWP ch) (c_buf ch) (c_decoded ch) []).
Proof.
  intros Eh Ew Hh Hw Bh Bw R. unfold chanFromChan, newChan. rewrite Eh, Ew. rewrite !i32_small, !u32_small by lia.
  cbn [c_height c_width c_vshift c_hshift c_forceWP]. destruct (c_buf ch) as [|r0 rs] eqn:EB; [destruct R as [R1 _]; cbn in R1; lia|]. rewrite <- EB in *.
  unfold allocate. cbn [c_height c_width c_buf length Nat.eqb negb]. replace (Z.of_nat h =? 0) with false by lia. replace (Z.of_nat w =? 0) with false by lia. cbn [orb].
  unfold set_buf at 1 2 3. cbn [c_height c_buf]. rewrite Nat2Z.id.
  match goal with |- obind (oloop _ _ ?f _) _ = _ =>
    destruct (oloop_inv (fun y b => length b = h /\ forall i, (i < h)%nat -> nth i b [] = if (i <? y)%nat then nth i (c_buf ch) [] else repeat 0 w) f h 0 (zeros2 (Z.of_nat h) (Z.of_nat w))) as (b & E & L & P) end.
  - unfold zeros2. rewrite !Nat2Z.id, repeat_length. split; [reflexivity|]. intros i Hi. replace (i <? 0)%nat with false by lia. apply nth_repeat_lt. exact Hi.
  - intros y b Hy [L P]. rewrite (slice_get_ok b _ []), (slice_get_ok (c_buf ch) _ []) by (destruct R; lia). cbn [obind]. rewrite Nat2Z.id.
    rewrite slice_set_ok by lia. rewrite Nat2Z.id. eexists. split; [reflexivity|]. rewrite list_set_length. split; [exact L|].
    intros i Hi. rewrite nth_list_set by lia. destruct (Nat.eqb_spec i y) as [->|N].
    + replace (y <? S y)%nat with true by lia. apply copyRow_same. rewrite P by lia. replace (y <? y)%nat with false by lia. rewrite repeat_length. symmetry. apply (rect_row h w); [assumption|lia].
    + rewrite P by lia. replace (i <? S y)%nat with (i <? y)%nat by lia. reflexivity.
  - cbn [Nat.add] in P. assert (b = c_buf ch).
    { apply (nth_ext_len b (c_buf ch) []); [destruct R; lia|]. intros i Hi. rewrite P by lia. replace (i <? h)%nat with true by lia. reflexivity. }
    subst b. rewrite E. reflexivity.
Qed.

(* all channels of a palette that is the last one of the stream *)
Definition copyOf (ch : Chan) : Chan := mkChan (c_height ch) (c_width ch) (c_vshift ch) (c_hshift ch) (c_forceWP ch) (c_buf ch) (c_decoded ch) [].
Lemma addList_end {A} (l : list A) e : addList l (Z.of_nat (length l)) e = Ok (l ++ [e]).
Proof.
  unfold addList. replace (Z.of_nat (length l) <? 0) with false by lia. rewrite Z.ltb_irrefl. cbn [orb]. rewrite Nat2Z.id, Nat.ltb_irrefl, firstn_all. reflexivity.
Qed.

Lemma palette_list nb depth nbDeltas dPred h w nc pal pre idx : nb = 0 \/ rect nc (Z.to_nat nb) (c_buf pal) -> 0 <= nb < 2 ^ 20 -> 3 <= depth <= 24 -> 0 <= nbDeltas < 2 ^ 20 ->
  0 <= dPred <= 13 -> dPred <> 6 -> (1 <= h)%nat -> (1 <= w)%nat -> Z.of_nat h < 2 ^ 31 -> Z.of_nat w < 2 ^ 31 - 1 -> (1 <= nc)%nat ->
  c_height idx = Z.of_nat h -> c_width idx = Z.of_nat w -> rect h w (c_buf idx) -> samples_i32 (c_buf idx) ->
  exists outs, inversePalette (Z.of_nat (length pre)) (Z.of_nat nc) nb nbDeltas dPred depth (pal :: pre ++ [idx]) = Ok (pre ++ outs) /\ (length outs = nc)%nat /\
    forall c, (c < nc)%nat -> exists out, nth c outs pal = set_buf (if (c =? 0)%nat then idx else copyOf idx) out /\ rect h w out /\
      forall y x, (y < h)%nat -> (x < w)%nat -> exists p, (forall P, prediction (Z.of_nat w) out P (Z.of_nat y) (Z.of_nat x) dPred = Ok p) /\
        px out y x = if px (c_buf idx) y x <? nbDeltas then i32 (pal_value deltaTable (c_buf pal) nb depth c (px (c_buf idx) y x) + p)
                     else pal_value deltaTable (c_buf pal) nb depth c (px (c_buf idx) y x).
Proof.
  intros HP Hnb Hd HD Hk Hk6 Hh Hw Bh Bw Hnc Eh Ew R S. unfold inversePalette. cbv zeta.
  set (k := length pre).
  rewrite (slice_get_ok (pal :: pre ++ [idx]) (Z.of_nat k + 1) pal) by (cbn [length]; rewrite app_length; cbn [length]; lia).
  replace (Z.to_nat (Z.of_nat k + 1)) with (Datatypes.S k) by lia. cbn [nth obind].
  rewrite app_nth2 by lia. fold k. replace (k - k)%nat with 0%nat by lia. cbn [nth].
  rewrite (slice_get_ok (pal :: pre ++ [idx]) 0 pal) by (cbn [length]; lia). change (Z.to_nat 0) with 0%nat. cbn [nth obind].
  pose proof (chanFromChan_ok h w idx Eh Ew Hh Hw Bh ltac:(lia) R) as EC.
  set (chs := fun j => pal :: pre ++ idx :: repeat (copyOf idx) j).
  match goal with |- exists outs, obind (oloop _ _ ?f _) _ = _ /\ _ =>
    destruct (oloop_inv (fun j l => l = chs j) f (nc - 1) 0 (pal :: pre ++ [idx])) as (l & E & ->) end.
  { reflexivity. }
  { intros j l Hj ->. rewrite EC. cbn [obind]. eexists. split; [|reflexivity].
    replace (Z.of_nat k + 1 + 1 + Z.of_nat j) with (Z.of_nat (length (chs j))) by (unfold chs; cbn [length]; rewrite app_length; cbn [length]; rewrite repeat_length; lia).
    rewrite addList_end. f_equal. unfold chs. cbn [app]. f_equal. rewrite <- app_assoc. cbn [app]. do 2 f_equal.
    rewrite <- repeat_cons. reflexivity. }
  replace (Z.to_nat (Z.of_nat k + Z.of_nat nc - (Z.of_nat k + 1))) with (nc - 1)%nat by lia. rewrite E. cbn [obind Nat.add]. clear E.
  set (src := fun c => if (c =? 0)%nat then idx else copyOf idx).
  set (good := fun c ch => exists out, ch = set_buf (src c) out /\ rect h w out /\
      forall y x, (y < h)%nat -> (x < w)%nat -> exists p, (forall P, prediction (Z.of_nat w) out P (Z.of_nat y) (Z.of_nat x) dPred = Ok p) /\
        px out y x = if px (c_buf idx) y x <? nbDeltas then i32 (pal_value deltaTable (c_buf pal) nb depth c (px (c_buf idx) y x) + p)
                     else pal_value deltaTable (c_buf pal) nb depth c (px (c_buf idx) y x)).
  match goal with |- exists outs, obind (oloop _ _ ?f _) _ = _ /\ _ =>
    destruct (oloop_inv (fun j l => exists outs, l = pal :: pre ++ outs /\ (length outs = nc)%nat /\ (forall c, (c < j)%nat -> good c (nth c outs pal)) /\ (forall c, (j <= c < nc)%nat -> nth c outs pal = src c)) f nc 0 (chs (nc - 1)%nat)) as (l & E & outs & -> & LO & GO & _) end.
  { exists (idx :: repeat (copyOf idx) (nc - 1)). split; [reflexivity|]. split; [cbn [length]; rewrite repeat_length; lia|]. split; [lia|].
    intros c Hc. destruct c as [|c]; [reflexivity|]. cbn [nth]. rewrite nth_repeat_lt by lia. reflexivity. }
  { intros j l Hj (outs & -> & LO & GO & SO). cbn [Nat.add] in Hj.
    rewrite (slice_get_ok (pal :: pre ++ outs) (Z.of_nat k + 1 + Z.of_nat j) pal) by (cbn [length]; rewrite app_length; fold k; lia).
    replace (Z.to_nat (Z.of_nat k + 1 + Z.of_nat j)) with (Datatypes.S (k + j)) by lia. cbn [nth obind]. rewrite app_nth2 by lia. fold k.
    replace (k + j - k)%nat with j by lia. rewrite SO by lia.
    assert (SW : c_width (src j) = Z.of_nat w) by (unfold src; destruct (j =? 0)%nat; exact Ew).
    assert (SB : c_buf (src j) = c_buf idx) by (unfold src; destruct (j =? 0)%nat; reflexivity).
    destruct (channel_ok (c_buf pal) nb depth nc HP Hnb Hd nbDeltas dPred h w HD Hk Hk6 ltac:(lia) j (src j) ltac:(lia) SW ltac:(rewrite SB; exact R) ltac:(rewrite SB; exact S)) as (out & E & RO & PO).
    rewrite Eh, Ew, E. cbn [obind]. rewrite SB in PO.
    rewrite slice_set_ok by (cbn [length]; rewrite app_length; fold k; lia).
    eexists. split; [reflexivity|]. exists (list_set outs j (set_buf (src j) out)).
    replace (Z.to_nat (Z.of_nat k + 1 + Z.of_nat j)) with (Datatypes.S (k + j)) by lia. cbn [list_set].
    split; [f_equal; apply list_set_app2|]. split; [rewrite list_set_length; exact LO|]. split.
    - intros c Hc. rewrite nth_list_set by lia. destruct (Nat.eqb_spec c j) as [->|N]; [|apply GO; lia].
      exists out. split; [reflexivity|]. split; [exact RO|]. intros y x Hy Hx. destruct (PO y x Hy Hx) as (p & Ep & EV). exists p. split; [|exact EV].
      intros Q. rewrite <- Ep. apply (pred_nowp dPred w Hk Hk6).
    - intros c Hc. rewrite nth_list_set by lia. replace (c =? j)%nat with false by lia. apply SO. lia. }
  rewrite Nat2Z.id, E. cbn [obind]. exists outs. split; [reflexivity|]. split; [exact LO|]. intros c Hc. exact (GO c Hc).
Qed.
