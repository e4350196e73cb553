(* Lemmas about the final coefficients of a group. *)
From Coq Require Import ZArith List Bool Lia Arith Reals Lra ZifyBool ZifyNat.
From Verif Require Import GoBase GoLoop GoMatrix ModelUtil ModelDCT ModelHF ModelHFWeights ModelHFDequant SpecDCT SpecColour SpecHFDequant.
From Verif Require Import ProofCodes ProofDCT GoMatrixR.
Import ListNotations.
Open Scope nat_scope.

(* ---- loops over a block somewhere in a matrix ---- *)
Lemma rfill_at H W oy ox h w row body m0 g : rrect H W m0 -> oy + h <= H -> ox + w <= W ->
  (forall y m, y < h -> rrect H W m -> row y m = oloop w 0 (body y) m) ->
  (forall y x m, y < h -> x < w -> rrect H W m -> pixel m (oy + y) (ox + x) = pixel m0 (oy + y) (ox + x) ->
     exists m', body y x m = Ok m' /\ upd H W m m' (oy + y) (ox + x) (g y x)) ->
  exists m', oloop h 0 row m0 = Ok m' /\ rrect H W m' /\
    forall y x, pixel m' y x = if in_block oy ox h w y x then g (y - oy) (x - ox) else pixel m0 y x.
Proof.
  intros HR Hh Hw Hrow Hb.
  destruct (rloop2_inv (fun y x m => rrect H W m /\ forall y' x', pixel m y' x' = if GoMatrixR.before oy ox w (oy + y) (ox + x) y' x' then g (y' - oy) (x' - ox) else pixel m0 y' x')
    row body 0 h 0 w m0) as (m' & E & R' & P').
  - split; [exact HR|]. intros y' x'. unfold GoMatrixR.before. bcases.
  - intros y m Hy [Rm _]. apply Hrow; [lia|assumption].
  - intros y x m Hy Hx [Rm P]. destruct (Hb y x m) as (m' & E & R' & P'); try lia; try assumption.
    + rewrite P. unfold GoMatrixR.before. bcases.
    + exists m'. split; [exact E|]. split; [exact R'|]. intros y' x'. rewrite P', P. unfold GoMatrixR.before. bcases.
      all: try (f_equal; lia).
  - intros y m Hy [Rm P]. split; [exact Rm|]. intros y' x'. rewrite P. unfold GoMatrixR.before. bcases.
  - exists m'. split; [exact E|]. split; [exact R'|]. intros y' x'. rewrite P'. unfold GoMatrixR.before, in_block. bcases.
Qed.

(* ---- all blocks of a channel ---- *)
Definition step_rel (p : HFParams) (sy sx : Z) (f : HFBlock -> nat -> nat -> R -> R) (b : HFBlock) (m m' : list (list R)) : Prop :=
  (~ present p sy sx b -> m' = m) /\
  (present p sy sx b -> forall y x, pixel m' y x = if covers_px p sy sx b y x then f b (y - b_top p sy b) (x - b_left p sx b) (pixel m y x) else pixel m y x).
Lemma covers_at p sy sx b y x : y < b_h b -> x < b_w b -> covers_px p sy sx b (b_top p sy b + y) (b_left p sx b + x) = true.
Proof. intros. unfold covers_px, in_block. bcases. Qed.
Lemma present_dec p sy sx b : present p sy sx b \/ ~ present p sy sx b.
Proof. unfold present. lia. Qed.
Lemma replaced_nil p sy sx H W f m : rrect H W m -> blocks_replaced p sy sx H W [] f m m.
Proof. intros HR. split; [exact HR|]. split; [intros b y x []|]. reflexivity. Qed.
Lemma replaced_cons p sy sx H W b bs f m m1 m' : layout p sy sx H W (b :: bs) -> step_rel p sy sx f b m m1 ->
  blocks_replaced p sy sx H W bs f m1 m' -> blocks_replaced p sy sx H W (b :: bs) f m m'.
Proof.
  intros [_ D] [N P] (R' & In' & Out'). inversion D as [|? ? Db _]; subst. rewrite Forall_forall in Db. split; [exact R'|]. split.
  - intros a y x [<-|Ha] Pa Hy Hx.
    + rewrite Out'.
      * rewrite (P Pa), covers_at by assumption. f_equal; lia.
      * intros a Ha Pa'. apply (Db a Ha Pa Pa'). now apply covers_at.
    + rewrite (In' a y x Ha Pa Hy Hx). f_equal. destruct (present_dec p sy sx b) as [Pb|Pb]; [|now rewrite (N Pb)].
      rewrite (P Pb). destruct (covers_px p sy sx b _ _) eqn:C; [|reflexivity]. exfalso.
      pose proof (Db a Ha Pb Pa _ _ C) as C2. now rewrite (covers_at p sy sx a y x Hy Hx) in C2.
  - intros y x Hn. rewrite Out' by (intros a Ha Pa; apply Hn; [now right|assumption]).
    destruct (present_dec p sy sx b) as [Pb|Pb]; [|now rewrite (N Pb)]. rewrite (P Pb). rewrite (Hn b (or_introl eq_refl) Pb). reflexivity.
Qed.
Lemma layout_tail p sy sx H W b bs : layout p sy sx H W (b :: bs) -> layout p sy sx H W bs.
Proof. intros [A D]. split; [intros a Ha; apply A; now right|]. now inversion D. Qed.
(* three channels at a time, with a scratch part of the state under an
   invariant *)
Lemma blocks3 {S} p (sy sx : nat -> Z) (H W : nat -> nat) (f : nat -> HFBlock -> nat -> nat -> R -> R) (chan : S -> nat -> list (list R)) (I : S -> Prop)
    (fn : HFBlock -> S -> Outcome S) (body : HFBlock -> nat -> S -> Outcome S) : forall bs s,
  (forall c, c < 3 -> layout p (sy c) (sx c) (H c) (W c) bs) -> I s -> (forall c, c < 3 -> rrect (H c) (W c) (chan s c)) ->
  (forall b s, In b bs -> I s -> fn b s = oloop 3 0 (body b) s) ->
  (forall b c s, In b bs -> c < 3 -> I s -> (forall c, c < 3 -> rrect (H c) (W c) (chan s c)) ->
     exists s', body b c s = Ok s' /\ I s' /\ (forall d, d < 3 -> d <> c -> chan s' d = chan s d) /\ rrect (H c) (W c) (chan s' c) /\
       step_rel p (sy c) (sx c) (f c) b (chan s c) (chan s' c)) ->
  exists s', eachBlock fn bs s = Ok s' /\ I s' /\ forall c, c < 3 -> blocks_replaced p (sy c) (sx c) (H c) (W c) bs (f c) (chan s c) (chan s' c).
Proof.
  induction bs as [|b bs IH]; intros s HL HI HR HF HS.
  - exists s. split; [reflexivity|]. split; [exact HI|]. intros c Hc. apply replaced_nil. now apply HR.
  - cbn [eachBlock]. rewrite HF by (first [exact HI|now left]). cbn [oloop].
    destruct (HS b 0 s (or_introl eq_refl) ltac:(lia) HI HR) as (s1 & E1 & I1 & O1 & R1 & S1).
    assert (HR1 : forall c, c < 3 -> rrect (H c) (W c) (chan s1 c)).
    { intros c Hc. destruct (Nat.eq_dec c 0) as [->|]; [exact R1|rewrite O1 by lia; now apply HR]. }
    destruct (HS b 1 s1 (or_introl eq_refl) ltac:(lia) I1 HR1) as (s2 & E2 & I2 & O2 & R2 & S2).
    assert (HR2 : forall c, c < 3 -> rrect (H c) (W c) (chan s2 c)).
    { intros c Hc. destruct (Nat.eq_dec c 1) as [->|]; [exact R2|rewrite O2 by lia; now apply HR1]. }
    destruct (HS b 2 s2 (or_introl eq_refl) ltac:(lia) I2 HR2) as (s3 & E3 & I3 & O3 & R3 & S3).
    assert (HR3 : forall c, c < 3 -> rrect (H c) (W c) (chan s3 c)).
    { intros c Hc. destruct (Nat.eq_dec c 2) as [->|]; [exact R3|rewrite O3 by lia; now apply HR2]. }
    destruct (IH s3) as (s' & E & I' & P'); try assumption.
    + intros c Hc. exact (layout_tail _ _ _ _ _ _ _ (HL c Hc)).
    + intros a t Ha. apply HF. now right.
    + intros a c t Ha. apply HS. now right.
    + exists s'. rewrite E1. cbn [obind]. rewrite E2. cbn [obind]. rewrite E3. cbn [obind]. split; [exact E|]. split; [exact I'|]. intros c Hc.
      apply (replaced_cons _ _ _ _ _ b bs (f c) _ (chan s3 c) _ (HL c Hc)); [|now apply P'].
      assert (C : c = 0 \/ c = 1 \/ c = 2) by lia. destruct C as [->|[->| ->]].
      * rewrite O3, O2 by lia. exact S1.
      * rewrite O3 by lia. rewrite <- (O1 1) by lia. exact S2.
      * rewrite <- (O1 2), <- (O2 2) by lia. exact S3.
Qed.

(* ---- places ---- *)
Lemma channelPos_spec p sy sx b : (0 <= sy)%Z -> (0 <= sx)%Z -> (0 <= hb_y b - hp_groupY p)%Z -> (0 <= hb_x b - hp_groupX p)%Z ->
  match channelPos (hb_y b - hp_groupY p) (hb_x b - hp_groupX p) sy sx with
  | None => ~ present p sy sx b
  | Some (y, x) => present p sy sx b /\ Z.shiftl y 3 = Z.of_nat (b_top p sy b) /\ Z.shiftl x 3 = Z.of_nat (b_left p sx b)
  end.
Proof.
  intros Hsy Hsx Hy Hx. unfold channelPos. set (gy := (hb_y b - hp_groupY p)%Z) in *. set (gx := (hb_x b - hp_groupX p)%Z) in *.
  rewrite !Z.shiftr_div_pow2, !Z.shiftl_mul_pow2 by lia.
  assert (Y : forall a s, (0 <= s)%Z -> ((a =? a / 2 ^ s * 2 ^ s)%Z = true <-> (a mod 2 ^ s = 0)%Z)).
  { intros a s Hs. pose proof (Z.div_mod a (2 ^ s) ltac:(pose proof (Z.pow_pos_nonneg 2 s); lia)). lia. }
  pose proof (Y gy sy Hsy) as Y1. pose proof (Y gx sx Hsx) as Y2. unfold present. fold gy gx.
  destruct (gy =? _)%Z; destruct (gx =? _)%Z; cbn [negb orb]; try (intros [A B]; intuition discriminate).
  split; [intuition|]. rewrite !Z.shiftl_mul_pow2 by lia. unfold b_top, b_left. fold gy gx.
  pose proof (Z.div_pos gy (2 ^ sy) Hy ltac:(apply Z.pow_pos_nonneg; lia)). pose proof (Z.div_pos gx (2 ^ sx) Hx ltac:(apply Z.pow_pos_nonneg; lia)).
  split; lia.
Qed.

(* ---- dequantisation ---- *)
Lemma quantValue_ok bias num q : quantValue bias num q = Ok (hf_value bias num q).
Proof.
  unfold quantValue. destruct (Z.ltb_spec (-2) q); destruct (Z.ltb_spec q 2); cbn [andb].
  - assert (C : (q = -1 \/ q = 0 \/ q = 1)%Z) by lia. destruct C as [->|[->| ->]]; reflexivity.
  - f_equal. destruct q as [|[| |]|[| |]]; try lia; reflexivity.
  - f_equal. destruct q as [|[| |]|[| |]]; try lia; reflexivity.
  - lia.
Qed.
Lemma qm_ok q : (2 <= q < 2 ^ 32)%Z -> qmFactor q = hf_qm q.
Proof.
  intros H. unfold qmFactor, hf_qm. rewrite u32_small by lia. replace (4 / 5)%R with 0.8%R by lra.
  rewrite <- (Z2Nat.id (q - 2)) at 2 by lia. now rewrite <- pow_powerRZ.
Qed.
(* sizes of weight tables *)
Definition table_ok (t : TransformType) (w : list (list R)) : Prop := rrect (Z.to_nat (tt_matrixHeight t)) (Z.to_nat (tt_matrixWidth t)) w.
Definition hf_dequant (num : R) (step : HFBlock -> R) (bias : R) (table : HFBlock -> list (list R)) (q : list (list Z)) (p : HFParams) (sy sx : Z) (b : HFBlock) (y x : nat) (old : R) : R :=
  if in_llf b y x then old else (hf_value bias num (px q (b_top p sy b + y) (b_left p sx b + x)) * step b * hf_weight (hb_type b) (table b) y x)%R.
Lemma llf_test b y x : (0 <= tt_pixelHeight (hb_type b))%Z -> (0 <= tt_pixelWidth (hb_type b))%Z ->
  (Z.of_nat y <? tt_dctSelectHeight (hb_type b))%Z && (Z.of_nat x <? tt_dctSelectWidth (hb_type b))%Z = in_llf b y x.
Proof.
  intros H1 H2. unfold tt_dctSelectHeight, tt_dctSelectWidth, in_llf, b_h, b_w. rewrite !Z.shiftr_div_pow2 by lia. change (2 ^ 3)%Z with 8%Z.
  rewrite <- (Z2Nat.id (tt_pixelHeight (hb_type b))) at 1 by lia. rewrite <- (Z2Nat.id (tt_pixelWidth (hb_type b))) at 1 by lia.
  set (h := Z.to_nat _). set (w := Z.to_nat _). pose proof (Nat2Z.inj_div h 8). pose proof (Nat2Z.inj_div w 8). lia.
Qed.
Lemma xor3 a b : Z.lxor (Z.lxor a b) a = b.
Proof. rewrite (Z.lxor_comm a b), Z.lxor_assoc, Z.lxor_nilpotent. apply Z.lxor_0_r. Qed.
Lemma xor3' a b : Z.lxor (Z.lxor a b) b = a.
Proof. rewrite Z.lxor_assoc, Z.lxor_nilpotent. apply Z.lxor_0_r. Qed.
Lemma dequantBlock_ok p sy sx H W b num step bias w3 q m : (0 <= tt_pixelHeight (hb_type b))%Z -> (0 <= tt_pixelWidth (hb_type b))%Z ->
  rect H W q -> rrect H W m -> table_ok (hb_type b) w3 -> b_top p sy b + b_h b <= H -> b_left p sx b + b_w b <= W ->
  exists m', dequantBlock (hb_type b) (step b) bias num w3 (Z.of_nat (b_top p sy b)) (Z.of_nat (b_left p sx b)) q m = Ok m' /\ rrect H W m' /\
    forall y x, pixel m' y x = if covers_px p sy sx b y x then hf_dequant num step bias (fun _ => w3) q p sy sx b (y - b_top p sy b) (x - b_left p sx b) (pixel m y x) else pixel m y x.
Proof.
  intros P1 P2 HQ HM HT Ht Hl. set (t := hb_type b) in *. unfold dequantBlock.
  destruct (rfill_at H W (b_top p sy b) (b_left p sx b) (b_h b) (b_w b)
    (fun y m => oloop (Z.to_nat (tt_pixelWidth t)) 0 (fun x m =>
      let y := Z.of_nat y in let x := Z.of_nat x in
      if (y <? tt_dctSelectHeight t)%Z && (x <? tt_dctSelectWidth t)%Z then Ok m
      else
        let pY := (Z.of_nat (b_top p sy b) + y)%Z in let pX := (Z.of_nat (b_left p sx b) + x)%Z in
        obind (get2 q pY pX) (fun coeff => obind (quantValue bias num coeff) (fun quant =>
        let wy := if tt_flip t then x else y in
        let wx := Z.lxor (Z.lxor x y) wy in
        obind (rget2 w3 wy wx) (fun w =>
        rset2 m pY pX (quant * step b * w)%R)))) m)
    (fun y x m => if in_llf b y x then Ok m else
        obind (get2 q (Z.of_nat (b_top p sy b) + Z.of_nat y) (Z.of_nat (b_left p sx b) + Z.of_nat x)) (fun coeff => obind (quantValue bias num coeff) (fun quant =>
        let wy := if tt_flip t then Z.of_nat x else Z.of_nat y in
        let wx := Z.lxor (Z.lxor (Z.of_nat x) (Z.of_nat y)) wy in
        obind (rget2 w3 wy wx) (fun w =>
        rset2 m (Z.of_nat (b_top p sy b) + Z.of_nat y) (Z.of_nat (b_left p sx b) + Z.of_nat x) (quant * step b * w)%R))))
    m (fun y x => hf_dequant num step bias (fun _ => w3) q p sy sx b y x (pixel m (b_top p sy b + y) (b_left p sx b + x)))) as (m' & E & R' & P'); try assumption.
  - intros y m1 Hy R1. apply oloop_ext. intros x m2 Hx. cbv beta zeta. unfold t. now rewrite llf_test.
  - intros y x m1 Hy Hx R1 Same. unfold hf_dequant. destruct (in_llf b y x); cbv beta zeta.
    + exists m1. split; [reflexivity|]. rewrite <- Same. now apply upd_same.
    + rewrite (get2_ok H W) by (assumption || lia). cbn [obind]. rewrite quantValue_ok. cbn [obind].
      replace (Z.to_nat (Z.of_nat (b_top p sy b) + Z.of_nat y)) with (b_top p sy b + y) by lia.
      replace (Z.to_nat (Z.of_nat (b_left p sx b) + Z.of_nat x)) with (b_left p sx b + x) by lia.
      assert (EW : rget2 w3 (if tt_flip t then Z.of_nat x else Z.of_nat y) (Z.lxor (Z.lxor (Z.of_nat x) (Z.of_nat y)) (if tt_flip t then Z.of_nat x else Z.of_nat y)) = Ok (hf_weight t w3 y x)).
      { assert (Hy' : (Z.of_nat y < tt_pixelHeight t)%Z) by (unfold b_h in Hy; fold t in Hy; lia). assert (Hx' : (Z.of_nat x < tt_pixelWidth t)%Z) by (unfold b_w in Hx; fold t in Hx; lia).
        unfold hf_weight, tt_flip. unfold table_ok, tt_matrixHeight, tt_matrixWidth in HT.
        destruct (Z.ltb_spec (tt_pixelWidth t) (tt_pixelHeight t)); cbn [orb].
        - rewrite xor3. apply (rget2_rect _ _ w3 x y _ _ HT); lia.
        - destruct (tt_method t =? 0)%Z; cbn [andb].
          + destruct (Z.eqb_spec (tt_pixelHeight t) (tt_pixelWidth t)).
            * rewrite xor3. apply (rget2_rect _ _ w3 x y _ _ HT); lia.
            * rewrite xor3'. apply (rget2_rect _ _ w3 y x _ _ HT); lia.
          + rewrite xor3'. apply (rget2_rect _ _ w3 y x _ _ HT); lia. }
      rewrite EW. cbn [obind]. apply rset2_rect; [assumption|lia|lia|lia|lia].
  - exists m'. split; [exact E|]. split; [exact R'|]. intros y x. rewrite P'. unfold covers_px. destruct (in_block _ _ _ _ y x) eqn:EB; [|reflexivity].
    unfold in_block in EB. f_equal. f_equal; lia.
Qed.
Lemma get_nth {A} (l : list A) c d n : length l = n -> c < n -> slice_get l (Z.of_nat c) = Ok (nth c l d).
Proof. intros L Hc. rewrite (slice_get_ok l _ d) by lia. now rewrite Nat2Z.id. Qed.
Lemma onChannel_ok ms c f m' : length ms = 3 -> c < 3 -> f (nth c ms []) = Ok m' ->
  exists ms', onChannel ms c f = Ok ms' /\ length ms' = 3 /\ nth c ms' [] = m' /\ forall d, d <> c -> nth d ms' [] = nth d ms [].
Proof.
  intros L Hc E. unfold onChannel. rewrite (get_nth ms c [] 3) by assumption. cbn [obind]. rewrite E. cbn [obind].
  rewrite slice_set_ok by lia. eexists. split; [reflexivity|]. rewrite list_set_length, Nat2Z.id. split; [exact L|].
  rewrite !nth_list_set by lia. rewrite Nat.eqb_refl. split; [reflexivity|]. intros d Hd. rewrite nth_list_set by lia. now replace (d =? c) with false by lia.
Qed.
(* what is needed of the parameters *)
Definition params_ok (p : HFParams) (bs : list HFBlock) : Prop :=
  length (hp_shiftY p) = 3 /\ length (hp_shiftX p) = 3 /\ (forall c, 0 <= nth c (hp_shiftY p) 0 /\ 0 <= nth c (hp_shiftX p) 0)%Z /\ length (hp_quantBias p) = 3 /\
  forall b, In b bs -> (0 <= tt_pixelHeight (hb_type b) /\ 0 <= tt_pixelWidth (hb_type b) /\ 0 <= tt_parameterIndex (hb_type b) < Z.of_nat (length (hp_weights p)))%Z /\
    length (nth (Z.to_nat (tt_parameterIndex (hb_type b))) (hp_weights p) []) = 3 /\
    forall c, c < 3 -> table_ok (hb_type b) (nth c (nth (Z.to_nat (tt_parameterIndex (hb_type b))) (hp_weights p) []) []).
Definition sY (p : HFParams) (c : nat) : Z := nth c (hp_shiftY p) 0%Z.
Definition sX (p : HFParams) (c : nat) : Z := nth c (hp_shiftX p) 0%Z.
Definition table_of (p : HFParams) (c : nat) (b : HFBlock) : list (list R) := nth c (nth (Z.to_nat (tt_parameterIndex (hb_type b))) (hp_weights p) []) [].
Definition step_of (p : HFParams) (c : nat) (b : HFBlock) : R := (nth c (scaleFactor p) 0 / IZR (hb_mult b))%R.
Definition dequant_of (p : HFParams) (quantized : list (list (list Z))) (c : nat) :=
  hf_dequant (hp_quantBiasNumerator p) (step_of p c) (nth c (hp_quantBias p) 0%R) (table_of p c) (nth c quantized []) p (sY p c) (sX p c).
Lemma dequantize_ok p quantized bs ms H W : params_ok p bs -> length ms = 3 -> length quantized = 3 ->
  (forall c, c < 3 -> layout p (sY p c) (sX p c) (H c) (W c) bs /\ rect (H c) (W c) (nth c quantized []) /\ rrect (H c) (W c) (nth c ms [])) ->
  exists ms', dequantizeHFCoefficients p quantized bs ms = Ok ms' /\ length ms' = 3 /\
    forall c, c < 3 -> blocks_replaced p (sY p c) (sX p c) (H c) (W c) bs (dequant_of p quantized c) (nth c ms []) (nth c ms' []).
Proof.
  intros (LY & LX & HS & LB & HB) LM LQ HC. unfold dequantizeHFCoefficients.
  destruct (blocks3 p (sY p) (sX p) H W (dequant_of p quantized) (fun s c => nth c s []) (fun s => length s = 3)
    (fun b ms => obind (slice_get (hp_weights p) (tt_parameterIndex (hb_type b))) (fun w2 =>
      oloop 3 0 (fun c ms =>
        obind (slice_get (hp_shiftY p) (Z.of_nat c)) (fun sy => obind (slice_get (hp_shiftX p) (Z.of_nat c)) (fun sx =>
        match channelPos (hb_y b - hp_groupY p) (hb_x b - hp_groupX p) sy sx with
        | None => Ok ms
        | Some (sY, sX) =>
          obind (slice_get w2 (Z.of_nat c)) (fun w3 =>
          obind (slice_get (scaleFactor p) (Z.of_nat c)) (fun sf =>
          obind (slice_get (hp_quantBias p) (Z.of_nat c)) (fun bias =>
          obind (slice_get quantized (Z.of_nat c)) (fun q =>
          onChannel ms c (dequantBlock (hb_type b) (sf / IZR (hb_mult b))%R bias (hp_quantBiasNumerator p) w3 (Z.shiftl sY 3) (Z.shiftl sX 3) q)))))
        end))) ms))
    (fun b c ms =>
        match channelPos (hb_y b - hp_groupY p) (hb_x b - hp_groupX p) (sY p c) (sX p c) with
        | None => Ok ms
        | Some (sY, sX) =>
          onChannel ms c (dequantBlock (hb_type b) (step_of p c b) (nth c (hp_quantBias p) 0%R) (hp_quantBiasNumerator p) (table_of p c b) (Z.shiftl sY 3) (Z.shiftl sX 3) (nth c quantized []))
        end) bs ms) as (ms' & E & L' & P'); try assumption.
  - intros c Hc. apply HC. exact Hc.
  - intros c Hc. apply HC. exact Hc.
  - intros b s Hb Ls. destruct (HB b Hb) as ((P1 & P2 & PI) & LW & TW).
    rewrite (slice_get_ok (hp_weights p) _ []) by lia. cbn [obind]. apply oloop_ext. intros c s' Hc.
    rewrite (get_nth (hp_shiftY p) c 0%Z 3) by (assumption || lia). cbn [obind]. rewrite (get_nth (hp_shiftX p) c 0%Z 3) by (assumption || lia). cbn [obind].
    fold (sY p c) (sX p c). destruct (channelPos _ _ _ _) as [[y x]|]; [|reflexivity].
    rewrite (get_nth _ c [] 3) by (assumption || lia). cbn [obind]. rewrite (get_nth (scaleFactor p) c 0%R 3) by (reflexivity || lia). cbn [obind].
    rewrite (get_nth (hp_quantBias p) c 0%R 3) by (assumption || lia). cbn [obind]. rewrite (get_nth quantized c [] 3) by (assumption || lia). reflexivity.
  - intros b c s Hb Hc Ls Rs. destruct (HB b Hb) as ((P1 & P2 & PI) & LW & TW). destruct (HC c Hc) as (HL & HQ & HM).
    destruct (proj1 HL b Hb) as [[Y0 X0] Fit]. destruct (HS c) as [S1 S2].
    pose proof (channelPos_spec p (sY p c) (sX p c) b S1 S2 Y0 X0) as CP.
    destruct (channelPos _ _ _ _) as [[y x]|].
    + destruct CP as (Pr & -> & ->). destruct (Fit Pr) as [F1 F2].
      destruct (dequantBlock_ok p (sY p c) (sX p c) (H c) (W c) b (hp_quantBiasNumerator p) (step_of p c) (nth c (hp_quantBias p) 0%R) (table_of p c b) (nth c quantized []) (nth c s [])) as (m' & E & R' & P'); try assumption.
      * now apply Rs.
      * now apply TW.
      * destruct (onChannel_ok s c _ m' Ls Hc E) as (s' & E' & L' & N' & O'). exists s'. split; [exact E'|]. split; [exact L'|]. split; [intros d _ Hd; now apply O'|].
        rewrite N'. split; [exact R'|]. split; [now intros []|]. intros _ y' x'. rewrite P'. reflexivity.
    + exists s. split; [reflexivity|]. split; [exact Ls|]. split; [reflexivity|]. split; [now apply Rs|]. split; [reflexivity|]. intros Pr. now destruct (CP Pr).
  - exists ms'. split; [exact E|]. split; [exact L'|exact P'].
Qed.
(* the steps *)
Lemma step_ok p c b : c < 3 -> (2 <= hp_xqmScale p < 2 ^ 32)%Z -> (2 <= hp_bqmScale p < 2 ^ 32)%Z -> hp_globalScale p <> 0%Z -> hb_mult b <> 0%Z ->
  step_of p c b = hf_block_step (hp_globalScale p) (hf_channel_qm (hp_xqmScale p) (hp_bqmScale p) c) (hb_mult b).
Proof.
  intros Hc HX HB HG HM. unfold step_of, hf_block_step, scaleFactor. rewrite !qm_ok by assumption.
  assert (IZR (hp_globalScale p) <> 0)%R by now apply IZR_neq. assert (IZR (hb_mult b) <> 0)%R by now apply IZR_neq.
  assert (C : c = 0 \/ c = 1 \/ c = 2) by lia. destruct C as [->|[->| ->]]; cbn [nth hf_channel_qm].
  - field; auto.
  - change (hf_qm 2) with 1%R. field; auto.
  - field; auto.
Qed.
