(* Lemmas about the lowest frequencies of the blocks. *)
From Coq Require Import ZArith List Bool Lia Arith Reals Lra ZifyBool ZifyNat.
From Verif Require Import GoBase GoLoop GoMatrix ModelUtil ModelDCT ModelHF ModelHFWeights ModelHFDequant SpecDCT SpecColour SpecHFDequant.
From Verif Require Import ProofCodes ProofUtil ProofDCT GoMatrixR ProofHFDequant.
Import ListNotations.
Open Scope nat_scope.

(* factor of frequency k of n in the table *)
Definition table_factor (n k : nat) : R := nth (k * (32 / n)) SCALE_F 0%R.
Definition llf_of (p : HFParams) (lf : list (list (list R))) (c : nat) (b : HFBlock) (y x : nat) (old : R) : R :=
  if in_llf b y x
  then (dct2 (b_h b / 8) (b_w b / 8) (fun v u => pixel (nth c lf []) (Z.to_nat (hb_y b / 2 ^ sY p c) + v) (Z.to_nat (hb_x b / 2 ^ sX p c) + u)) y x *
        (table_factor (b_h b / 8) y * table_factor (b_w b / 8) x))%R
  else old.
Lemma type_size t : In t allDCT -> exists lh lw, lh <= 5 /\ lw <= 5 /\ tt_pixelHeight t = (8 * 2 ^ Z.of_nat lh)%Z /\ tt_pixelWidth t = (8 * 2 ^ Z.of_nat lw)%Z.
Proof.
  intros H. assert (G : existsb (fun lh => existsb (fun lw => (tt_pixelHeight t =? 8 * 2 ^ Z.of_nat lh)%Z && (tt_pixelWidth t =? 8 * 2 ^ Z.of_nat lw)%Z) (seq 0 6)) (seq 0 6) = true).
  { revert t H. apply Forall_forall. repeat (constructor; [reflexivity|]). constructor. }
  apply existsb_exists in G as (lh & H1 & G). apply existsb_exists in G as (lw & H2 & G). apply in_seq in H1, H2. exists lh, lw. lia.
Qed.
Lemma pow_nat n : Z.to_nat (2 ^ Z.of_nat n) = 2 ^ n.
Proof. change 2%Z with (Z.of_nat 2). now rewrite <- Nat2Z.inj_pow, Nat2Z.id. Qed.
Lemma scaleF_ok l k : l <= 5 -> k < 2 ^ l -> scaleF (Z.of_nat k) (Z.of_nat l) = Ok (table_factor (2 ^ l) k).
Proof.
  intros Hl Hk. unfold scaleF, table_factor. rewrite Z.shiftl_mul_pow2 by lia.
  assert (E : 32 / 2 ^ l = 2 ^ (5 - l)).
  { change 32 with (2 ^ 5). replace 5 with ((5 - l) + l) at 1 by lia. rewrite Nat.pow_add_r. apply Nat.div_mul. apply Nat.pow_nonzero. lia. }
  rewrite E. replace (5 - Z.of_nat l)%Z with (Z.of_nat (5 - l)) by lia. change 2%Z with (Z.of_nat 2). rewrite <- Nat2Z.inj_pow, <- Nat2Z.inj_mul.
  assert (B : k * 2 ^ (5 - l) < 32).
  { replace 32 with (2 ^ l * 2 ^ (5 - l)) by (rewrite <- Nat.pow_add_r; now replace (l + (5 - l)) with 5 by lia). apply Nat.mul_lt_mono_pos_r; [|exact Hk]. pose proof (Nat.pow_nonzero 2 (5 - l)). lia. }
  rewrite (slice_get_ok SCALE_F _ 0%R); [now rewrite Nat2Z.id|]. change (length SCALE_F) with 32. lia.
Qed.
Lemma inside_rect h w m y x a b : rrect h w m -> y + a <= h -> x + b <= w -> inside m y x a b.
Proof. intros HR H1 H2. split; [destruct HR; lia|]. intros i Hi. rewrite (rrect_row h w m) by (assumption || lia). exact H2. Qed.
Lemma replaced_rect h w m m' oy ox a b f : rrect h w m -> replaced m m' oy ox a b f -> rrect h w m'.
Proof.
  intros HR (L & Lr & _). split; [destruct HR; lia|]. apply Forall_forall. intros r Hr. destruct (In_nth _ _ [] Hr) as (i & Hi & <-).
  rewrite Lr. apply (rrect_row h w); [assumption|destruct HR; lia].
Qed.
(* size of the LF block of a block in a channel *)
Definition lf_inside (p : HFParams) (lf : list (list (list R))) (c : nat) (b : HFBlock) : Prop :=
  inside (nth c lf []) (Z.to_nat (hb_y b / 2 ^ sY p c)) (Z.to_nat (hb_x b / 2 ^ sX p c)) (b_h b / 8) (b_w b / 8).
Lemma llfBlock_ok p c lf H W b dq s0 s1 : In (hb_type b) allDCT -> (0 <= hb_y b)%Z -> (0 <= hb_x b)%Z -> (0 <= sY p c)%Z -> (0 <= sX p c)%Z -> lf_inside p lf c b ->
  rrect H W dq -> b_top p (sY p c) b + b_h b <= H -> b_left p (sX p c) b + b_w b <= W -> inside s0 0 0 32 32 -> inside s1 0 0 32 32 ->
  exists dq' s0' s1', llfBlock (hb_type b) (nth c lf []) (Z.shiftr (hb_y b) (sY p c)) (Z.shiftr (hb_x b) (sX p c)) (Z.of_nat (b_top p (sY p c) b)) (Z.of_nat (b_left p (sX p c) b)) (dq, s0, s1) =
    Ok (dq', s0', s1') /\ rrect H W dq' /\ inside s0' 0 0 32 32 /\ inside s1' 0 0 32 32 /\
    forall y x, pixel dq' y x = if covers_px p (sY p c) (sX p c) b y x then llf_of p lf c b (y - b_top p (sY p c) b) (x - b_left p (sX p c) b) (pixel dq y x) else pixel dq y x.
Proof.
  intros HT Hy0 Hx0 HsY HsX HL RD F1 F2 I0 I1. destruct (type_size _ HT) as (lh & lw & Hlh & Hlw & EH & EW).
  assert (BH : b_h b / 8 = 2 ^ lh). { unfold b_h. rewrite EH, Z2Nat.inj_mul by lia. rewrite pow_nat. change (Z.to_nat 8) with 8. rewrite Nat.mul_comm. apply Nat.div_mul. lia. }
  assert (BW : b_w b / 8 = 2 ^ lw). { unfold b_w. rewrite EW, Z2Nat.inj_mul by lia. rewrite pow_nat. change (Z.to_nat 8) with 8. rewrite Nat.mul_comm. apply Nat.div_mul. lia. }
  assert (DH : tt_dctSelectHeight (hb_type b) = Z.of_nat (2 ^ lh)).
  { unfold tt_dctSelectHeight. rewrite EH, Z.shiftr_div_pow2 by lia. change (2 ^ 3)%Z with 8%Z. rewrite Z.mul_comm, Z.div_mul by lia. now rewrite Nat2Z.inj_pow. }
  assert (DW : tt_dctSelectWidth (hb_type b) = Z.of_nat (2 ^ lw)).
  { unfold tt_dctSelectWidth. rewrite EW, Z.shiftr_div_pow2 by lia. change (2 ^ 3)%Z with 8%Z. rewrite Z.mul_comm, Z.div_mul by lia. now rewrite Nat2Z.inj_pow. }
  assert (PH : 2 ^ lh <= b_h b /\ 2 ^ lh <= 32). { split; [rewrite <- BH; apply Nat.div_le_upper_bound; lia|]. change 32 with (2 ^ 5). apply Nat.pow_le_mono_r; lia. }
  assert (PW : 2 ^ lw <= b_w b /\ 2 ^ lw <= 32). { split; [rewrite <- BW; apply Nat.div_le_upper_bound; lia|]. change 32 with (2 ^ 5). apply Nat.pow_le_mono_r; lia. }
  unfold lf_inside in HL. rewrite BH, BW in HL. set (oy := b_top p (sY p c) b) in *. set (ox := b_left p (sX p c) b) in *.
  set (iy := Z.to_nat (hb_y b / 2 ^ sY p c)) in *. set (ix := Z.to_nat (hb_x b / 2 ^ sX p c)) in *.
  assert (EY : Z.shiftr (hb_y b) (sY p c) = Z.of_nat iy). { rewrite Z.shiftr_div_pow2 by lia. unfold iy. rewrite Z2Nat.id; [reflexivity|]. apply Z.div_pos; [lia|apply Z.pow_pos_nonneg; lia]. }
  assert (EX : Z.shiftr (hb_x b) (sX p c) = Z.of_nat ix). { rewrite Z.shiftr_div_pow2 by lia. unfold ix. rewrite Z2Nat.id; [reflexivity|]. apply Z.div_pos; [lia|apply Z.pow_pos_nonneg; lia]. }
  unfold llfBlock. rewrite EY, EX, DH, DW, !Nat2Z.id.
  destruct (ForwardDCT2D_ok (nth c lf []) dq iy ix oy ox lh lw s0 s1) as (d1 & t0 & t1 & E & RP & J0 & J1); try lia; try assumption.
  { apply (inside_rect H W); [assumption|lia|lia]. }
  { apply (inside_sub s0 _ _ 32 32 I0); lia. }
  { apply (inside_sub s1 _ _ 32 32 I1); lia. }
  rewrite E. cbn [obind]. pose proof (replaced_rect H W dq d1 _ _ _ _ _ RD RP) as R1. destruct RP as (_ & _ & RP).
  set (D := dct2 (2 ^ lh) (2 ^ lw) (fun y x => pixel (nth c lf []) (iy + y) (ix + x))) in *.
  destruct (rfill_at H W oy ox (2 ^ lh) (2 ^ lw)
    (fun y dq => obind (slice_get dq (Z.of_nat y + Z.of_nat oy)) (fun _ => oloop (2 ^ lw) 0 (fun x dq =>
       obind (rget2 dq (Z.of_nat y + Z.of_nat oy) (Z.of_nat x + Z.of_nat ox)) (fun v => obind (llfScale (hb_type b) (Z.of_nat y) (Z.of_nat x)) (fun k =>
       rset2 dq (Z.of_nat y + Z.of_nat oy) (Z.of_nat x + Z.of_nat ox) (v * k)%R))) dq))
    (fun y x dq =>
       obind (rget2 dq (Z.of_nat y + Z.of_nat oy) (Z.of_nat x + Z.of_nat ox)) (fun v => obind (llfScale (hb_type b) (Z.of_nat y) (Z.of_nat x)) (fun k =>
       rset2 dq (Z.of_nat y + Z.of_nat oy) (Z.of_nat x + Z.of_nat ox) (v * k)%R)))
    d1 (fun y x => (D y x * (table_factor (2 ^ lh) y * table_factor (2 ^ lw) x))%R)) as (d2 & E2 & R2 & P2); try assumption; try lia.
  - intros y m Hy Rm. rewrite (get_row H W m (oy + y)) by (assumption || lia). reflexivity.
  - intros y x m Hy Hx Rm Same. rewrite (rget2_rect H W m (oy + y) (ox + x)) by (assumption || lia). cbn [obind].
    unfold llfScale. rewrite DH, DW. rewrite !CeilLog2_pow by lia. rewrite !scaleF_ok by assumption. cbn [obind].
    rewrite Same, RP. replace (in_block oy ox (2 ^ lh) (2 ^ lw) (oy + y) (ox + x)) with true by (unfold in_block; clear - Hy Hx; lia).
    replace (oy + y - oy) with y by lia. replace (ox + x - ox) with x by lia. apply rset2_rect; [assumption|lia|lia|lia|lia].
  - exists d2, t0, t1. rewrite E2. cbn [obind]. split; [reflexivity|]. split; [exact R2|]. split; [now apply J0|]. split; [now apply J1|].
    intros y x. rewrite P2, RP. unfold covers_px. fold oy ox. unfold llf_of, in_llf. rewrite BH, BW. fold iy ix D.
    destruct (in_block oy ox (b_h b) (b_w b) y x) eqn:E3.
    + replace (in_block oy ox (2 ^ lh) (2 ^ lw) y x) with ((y - oy <? 2 ^ lh) && (x - ox <? 2 ^ lw)); [destruct ((y - oy <? 2 ^ lh) && (x - ox <? 2 ^ lw)); reflexivity|].
      unfold in_block in *. apply eq_true_iff_eq. clear - E3. lia.
    + replace (in_block oy ox (2 ^ lh) (2 ^ lw) y x) with false; [reflexivity|]. symmetry. unfold in_block in *. apply not_true_iff_false. clear - E3 PH PW. lia.
Qed.
Lemma finalize_ok p lf bs s0 s1 ms H W : length (hp_shiftY p) = 3 -> length (hp_shiftX p) = 3 -> (forall c, 0 <= sY p c /\ 0 <= sX p c)%Z -> length lf = 3 -> length ms = 3 ->
  (forall c, c < 3 -> layout p (sY p c) (sX p c) (H c) (W c) bs /\ rrect (H c) (W c) (nth c ms [])) ->
  (forall b, In b bs -> In (hb_type b) allDCT /\ (0 <= hb_y b)%Z /\ (0 <= hb_x b)%Z /\ forall c, c < 3 -> present p (sY p c) (sX p c) b -> lf_inside p lf c b) ->
  inside s0 0 0 32 32 -> inside s1 0 0 32 32 ->
  exists ms' s0' s1', finalizeLLF p lf bs s0 s1 ms = Ok (ms', s0', s1') /\ length ms' = 3 /\
    forall c, c < 3 -> blocks_replaced p (sY p c) (sX p c) (H c) (W c) bs (llf_of p lf c) (nth c ms []) (nth c ms' []).
Proof.
  intros LY LX HS LL LM HC HB I0 I1. unfold finalizeLLF.
  destruct (blocks3 (S := list (list (list R)) * list (list R) * list (list R)) p (sY p) (sX p) H W (llf_of p lf) (fun s c => nth c (fst (fst s)) [])
    (fun s => length (fst (fst s)) = 3 /\ inside (snd (fst s)) 0 0 32 32 /\ inside (snd s) 0 0 32 32)
    (fun b s => oloop 3 0 (fun c s =>
      let '(ms, s0, s1) := s in
      obind (slice_get (hp_shiftY p) (Z.of_nat c)) (fun sy => obind (slice_get (hp_shiftX p) (Z.of_nat c)) (fun sx =>
      match channelPos (hb_y b - hp_groupY p) (hb_x b - hp_groupX p) sy sx with
      | None => Ok s
      | Some (sY, sX) =>
        obind (slice_get lf (Z.of_nat c)) (fun dqlf => obind (slice_get ms (Z.of_nat c)) (fun dq =>
        obind (llfBlock (hb_type b) dqlf (Z.shiftr (hb_y b) sy) (Z.shiftr (hb_x b) sx) (Z.shiftl sY 3) (Z.shiftl sX 3) (dq, s0, s1)) (fun r =>
        let '(dq, s0, s1) := r in
        obind (slice_set ms (Z.of_nat c) dq) (fun ms => Ok (ms, s0, s1)))))
      end))) s)
    (fun b c s =>
      let '(ms, s0, s1) := s in
      obind (slice_get (hp_shiftY p) (Z.of_nat c)) (fun sy => obind (slice_get (hp_shiftX p) (Z.of_nat c)) (fun sx =>
      match channelPos (hb_y b - hp_groupY p) (hb_x b - hp_groupX p) sy sx with
      | None => Ok s
      | Some (sY, sX) =>
        obind (slice_get lf (Z.of_nat c)) (fun dqlf => obind (slice_get ms (Z.of_nat c)) (fun dq =>
        obind (llfBlock (hb_type b) dqlf (Z.shiftr (hb_y b) sy) (Z.shiftr (hb_x b) sx) (Z.shiftl sY 3) (Z.shiftl sX 3) (dq, s0, s1)) (fun r =>
        let '(dq, s0, s1) := r in
        obind (slice_set ms (Z.of_nat c) dq) (fun ms => Ok (ms, s0, s1)))))
      end)))
    bs (ms, s0, s1)) as ([[ms' s0'] s1'] & E & (L' & _) & P').
  - intros c Hc. apply HC. exact Hc.
  - cbn [fst snd]. auto.
  - intros c Hc. apply HC. exact Hc.
  - intros b s Hb _. reflexivity.
  - intros b c [[ms1 t0] t1] Hb Hc (L1 & J0 & J1) Rs. cbn [fst snd] in *. destruct (HB b Hb) as (T1 & Y1 & X1 & LI). destruct (HC c Hc) as (HL & _).
    destruct (proj1 HL b Hb) as [[Y0 X0] Fit]. destruct (HS c) as [S1 S2].
    rewrite (get_nth (hp_shiftY p) c 0%Z 3) by (assumption || lia). cbn [obind]. rewrite (get_nth (hp_shiftX p) c 0%Z 3) by (assumption || lia). cbn [obind].
    fold (sY p c) (sX p c). pose proof (channelPos_spec p (sY p c) (sX p c) b S1 S2 Y0 X0) as CP.
    destruct (channelPos _ _ _ _) as [[y x]|].
    + destruct CP as (Pr & -> & ->). destruct (Fit Pr) as [F1 F2]. rewrite (get_nth lf c [] 3) by (assumption || lia). cbn [obind].
      rewrite (get_nth ms1 c [] 3) by (assumption || lia). cbn [obind].
      destruct (llfBlock_ok p c lf (H c) (W c) b (nth c ms1 []) t0 t1) as (d' & t0' & t1' & E & R' & K0 & K1 & P'); try assumption.
      * now apply LI.
      * now apply Rs.
      * rewrite E. cbn [obind]. rewrite slice_set_ok by lia. cbn [obind]. eexists. split; [reflexivity|]. cbn [fst snd]. rewrite list_set_length, Nat2Z.id.
        split; [auto|]. split; [intros d _ Hd; rewrite nth_list_set by lia; now replace (d =? c) with false by lia|].
        rewrite !nth_list_set by lia. rewrite Nat.eqb_refl. split; [exact R'|]. split; [now intros []|]. intros _ y' x'. apply P'.
    + eexists. split; [reflexivity|]. cbn [fst snd]. split; [auto|]. split; [reflexivity|]. split; [now apply Rs|]. split; [reflexivity|]. intros Pr. now destruct (CP Pr).
  - cbn [fst snd] in *. exists ms', s0', s1'. split; [exact E|]. split; [exact L'|exact P'].
Qed.
