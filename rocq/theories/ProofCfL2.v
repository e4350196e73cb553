(* Lemmas about the correlation of X and B with Y: the whole function, blocks
   in order, and a layout whose tile corner comes late. *)
From Coq Require Import ZArith List Bool Lia Arith Reals Lra ZifyBool ZifyNat.
From Verif Require Import GoBase GoLoop GoMatrix ModelUtil ModelDCT ModelHF ModelHFWeights ModelHFDequant SpecDCT SpecColour SpecHFDequant.
From Verif Require Import ProofCodes ProofDCT GoMatrixR ProofHFDequant ProofCfL.
Import ListNotations.
Open Scope nat_scope.

Lemma kval_ok hf base colour ty tx : kval hf base (1 / IZR colour)%R ty tx = hf_correlation base colour hf ty tx.
Proof. unfold kval, hf_correlation, Rdiv. now rewrite Rmult_1_l. Qed.
Lemma used_ok base hf colour bs ty tx : tile_used (1 / IZR colour)%R base hf bs ty tx = hf_cfl_used base colour hf bs ty tx.
Proof. unfold tile_used, hf_cfl_used, tile_done. now rewrite kval_ok. Qed.
Lemma no_shift l : length l = 3 -> (forall c, nth c l 0%Z = 0%Z) -> existsb (fun x => negb (x =? 0)%Z) l = false.
Proof.
  intros L Hz. apply not_true_iff_false. intros E. apply existsb_exists in E as (x & Hx & E). destruct (In_nth _ _ 0%Z Hx) as (n & _ & En). rewrite Hz in En. subst. discriminate.
Qed.
Lemma zero_pixel a b y x : pixel (repeat (repeat 0%R b) a) y x = 0%R.
Proof.
  unfold pixel. destruct (nth_in_or_default y (repeat (repeat 0%R b) a) []) as [Hi| ->]; [|now destruct x].
  apply repeat_spec in Hi. rewrite Hi. destruct (nth_in_or_default x (repeat 0%R b) 0%R) as [Hj|Hj]; [now apply repeat_spec in Hj|exact Hj].
Qed.
Lemma zero_rect a b : rrect a b (repeat (repeat 0%R b) a).
Proof. split; [apply repeat_length|]. apply Forall_forall. intros r Hr. apply repeat_spec in Hr. subst. apply repeat_length. Qed.
Lemma chromaFromLuma_ok p colour baseX baseB hfX hfB bs ms H W Hc Wc :
  length (hp_shiftY p) = 3 -> length (hp_shiftX p) = 3 -> (forall c, sY p c = 0%Z /\ sX p c = 0%Z) -> length ms = 3 -> 0 < Hc -> rect Hc Wc hfX -> rect Hc Wc hfB ->
  (forall c, c < 3 -> rrect H W (nth c ms [])) -> H <= 256 -> W <= 256 -> (hp_groupY p mod 32 = 0)%Z -> (hp_groupX p mod 32 = 0)%Z ->
  Forall (placed p H W Hc Wc) bs -> ForallOrdPairs (disjoint_px p) bs ->
  exists mx mb, chromaFromLuma p colour baseX baseB hfX hfB bs ms = Ok [mx; nth 1 ms []; mb] /\
    cfl_res p H W (1 / IZR colour)%R (nth 1 ms []) baseX hfX [] bs (nth 0 ms []) mx /\ cfl_res p H W (1 / IZR colour)%R (nth 1 ms []) baseB hfB [] bs (nth 2 ms []) mb.
Proof.
  intros LY LX HS LM HH RX RB RM H256 W256 GY GX HP HD. unfold chromaFromLuma.
  rewrite (no_shift (hp_shiftX p)) by (assumption || (intros c; apply HS)). rewrite (no_shift (hp_shiftY p)) by (assumption || (intros c; apply HS)). cbn [orb].
  change (slice_get hfX 0) with (slice_get hfX (Z.of_nat 0)). change (slice_get hfB 0) with (slice_get hfB (Z.of_nat 0)).
  change (slice_get ms 0) with (slice_get ms (Z.of_nat 0)). change (slice_get ms 1) with (slice_get ms (Z.of_nat 1)). change (slice_get ms 2) with (slice_get ms (Z.of_nat 2)).
  rewrite (get_nth hfX 0 [] Hc) by (assumption || apply RX). cbn [obind]. rewrite (get_nth hfB 0 [] Hc) by (assumption || apply RB). cbn [obind].
  assert (EX : length (nth 0 hfX []) = Wc). { destruct RX as [L F]. rewrite Forall_forall in F. apply F. apply nth_In. lia. }
  assert (EB : length (nth 0 hfB []) = Wc). { destruct RB as [L F]. rewrite Forall_forall in F. apply F. apply nth_In. lia. }
  rewrite EX, EB. replace (length hfX) with Hc by (destruct RX; lia). replace (length hfB) with Hc by (destruct RB; lia).
  rewrite (get_nth ms 0 [] 3) by (assumption || lia). cbn [obind]. rewrite (get_nth ms 1 [] 3) by (assumption || lia). cbn [obind].
  rewrite (get_nth ms 2 [] 3) by (assumption || lia). cbn [obind].
  destruct (cfl_fold p H W Hc Wc (1 / IZR colour)%R baseX baseB hfX hfB (nth 1 ms [])) with (bs := bs) (pre := @nil HFBlock) (mx := nth 0 ms []) (mb := nth 2 ms [])
    (cx := repeat (repeat 0%R Wc) Hc) (cb := repeat (repeat 0%R Wc) Hc) as (mx & cx & mb & cb & E & C1 & C2); try assumption; try (apply RM; lia); try apply zero_rect.
  - intros. apply zero_pixel.
  - intros. apply zero_pixel.
  - rewrite E. cbn [obind fst snd]. rewrite slice_set_ok by lia. cbn [obind]. rewrite slice_set_ok by (rewrite list_set_length; lia). exists mx, mb.
    split; [|split; assumption]. destruct ms as [|m0 [|m1 [|m2 [|]]]]; try discriminate LM. reflexivity.
Qed.

(* ---- blocks in order ---- *)
Lemma in_lf_block_spec b y x : in_lf_block b y x = true <-> lfy b <= y < lfy b + b_h b /\ lfx b <= x < lfx b + b_w b.
Proof. unfold in_lf_block, lfy, lfx, in_block. lia. Qed.
Lemma ordered_split (Rel : HFBlock -> HFBlock -> Prop) p1 b p2 a : ForallOrdPairs Rel (p1 ++ b :: p2) -> In a p2 -> Rel b a.
Proof.
  induction p1 as [|c p1 IH]; cbn [Datatypes.app]; intros F Ha; inversion F as [|? ? F1 F2]; subst; [rewrite Forall_forall in F1; now apply F1|now apply IH].
Qed.
Lemma in_order_done bs p1 b p2 y x : bs = p1 ++ b :: p2 -> in_order bs -> (forall a, In a bs -> (0 <= hb_y a /\ 0 <= hb_x a)%Z) ->
  within_tile b -> y < b_h b -> x < b_w b -> (exists a, In a bs /\ in_lf_block a (64 * ((lfy b + y) / 64)) (64 * ((lfx b + x) / 64)) = true) ->
  existsb (fun a => in_lf_block a (64 * ((lfy b + y) / 64)) (64 * ((lfx b + x) / 64))) (p1 ++ [b]) = true.
Proof.
  intros Es Ho Hp HT Hy Hx (a & Ha & Ca). pose proof (tile_of (lfy b + y)) as Ty. pose proof (tile_of (lfx b + x)) as Tx.
  pose proof (tile_of (lfy b)) as Tb. pose proof (tile_of (lfx b)) as Tc.
  set (ty := (lfy b + y) / 64) in *. set (tx := (lfx b + x) / 64) in *. clearbody ty tx.
  apply existsb_exists. rewrite Es in Ha. apply in_app_or in Ha as [Ha|Ha]; [exists a; split; [apply in_or_app; now left|exact Ca]|].
  destruct Ha as [<-|Ha]; [exists b; split; [apply in_or_app; right; now left|exact Ca]|].
  exists b. split; [apply in_or_app; right; now left|]. apply in_lf_block_spec in Ca as [C1 C2]. apply in_lf_block_spec.
  rewrite Es in Ho. pose proof (ordered_split _ _ _ _ _ Ho Ha) as O. cbn beta in O.
  assert (In a bs /\ In b bs) as [Ia Ib] by (rewrite Es; split; apply in_or_app; right; [now right|now left]).
  pose proof (Hp a Ia) as Pa. pose proof (Hp b Ib) as Pb. clear Ho Hp Es Ia Ib Ha.
  unfold within_tile in HT. fold (lfy b) (lfx b) in HT. rewrite !Nat.mod_eq in HT by lia. unfold lfy, lfx in *. clear p1 p2 bs.
  assert (D : 64 * ty <= 8 * Z.to_nat (hb_y b) -> Z.to_nat (hb_y a) <= Z.to_nat (hb_y b)) by lia.
  destruct HT as [HT|[HT1 HT2]].
  - assert (64 * ty <= 8 * Z.to_nat (hb_y b)) by lia. lia.
  - lia.
Qed.

(* ---- disjoint rectangles ---- *)
Definition apart (p : HFParams) (a b : HFBlock) : bool :=
  (b_top p 0 a + b_h a <=? b_top p 0 b) || (b_top p 0 b + b_h b <=? b_top p 0 a) || (b_left p 0 a + b_w a <=? b_left p 0 b) || (b_left p 0 b + b_w b <=? b_left p 0 a).
Lemma apart_disjoint p a b : apart p a b = true -> disjoint_px p a b.
Proof. unfold apart, disjoint_px, covers_px, in_block. intros Ha y x. rewrite <- not_true_iff_false. lia. Qed.
Fixpoint all_apart (p : HFParams) (bs : list HFBlock) : bool := match bs with [] => true | b :: bs' => forallb (apart p b) bs' && all_apart p bs' end.
Lemma all_apart_ok p bs : all_apart p bs = true -> ForallOrdPairs (disjoint_px p) bs.
Proof.
  induction bs as [|b bs IH]; cbn [all_apart]; intros E; [constructor|]. apply andb_true_iff in E as [E1 E2]. constructor; [|now apply IH].
  apply Forall_forall. intros a Ha. apply apart_disjoint. now apply (proj1 (forallb_forall _ _) E1).
Qed.
