(* Properties of VarDCT groups from bits to samples: C105, continued. *)
From Coq Require Import ZArith List Bool Arith Reals Lia Lra ZifyBool ZifyNat.
From Verif Require Import GoBase GoLoop GoMatrix Bits ModelBitReader ModelUtil ModelEntropy ModelDCT ModelHF ModelHFCoeff ModelVarBlock ModelHFDequant ModelHFGroup ModelVarDCT.
From Verif Require Import SpecCodes SpecBitReader SpecUtil SpecDCT SpecColour SpecVarBlock SpecHFDequant SpecTypes SpecVarDCT SpecHF SpecHFGroup SpecGrammar SpecEntropy SpecDist SpecPrefix SpecLZ SpecStream SpecSymbols.
From Verif Require Import ProofReads ProofModDecode ProofDecode ProofSymbols ProofHFGroup PropStream PropSymbols PropModDecode PropHF PropHFGroup.
From Verif Require Import ProofDCT GoMatrixR ProofHFDequant PropTypes PropHFDequant ProofVarDCT PropVarDCT.
Import ListNotations.
Open Scope Z_scope.

(* What the inverse transforms take from the frame besides what the reader of
   the coefficients takes: scales, quantisation bias and weights *)
Record FrameIn := mkFI { fi_globalScale : Z; fi_xqmScale : Z; fi_bqmScale : Z; fi_quantBias : list R; fi_quantBiasNumerator : R; fi_weights : list (list (list (list R))) }.
Definition params_of (i : GroupIn) (f : FrameIn) : HFParams :=
  mkHFP (fi_globalScale f) (fi_xqmScale f) (fi_bqmScale f) (gi_jy i) (gi_jx i) (Z.shiftl (fst (gi_pos i)) 5) (Z.shiftl (snd (gi_pos i)) 5) (fi_quantBias f) (fi_quantBiasNumerator f) (fi_weights f).
(* frame/PassGroup.go:85-106 and 108-274 for the HF part of a group *)
Definition decodeVarGroup (i : GroupIn) (f : FrameIn) (call : HFBlock -> nat) (location : Z * Z) (dequant : list (list (list R))) (bi : BakeIn) (fbs : list (list (list R))) (s : Scratch)
    : RM (list (list (list R))) :=
  r <- NewHFCoefficients i ;;
  rlift (invertVarDCT (params_of i f) call location false (gi_select i) (gi_mult i) (snd (fst r)) (snd r) dequant bi fbs s).

(* the blocks of the group with their types *)
Definition to_hf (b : hblock) : HFBlock := mkHB (nth (Z.to_nat (b_type b)) allDCT (hb_type one_block)) (Z.of_nat (b_y b)) (Z.of_nat (b_x b)) (b_mult b).
Definition group_blocks (g : hgroup) (bs : list hblock) : list HFBlock := map to_hf (filter (in_groupb g) bs).
Definition sent_coefficients (i : GroupIn) (g : hgroup) (Q : nat -> nat -> nat -> Z) : list (list (list Z)) :=
  map (fun c => mat (height_in i g c) (width_in i g c) (fun y x => Q c y x * 2 ^ gi_shift i)) [0; 1; 2]%nat.
Lemma groupBlocks_given i g H W bs : Forall (block_given i g H W) bs ->
  groupBlocks (gi_select i) (gi_mult i) (map (fun b => if in_groupb g b then Some (block_place b) else None) bs) = Ok (group_blocks g bs).
Proof.
  unfold group_blocks. induction bs as [|b bs IH]; intros HB; [reflexivity|]. inversion HB as [|? ? (B1 & B2 & B3) HB']; subst. cbn [map filter]. destruct (in_groupb g b) eqn:E; [|exact (IH HB')].
  destruct (B3 (proj1 (in_groupb_spec g b) E)) as (T & _ & S1 & S2 & _). cbn [groupBlocks map]. unfold blockAt. change (fst (block_place b)) with (Z.of_nat (b_y b)). change (snd (block_place b)) with (Z.of_nat (b_x b)). rewrite S1. cbn [obind].
  replace (b_type b + 1 =? 0) with false by lia. replace (b_type b + 1 - 1) with (b_type b) by lia.
  rewrite (slice_get_ok allDCT (b_type b) (hb_type one_block)) by (change (Z.of_nat (length allDCT)) with 27; lia). cbn [obind]. rewrite S2. cbn [obind]. rewrite (IH HB'). reflexivity.
Qed.

(* From the bits of a group to the samples of the frame: the quantized
   coefficients Q, coded in any way the format allows (C101), are read,
   dequantized (C81, C82) and transformed back (C105). *)
Theorem C105_bits_partial : forall i g Q bs h preset l sc x s d p fi call location dequant bi fbs scr H W F M,
  let c0 := zbits (Z.to_nat (Z.log2_up (gi_presets i))) preset in let pp := params_of i fi in let q := in_frame pp location in
  group_inputs i g Q -> 0 <= preset < gi_presets i -> 495 * 16 * gi_presets i < 2 ^ 29 -> g_offset g = 495 * hb_numClusters (g_ctx g) * preset ->
  gi_blocks i = map block_place bs -> Forall (block_given i g (height_in i g) (width_in i g)) bs -> ForallOrdPairs (separate g) bs ->
  (forall c y x, (forall b, In b bs -> in_group g b -> in_channel g c b -> ~ In (y, x) (hf_positions g c b)) -> Q c y x = 0) ->
  group_sends g Q bs (fun _ _ _ => 0) l -> Z.of_nat (length l) < 2 ^ 31 ->
  stream_of h (gi_stream i) -> proper_header h -> symbols h 0 sst0 l sc x -> (ss_x x = None \/ ss_x x = Some 1245184) ->
  reader_at s d p -> bits_at d p (c0 ++ sc) -> (p + length (c0 ++ sc) + 15 <= 8 * length d)%nat ->
  group_sent pp location (sent_coefficients i g Q) dequant bi scr H W F (group_blocks g bs) -> bounded M F pp location (group_blocks g bs) ->
  length fbs = 3%nat -> (forall c, (c < 3)%nat -> rrect (H c) (W c) (nth c fbs [])) ->
  exists fbs' s', decodeVarGroup i fi call location dequant bi fbs scr s = (Ok fbs', s') /\ reader_at s' d (p + length (c0 ++ sc)) /\ length fbs' = 3%nat /\
    forall c, (c < 3)%nat -> rrect (H c) (W c) (nth c fbs' []) /\
      (forall b y x, In b (group_blocks g bs) -> present q (sY pp c) (sX pp c) b -> (y < b_h b)%nat -> (x < b_w b)%nat ->
        near M (kind_of (hb_type b)) (block_of F pp location c b) (block_of (fun c => pixel (nth c fbs' [])) pp location c b) y x) /\
      (forall y x, (forall b, In b (group_blocks g bs) -> present q (sY pp c) (sX pp c) b -> covers_px q (sY pp c) (sX pp c) b y x = false) -> pixel (nth c fbs' []) y x = pixel (nth c fbs []) y x).
Proof.
  intros i g Q bs h preset l sc x s d p fi call location dequant bi fbs scr H W F M c0 pp q G Hp Hnp Eoff Ebs HB HF HZ HS HL Hst Hpr Hsy Hx Hr Hb Hk GS HM LF HR.
  destruct (C101_group_partial i g Q bs h preset l sc x s d p G Hp Hnp Eoff Ebs HB HF HZ HS HL Hst Hpr Hsy Hx Hr Hb Hk) as (qs & s' & E & Lq & V & R').
  assert (Eq : qs = sent_coefficients i g Q).
  { assert (K : forall c, (c < 3)%nat -> nth c qs [] = mat (height_in i g c) (width_in i g c) (fun y x => Q c y x * 2 ^ gi_shift i)).
    { intros c Hc. destruct (V c Hc) as [V1 V2]. apply (rect_ext (height_in i g c) (width_in i g c)); [exact V1|apply rect_mat|]. intros y z Hy Hz. rewrite px_mat by assumption. apply V2. }
    destruct qs as [|a [|b [|c [|]]]]; try discriminate. unfold sent_coefficients. cbn [map]. f_equal; [apply (K 0%nat); lia|]. f_equal; [apply (K 1%nat); lia|]. f_equal. apply (K 2%nat). lia. }
  subst qs. pose proof (groupBlocks_given i g _ _ bs HB) as EB.
  destruct (C105_group_partial pp call location _ _ _ _ dequant bi fbs scr H W F M _ EB GS HM LF HR) as (fbs' & E2 & L' & P').
  exists fbs', s'. split; [|split; [exact R'|split; [exact L'|exact P']]].
  unfold decodeVarGroup. erewrite rbind_ok by exact E. cbn [fst snd]. fold pp. unfold rlift. rewrite E2. reflexivity.
Qed.
Print Assumptions C105_bits_partial.

(* A group of one 8x8 block with one HF coefficient that is not zero, from the
   bits of some stream *)
Definition ex_single : list hblock := [HB 0 0 0 5 0].
Definition ex_coef (p1 : nat * nat) (c y x : nat) : Z := match c with O => if (y =? fst p1)%nat && (x =? snd p1)%nat then -7 else 0 | _ => 0 end.
Definition ex_in (ord : Z -> list (Z * Z)) (e : ES) : GroupIn :=
  mkGI ex_hc 1 (map (fun o => [ord o; ord o; ord o]) [0; 1; 2; 3; 4; 5; 6; 7; 8; 9; 10; 11; 12]) e 1 (8, 8) (0, 0) [0; 0; 0] [0; 0; 0] (map block_place ex_single) [[1]] [[5]] [[0]].
Definition ex_frame_in : FrameIn := mkFI 100 3 2 [0.9; 0.9; 0.9]%R 0.1%R [repeat (repeat (repeat 0.5%R 8) 8) 3].
Lemma ex_inputs ord e p1 : (forall o, 0 <= o <= 12 -> scan_order (fst (order_cells o)) (snd (order_cells o)) (ord o)) -> group_inputs (ex_in ord e) (ex_orders ord) (ex_coef p1).
Proof.
  intros HO. destruct (PropHFGroup.ex_group ord e p1 p1 HO) as [A1 A2 A3 A4 A5 A6 A7 A8 A9 _ _ _]. constructor; try assumption.
  - intros c y x. destruct c as [|c]; cbn [ex_coef]; [destruct (_ && _); cbn; lia|cbn; lia].
  - cbn. lia.
  - cbn. lia.
Qed.
Lemma ex_single_given ord e : Forall (block_given (ex_in ord e) (ex_orders ord) (height_in (ex_in ord e) (ex_orders ord)) (width_in (ex_in ord e) (ex_orders ord))) ex_single.
Proof.
  constructor; [|constructor]. split; [cbn; lia|]. split; [cbn; lia|]. intros _. split; [cbn; lia|]. split; [cbn; lia|]. split; [reflexivity|]. split; [reflexivity|]. split; [reflexivity|].
  intros c _ _. unfold ProofHFGroup.block_fits. change (height_in (ex_in ord e) (ex_orders ord) c) with 8%nat. change (width_in (ex_in ord e) (ex_orders ord) c) with 8%nat.
  change (cell_y (ex_orders ord) c (HB 0 0 0 5 0)) with 0%nat. change (cell_x (ex_orders ord) c (HB 0 0 0 5 0)) with 0%nat. cbn [b_type cells fst snd]. lia.
Qed.
Example C105_bits_example : exists ord p1 e l sc x q, q 0%nat (fst p1) (snd p1) = -14 /\
  group_sends (ex_orders ord) (ex_coef p1) ex_single (fun _ _ _ => 0) l /\ (exists h, stream_of h e /\ symbols h 0 sst0 l sc x) /\
  forall s d p, reader_at s d p -> bits_at d p sc -> (p + length sc + 15 <= 8 * length d)%nat ->
  exists fbs s', decodeVarGroup (ex_in ord e) ex_frame_in (fun _ => 0%nat) (0, 0) (repeat (repeat (repeat 0%R 8) 8) 3) ex_bake (repeat (repeat (repeat 7%R 8) 8) 3) ex_scratch s = (Ok fbs, s') /\
    forall c y x, (c < 3)%nat -> (y < 8)%nat -> (x < 8)%nat -> pixel (nth c fbs []) y x = ex_samples q c y x.
Proof.
  set (ord := fun o => match getNaturalOrder isort o with Ok l => l | _ => [] end).
  assert (N : forall o, 0 <= o <= 12 -> scan_order (fst (order_cells o)) (snd (order_cells o)) (ord o)).
  { intros o Ho. destruct (C42_natural_order o isort Ho isort_ok) as (l & E & _ & S & _). unfold ord. rewrite E. exact S. }
  clearbody ord. set (g := ex_orders ord). set (b1 := HB 0 0 0 5 0). set (p1 := nth 3 (hf_positions g 0 b1) (0, 0)%nat).
  assert (G : forall e, group_inputs (ex_in ord e) g (ex_coef p1)) by (intros e; exact (ex_inputs ord e p1 N)).
  destruct flat_sent as (hc0 & Hh0 & _). destruct (C83_nested_partial 1 false ltac:(lia) _ _ Hh0) as (e0 & (_ & _) & _).
  assert (I1 : In p1 (hf_positions g 0 b1)).
  { apply nth_In. destruct (hf_length _ _ _ 0%nat b1 (G e0) ltac:(lia) ltac:(cbn; lia)) as (L & _). change (63 * blocks8 (b_type b1)) with 63 in L. lia. }
  assert (IG : forall b, In b ex_single -> in_group g b) by (intros b [<-|[]]; split; cbn; lia).
  assert (TB : forall b, In b ex_single -> in_group g b -> 0 <= b_type b <= 26 /\ 0 <= b_lf b < hb_numLFContexts (g_ctx g)) by (intros b [<-|[]] _; cbn; lia).
  destruct (C101_sendable (ex_in ord e0) g (ex_coef p1) ex_single 1 0 (G e0) ltac:(lia) eq_refl ltac:(cbn; lia)) as (l & hc & h & sc & x & S1 & S2 & S3 & S4 & S5 & S6 & S7); [|exact TB|].
  { intros c y z. destruct c as [|c]; cbn [ex_coef]; [destruct (_ && _); lia|lia]. }
  destruct (C83_nested_partial (495 * hb_numClusters (g_ctx g) * 1) false ltac:(cbn; lia) _ _ S2) as (e & (HE & _) & _).
  set (q := fun c y x => ex_coef p1 c y x * 2 ^ 1).
  exists ord, p1, e, l, sc, x, q. split; [unfold q; cbn [ex_coef]; rewrite !Nat.eqb_refl; reflexivity|]. split; [exact S1|]. split; [exists h; split; assumption|].
  intros s d p Hr Hb Hk.
  destruct (C105_bits_partial (ex_in ord e) g (ex_coef p1) ex_single h 0 l sc x s d p ex_frame_in (fun _ => 0%nat) (0, 0) (repeat (repeat (repeat 0%R 8) 8) 3) ex_bake (repeat (repeat (repeat 7%R 8) 8) 3) ex_scratch
    (fun _ => 8%nat) (fun _ => 8%nat) (ex_samples q) 0%R (G e)) as (fbs & s' & E & _ & _ & V); try assumption.
  - cbn. lia.
  - cbn. lia.
  - reflexivity.
  - reflexivity.
  - apply ex_single_given.
  - repeat constructor.
  - intros c y z HZ. destruct c as [|c]; cbn [ex_coef]; [|reflexivity].
    destruct (Nat.eqb_spec y (fst p1)), (Nat.eqb_spec z (snd p1)); cbn [andb]; try reflexivity. exfalso. subst. apply (HZ b1 (or_introl eq_refl)); [apply IG; left; reflexivity|split; reflexivity|]. rewrite <- surjective_pairing. exact I1.
  - change (Z.of_nat (length ex_single)) with 1 in S7. lia.
  - exact (ex_group_sent q).
  - intros c b y z _ [<-|[]] K. destruct (K I).
  - reflexivity.
  - intros c Hc. exact (one_nth 8 8 7%R c [] Hc).
  - exists fbs, s'. split; [exact E|]. intros c y z Hc Hy Hz. destruct (V c Hc) as (_ & W & _). specialize (W one_block y z (or_introl eq_refl)).
    change (params_of (ex_in ord e) ex_frame_in) with one_params in W. assert (Es : sY one_params c = 0 /\ sX one_params c = 0) by (split; exact (zero_nth 3 c)).
    unfold block_of in W. destruct Es as [Ey Ex]. rewrite Ey, Ex in W. specialize (W ltac:(split; apply Z.mod_1_r) Hy Hz). exact W.
Qed.
