(* C107: lemmas about the layout of blocks in VarDCT frames. *)
From Coq Require Import ZArith List Bool Arith Lia Reals ZifyBool ZifyNat.
From Verif Require Import GoBase GoMatrix ModelGroups ModelHF ModelHFDequant.
From Verif Require Import SpecDCT SpecGroups SpecHF SpecHFDequant SpecVarFrame SpecVarLayout.
From Verif Require Import ProofGroups ProofHFDequant ProofVarFrame.
Import ListNotations.
Open Scope Z_scope.

(* ---- packings ---- *)
Lemma packing_free h w placed rs r p : standard_packing h w placed rs -> In r rs -> In p placed -> ~ covers p (r_y r) (r_x r).
Proof.
  induction 1 as [placed|placed r' rs I D FF _ IH]; [intros []|]. intros [->|Hr] Hp; [exact (proj1 FF p Hp)|]. apply IH; [exact Hr|]. apply in_or_app. left. exact Hp.
Qed.
Lemma packing_disjoint h w placed rs : standard_packing h w placed rs -> ForallOrdPairs disjoint rs /\ forall p r, In p placed -> In r rs -> disjoint p r.
Proof.
  induction 1 as [placed|placed r rs I D FF _ [IH1 IH2]]; [split; [constructor|intros p r _ []]|]. split.
  - constructor; [|exact IH1]. apply Forall_forall. intros r' Hr'. apply IH2; [apply in_or_app; right; left; reflexivity|exact Hr'].
  - intros p r' Hp [<-|Hr']; [rewrite Forall_forall in D; exact (D p Hp)|]. apply IH2; [apply in_or_app; left; exact Hp|exact Hr'].
Qed.
Lemma packing_in h w placed rs r : standard_packing h w placed rs -> In r rs -> inside h w r.
Proof. induction 1 as [placed|placed r' rs I D FF _ IH]; [intros []|]. intros [->|Hr]; [exact I|exact (IH Hr)]. Qed.
Lemma packing_order h w placed rs : standard_packing h w placed rs -> Forall (fun r => 1 <= r_h r /\ 1 <= r_w r) rs ->
  ForallOrdPairs (fun a b => before (r_y a) (r_x a) (r_y b) (r_x b)) rs.
Proof.
  induction 1 as [placed|placed r rs I D FF SP IH]; intros P; [constructor|]. inversion P as [|? ? P1 P2]; subst. constructor; [|exact (IH P2)].
  apply Forall_forall. intros r' Hr'. pose proof (packing_in _ _ _ _ _ SP Hr') as I'. rewrite Forall_forall in P2. specialize (P2 r' Hr'). unfold inside in I, I'.
  assert (C : before (r_y r) (r_x r) (r_y r') (r_x r') \/ (r_y r' = r_y r /\ r_x r' = r_x r) \/ before (r_y r') (r_x r') (r_y r) (r_x r)) by (unfold before; lia).
  destruct C as [C|[[E1 E2]|C]]; [exact C| |].
  - exfalso. apply (packing_free _ _ _ _ r' r SP Hr'); [apply in_or_app; right; left; reflexivity|]. unfold covers. lia.
  - exfalso. destruct (proj2 FF (r_y r') (r_x r') ltac:(lia) ltac:(lia) C) as (p & Hp & Cp). apply (packing_free _ _ _ _ r' p SP Hr'); [apply in_or_app; left; exact Hp|exact Cp].
Qed.

(* ---- lists ---- *)
Lemma FOP_impl {A} (P Q : A -> A -> Prop) l : (forall a b, In a l -> In b l -> P a b -> Q a b) -> ForallOrdPairs P l -> ForallOrdPairs Q l.
Proof.
  intros H. induction 1 as [|a l F _ IH]; [constructor|]. constructor.
  - rewrite Forall_forall in *. intros b Hb. apply H; [left; reflexivity|right; exact Hb|apply F; exact Hb].
  - apply IH. intros x y Hx Hy. apply H; right; assumption.
Qed.
Lemma FOP_map {A B} (g : A -> B) (P : B -> B -> Prop) l : ForallOrdPairs (fun a b => P (g a) (g b)) l -> ForallOrdPairs P (map g l).
Proof. induction 1 as [|a l F _ IH]; [constructor|]. cbn [map]. constructor; [|exact IH]. apply Forall_map. exact F. Qed.
Lemma FOP_filter {A} (q : A -> bool) (P : A -> A -> Prop) l : ForallOrdPairs P l -> ForallOrdPairs P (filter q l).
Proof.
  induction 1 as [|a l F _ IH]; [constructor|]. cbn [filter]. destruct (q a); [|exact IH]. constructor; [|exact IH].
  rewrite Forall_forall in *. intros b Hb. apply filter_In in Hb. apply F. apply Hb.
Qed.
Lemma FOP_combine {A B} (P : B -> B -> Prop) (l : list A) rs : ForallOrdPairs P rs -> ForallOrdPairs (fun a b => P (snd a) (snd b)) (combine l rs).
Proof.
  intros H. revert l. induction H as [|r rs F _ IH]; intros l; [destruct l; constructor|]. destruct l as [|a l]; [constructor|]. cbn [combine]. constructor; [|apply IH].
  rewrite Forall_forall in *. intros [b r'] Hb. apply in_combine_r in Hb. apply F. exact Hb.
Qed.
Lemma FOP_and {A} (P Q : A -> A -> Prop) l : ForallOrdPairs P l -> ForallOrdPairs Q l -> ForallOrdPairs (fun a b => P a b /\ Q a b) l.
Proof.
  induction 1 as [|a l F _ IH]; intros H; [constructor|]. inversion H as [|? ? F' H']; subst. constructor; [|exact (IH H')].
  rewrite Forall_forall in *. intros b Hb. split; [apply F|apply F']; exact Hb.
Qed.
Lemma FOP_seq (P : nat -> nat -> Prop) s n : (forall a b, (s <= a < b)%nat -> (b < s + n)%nat -> P a b) -> ForallOrdPairs P (seq s n).
Proof.
  revert s. induction n as [|n IH]; intros s H; [constructor|]. cbn [seq]. constructor.
  - apply Forall_forall. intros b Hb. apply in_seq in Hb. apply H; lia.
  - apply IH. intros a b Ha Hb. apply H; lia.
Qed.

(* ---- geometry ---- *)
Lemma frame_unit g : var_geo g -> (frame_h g = 8 * (frame_h g / 8) /\ frame_w g = 8 * (frame_w g / 8)) /\
  (forall y, 0 <= y < frame_h g -> y / 256 < down g 256) /\ (forall x, 0 <= x < frame_w g -> x / 256 < across g 256).
Proof.
  intros [[A B _ C D _] _ V]. unfold frame_h, frame_w, pad_unit, down, across. rewrite V. unfold round_up.
  assert (P : forall k, 0 <= k <= 1 -> 2 ^ k = 1 \/ 2 ^ k = 2) by (intros k Hk; assert (k = 0 \/ k = 1) as [-> | ->] by lia; cbn; lia).
  destruct (P _ C) as [-> | ->], (P _ D) as [-> | ->]; (split; [split; lia|split; intros; lia]).
Qed.
Lemma geo_place g id : var_geo g -> (id < tile_count g 256)%nat ->
  tile_place g 2048 (lf_of g id) = (fst (tile_place g 256 id) / 8, snd (tile_place g 256 id) / 8) /\ (lf_of g id < tile_count g 2048)%nat /\
  0 <= fst (tile_place g 256 id) < down g 256 /\ 0 <= snd (tile_place g 256 id) < across g 256.
Proof.
  intros V Hid. destruct (geo_counts g V) as (_ & _ & _ & _ & _ & A1 & A2 & _). destruct (geo_group g id V Hid) as (_ & _ & _ & G4 & _ & _ & _ & P1 & P2).
  assert (Q2 : snd (tile_place g 256 id) < across g 256) by (unfold tile_place; cbn [snd]; apply Z.mod_pos_bound; lia).
  assert (Q1 : fst (tile_place g 256 id) < down g 256). { unfold tile_place. cbn [fst]. apply Z.div_lt_upper_bound; [lia|]. unfold tile_count in Hid. lia. }
  assert (D : 0 <= snd (tile_place g 256 id) / 8 < across g 2048).
  { unfold across in Q2 |- *. change 2048 with (256 * 8). rewrite <- Z.div_div by lia. lia. }
  split; [|lia]. set (T := tile_place g 256 id) in *.
  assert (N : 0 <= fst T / 8) by (apply Z.div_pos; lia). assert (E : Z.of_nat (lf_of g id) = fst T / 8 * across g 2048 + snd T / 8) by (unfold lf_of; fold T; rewrite Z2Nat.id; [reflexivity|nia]).
  unfold tile_place at 1. rewrite E. f_equal; symmetry; [apply (Z.div_unique _ _ _ (snd T / 8)); lia|apply (Z.mod_unique _ _ (fst T / 8)); lia].
Qed.
Lemma tile_exists g ty tx : 0 <= ty < down g 256 -> 0 <= tx < across g 256 -> exists id, (id < tile_count g 256)%nat /\ tile_place g 256 id = (ty, tx).
Proof.
  intros Hy Hx. exists (Z.to_nat (ty * across g 256 + tx)). assert (0 <= ty * across g 256) by nia.
  assert (ty * across g 256 + tx < across g 256 * down g 256) by nia. unfold tile_count, tile_place. split; [lia|]. rewrite Z2Nat.id by lia.
  f_equal; symmetry; [apply (Z.div_unique _ _ _ tx); lia|apply (Z.mod_unique _ _ ty); lia].
Qed.
Lemma tile_inj g a b : 1 <= across g 256 -> tile_place g 256 a = tile_place g 256 b -> a = b.
Proof. unfold tile_place. intros P E. apply pair_equal_spec in E as [E1 E2]. apply Nat2Z.inj. rewrite (Z.div_mod (Z.of_nat a) (across g 256)), (Z.div_mod (Z.of_nat b) (across g 256)) by lia. congruence. Qed.

(* ---- blocks and rectangles ---- *)
Record is_rect (b : HFBlock) (r : Rect) : Prop := {
  ir_y : hb_y b = r_y r; ir_x : hb_x b = r_x r; ir_h : tt_pixelHeight (hb_type b) = 8 * r_h r; ir_w : tt_pixelWidth (hb_type b) = 8 * r_w r;
  ir_pos : 1 <= r_h r /\ 1 <= r_w r /\ 0 <= r_y r /\ 0 <= r_x r; ir_type : In (hb_type b) allDCT }.
Lemma rect_size b r : is_rect b r -> Z.of_nat (b_h b) = 8 * r_h r /\ Z.of_nat (b_w b) = 8 * r_w r.
Proof. intros [_ _ H W P _]. unfold b_h, b_w. rewrite H, W. lia. Qed.
Lemma rect_top p b r : is_rect b r -> hp_groupY p <= r_y r -> hp_groupX p <= r_x r -> Z.of_nat (b_top p 0 b) = 8 * (r_y r - hp_groupY p) /\ Z.of_nat (b_left p 0 b) = 8 * (r_x r - hp_groupX p).
Proof. intros [Y X _ _ _ _] A B. unfold b_top, b_left. rewrite Y, X. change (2 ^ 0) with 1. rewrite !Z.div_1_r. lia. Qed.
Lemma rect_covers p b r y x : is_rect b r -> hp_groupY p <= r_y r -> hp_groupX p <= r_x r ->
  covers_px p 0 0 b y x = true <-> covers r (Z.of_nat y / 8 + hp_groupY p) (Z.of_nat x / 8 + hp_groupX p).
Proof.
  intros I A B. destruct (rect_size b r I) as [H W]. destruct (rect_top p b r I A B) as [T L]. unfold covers_px, in_block, covers.
  set (t := b_top p 0 b) in *. set (l := b_left p 0 b) in *. set (h := b_h b) in *. set (w := b_w b) in *. clearbody t l h w. split; intros; lia.
Qed.
