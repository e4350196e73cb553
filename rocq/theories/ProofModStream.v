From Coq Require Import ZArith List Bool Lia Arith ZifyBool ZifyNat.
From Verif Require Import GoBase GoLoop GoMatrix Bits ModelBitReader SpecBitReader SpecCodes SpecGrammar ModelUtil ModelHeader SpecHeader
  ModelEntropy ModelMATree ModelModular ModelFrameHeader ModelModStream SpecFrameHeader SpecModular SpecPalette SpecModStream.
From Verif Require Import ProofReads ProofCodes ProofGrammar ProofHeader ProofFrameHeader ProofUtil ProofSqueeze ProofModular ProofPalette.
Import ListNotations.
Open Scope Z_scope.

(* ---- header ---- *)
Lemma c_list_length {A} (R : code A) : forall n c l, c_list n R c l -> length l = n.
Proof.
  induction n as [|n IH]; cbn [c_list]; intros c l H; [destruct H as [_ ->]; reflexivity|].
  destruct H as (c1 & c2 & v & _ & _ & c3 & c4 & t & _ & Ht & _ & ->). cbn. f_equal. eapply IH, Ht.
Qed.
Lemma c_fixed_range n c v : c_fixed n c v -> 0 <= v < 2 ^ Z.of_nat n.
Proof. intros [_ H]. exact H. Qed.
Lemma exact_wp : exact NewWPParams wp_code.
Proof.
  unfold NewWPParams, wp_code. xb d. intros _. apply exact_ite; intros _; [ex|].
  apply (exact_eq (p <- readMany 7 (ReadBits 5) ;; w <- readMany 4 (ReadBits 4) ;;
     rret (mkWP (nth 0 p 0) (nth 1 p 0) (i32 (nth 2 p 0)) (i32 (nth 3 p 0)) (i32 (nth 4 p 0)) (i32 (nth 5 p 0)) (i32 (nth 6 p 0)) w))).
  { intros s. cbn [readMany]. unfold rbind, rret.
    do 7 (match goal with |- context [ReadBits 5 ?s] => destruct (ReadBits 5 s) as [[?| |] ?] end; [|reflexivity|reflexivity]).
    do 4 (match goal with |- context [ReadBits 4 ?s] => destruct (ReadBits 4 s) as [[?| |] ?] end; [|reflexivity|reflexivity]). reflexivity. }
  apply exact_bind; [apply exact_many; ex|]. intros p [cp Hp].
  assert (B : Forall (fun v => 0 <= v < 32) p) by (revert Hp; apply c_list_all; intros c v H; exact (c_fixed_range 5 c v H)).
  apply exact_bind; [apply exact_many; ex|]. intros w _.
  assert (I : forall i, i32 (nth i p 0) = nth i p 0).
  { intros i. apply i32_small. destruct (Nat.lt_ge_cases i (length p)) as [L|L]; [|rewrite nth_overflow by exact L; lia].
    rewrite Forall_forall in B. specialize (B _ (nth_In p 0 L)). lia. }
  rewrite !I. ex.
Qed.

Lemma exact_channel : exact (ReadU32 0 3 8 6 72 10 1096 13) channel_code.
Proof. unfold channel_code. ex. Qed.
(* a selector whose field is longer than 64 bits is an error *)
Lemma exact_begin : exact (ReadU32 3 6 10 13 0 8 72 1096) (md_begin mimplemented).
Proof.
  unfold ReadU32. cbn [md_begin mimplemented].
  apply (exact_iff _ (i <== c_fixed 2 ;;; c_guard (i <> 3) (x <== c_fixed (nth (Z.to_nat i) [6%nat; 13%nat; 8%nat; O] O) ;;; c_ret (nth (Z.to_nat i) [3; 10; 0; 0] 0 + x)))).
  - intros c v. split.
    + intros (a & b & i & -> & [-> Hi] & N & b1 & b2 & x & -> & [-> Hx] & [-> ->]). change (2 ^ Z.of_nat 2) with 4 in Hi.
      rewrite app_nil_r. split.
      * exists (Z.to_nat i), x. rewrite Z2Nat.id by lia. split; [lia|]. cbv zeta. auto.
      * assert (i = 0 \/ i = 1 \/ i = 2) as [->|[->| ->]] by lia; vm_compute; discriminate.
    + intros [(i & x & Hi & Hx & -> & ->) F]. exists (zbits 2 (Z.of_nat i)), (zbits (nth i [6%nat; 13%nat; 8%nat; O] O) x), (Z.of_nat i).
      split; [reflexivity|]. split; [split; [reflexivity|change (2 ^ Z.of_nat 2) with 4; lia]|]. split.
      * intros E. replace i with 3%nat in F by lia. apply F. reflexivity.
      * rewrite Nat2Z.id. exists (zbits (nth i [6%nat; 13%nat; 8%nat; O] O) x), [], x. rewrite app_nil_r. split; auto. split; [split; auto|]. split; reflexivity.
  - apply exact_bind; [now apply exact_bits; [|lia]|]. intros i [ci [_ Hi]]. change (2 ^ Z.of_nat 2) with 4 in Hi. cbv zeta.
    assert (i = 0 \/ i = 1 \/ i = 2 \/ i = 3) as [->|[->|[->| ->]]] by lia.
    1,2,3: apply exact_true; [lia|]; match goal with |- context [Z.to_nat ?i] => let n := eval vm_compute in (Z.to_nat i) in change (Z.to_nat i) with n end; cbn [nth];
      (apply exact_bind; [match goal with |- exact (ReadBits ?k) (c_fixed ?n) => apply (exact_bits n k eq_refl); lia end|]); intros x [cx [_ Hx]];
      match type of Hx with _ <= _ < ?p => let n := eval vm_compute in p in change p with n in Hx end;
      rewrite (u32_small x) by lia; (rewrite u32_small by (change (u32 3) with 3; change (u32 10) with 10; change (u32 0) with 0; lia)); apply exact_ret.
    change (Z.to_nat 3) with 3%nat. cbn [nth].
    apply (exact_eq rerr); [|apply exact_err; intros c v [H _]; congruence].
    intros s. unfold rbind, ReadBits, rerr. change (u32 1096) with 1096. reflexivity.
Qed.
Lemma exact_squeeze : exact NewSqueezeParam (squeeze_code mimplemented).
Proof.
  unfold NewSqueezeParam, squeeze_code. xb h. intros _. xb i. intros _. xb b; [exact exact_begin|]. intros _.
  cbn [md_num mimplemented]. xb n. intros _. ex.
Qed.
Lemma exact_squeezes n : exact (readSqueezeParams n) (c_list n (squeeze_code mimplemented)).
Proof. revert n. apply (exact_list readSqueezeParams NewSqueezeParam); try reflexivity. exact exact_squeeze. Qed.
Lemma exact_transform : exact NewTransformInfo (transform_code mimplemented).
Proof.
  unfold NewTransformInfo, transform_code, SQUEEZE, RCT, PALETTE. xb k. intros _. cbn [md_kind mimplemented]. apply exact_true; [exact I|].
  xb b; [apply exact_when; [reflexivity|apply exact_channel|ex]|]. intros _.
  xb r; [apply exact_when; [reflexivity|ex|ex]|]. intros _. cbn [md_rct mimplemented]. apply exact_true; [exact I|].
  xb n; [apply exact_when; [reflexivity|ex|ex]|]. intros _.
  xb c; [apply exact_when; [reflexivity|ex|ex]|]. intros _.
  xb d; [apply exact_when; [reflexivity|ex|ex]|]. intros _.
  xb p; [apply exact_when; [reflexivity|ex|ex]|]. intros _.
  xb sq; [apply exact_when; [reflexivity| |ex]|].
  - xb m. intros _. apply exact_squeezes.
  - intros _. ex.
Qed.
Lemma exact_modular : exact readModularHeader (modular_code mimplemented).
Proof.
  unfold readModularHeader, modular_code. xb g. intros _. xb w; [exact exact_wp|]. intros _. xb n. intros _.
  xb l; [|intros _; ex]. generalize (Z.to_nat n). apply (exact_list readTransforms NewTransformInfo); try reflexivity. exact exact_transform.
Qed.

(* Without explicit squeezes the dialect reads what the standard says *)
Lemma transform_iff c t : ti_sp t = [] -> (transform_code mstandard c t <-> transform_code mimplemented c t /\ ti_tr t <= 2 /\ ti_rctType t < 42).
Proof.
  intros Hs. unfold transform_code. cbn [md_kind md_rct mstandard mimplemented].
  assert (E : forall k D n c' sq, c_when (k =? 2) (n <== n ;;; c_list (Z.to_nat n) (squeeze_code D)) [] c' sq -> sq = [] -> 
     forall D', c_when (k =? 2) (n <== n ;;; c_list (Z.to_nat n) (squeeze_code D')) [] c' sq).
  { intros k D nc c' sq H -> D'. destruct (k =? 2); [|exact H]. cbn [c_when] in *.
    destruct H as (c1 & c2 & n & -> & H1 & H2). exists c1, c2, n. split; [reflexivity|]. split; [exact H1|].
    pose proof (c_list_length _ _ _ _ H2) as L. cbn in L. rewrite <- L in *. exact H2. }
  split.
  - intros (c0 & c0' & k & -> & H0 & Hk & c1 & c1' & b & -> & H1 & c2 & c2' & r & -> & H2 & Hr & c3 & c3' & n & -> & H3 &
      c4 & c4' & co & -> & H4 & c5 & c5' & de & -> & H5 & c6 & c6' & p & -> & H6 & c7 & c7' & sq & -> & H7 & -> & ->).
    cbn [ti_tr ti_rctType ti_sp] in *. split; [|split; assumption].
    exists c0, (c1 ++ c2 ++ c3 ++ c4 ++ c5 ++ c6 ++ c7 ++ []), k. split; [reflexivity|]. split; [exact H0|]. split; [exact I|].
    exists c1, (c2 ++ c3 ++ c4 ++ c5 ++ c6 ++ c7 ++ []), b. split; [reflexivity|]. split; [exact H1|].
    exists c2, (c3 ++ c4 ++ c5 ++ c6 ++ c7 ++ []), r. split; [reflexivity|]. split; [exact H2|]. split; [exact I|].
    exists c3, (c4 ++ c5 ++ c6 ++ c7 ++ []), n. split; [reflexivity|]. split; [exact H3|].
    exists c4, (c5 ++ c6 ++ c7 ++ []), co. split; [reflexivity|]. split; [exact H4|].
    exists c5, (c6 ++ c7 ++ []), de. split; [reflexivity|]. split; [exact H5|].
    exists c6, (c7 ++ []), p. split; [reflexivity|]. split; [exact H6|].
    exists c7, [], sq. split; [reflexivity|]. split; [eapply E; eassumption|]. split; reflexivity.
  - intros ((c0 & c0' & k & -> & H0 & _ & c1 & c1' & b & -> & H1 & c2 & c2' & r & -> & H2 & _ & c3 & c3' & n & -> & H3 &
      c4 & c4' & co & -> & H4 & c5 & c5' & de & -> & H5 & c6 & c6' & p & -> & H6 & c7 & c7' & sq & -> & H7 & -> & ->) & Hk & Hr).
    cbn [ti_tr ti_rctType ti_sp] in *.
    exists c0, (c1 ++ c2 ++ c3 ++ c4 ++ c5 ++ c6 ++ c7 ++ []), k. split; [reflexivity|]. split; [exact H0|]. split; [exact Hk|].
    exists c1, (c2 ++ c3 ++ c4 ++ c5 ++ c6 ++ c7 ++ []), b. split; [reflexivity|]. split; [exact H1|].
    exists c2, (c3 ++ c4 ++ c5 ++ c6 ++ c7 ++ []), r. split; [reflexivity|]. split; [exact H2|]. split; [exact Hr|].
    exists c3, (c4 ++ c5 ++ c6 ++ c7 ++ []), n. split; [reflexivity|]. split; [exact H3|].
    exists c4, (c5 ++ c6 ++ c7 ++ []), co. split; [reflexivity|]. split; [exact H4|].
    exists c5, (c6 ++ c7 ++ []), de. split; [reflexivity|]. split; [exact H5|].
    exists c6, (c7 ++ []), p. split; [reflexivity|]. split; [exact H6|].
    exists c7, [], sq. split; [reflexivity|]. split; [eapply E; eassumption|]. split; reflexivity.
Qed.
Lemma list_iff {A} (P Q : A -> Prop) (R R' : code A) : (forall c v, P v -> (R c v <-> R' c v /\ Q v)) ->
  forall n c l, Forall P l -> (c_list n R c l <-> c_list n R' c l /\ Forall Q l).
Proof.
  intros H. induction n as [|n IH]; intros c l F.
  - cbn. split; [intros [-> ->]; repeat split; constructor|intros [[-> ->] _]; split; reflexivity].
  - cbn [c_list]. split.
    + intros (c1 & c2 & v & -> & H1 & c3 & c4 & t & -> & H2 & -> & ->). apply Forall_inv in F as F1. apply Forall_inv_tail in F as F2.
      apply H in H1 as [H1 HQ]; [|exact F1]. apply IH in H2 as [H2 HT]; [|exact F2]. split; [|constructor; assumption].
      exists c1, (c3 ++ []), v. split; [reflexivity|]. split; [exact H1|]. exists c3, [], t. repeat split. exact H2.
    + intros [(c1 & c2 & v & -> & H1 & c3 & c4 & t & -> & H2 & -> & ->) G]. apply Forall_inv in F as F1. apply Forall_inv_tail in F as F2.
      apply Forall_inv in G as G1. apply Forall_inv_tail in G as G2.
      exists c1, (c3 ++ []), v. split; [reflexivity|]. split; [apply H; auto|]. exists c3, [], t. repeat split. apply IH; auto.
Qed.
Lemma modular_iff c g w l : Forall (fun t => ti_sp t = []) l ->
  (modular_code mstandard c (g, w, l) <-> modular_code mimplemented c (g, w, l) /\ Forall (fun t => ti_tr t <= 2 /\ ti_rctType t < 42) l).
Proof.
  intros F. unfold modular_code.
  pose proof (list_iff (fun t => ti_sp t = []) (fun t => ti_tr t <= 2 /\ ti_rctType t < 42) (transform_code mstandard) (transform_code mimplemented) (fun c v H => transform_iff c v H)) as L.
  split.
  - intros (c1 & c1' & g' & -> & H1 & c2 & c2' & w' & -> & H2 & c3 & c3' & n & -> & H3 & c4 & c4' & l' & -> & H4 & -> & E). injection E as <- <- <-.
    apply L in H4 as [H4 H5]; [|exact F]. split; [|exact H5].
    exists c1, (c2 ++ c3 ++ c4 ++ []), g. split; [reflexivity|]. split; [exact H1|].
    exists c2, (c3 ++ c4 ++ []), w. split; [reflexivity|]. split; [exact H2|].
    exists c3, (c4 ++ []), n. split; [reflexivity|]. split; [exact H3|]. exists c4, [], l. repeat split. exact H4.
  - intros [(c1 & c1' & g' & -> & H1 & c2 & c2' & w' & -> & H2 & c3 & c3' & n & -> & H3 & c4 & c4' & l' & -> & H4 & -> & E) H5]. injection E as <- <- <-.
    exists c1, (c2 ++ c3 ++ c4 ++ []), g. split; [reflexivity|]. split; [exact H1|].
    exists c2, (c3 ++ c4 ++ []), w. split; [reflexivity|]. split; [exact H2|].
    exists c3, (c4 ++ []), n. split; [reflexivity|]. split; [exact H3|]. exists c4, [], l. repeat split. apply L; auto.
Qed.
