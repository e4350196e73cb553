(* The blocks of a group, transformed back into the frame. *)
From Coq Require Import ZArith List Bool Arith Reals Lia Lra ZifyBool ZifyNat.
From Verif Require Import GoBase GoLoop GoMatrix ModelUtil ModelDCT ModelHF ModelVarBlock ModelHFDequant ModelVarDCT SpecDCT SpecColour SpecVarBlock SpecHFDequant SpecTypes SpecVarDCT.
From Verif Require Import ProofDCTMath ProofDCT GoMatrixR ProofLFCoeff ProofVarBlock ProofVarBlock2 ProofVarBlock3 ProofHFDequant PropTypes.
Import ListNotations.
Open Scope nat_scope.

Lemma invertBlock_fst method tt h w co b ppg ppf s0 s1 s2 s3 :
  invertBlock method tt h w co b ppg ppf s0 s1 s2 s3 = obind (invertBlockS method tt h w co b ppg ppf (s0, s1, s2, s3)) (fun r => Ok (fst r)).
Proof.
  unfold invertBlock, invertBlockS.
  repeat match goal with |- context [if ?c then _ else _] => destruct c end; try reflexivity;
    match goal with |- context [obind ?m _] => destruct m as [r| |]; try reflexivity; cbn [obind]; repeat destruct r as [r ?]; reflexivity end.
Qed.

(* one step of a bind that succeeded *)
Ltac step E := match type of E with obind ?m _ = Ok _ => let r := fresh "r" in let F := fresh "F" in destruct m as [r| |] eqn:F; cbn [obind] in E; [|discriminate..] end.
(* ---- the scratch matrices keep their size ---- *)
Section Pres.
Context (h w : nat).
Definition keeps (m m' : list (list R)) : Prop := rrect h w m -> rrect h w m'.
Lemma slice_get_row m y r : rrect h w m -> slice_get m y = Ok r -> length r = w.
Proof.
  intros H E1. unfold slice_get in E1. destruct (y <? 0)%Z; [discriminate|].
  destruct (nth_error m (Z.to_nat y)) eqn:E3; [|discriminate]. injection E1 as ->. destruct H as [_ F]. rewrite Forall_forall in F. apply F. eapply nth_error_In; eauto.
Qed.
Lemma slice_set_len (r r' : list R) x v : slice_set r x v = Ok r' -> length r' = length r.
Proof. unfold slice_set. destruct (_ || _); [discriminate|]. intros [= <-]. apply list_set_length. Qed.
Lemma eachRow_pres n f src dest sy dy dest' : (forall s d d', f s d = Ok d' -> length d' = length d) -> eachRow n f src dest sy dy = Ok dest' -> keeps dest dest'.
Proof.
  intros Hf E H. unfold eachRow in E. revert E. apply oloop_pres; [|exact H]. clear dest dest' H. intros y m m' H E.
  destruct (slice_get src _) as [s| |]; cbn [obind] in E; try discriminate. destruct (slice_get m _) as [d| |] eqn:Ed; cbn [obind] in E; try discriminate.
  destruct (f s d) as [d'| |] eqn:Ef; cbn [obind] in E; try discriminate. eapply slice_set_rect; [exact H| |exact E]. rewrite (Hf _ _ _ Ef). eapply slice_get_row; eauto.
Qed.
Lemma inverse_len src dest a b c n dest' : inverseDCTHorizontal src dest a b c n = Ok dest' -> length dest' = length dest.
Proof.
  unfold inverseDCTHorizontal. intros E. destruct (oloop n 0 _ dest) as [d| |] eqn:E1; cbn [obind] in E; try discriminate.
  destruct (slice_get cosineLUT c) as [lx| |]; cbn [obind] in E; try discriminate.
  assert (L : length d = length dest).
  { apply (oloop_pres (fun d => length d = length dest) _) with (2 := eq_refl) (3 := E1). intros i s s' Hs E2. destruct (slice_get src a) as [v| |]; cbn [obind] in E2; try discriminate. now rewrite (slice_set_len _ _ _ _ E2). }
  apply (oloop_pres (fun d => length d = length dest) _) with (2 := L) (3 := E). intros i s s' Hs E2. do 2 step E2.
  apply (oloop_pres (fun d => length d = length dest) _) with (2 := Hs) (3 := E2). intros k t t' Ht E3. do 2 step E3. now rewrite (slice_set_len _ _ _ _ E3).
Qed.
Lemma copyRow_len d s o i n d' : copyRow d s o i n = Ok d' -> length d' = length d.
Proof.
  unfold copyRow. destruct (_ || _) eqn:E; [discriminate|]. intros [= <-]. apply orb_false_iff in E as [E E4]. apply orb_false_iff in E as [E E3]. apply orb_false_iff in E as [E1 E2].
  rewrite !app_length, !firstn_length, !skipn_length. lia.
Qed.
Lemma transpose_pres src dest a b n m dest' : TransposeMatrixInto src dest a b n m = Ok dest' -> keeps dest dest'.
Proof.
  intros E H. unfold TransposeMatrixInto in E. revert E. apply oloop_pres; [|exact H]. clear dest dest' H. intros y d d' H E.
  destruct (slice_get src _) as [r| |]; cbn [obind] in E; try discriminate. revert E. apply oloop_pres; [|exact H]. clear d d' H. intros x d d' H E.
  destruct (slice_get r _) as [v| |]; cbn [obind] in E; try discriminate. eapply rset2_pres; eauto.
Qed.
Lemma inverse2D_pres src dest a b n m s0 s1 tr dest' s0' s1' : InverseDCT2D src dest a b n m s0 s1 tr = Ok (dest', s0', s1') -> keeps dest dest' /\ keeps s0 s0' /\ keeps s1 s1'.
Proof.
  unfold InverseDCT2D. intros E. destruct tr.
  - destruct (eachRow n _ src s1 _ _) as [t1| |] eqn:E1; cbn [obind] in E; try discriminate. destruct (TransposeMatrixInto t1 s0 _ _ _ _) as [t0| |] eqn:E2; cbn [obind] in E; try discriminate.
    destruct (eachRow m _ t0 dest _ _) as [d| |] eqn:E3; cbn [obind] in E; try discriminate. injection E as <- <- <-.
    split; [|split].
    + eapply eachRow_pres; [|exact E3]. cbv beta. intros s d0 d' F. eapply inverse_len; exact F.
    + eapply transpose_pres; exact E2.
    + eapply eachRow_pres; [|exact E1]. cbv beta. intros s d0 d' F. eapply inverse_len; exact F.
  - destruct (TransposeMatrixInto src s0 _ _ _ _) as [t0| |] eqn:E1; cbn [obind] in E; try discriminate. destruct (eachRow m _ t0 s1 _ _) as [t1| |] eqn:E2; cbn [obind] in E; try discriminate.
    destruct (TransposeMatrixInto t1 t0 _ _ _ _) as [u0| |] eqn:E3; cbn [obind] in E; try discriminate. destruct (eachRow n _ u0 dest _ _) as [d| |] eqn:E4; cbn [obind] in E; try discriminate. injection E as <- <- <-.
    split; [|split].
    + eapply eachRow_pres; [|exact E4]. cbv beta. intros s d0 d' F. eapply inverse_len; exact F.
    + intros H. eapply transpose_pres; [exact E3|]. eapply transpose_pres; [exact E1|exact H].
    + eapply eachRow_pres; [|exact E2]. cbv beta. intros s d0 d' F. eapply inverse_len; exact F.
Qed.
Lemma layBlock_pres block buffer a b n m buffer' : layBlock block buffer a b n m = Ok buffer' -> keeps buffer buffer'.
Proof. unfold layBlock. intros E. eapply eachRow_pres; [|exact E]. cbv beta. intros s d d' F. eapply copyRow_len; exact F. Qed.
Lemma loop_pres {S} (P : S -> Prop) f n i0 s s' : (forall i s s', P s -> f i s = Ok s' -> P s') -> oloop n i0 f s = Ok s' -> P s -> P s'.
Proof. intros Hf E H. exact (oloop_pres P f Hf n i0 s s' H E). Qed.
Lemma except_pres {S} (P : S -> Prop) n f s s' : (forall a b s s', P s -> f a b s = Ok s' -> P s') -> exceptFirst n f s = Ok s' -> P s -> P s'.
Proof.
  intros Hf E. unfold exceptFirst in E. cbv zeta in E. revert E. apply loop_pres. intros i t t' Ht E. revert E Ht. apply loop_pres. intros j u u' Hu. apply Hf. exact Hu.
Qed.
Lemma rset2_keeps m y x v m' : rset2 m y x v = Ok m' -> keeps m m'.
Proof. intros E H. eapply rset2_pres; eauto. Qed.
Lemma aux_pres coeffs result p ps s result' : auxDCT2 coeffs result p ps s = Ok result' -> keeps result result'.
Proof.
  unfold auxDCT2. cbv zeta. intros E H. step E. apply layBlock_pres in F. specialize (F H). revert E F. apply loop_pres. intros i m m' Hm E. revert E Hm. apply loop_pres. intros j t t' Ht E.
  do 7 step E. apply rset2_keeps in F3, F4, F5, E. unfold keeps in *; auto.
Qed.
Definition scratch_ok (s : Scratch) : Prop := let '(s0, s1, s2, s3) := s in rrect h w s0 /\ rrect h w s1 /\ rrect h w s2 /\ rrect h w s3.
Definition three_ok (s : list (list R) * list (list R) * list (list R) * list (list R)) : Prop := let '(_, s0, s1, s2) := s in rrect h w s0 /\ rrect h w s1 /\ rrect h w s2.
Lemma dct8_4_pres coeffs b a c s0 s1 s2 r : invertDCT8_4 coeffs b a c s0 s1 s2 = Ok r -> three_ok (b, s0, s1, s2) -> three_ok r.
Proof.
  unfold invertDCT8_4. cbv zeta. intros E. do 2 step E. revert E. apply loop_pres. intros i [[[t t0] t1] t2] [[[t' t0'] t1'] t2'] (H0 & H1 & H2) E.
  do 3 step E. apply rset2_keeps in F1. specialize (F1 H0). assert (K : rrect h w r3).
  { revert F2 F1. apply except_pres. intros y x u u' Hu Eu. step Eu. apply rset2_keeps in Eu. unfold keeps in *; auto. }
  destruct r4 as [[d q0] q1]. injection E as <- <- <- <-. apply inverse2D_pres in F3 as (_ & K1 & K2). split; [exact K|]. unfold keeps in *; auto.
Qed.
Lemma dct4_8_pres coeffs b a c s0 s1 s2 r : invertDCT4_8 coeffs b a c s0 s1 s2 = Ok r -> three_ok (b, s0, s1, s2) -> three_ok r.
Proof.
  unfold invertDCT4_8. cbv zeta. intros E. do 2 step E. revert E. apply loop_pres. intros i [[[t t0] t1] t2] [[[t' t0'] t1'] t2'] (H0 & H1 & H2) E.
  do 3 step E. apply rset2_keeps in F1. specialize (F1 H0). assert (K : rrect h w r3).
  { revert F2 F1. apply except_pres. intros y x u u' Hu Eu. step Eu. apply rset2_keeps in Eu. unfold keeps in *; auto. }
  destruct r4 as [[d q0] q1]. injection E as <- <- <- <-. apply inverse2D_pres in F3 as (_ & K1 & K2). split; [exact K|]. unfold keeps in *; auto.
Qed.
Lemma dct2_pres coeffs b a c s0 s1 b' s0' s1' : invertDCT2 coeffs b a c s0 s1 = Ok (b', s0', s1') -> keeps s0 s0' /\ keeps s1 s1'.
Proof. unfold invertDCT2. intros E. do 3 step E. injection E as <- <- <-. apply aux_pres in F, F0. unfold keeps; auto. Qed.
Lemma hornuss_pres coeffs b a c s0 s1 b' s0' s1' : invertHornuss coeffs b a c s0 s1 = Ok (b', s0', s1') -> keeps s0 s0' /\ keeps s1 s1'.
Proof.
  unfold invertHornuss. cbv zeta. intros E. step E. apply aux_pres in F. step E. step E. injection E as <- <- <-. split; [|exact F].
  unfold keeps. revert F0. apply loop_pres. intros i m m' Hm E. revert E Hm. apply loop_pres. intros j t t' Ht E. do 3 step E. apply rset2_keeps in F3. specialize (F3 Ht).
  step E. assert (K : rrect h w r5).
  { revert F4 F3. apply loop_pres. intros k u u' Hu E4. revert E4 Hu. apply loop_pres. intros l v v' Hv E5. destruct (_ && _); [injection E5 as <-; exact Hv|].
    do 2 step E5. apply rset2_keeps in E5. unfold keeps in *; auto. }
  do 2 step E. apply rset2_keeps in E. unfold keeps in *; auto.
Qed.
Lemma afv_pres coeffs b tt a c s0 s1 s2 s3 b' s0' s1' s2' s3' : invertAFV coeffs b tt a c s0 s1 s2 s3 = Ok (b', s0', s1', s2', s3') ->
  keeps s0 s0' /\ keeps s1 s1' /\ keeps s2 s2' /\ keeps s3 s3'.
Proof.
  assert (X : forall n f m m', (forall a b m m', f a b m = Ok m' -> keeps m m') -> exceptFirst n f m = Ok m' -> keeps m m').
  { intros n f m m' Hf. unfold keeps. apply except_pres. intros y x u u' Hu Eu. exact (Hf _ _ _ _ Eu Hu). }
  assert (Y : forall (o : Outcome R) a b m m', obind o (fun v => rset2 m a b v) = Ok m' -> keeps m m').
  { intros o y x m m' E. step E. now apply rset2_keeps in E. }
  unfold invertAFV. cbv zeta. intros E. do 4 step E. step E. step E. step E. step E. step E. step E. destruct r8 as [[d1 t2] t3]. step E. step E. step E. step E. destruct r11 as [[d2 u2] u3]. step E. injection E as <- <- <- <- <-.
  apply rset2_keeps in F2, F6, F10. apply inverse2D_pres in F8 as (P1 & P2 & P3). apply inverse2D_pres in F12 as (Q1 & Q2 & Q3).
  apply X in F3; [|intros ? ? ? ? G; exact (Y _ _ _ _ _ G)]. apply X in F7; [|intros ? ? ? ? G; exact (Y _ _ _ _ _ G)]. apply X in F11; [|intros ? ? ? ? G; exact (Y _ _ _ _ _ G)].
  assert (K : keeps s1 r4).
  { unfold keeps. revert F4. apply loop_pres. intros i m m' Hm E. revert E Hm. apply loop_pres. intros j t t' Ht E. step E. apply rset2_keeps in E. unfold keeps in *; auto. }
  unfold keeps in *. split; [|split; [|split]]; auto 12.
Qed.
End Pres.

Lemma invertBlockS_pres h w method tt n m co b a c s b' s' : invertBlockS method tt n m co b a c s = Ok (b', s') -> scratch_ok h w s -> scratch_ok h w s'.
Proof.
  destruct s as [[[s0 s1] s2] s3]. unfold invertBlockS. intros E (H0 & H1 & H2 & H3).
  repeat match type of E with (if ?c then _ else _) = _ => destruct c end; try discriminate; step E.
  - destruct r as [[d t0] t1]. injection E as <- <-. apply (inverse2D_pres h w) in F as (_ & K0 & K1). cbn. auto.
  - destruct r as [[[d t0] t1] t2]. injection E as <- <-. apply (dct8_4_pres h w) in F as (K0 & K1 & K2); [cbn; auto|cbn; auto].
  - destruct r as [[[d t0] t1] t2]. injection E as <- <-. apply (dct4_8_pres h w) in F as (K0 & K1 & K2); [cbn; auto|cbn; auto].
  - destruct r as [[[[d t0] t1] t2] t3]. injection E as <- <-. apply (afv_pres h w) in F as (K0 & K1 & K2 & K3). cbn. auto.
  - destruct r as [[d t0] t1]. injection E as <- <-. apply (dct2_pres h w) in F as (K0 & K1). cbn. auto.
  - destruct r as [[d t0] t1]. injection E as <- <-. apply (hornuss_pres h w) in F as (K0 & K1). cbn. auto.
Qed.

(* ---- one block ---- *)
Definition kind_of (t : TransformType) : kind := nth (Z.to_nat (tt_type t)) kinds (Dct 0 0).
(* what the decoder writes *)
Definition decoded (k : kind) (C f : nat -> nat -> R) : nat -> nat -> R := match k with Afv _ => dec_afv C false false | _ => f end.
Lemma decoded_near M k C f h w : size k = (Z.of_nat h, Z.of_nat w) -> supported k -> (forall v u, v < h -> u < w -> C v u = encode Bs k f v u) ->
  (~ exact_kind k -> forall v u, v < h -> u < w -> (Rabs (f v u) <= M)%R) -> forall y x, y < h -> x < w -> near M k f (decoded k C f) y x.
Proof.
  intros Hs Hk HC HM y x Hy Hx. destruct k; cbn [near decoded]; try reflexivity. cbn [size] in Hs. apply pair_equal_spec in Hs as [Hh Hw]. specialize (HM ltac:(intros [])). assert (h = 8) by lia. assert (w = 8) by lia. subst h w.
  cbn [encode] in HC. rewrite (dec_afv_ext C (enc_afv Bs false false f)) by exact HC. replace ((y <? 4) && (x <? 4)) with (in_corner false false y x).
  - destruct (in_corner false false y x) eqn:Hk'; [apply corner_near|apply dec_enc_outside]; assumption.
  - unfold in_corner. destruct (Nat.leb_spec 4 y), (Nat.leb_spec 4 x), (Nat.ltb_spec y 4), (Nat.ltb_spec x 4); cbn; reflexivity || lia.
Qed.
Lemma rrect_inside m h w n : rrect n n m -> h <= n -> w <= n -> inside m 0 0 h w.
Proof. intros [L F] Hh Hw. split; [lia|]. intros y Hy. rewrite Forall_forall in F. rewrite (F (nth (0 + y) m [])); [lia|]. apply nth_In. lia. Qed.
Lemma types_dct t : In t allDCT -> exists n, n < 27 /\ nth_error allDCT n = Some t.
Proof.
  intros Ht. apply In_nth_error in Ht as [n E]. exists n. split; [|exact E]. assert (H : n < length allDCT) by (apply nth_error_Some; rewrite E; discriminate). exact H.
Qed.
Lemma dct_sizes t h w : In t allDCT -> kind_of t = Dct h w -> exists lh lw, lh < 9 /\ lw < 9 /\ h = Z.of_nat (2 ^ lh) /\ w = Z.of_nat (2 ^ lw).
Proof.
  intros Ht. apply types_dct in Ht as (n & Hn & E). 
  do 27 (destruct n as [|n]; [injection E as <-; intros [= <- <-]||intros [=];
    lazymatch goal with |- exists lh lw, _ /\ _ /\ ?h = _ /\ ?w = _ => exists (Z.to_nat (Z.log2 h)), (Z.to_nat (Z.log2 w)); repeat split; cbn; lia end|]). lia.
Qed.
Lemma kind_at n t : n < 27 -> nth_error allDCT n = Some t -> kind_of t = nth n kinds (Dct 0 0) /\ (tt_pixelHeight t, tt_pixelWidth t) = size (kind_of t) /\ tt_type t = Z.of_nat n.
Proof.
  intros Hn E. destruct (proj2 C104_types n Hn) as (t' & E' & T & S & _). rewrite E in E'. injection E' as <-. unfold kind_of. rewrite T, Nat2Z.id. split; [reflexivity|]. split; [exact S|reflexivity].
Qed.
Lemma block_ok t call co buffer gy gx oy ox s f : let k := kind_of t in let h := Z.to_nat (tt_pixelHeight t) in let w := Z.to_nat (tt_pixelWidth t) in
  In t allDCT -> supported k -> inside co gy gx h w -> inside buffer oy ox h w -> scratch_ok 256 256 s ->
  (forall v u, v < h -> u < w -> pixel co (gy + v) (gx + u) = encode Bs k f v u) ->
  exists b' s', invertBlockS (tt_method t) (placedPointer call (tt_type t)) h w co buffer (Z.of_nat gy, Z.of_nat gx) (Z.of_nat oy, Z.of_nat ox) s = Ok (b', s') /\
    scratch_ok 256 256 s' /\ replaced buffer b' oy ox h w (decoded k (fun v u => pixel co (gy + v) (gx + u)) f).
Proof.
  intros k h w Ht Hk Ic Ib Hs Hc.
  assert (G : exists b', invertBlock (tt_method t) (placedPointer call (tt_type t)) h w co buffer (Z.of_nat gy, Z.of_nat gx) (Z.of_nat oy, Z.of_nat ox) (fst (fst (fst s))) (snd (fst (fst s))) (snd (fst s)) (snd s) = Ok b' /\
    replaced buffer b' oy ox h w (decoded k (fun v u => pixel co (gy + v) (gx + u)) f)).
  { destruct s as [[[s0 s1] s2] s3]. cbn [fst snd]. destruct Hs as (R0 & R1 & R2 & R3).
    pose proof (types_dct t Ht) as (n & Hn & En). destruct (kind_at n t Hn En) as (Ek & Es & _). fold k in Ek, Es.
    assert (N3 : n <> 3) by (intros ->; rewrite Ek in Hk; exact Hk).
    rewrite (C104_methods_partial n t Hn N3 En), <- Ek. fold k. destruct k as [dh dw| | | | | |corner] eqn:Kd; cbn [inverse decoded].
    - destruct (dct_sizes t dh dw Ht Kd) as (lh & lw & Hlh & Hlw & Eh & Ew). cbn [size] in Es. apply pair_equal_spec in Es as [Es1 Es2].
      assert (Hh : h = 2 ^ lh) by (unfold h; rewrite Es1, Eh; apply Nat2Z.id). assert (Hw : w = 2 ^ lw) by (unfold w; rewrite Es2, Ew; apply Nat2Z.id).
      assert (Bh : 2 ^ lh <= 2 ^ 8) by (apply Nat.pow_le_mono_r; lia). assert (Bw : 2 ^ lw <= 2 ^ 8) by (apply Nat.pow_le_mono_r; lia). change (2 ^ 8) with 256 in Bh, Bw.
      clearbody h w. subst h w.
      destruct (InverseDCT2D_ok co buffer gy gx oy ox lh lw s0 s1 Hlh Hlw Ic Ib) as (d & t0 & t1 & E & R & _); [apply (rrect_inside _ _ _ 256); (assumption || lia)..|].
      rewrite E. cbn [obind fst]. exists d. split; [reflexivity|]. refine (replaced_ext _ _ _ _ _ _ _ _ _ R). intros y x Hy Hx.
      rewrite (idct2_ext _ _ _ (dct2 (2 ^ lh) (2 ^ lw) f)); [apply idct2_dct2; assumption|]. intros v u Hv Hu. rewrite Hc by assumption. cbn [encode]. rewrite Eh, Ew, !Nat2Z.id. reflexivity.
    - cbn [size] in Es. apply pair_equal_spec in Es as [Es1 Es2]. assert (h = 8) by (unfold h; lia). assert (w = 8) by (unfold w; lia). clearbody h w. subst h w.
      destruct (invertHornuss_ok co buffer gy gx oy ox s0 s1 f Ic Ib) as (d & t0 & t1 & E & R); [apply (rrect_inside _ _ _ 256); (assumption || lia)..|exact Hc|]. rewrite E. exists d. split; [reflexivity|exact R].
    - cbn [size] in Es. apply pair_equal_spec in Es as [Es1 Es2]. assert (h = 8) by (unfold h; lia). assert (w = 8) by (unfold w; lia). clearbody h w. subst h w.
      destruct (invertDCT2_ok co buffer gy gx oy ox s0 s1 f Ic Ib) as (d & t0 & t1 & E & R); [apply (rrect_inside _ _ _ 256); (assumption || lia)..|exact Hc|]. rewrite E. exists d. split; [reflexivity|exact R].
    - destruct Hk.
    - cbn [size] in Es. apply pair_equal_spec in Es as [Es1 Es2]. assert (h = 8) by (unfold h; lia). assert (w = 8) by (unfold w; lia). clearbody h w. subst h w.
      destruct (invertDCT4_8_ok co buffer gy gx oy ox s0 s1 s2 f Ic Ib) as (d & t0 & t1 & t2 & E & R); [apply (rrect_inside _ _ _ 256); (assumption || lia)..|exact Hc|]. rewrite E. exists d. split; [reflexivity|exact R].
    - cbn [size] in Es. apply pair_equal_spec in Es as [Es1 Es2]. assert (h = 8) by (unfold h; lia). assert (w = 8) by (unfold w; lia). clearbody h w. subst h w.
      destruct (invertDCT8_4_ok co buffer gy gx oy ox s0 s1 s2 f Ic Ib) as (d & t0 & t1 & t2 & E & R); [apply (rrect_inside _ _ _ 256); (assumption || lia)..|exact Hc|]. rewrite E. exists d. split; [reflexivity|exact R].
    - cbn [size] in Es. apply pair_equal_spec in Es as [Es1 Es2]. assert (h = 8) by (unfold h; lia). assert (w = 8) by (unfold w; lia). clearbody h w. subst h w.
      destruct (invertAFV_ok co buffer (placedPointer call (tt_type t)) gy gx oy ox s0 s1 s2 s3 Ic Ib) as (d & t0 & t1 & t2 & t3 & E & R); [apply (rrect_inside _ _ _ 256); (assumption || lia)..|].
      rewrite E. exists d. split; [reflexivity|exact R]. }
  destruct G as (b' & E & R). destruct s as [[[s0 s1] s2] s3]. cbn [fst snd] in E. rewrite invertBlock_fst in E.
  destruct (invertBlockS _ _ _ _ _ _ _ _ _) as [[d s']| |] eqn:ES; cbn [obind fst] in E; try discriminate. injection E as <-.
  exists d, s'. split; [reflexivity|]. split; [exact (invertBlockS_pres 256 256 _ _ _ _ _ _ _ _ _ _ _ ES Hs)|exact R].
Qed.

(* ---- the blocks of a group ---- *)
(* the same group with places counted from the start of the frame *)
Definition in_frame (p : HFParams) (location : Z * Z) : HFParams :=
  mkHFP (hp_globalScale p) (hp_xqmScale p) (hp_bqmScale p) (hp_shiftY p) (hp_shiftX p) (hp_groupY p - 32 * fst location) (hp_groupX p - 32 * snd location)
    (hp_quantBias p) (hp_quantBiasNumerator p) (hp_weights p).
Lemma shift_place a l s : (0 <= s <= 5 -> 0 <= a -> 0 <= l -> a mod 2 ^ s = 0 ->
  Z.shiftl (a / 2 ^ s) 3 + Z.shiftr (Z.shiftl l 8) s = 8 * ((a + 32 * l) / 2 ^ s))%Z.
Proof.
  intros Hs Ha Hl Hm. rewrite Z.shiftr_div_pow2, !Z.shiftl_mul_pow2 by lia.
  assert (Hp : (2 ^ 5 = 2 ^ s * 2 ^ (5 - s))%Z) by (rewrite <- Z.pow_add_r by lia; f_equal; lia). change (2 ^ 5)%Z with 32%Z in Hp. rewrite Hp.
  pose proof (Z.pow_pos_nonneg 2 s ltac:(lia) ltac:(lia)) as P. replace (a + 2 ^ s * 2 ^ (5 - s) * l)%Z with (a + (2 ^ (5 - s) * l) * 2 ^ s)%Z by ring. rewrite Z.div_add by lia.
  change (2 ^ 8)%Z with (8 * 32)%Z. rewrite Hp. replace (l * (8 * (2 ^ s * 2 ^ (5 - s))))%Z with ((8 * 2 ^ (5 - s) * l) * 2 ^ s)%Z by ring. rewrite Z.div_mul by lia. change (2 ^ 3)%Z with 8%Z. ring.
Qed.
Lemma present_frame p location sy sx b : (0 <= sy <= 5)%Z -> (0 <= sx <= 5)%Z -> present (in_frame p location) sy sx b <-> present p sy sx b.
Proof.
  intros Hy Hx. unfold present, in_frame. cbn [hp_groupY hp_groupX].
  assert (G : forall a g l s, (0 <= s <= 5)%Z -> ((a - (g - 32 * l)) mod 2 ^ s = (a - g) mod 2 ^ s)%Z).
  { intros a g l s Hs. replace (a - (g - 32 * l))%Z with (a - g + (2 ^ (5 - s) * l) * 2 ^ s)%Z; [apply Z.mod_add; pose proof (Z.pow_pos_nonneg 2 s); lia|].
    assert (Hp : (2 ^ 5 = 2 ^ s * 2 ^ (5 - s))%Z) by (rewrite <- Z.pow_add_r by lia; f_equal; lia). change (2 ^ 5)%Z with 32%Z in Hp. rewrite Hp. ring. }
  rewrite !G by assumption. reflexivity.
Qed.
Lemma replaced_rrect h w m m' a b c d f : rrect h w m -> replaced m m' a b c d f -> rrect h w m'.
Proof.
  intros [L F] (H1 & H2 & _). split; [lia|]. apply Forall_forall. intros r Hr. destruct (In_nth _ _ [] Hr) as (i & Hi & <-). rewrite H2.
  rewrite Forall_forall in F. apply F, nth_In. lia.
Qed.
Lemma inside_rrect h w m y x a b : rrect h w m -> y + a <= h -> x + b <= w -> inside m y x a b.
Proof. intros [L F] Hy Hx. split; [lia|]. intros i Hi. rewrite Forall_forall in F. rewrite (F (nth (y + i) m [])); [lia|]. apply nth_In. lia. Qed.
(* the matrices of the group: H0, W0; of the frame: H, W *)
Definition block_fits (p : HFParams) (coeffs : list (list (list R))) (f : nat -> HFBlock -> nat -> nat -> R) (b : HFBlock) : Prop :=
  In (hb_type b) allDCT /\ supported (kind_of (hb_type b)) /\ (0 <= hb_y b - hp_groupY p /\ 0 <= hb_x b - hp_groupX p)%Z /\
  forall c, c < 3 -> present p (sY p c) (sX p c) b -> inside (nth c coeffs []) (b_top p (sY p c) b) (b_left p (sX p c) b) (b_h b) (b_w b) /\
    forall v u, v < b_h b -> u < b_w b -> pixel (nth c coeffs []) (b_top p (sY p c) b + v) (b_left p (sX p c) b + u) = encode Bs (kind_of (hb_type b)) (f c b) v u.
Definition sample_of (p : HFParams) (coeffs : list (list (list R))) (f : nat -> HFBlock -> nat -> nat -> R) (c : nat) (b : HFBlock) : nat -> nat -> R :=
  decoded (kind_of (hb_type b)) (fun v u => pixel (nth c coeffs []) (b_top p (sY p c) b + v) (b_left p (sX p c) b + u)) (f c b).
Lemma invertBlocks_ok p call location coeffs bs fbs s H W f : let q := in_frame p location in
  length (hp_shiftY p) = 3 -> length (hp_shiftX p) = 3 -> (forall c, 0 <= sY p c <= 5 /\ 0 <= sX p c <= 5)%Z -> (0 <= fst location)%Z -> (0 <= snd location)%Z ->
  length coeffs = 3 -> length fbs = 3 -> Forall (block_fits p coeffs f) bs ->
  (forall c, c < 3 -> layout q (sY p c) (sX p c) (H c) (W c) bs /\ rrect (H c) (W c) (nth c fbs [])) -> scratch_ok 256 256 s ->
  exists fbs' s', invertBlocks p call location coeffs bs fbs s = Ok (fbs', s') /\ length fbs' = 3 /\ scratch_ok 256 256 s' /\
    forall c, c < 3 -> blocks_replaced q (sY p c) (sX p c) (H c) (W c) bs (fun b y x _ => sample_of p coeffs f c b y x) (nth c fbs []) (nth c fbs' []).
Proof.
  intros q LY LX HS L1 L2 LC LF HB HC Hs. unfold invertBlocks. rewrite Forall_forall in HB.
  destruct (blocks3 (S := list (list (list R)) * Scratch) q (sY p) (sX p) H W (fun c b y x _ => sample_of p coeffs f c b y x) (fun s c => nth c (fst s) [])
    (fun s => length (fst s) = 3 /\ scratch_ok 256 256 (snd s))
    (fun b st => oloop 3 0 (fun c st =>
    let '(frameBuffer, s) := st in
    let groupY := (hb_y b - hp_groupY p)%Z in let groupX := (hb_x b - hp_groupX p)%Z in
    obind (slice_get (hp_shiftY p) (Z.of_nat c)) (fun sy => obind (slice_get (hp_shiftX p) (Z.of_nat c)) (fun sx =>
    match channelPos groupY groupX sy sx with
    | None => Ok st
    | Some (sGroupY, sGroupX) =>
      let ppg := (Z.shiftl sGroupY 3, Z.shiftl sGroupX 3) in
      let ppf := (fst ppg + Z.shiftr (Z.shiftl (fst location) 8) sy, snd ppg + Z.shiftr (Z.shiftl (snd location) 8) sx)%Z in
      obind (slice_get coeffs (Z.of_nat c)) (fun co => obind (slice_get frameBuffer (Z.of_nat c)) (fun fb =>
      obind (invertBlockS (tt_method (hb_type b)) (placedPointer (call b) (tt_type (hb_type b)))
              (Z.to_nat (tt_pixelHeight (hb_type b))) (Z.to_nat (tt_pixelWidth (hb_type b))) co fb ppg ppf s) (fun r =>
      obind (slice_set frameBuffer (Z.of_nat c) (fst r)) (fun fbs =>
      Ok (fbs, snd r)))))
    end))) st)
    (fun b c st =>
    let '(frameBuffer, s) := st in
    let groupY := (hb_y b - hp_groupY p)%Z in let groupX := (hb_x b - hp_groupX p)%Z in
    obind (slice_get (hp_shiftY p) (Z.of_nat c)) (fun sy => obind (slice_get (hp_shiftX p) (Z.of_nat c)) (fun sx =>
    match channelPos groupY groupX sy sx with
    | None => Ok st
    | Some (sGroupY, sGroupX) =>
      let ppg := (Z.shiftl sGroupY 3, Z.shiftl sGroupX 3) in
      let ppf := (fst ppg + Z.shiftr (Z.shiftl (fst location) 8) sy, snd ppg + Z.shiftr (Z.shiftl (snd location) 8) sx)%Z in
      obind (slice_get coeffs (Z.of_nat c)) (fun co => obind (slice_get frameBuffer (Z.of_nat c)) (fun fb =>
      obind (invertBlockS (tt_method (hb_type b)) (placedPointer (call b) (tt_type (hb_type b)))
              (Z.to_nat (tt_pixelHeight (hb_type b))) (Z.to_nat (tt_pixelWidth (hb_type b))) co fb ppg ppf s) (fun r =>
      obind (slice_set frameBuffer (Z.of_nat c) (fst r)) (fun fbs =>
      Ok (fbs, snd r)))))
    end)))
    bs (fbs, s)) as ([fbs' s'] & E & (L' & S') & P').
  - intros c Hc. apply HC. exact Hc.
  - cbn [fst snd]. auto.
  - intros c Hc. apply HC. exact Hc.
  - intros b t Hb _. reflexivity.
  - intros b c [fb t] Hb Hc (Lt & St) Rt. cbn [fst snd] in *. destruct (HB b Hb) as (T1 & T2 & (Y0 & X0) & T3). destruct (HC c Hc) as (HL & _). specialize (T3 c Hc).
    destruct (proj1 HL b Hb) as [[Y1 X1] Fit]. destruct (HS c) as [S1 S2].
    rewrite (get_nth (hp_shiftY p) c 0%Z 3) by (assumption || lia). cbn [obind]. rewrite (get_nth (hp_shiftX p) c 0%Z 3) by (assumption || lia). cbn [obind].
    fold (sY p c) (sX p c). pose proof (channelPos_spec p (sY p c) (sX p c) b (proj1 S1) (proj1 S2) Y0 X0) as CP.
    assert (PF : present q (sY p c) (sX p c) b <-> present p (sY p c) (sX p c) b) by (apply present_frame; assumption).
    unfold channelPos in *. destruct (_ || _).
    + exists (fb, t). split; [reflexivity|]. cbn [fst snd]. split; [split; assumption|]. split; [reflexivity|]. split; [apply Rt; exact Hc|]. split; [reflexivity|]. intros Pr. exfalso. apply CP, PF, Pr.
    + destruct CP as (Pr & Ey & Ex). destruct (Fit (proj2 PF Pr)) as [F1 F2]. destruct (T3 Pr) as [T4 T5]. cbv zeta. cbn [fst snd].
      rewrite (get_nth coeffs c [] 3) by assumption. cbn [obind]. rewrite (get_nth fb c [] 3) by assumption. cbn [obind].
      assert (Dy : (Z.shiftl (Z.shiftr (hb_y b - hp_groupY p) (sY p c)) 3 + Z.shiftr (Z.shiftl (fst location) 8) (sY p c) = Z.of_nat (b_top q (sY p c) b))%Z).
      { rewrite (Z.shiftr_div_pow2 (hb_y b - hp_groupY p)) by lia. rewrite shift_place; try assumption; [|exact (proj1 Pr)]. unfold b_top, q, in_frame. cbn [hp_groupY]. replace (hb_y b - (hp_groupY p - 32 * fst location))%Z with (hb_y b - hp_groupY p + 32 * fst location)%Z by ring.
        pose proof (Z.div_pos (hb_y b - hp_groupY p + 32 * fst location) (2 ^ sY p c) ltac:(lia) ltac:(apply Z.pow_pos_nonneg; lia)). lia. }
      assert (Dx : (Z.shiftl (Z.shiftr (hb_x b - hp_groupX p) (sX p c)) 3 + Z.shiftr (Z.shiftl (snd location) 8) (sX p c) = Z.of_nat (b_left q (sX p c) b))%Z).
      { rewrite (Z.shiftr_div_pow2 (hb_x b - hp_groupX p)) by lia. rewrite shift_place; try assumption; [|exact (proj2 Pr)]. unfold b_left, q, in_frame. cbn [hp_groupX]. replace (hb_x b - (hp_groupX p - 32 * snd location))%Z with (hb_x b - hp_groupX p + 32 * snd location)%Z by ring.
        pose proof (Z.div_pos (hb_x b - hp_groupX p + 32 * snd location) (2 ^ sX p c) ltac:(lia) ltac:(apply Z.pow_pos_nonneg; lia)). lia. }
      rewrite Dy, Dx, Ey, Ex.
      destruct (block_ok (hb_type b) (call b) (nth c coeffs []) (nth c fb []) (b_top p (sY p c) b) (b_left p (sX p c) b) (b_top q (sY p c) b) (b_left q (sX p c) b) t (f c b) T1 T2 T4) as (b' & t' & E & K & R').
      { exact (inside_rrect _ _ _ _ _ _ _ (Rt c Hc) F1 F2). }
      { exact St. }
      { exact T5. }
      rewrite E. cbn [obind fst snd]. rewrite slice_set_ok by lia. cbn [obind]. eexists. split; [reflexivity|]. cbn [fst snd]. rewrite Nat2Z.id.
      split; [split; [rewrite list_set_length; exact Lt|exact K]|]. split; [intros d Hd Ne; rewrite nth_list_set by lia; now rewrite (proj2 (Nat.eqb_neq d c) Ne)|].
      rewrite !nth_list_set by lia. rewrite Nat.eqb_refl. split; [exact (replaced_rrect _ _ _ _ _ _ _ _ _ (Rt c Hc) R')|]. split; [intros N; exfalso; apply N, PF, Pr|].
      intros _ y x. destruct R' as (_ & _ & R'). exact (R' y x).
  - cbv zeta in E |- *. exists fbs', s'. split; [exact E|]. split; [exact L'|]. split; [exact S'|]. exact P'.
Qed.
