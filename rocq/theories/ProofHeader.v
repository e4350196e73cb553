From Coq Require Import ZArith List Bool Lia Arith ZifyBool ZifyNat.
From Verif Require Import GoBase Bits ModelBitReader SpecBitReader SpecCodes SpecGrammar ModelHeader SpecHeader
  ProofBitReader ProofBitReader2 ProofReads ProofCodes ProofGrammar.
Import ListNotations.
Open Scope Z_scope.

Lemma c_u32_range c0 n0 c1 n1 c2 n2 c3 n3 hi c v :
  (forall i, (i < 4)%nat -> 0 <= nth i [c0; c1; c2; c3] 0 /\
     nth i [c0; c1; c2; c3] 0 + 2 ^ Z.of_nat (nth i [n0; n1; n2; n3] O) <= hi) ->
  c_u32 c0 n0 c1 n1 c2 n2 c3 n3 c v -> 0 <= v < hi.
Proof. intros H (i & x & Hi & Hx & _ & ->). specialize (H i Hi). lia. Qed.
Ltac u32_rng := let i := fresh in intros i ?; do 4 (destruct i as [|i]; [cbn [nth]; split; [lia|vm_compute; discriminate]|]); lia.
Ltac ex := first [apply exact_ret | apply exact_bool | apply exact_enum | apply exact_f16 | apply exact_u64
  | match goal with |- exact (ReadBits ?k) (c_fixed ?n) => apply (exact_bits n k eq_refl); lia end
  | match goal with |- exact (ReadU32 _ _ _ _ _ _ _ _) (c_u32 ?a ?b ?c ?d ?e ?f ?g ?h) =>
      apply (exact_u32 a b c d e f g h); u32_side end ].
Tactic Notation "xb" simple_intropattern(p) := (apply exact_bind; [try ex|intros p]).

Lemma exact_ite {A} (b : bool) (m1 m2 : RM A) R1 R2 : (b = true -> exact m1 R1) -> (b = false -> exact m2 R2) ->
  exact (if b then m1 else m2) (if b then R1 else R2).
Proof. destruct b; auto. Qed.

Lemma exact_u32_size : exact (ReadU32 1 9 1 13 1 18 1 30) (c_u32 1 9 1 13 1 18 1 30).
Proof. ex. Qed.

Lemma exact_size_field div8 :
  exact (if div8 : bool then h <- ReadBits 5 ;; rret (u32 (Z.shiftl (u32 (1 + u32 h)) 3)) else ReadU32 1 9 1 13 1 18 1 30)
        (size_field div8).
Proof.
  destruct div8; unfold size_field; [|ex].
  xb h. intros [c [_ Hh]]. change (2 ^ Z.of_nat 5) with 32 in Hh.
  rewrite Z.shiftl_mul_pow2 by lia. rewrite (u32_small h) by lia. rewrite (u32_small (1 + h)) by lia.
  rewrite u32_small by lia. replace ((1 + h) * 2 ^ 3) with (8 * (1 + h)) by lia. apply exact_ret.
Qed.

Lemma size_field_range div8 c v : size_field div8 c v -> 1 <= v <= 2 ^ 30.
Proof.
  destruct div8; unfold size_field.
  - intros (a & b & x & -> & [_ Hx] & -> & ->). change (2 ^ Z.of_nat 5) with 32 in Hx. lia.
  - intros (i & x & Hi & Hx & _ & ->). do 4 (destruct i as [|i]; [cbn [nth] in *;
      assert (2 ^ Z.of_nat 9 <= 2 ^ 30 /\ 2 ^ Z.of_nat 13 <= 2 ^ 30 /\ 2 ^ Z.of_nat 18 <= 2 ^ 30 /\ 2 ^ Z.of_nat 30 <= 2 ^ 30) by (split; [|split; [|split]]; vm_compute; discriminate); lia|]). lia.
Qed.

Lemma exact_ratio r h : 1 <= r < 8 -> 0 <= h < 2 ^ 32 ->
  exact (lift (getWidthFromRatio (u32 r) h)) (c_ret (wrapped_ratio_width r h)).
Proof.
  intros Hr Hh. rewrite u32_small by lia.
  assert (r = 1 \/ r = 2 \/ r = 3 \/ r = 4 \/ r = 5 \/ r = 6 \/ r = 7) as E by lia.
  assert (E1 : getWidthFromRatio r h = Ok (wrapped_ratio_width r h)).
  { unfold wrapped_ratio_width, getWidthFromRatio, u32.
    destruct E as [->|[->|[->|[->|[->|[->| ->]]]]]]; cbn [Z.eqb Pos.eqb];
    match goal with |- context [ratio_num ?x] => let n := eval vm_compute in (ratio_num x) in change (ratio_num x) with n;
       let n := eval vm_compute in (ratio_den x) in change (ratio_den x) with n end; try reflexivity.
    - rewrite Z.mul_1_r, Z.mod_small, Z.div_1_r by lia. reflexivity.
    - now rewrite Z.div_1_r. }
  rewrite E1. apply exact_ret.
Qed.

Lemma wrapped_range r h : 0 <= h -> 0 <= wrapped_ratio_width r h < 2 ^ 32.
Proof.
  intros Hh. unfold wrapped_ratio_width.
  assert (H : 0 <= (h * ratio_num r) mod 2 ^ 32 < 2 ^ 32) by (apply Z.mod_pos_bound; lia).
  assert (Hd : 1 <= ratio_den r).
  { unfold ratio_den. set (n := Z.to_nat r). clearbody n.
    do 8 (destruct n as [|n]; [cbn [nth]; lia|]). cbn [nth]. destruct n; lia. }
  split; [apply Z.div_pos; lia|]. apply Z.div_lt_upper_bound; nia.
Qed.

Lemma exact_size level : exact (readSizeHeader level) (size_code wrapped_ratio_width code_size_ok level).
Proof.
  unfold readSizeHeader, size_code. xb div8. intros _. xb h; [apply exact_size_field|].
  intros [ch Hch]. apply size_field_range in Hch. xb r. intros [cr [_ Hr]]. change (2 ^ Z.of_nat 3) with 8 in Hr.
  apply exact_bind.
  - destruct (Z.eqb_spec r 0) as [E|E]; cbn [negb]; [apply exact_size_field|].
    apply exact_ratio; lia.
  - intros w [cw Hw].
    assert (Hw' : 0 <= w < 2 ^ 32).
    { destruct (Z.eqb_spec r 0).
      - apply size_field_range in Hw. lia.
      - destruct Hw as [_ ->]. apply wrapped_range. lia. }
    unfold code_size_ok, u32. cbv zeta.
    assert (Hm : 0 <= (w * h) mod 2 ^ 32 < 2 ^ 32) by (apply Z.mod_pos_bound; lia).
    destruct (Z.leb_spec level 5).
    + eapply exact_iff; [|apply (exact_guard ((2 ^ 18 mod 2 ^ 32 <? w) || (2 ^ 18 mod 2 ^ 32 <? h))
        (w <= 2 ^ 18 /\ h <= 2 ^ 18) _ (c_guard ((w * h) mod 2 ^ 32 <= 2 ^ 30) (c_ret (mkDim w h))))].
      * intros c v. unfold c_guard. tauto.
      * change (2 ^ 18 mod 2 ^ 32) with (2 ^ 18). lia.
      * intros _. apply exact_guard; [lia|]. intros _. apply exact_ret.
    + eapply exact_iff; [|apply (exact_guard ((2 ^ 28 mod 2 ^ 32 <? w) || (2 ^ 28 mod 2 ^ 32 <? h))
        (w <= 2 ^ 28 /\ h <= 2 ^ 28) _ (c_ret (mkDim w h)))].
      * intros c v. unfold c_guard. tauto.
      * change (2 ^ 28 mod 2 ^ 32) with (2 ^ 28). lia.
      * intros _. destruct (Z.ltb_spec (2 ^ 40) ((w * h) mod 2 ^ 32)); [lia|]. apply exact_ret.
Qed.

Lemma exact_preview_field div8 :
  exact (if div8 : bool then ReadU32 16 0 32 0 1 5 33 9 else ReadU32 1 6 65 8 321 10 1345 12) (preview_field 1 div8).
Proof.
  destruct div8; unfold preview_field; [|ex].
  apply (exact_iff _ (c_u32 16 0 32 0 1 5 33 9)); [|ex].
  intros c v. unfold c_seq, c_ret. split.
  - intros H. exists c, [], v. rewrite app_nil_r. split; auto. split; auto. split; auto. lia.
  - intros (c1 & c2 & x & -> & H & -> & ->). rewrite app_nil_r. replace (1 * x) with x by lia. auto.
Qed.
Lemma preview_field_range div8 c v : preview_field 1 div8 c v -> 0 <= v < 2 ^ 30.
Proof.
  destruct div8; unfold preview_field.
  - intros (c1 & c2 & x & -> & H & -> & ->). apply (c_u32_range _ _ _ _ _ _ _ _ (2 ^ 30)) in H; [lia|u32_rng].
  - intros H. apply (c_u32_range _ _ _ _ _ _ _ _ (2 ^ 30)) in H; [lia|u32_rng].
Qed.

Lemma exact_preview : exact readPreviewHeader (preview_code wrapped_ratio_width 1 True).
Proof.
  unfold readPreviewHeader, preview_code. xb div8. intros _.
  match goal with |- exact _ (c_guard ?P ?R) => apply (exact_iff _ R); [unfold c_guard; tauto|] end.
  xb h; [apply exact_preview_field|].
  intros [ch Hch]. apply preview_field_range in Hch. xb r. intros [cr [_ Hr]]. change (2 ^ Z.of_nat 3) with 8 in Hr.
  apply exact_bind.
  - destruct (Z.eqb_spec r 0) as [E|E]; cbn [negb]; [apply exact_preview_field|].
    apply exact_ratio; lia.
  - intros w _. apply exact_guard; [lia|]. intros _. apply exact_ret.
Qed.

Lemma exact_bitdepth : exact readBitDepth bitdepth_code.
Proof.
  unfold readBitDepth, bitdepth_code. xb fl. intros _. destruct fl.
  - xb b. intros _. xb e. intros [ce [_ He]]. change (2 ^ Z.of_nat 4) with 16 in He.
    rewrite (u32_small e), u32_small by lia. apply exact_ret.
  - xb b. intros _. apply exact_ret.
Qed.

Lemma exact_bytes n : exact (readByteList n) (c_list n (c_fixed 8)).
Proof.
  induction n as [|n IH]; [apply exact_ret|]. cbn [readByteList c_list]. xb b. intros [cb [_ Hb]].
  change (2 ^ Z.of_nat 8) with 256 in Hb. xb t; [exact IH|]. intros _.
  replace (u8 b) with b; [apply exact_ret|]. unfold u8. rewrite Z.mod_small by lia. reflexivity.
Qed.
Lemma exact_f16s n : exact (readF16List n) (c_list n c_f16).
Proof. apply (exact_list readF16List ReadF16); auto. apply exact_f16. Qed.

Lemma extra_kind_ok t : ValidateExtraChannel t = true <-> extra_kind t.
Proof. unfold ValidateExtraChannel, extra_kind. lia. Qed.

Lemma exact_extra_tail t bd shift name assoc :
  exact (spot <- (if t =? SPOT_COLOR then readF16List 4 else rret []) ;;
         cfa <- (if t =? COLOR_FILTER_ARRAY then c <- ReadU32 1 0 0 2 3 4 19 8 ;; rret (i32 c) else rret 1) ;;
         rret (mkEC t bd shift name assoc spot cfa))
        (extra_tail t bd shift name assoc).
Proof.
  unfold extra_tail. apply exact_bind; [apply exact_ite; intros _; [apply exact_f16s|apply exact_ret]|]. intros spot _.
  apply exact_bind.
  - apply exact_ite; intros _; [|apply exact_ret].
    apply (exact_iff _ (c <== c_u32 1 0 0 2 3 4 19 8 ;;; c_ret c)).
    + intros c v. split.
      * intros (c1 & c2 & x & -> & H & -> & ->). now rewrite app_nil_r.
      * intros H. exists c, [], v. rewrite app_nil_r. repeat (split; auto).
    + xb c. intros [cc Hc]. apply (c_u32_range _ _ _ _ _ _ _ _ 1024) in Hc; [|u32_rng].
      rewrite i32_small by lia. apply exact_ret.
  - intros cfa _. apply exact_ret.
Qed.

Lemma exact_assoc {A B C} (m : RM A) (f : A -> RM B) (g : B -> RM C) R :
  exact (a <- m ;; b <- f a ;; g b) R -> exact (b <- (a <- m ;; f a) ;; g b) R.
Proof.
  apply exact_eq. intros s. unfold rbind. destruct (m s) as [[a| |] s']; auto.
Qed.
Lemma exact_ret_l {A B} (v : A) (f : A -> RM B) R : exact (f v) R -> exact (rbind (rret v) f) R.
Proof. apply exact_eq. reflexivity. Qed.
Lemma exact_if_l {A B} (b : bool) (m1 m2 : RM A) (f : A -> RM B) R1 R2 :
  (b = true -> exact (rbind m1 f) R1) -> (b = false -> exact (rbind m2 f) R2) ->
  exact (rbind (if b then m1 else m2) f) (if b then R1 else R2).
Proof. destruct b; auto. Qed.
Lemma exact_err_l {A B} (f : A -> RM B) R : (forall c v, ~ R c v) -> exact (rbind rerr f) R.
Proof. intros H. apply (exact_eq rerr); [reflexivity|]. now apply exact_err. Qed.
Lemma exact_guard_l {A B} (b : bool) (P : Prop) (m : RM A) (f : A -> RM B) R : (b = false <-> P) ->
  (P -> exact (rbind m f) R) -> exact (rbind (if b then rerr else m) f) (c_guard P R).
Proof.
  intros Hb Hm. apply (exact_eq (if b then rerr else rbind m f)).
  { intros s. destruct b; reflexivity. }
  now apply exact_guard.
Qed.
Lemma negb_ok (b : bool) (P : Prop) : (b = true <-> P) -> (negb b = false <-> P).
Proof. destruct b; cbn; intros [H1 H2]; split; intros H; auto; try discriminate. specialize (H2 H). discriminate. Qed.

Lemma exact_extra : exact readExtraChannel extra_code.
Proof.
  unfold readExtraChannel, extra_code. xb d. intros _. destruct d.
  - apply exact_ret_l. apply exact_extra_tail.
  - apply exact_assoc. xb t. intros _.
    apply exact_guard_l; [apply negb_ok, extra_kind_ok|]. intros Ht.
    apply exact_assoc. xb bd; [apply exact_bitdepth|]. intros _.
    apply exact_assoc. xb shift. intros [cs Hs]. apply (c_u32_range _ _ _ _ _ _ _ _ 1024) in Hs; [|u32_rng].
    apply exact_assoc. xb n. intros _.
    apply exact_assoc. xb name; [apply exact_bytes|]. intros _.
    apply exact_assoc. apply exact_bind; [apply exact_ite; intros _; ex|]. intros assoc _.
    apply exact_ret_l. rewrite i32_small by lia. apply exact_extra_tail.
Qed.

Lemma exact_extras n : exact (readExtraChannels n) (c_list n extra_code).
Proof. apply (exact_list readExtraChannels readExtraChannel); auto. apply exact_extra. Qed.

Lemma land_bit key i : negb (Z.land (Z.shiftl 1 (Z.of_nat i)) key =? 0) = Z.testbit key (Z.of_nat i).
Proof.
  destruct (Z.testbit key (Z.of_nat i)) eqn:E.
  - destruct (Z.eqb_spec (Z.land (Z.shiftl 1 (Z.of_nat i)) key) 0) as [H|]; [|reflexivity].
    apply (f_equal (fun z => Z.testbit z (Z.of_nat i))) in H.
    rewrite Z.land_spec, E, Z.bits_0, andb_true_r, Z.shiftl_spec, Z.sub_diag in H by lia. discriminate.
  - assert (H : Z.land (Z.shiftl 1 (Z.of_nat i)) key = 0).
    { apply Z.bits_inj'. intros n Hn. rewrite Z.land_spec, Z.bits_0, Z.shiftl_1_l.
      rewrite Z.pow2_bits_eqb by lia. destruct (Z.eqb_spec (Z.of_nat i) n) as [<-|]; cbn; auto. }
    now rewrite H.
Qed.

Lemma u64_code_range c v : u64_code c v -> 0 <= v < 2 ^ 64.
Proof.
  intros H. destruct H; try lia.
  assert (Hb : forall sh c v, u64_tail sh c v -> (exists k, sh = 12 + 8 * k)%nat -> (sh <= 60)%nat -> 0 <= v < 2 ^ 64 /\ v <= 2 ^ 64 - 2 ^ Z.of_nat sh).
  { clear. induction 1; intros Hk Hs.
    - assert (0 < 2 ^ Z.of_nat sh <= 2 ^ 60) by (split; [lia|apply Z.pow_le_mono_r; lia]). lia.
    - change (Z.of_nat 60) with 60. lia.
    - assert (sh <= 52)%nat by (destruct Hk as [k ->]; lia).
      destruct IHu64_tail as [I1 I2]; [destruct Hk as [k ->]; exists (S k); lia|lia|].
      assert (2 ^ Z.of_nat (sh + 8) = 256 * 2 ^ Z.of_nat sh).
      { rewrite Nat2Z.inj_add, Z.pow_add_r by lia. change (2 ^ Z.of_nat 8) with 256. lia. }
      assert (0 < 2 ^ Z.of_nat sh) by lia. nia. }
  destruct (Hb _ _ _ H0) as [H1 H2]; [exists 0%nat; reflexivity|lia|].
  change (2 ^ Z.of_nat 12) with 4096 in H2. lia.
Qed.

Lemma exact_ext_lengths key : forall n i, exact (readExtLengths key i n) (ext_lengths key i n).
Proof.
  induction n as [|n IH]; intros i; [apply exact_ret|]. cbn [readExtLengths ext_lengths].
  rewrite land_bit. apply exact_bind.
  - apply exact_ite; intros _; [|apply exact_ret]. xb l. intros _. apply exact_guard; [lia|]. intros _. apply exact_ret.
  - intros l _. xb t; [apply IH|]. intros _. apply exact_ret.
Qed.
Lemma exact_payloads : forall ls, exact (readPayloads ls) (ext_payloads_code implemented ls).
Proof.
  induction ls as [|l t IH]; [apply exact_ret|]. cbn [readPayloads ext_payloads_code].
  xb p; [apply exact_bytes|]. intros _. xb r; [apply IH|]. intros _. apply exact_ret.
Qed.
Lemma exact_ext : exact readExtensions (ext_code implemented).
Proof.
  unfold readExtensions, ext_code. xb key. intros _. xb ls; [apply exact_ext_lengths|]. intros _.
  xb ps; [apply exact_payloads|]. intros _. apply exact_ret.
Qed.

(* ---- colour ---- *)
Lemma unpack_small x : 0 <= x < 2 ^ 31 -> UnpackSigned x = unzigzag x.
Proof.
  intros Hx. destruct (Z.even x) eqn:E.
  - apply UnpackSigned_even; auto; lia.
  - rewrite UnpackSigned_odd by (auto; lia). destruct (Z.ltb_spec x (2 ^ 31)); [reflexivity|lia].
Qed.
Lemma exact_xy : exact readCustomXY xy_code.
Proof.
  unfold readCustomXY, xy_code. xb x. intros [cx Hx]. apply (c_u32_range _ _ _ _ _ _ _ _ (2 ^ 31)) in Hx; [|u32_rng].
  xb y. intros [cy Hy]. apply (c_u32_range _ _ _ _ _ _ _ _ (2 ^ 31)) in Hy; [|u32_rng].
  rewrite !unpack_small by lia. apply exact_ret.
Qed.

Lemma c_enum_range c v : c_enum c v -> 0 <= v <= 63.
Proof. intros [H Hv]. apply (c_u32_range _ _ _ _ _ _ _ _ 128) in H; [lia|u32_rng]. Qed.

Lemma exact_white {B} (f : Z -> option XY -> RM B) R :
  (forall w xy, white_kind w -> exact (f w xy) (R (w, xy))) ->
  exact (wp <- ReadEnum ;;
    if negb (ValidateWhitePoint wp) then rerr
    else white <- (if wp =? WP_CUSTOM then xy <- readCustomXY ;; rret (Some xy) else rret (GetWhitePoint wp)) ;;
         f wp white) (w <== white_code ;;; R w).
Proof.
  intros Hf. unfold white_code.
  apply (exact_iff _ (w <== c_enum ;;; c_guard (white_kind w)
    (if w =? 2 then xy <== xy_code ;;; R (w, Some xy) else R (w, white_xy w)))).
  - intros c v. split.
    + intros (c1 & c2 & w & -> & Hw & Hk & H). destruct (w =? 2) eqn:E.
      * destruct H as (c3 & c4 & xy & -> & Hxy & H). exists (c1 ++ c3), c4, (w, Some xy).
        rewrite app_assoc. split; auto. split; auto. exists c1, c3, w. split; auto. split; auto. split; auto.
        rewrite E. exists c3, [], xy. rewrite app_nil_r. repeat (split; auto).
      * exists c1, c2, (w, white_xy w). split; auto. split; auto. exists c1, [], w. rewrite app_nil_r.
        split; auto. split; auto. split; auto. rewrite E. split; auto.
    + intros (c1 & c2 & wx & -> & (c3 & c4 & w & -> & Hw & Hk & H) & HR). exists c3, (c4 ++ c2), w.
      rewrite app_assoc. split; auto. split; auto. split; auto. destruct (w =? 2) eqn:E.
      * destruct H as (c5 & c6 & xy & -> & Hxy & -> & ->). rewrite app_nil_r. exists c5, c2, xy. auto.
      * destruct H as [-> ->]. auto.
  - xb w. intros _. apply exact_guard.
    + unfold ValidateWhitePoint, white_kind. lia.
    + intros Hk. unfold WP_CUSTOM. apply exact_if_l; intros E.
      * apply exact_assoc. xb xy; [apply exact_xy|]. intros _. apply exact_ret_l. auto.
      * apply exact_ret_l. replace (GetWhitePoint w) with (white_xy w); [auto|].
        destruct Hk as [->|[->|[->| ->]]]; reflexivity.
Qed.

Lemma exact_prim {B} (f : Z -> option (XY * XY * XY) -> RM B) R :
  (forall w xy, prim_kind w -> exact (f w xy) (R (w, xy))) ->
  exact (pr <- ReadEnum ;;
    if negb (ValidatePrimaries pr) then rerr
    else prim <- (if pr =? PRI_CUSTOM then
                   r <- readCustomXY ;; g <- readCustomXY ;; b <- readCustomXY ;; rret (Some (r, g, b))
                 else rret (GetPrimaries pr)) ;;
         f pr prim) (w <== prim_code ;;; R w).
Proof.
  intros Hf. unfold prim_code.
  apply (exact_iff _ (w <== c_enum ;;; c_guard (prim_kind w)
    (if w =? 2 then r <== xy_code ;;; g <== xy_code ;;; b <== xy_code ;;; R (w, Some (r, g, b)) else R (w, prim_xy w)))).
  - intros c v. split.
    + intros (c1 & c2 & w & -> & Hw & Hk & H). destruct (w =? 2) eqn:E.
      * destruct H as (cr & c4 & r & -> & Hr & cg & c5 & g & -> & Hg & cb & c6 & b & -> & Hb & H).
        exists (c1 ++ cr ++ cg ++ cb), c6, (w, Some (r, g, b)).
        rewrite !app_assoc. split; auto. split; auto. exists c1, (cr ++ cg ++ cb), w. rewrite !app_assoc.
        split; auto. split; auto. split; auto. rewrite E.
        exists cr, (cg ++ cb), r. rewrite app_assoc. split; auto. split; auto.
        exists cg, cb, g. split; auto. split; auto. exists cb, [], b. rewrite app_nil_r. repeat (split; auto).
      * exists c1, c2, (w, prim_xy w). split; auto. split; auto. exists c1, [], w. rewrite app_nil_r.
        split; auto. split; auto. split; auto. rewrite E. split; auto.
    + intros (c1 & c2 & wx & -> & (c3 & c4 & w & -> & Hw & Hk & H) & HR). exists c3, (c4 ++ c2), w.
      rewrite app_assoc. split; auto. split; auto. split; auto. destruct (w =? 2) eqn:E.
      * destruct H as (cr & c5 & r & -> & Hr & cg & c6 & g & -> & Hg & cb & c7 & b & -> & Hb & -> & ->).
        rewrite app_nil_r. rewrite <- !app_assoc. exists cr, (cg ++ cb ++ c2), r. split; auto. split; auto.
        exists cg, (cb ++ c2), g. split; auto. split; auto. exists cb, c2, b. auto.
      * destruct H as [-> ->]. auto.
  - xb w. intros _. apply exact_guard.
    + unfold ValidatePrimaries, prim_kind. lia.
    + intros Hk. unfold PRI_CUSTOM. apply exact_if_l; intros E.
      * apply exact_assoc. xb r; [apply exact_xy|]. intros _.
        apply exact_assoc. xb g; [apply exact_xy|]. intros _.
        apply exact_assoc. xb b; [apply exact_xy|]. intros _. apply exact_ret_l. auto.
      * apply exact_ret_l. replace (GetPrimaries w) with (prim_xy w); [auto|].
        destruct Hk as [->|[->|[->| ->]]]; reflexivity.
Qed.

Lemma validate_gamma x : 0 <= x < 2 ^ 24 -> ValidateTransfer x = (x <=? 10000000).
Proof. intros Hx. unfold ValidateTransfer. destruct (Z.ltb_spec x 0); [lia|]. destruct (Z.leb_spec x 10000000); [reflexivity|].
  destruct (Z.ltb_spec x (2 ^ 24)); [reflexivity|lia]. Qed.
Lemma validate_enum e : 0 <= e <= 63 -> ValidateTransfer (2 ^ 24 + e) = true <-> tf_kind e.
Proof.
  intros He. unfold ValidateTransfer, tf_kind. destruct (Z.ltb_spec (2 ^ 24 + e) 0); [lia|].
  destruct (Z.leb_spec (2 ^ 24 + e) 10000000); [lia|].
  destruct (Z.ltb_spec (2 ^ 24 + e) (2 ^ 24)); [lia|]. lia.
Qed.

Lemma exact_tf {B} (f : Z -> RM B) R : (forall t, exact (f t) (R t)) ->
  exact (useGamma <- ReadBool ;;
         tf <- (if useGamma : bool then t <- ReadBits 24 ;; rret (i32 t)
                else e <- ReadEnum ;; rret (i32 (2 ^ 24 + e))) ;;
         if negb (ValidateTransfer tf) then rerr else f tf) (tf <== tf_code ;;; R tf).
Proof.
  intros Hf. unfold tf_code.
  apply (exact_iff _ (g <== c_bool ;;;
    if g : bool then x <== c_fixed 24 ;;; c_guard (x <= 10000000) (R x)
    else e <== c_enum ;;; c_guard (tf_kind e) (R (2 ^ 24 + e)))).
  - intros c v. split.
    + intros (c1 & c2 & g & -> & Hg & H). destruct g; destruct H as (c3 & c4 & x & -> & Hx & Hk & H).
      * exists (c1 ++ c3), c4, x. rewrite app_assoc. split; auto. split; auto. exists c1, c3, true.
        split; auto. split; auto. exists c3, [], x. rewrite app_nil_r. repeat (split; auto).
      * exists (c1 ++ c3), c4, (2 ^ 24 + x). rewrite app_assoc. split; auto. split; auto. exists c1, c3, false.
        split; auto. split; auto. exists c3, [], x. rewrite app_nil_r. repeat (split; auto).
    + intros (c1 & c2 & t & -> & (c3 & c4 & g & -> & Hg & H) & HR). exists c3, (c4 ++ c2), g. rewrite app_assoc.
      split; auto. split; auto.
      destruct g; destruct H as (c5 & c6 & x & -> & Hx & Hk & -> & ->); rewrite app_nil_r; exists c5, c2, x;
        split; auto; split; auto; split; auto.
  - xb g. intros _. destruct g.
    + apply exact_assoc. xb x. intros [cx [_ Hx]]. change (Z.of_nat 24) with 24 in Hx. apply exact_ret_l.
      rewrite i32_small by lia. rewrite validate_gamma by lia. apply exact_guard; [lia|]. auto.
    + apply exact_assoc. xb e. intros [ce He]. apply c_enum_range in He. apply exact_ret_l.
      rewrite i32_small by lia. apply exact_guard; [apply negb_ok, validate_enum; lia|]. auto.
Qed.

Lemma exact_colour : exact readColourEncoding colour_code.
Proof.
  unfold readColourEncoding, colour_code. xb def. intros _. destruct def; cbn [negb andb].
  - apply (exact_eq (rret srgb)); [reflexivity|]. apply exact_ret.
  - xb icc. intros _. xb s. intros _.
    apply exact_guard; [unfold ValidateColourEncoding, space_kind; lia|]. intros Hs.
    destruct icc; cbn [negb andb].
    + apply exact_ret_l. cbn [ValidateWhitePoint WP_D65 WP_CUSTOM Z.eqb Pos.eqb orb negb].
      apply (exact_eq (rret (mkCol true s 1 (white_xy 1) 1 (prim_xy 1) (2 ^ 24 + 13) 1))); [reflexivity|]. apply exact_ret.
    + unfold CE_XYB, CE_GRAY.
      assert (Htail : forall w xy, white_kind w ->
        exact (pr <- (if negb (s =? 2) && negb (s =? 1) then ReadEnum else rret PRI_SRGB) ;;
               (if negb (ValidatePrimaries pr) then rerr
                else prim <- (if pr =? PRI_CUSTOM then
                        r <- readCustomXY ;; g <- readCustomXY ;; b <- readCustomXY ;; rret (Some (r, g, b))
                      else rret (GetPrimaries pr)) ;;
                tfri <- (useGamma <- ReadBool ;;
                         tf <- (if useGamma : bool then t <- ReadBits 24 ;; rret (i32 t)
                                else e <- ReadEnum ;; rret (i32 (2 ^ 24 + e))) ;;
                         if negb (ValidateTransfer tf) then rerr
                         else ri <- ReadEnum ;;
                              if negb (ValidateRenderingIntent ri) then rerr else rret (tf, ri)) ;;
                rret (mkCol false s w xy pr prim (fst tfri) (snd tfri))))
          (p <== (if (s =? 2) || (s =? 1) then c_ret (1, prim_xy 1) else prim_code) ;;;
           tf <== tf_code ;;;
           ri <== c_enum ;;;
           c_guard (intent_kind ri)
           (c_ret (mkCol false s (fst (w, xy)) (snd (w, xy)) (fst p) (snd p) tf ri)))).
      { intros w xy Hw. cbn [fst snd].
        assert (Hend : forall pr prim, exact
          (tfri <- (useGamma <- ReadBool ;;
                         tf <- (if useGamma : bool then t <- ReadBits 24 ;; rret (i32 t)
                                else e <- ReadEnum ;; rret (i32 (2 ^ 24 + e))) ;;
                         if negb (ValidateTransfer tf) then rerr
                         else ri <- ReadEnum ;;
                              if negb (ValidateRenderingIntent ri) then rerr else rret (tf, ri)) ;;
                rret (mkCol false s w xy pr prim (fst tfri) (snd tfri)))
          (tf <== tf_code ;;; ri <== c_enum ;;; c_guard (intent_kind ri) (c_ret (mkCol false s w xy pr prim tf ri)))).
        { intros pr prim.
          eapply exact_eq; [|apply (exact_tf (fun tf => ri <- ReadEnum ;;
                              if negb (ValidateRenderingIntent ri) then rerr else rret (mkCol false s w xy pr prim tf ri)))].
          - intros st. unfold rbind. destruct (ReadBool st) as [[g| |] s1]; auto.
            destruct g.
            + destruct (ReadBits 24 s1) as [[x| |] s2]; auto. cbn [rret]. destruct (ValidateTransfer (i32 x)); auto. cbn [negb].
              destruct (ReadEnum s2) as [[r| |] s3]; auto. destruct (ValidateRenderingIntent r); auto.
            + destruct (ReadEnum s1) as [[x| |] s2]; auto. cbn [rret]. destruct (ValidateTransfer _); auto. cbn [negb].
              destruct (ReadEnum s2) as [[r| |] s3]; auto. destruct (ValidateRenderingIntent r); auto.
          - intros tf. xb ri. intros _. apply exact_guard; [unfold ValidateRenderingIntent, intent_kind; lia|]. intros _. apply exact_ret. }
        destruct ((s =? 2) || (s =? 1)) eqn:E.
        - replace (negb (s =? 2) && negb (s =? 1)) with false by lia. apply exact_ret_l.
          cbn [ValidatePrimaries PRI_SRGB PRI_CUSTOM Z.eqb Pos.eqb orb negb]. apply exact_ret_l.
          eapply exact_iff; [|exact (Hend 1 (prim_xy 1))].
          intros c v. split.
          + intros H. exists [], c, (1, prim_xy 1). split; auto. split; [split; reflexivity|]. exact H.
          + intros (c1 & c2 & p & -> & [-> ->] & H). exact H.
        - replace (negb (s =? 2) && negb (s =? 1)) with true by lia.
          apply (exact_prim (fun pr prim => _) (fun p => _)). intros pr prim _. apply Hend. }
      destruct (s =? 2) eqn:E; cbn [negb].
      * apply exact_ret_l. cbn [ValidateWhitePoint WP_D65 WP_CUSTOM Z.eqb Pos.eqb orb negb]. apply exact_ret_l.
        eapply exact_iff; [|exact (Htail 1 (white_xy 1) (or_introl eq_refl))].
        intros c v. split.
        -- intros H. exists [], c, (1, white_xy 1). split; auto. split; [split; reflexivity|]. exact H.
        -- intros (c1 & c2 & p & -> & [-> ->] & H). exact H.
      * apply (exact_white (fun w xy => _) (fun p => _)). exact Htail.
Qed.

Lemma exact_tone : exact readToneMapping tone_code.
Proof.
  unfold readToneMapping, tone_code. xb def. intros _. destruct def; [apply exact_ret|].
  split.
  - intros c v (c1 & c2 & t & -> & Ht & c3 & c4 & m & -> & Hm & c5 & c6 & rel & -> & Hrel & c7 & c8 & l & -> & Hl & (G1 & G2 & G3 & G4) & -> & ->).
    rewrite app_nil_r.
    eapply reads_bind; [exact (proj1 exact_f16 _ _ Ht)|].
    destruct (Z.leb_spec (f32_units t) 0); [lia|].
    eapply reads_bind; [exact (proj1 exact_f16 _ _ Hm)|].
    destruct (Z.ltb_spec (f32_units m) 0); [lia|]. destruct (Z.ltb_spec (f32_units t) (f32_units m)); [lia|].
    eapply reads_bind; [exact (proj1 exact_bool _ _ Hrel)|].
    eapply reads_bind0; [exact (proj1 exact_f16 _ _ Hl)|].
    change (f32_units (f32_of_Z 1)) with (2 ^ 150).
    destruct (Z.ltb_spec (f32_units l) 0); [lia|].
    destruct rel; cbn [andb orb negb].
    + destruct (Z.ltb_spec (2 ^ 150) (f32_units l)); [specialize (G4 eq_refl); lia|]. apply reads_ret.
    + apply reads_ret.
  - intros s d p Hr.
    pose proof (proj2 exact_f16 s d p Hr) as H. unfold rbind at 1. destruct (ReadF16 s) as [[t| |] s1]; auto.
    destruct H as (ct & Hct & Ht & Hr1).
    destruct (Z.leb_spec (f32_units t) 0); [exact I|].
    pose proof (proj2 exact_f16 s1 d _ Hr1) as H1. unfold rbind at 1. destruct (ReadF16 s1) as [[m| |] s2]; auto.
    destruct H1 as (cm & Hcm & Hm & Hr2).
    destruct (Z.ltb_spec (f32_units m) 0); [exact I|]. destruct (Z.ltb_spec (f32_units t) (f32_units m)); [exact I|].
    pose proof (proj2 exact_bool s2 d _ Hr2) as H3. unfold rbind at 1. destruct (ReadBool s2) as [[rel| |] s3]; auto.
    destruct H3 as (cb & Hcb & Hb & Hr3).
    pose proof (proj2 exact_f16 s3 d _ Hr3) as H4. unfold rbind. destruct (ReadF16 s3) as [[l| |] s4]; auto.
    destruct H4 as (cl & Hcl & Hl & Hr4).
    change (f32_units (f32_of_Z 1)) with (2 ^ 150).
    destruct (rel && ((f32_units l <? 0) || (2 ^ 150 <? f32_units l))) eqn:E1; [exact I|].
    destruct (negb rel && (f32_units l <? 0)) eqn:E2; [exact I|].
    cbn [rret]. exists (ct ++ cm ++ cb ++ cl).
    split; [apply bits_at_app; split; auto; apply bits_at_app; split; auto; apply bits_at_app; split; auto|].
    split.
    + exists ct, (cm ++ cb ++ cl), t. split; auto. split; auto. exists cm, (cb ++ cl), m. split; auto. split; auto.
      exists cb, cl, rel. split; auto. split; auto. exists cl, [], l. rewrite app_nil_r. split; auto. split; auto.
      split; [|split; reflexivity]. set (B := 2 ^ 150) in *. clearbody B. destruct rel; lia.
    + rewrite !app_length, !Nat.add_assoc. exact Hr4.
Qed.

Lemma exact_opsin : exact readOpsin opsin_code.
Proof.
  unfold readOpsin, opsin_code. xb def. intros _. destruct def; [apply exact_ret|].
  xb l; [apply exact_f16s|]. intros _. apply exact_ret.
Qed.

Lemma exact_extra_fields level : exact (readExtraFields level) (extra_fields_code implemented level).
Proof.
  unfold readExtraFields, extra_fields_code. xb o. intros [co [_ Ho]]. change (2 ^ Z.of_nat 3) with 8 in Ho.
  xb bi. intros _. xb intr; [apply exact_opt, exact_size|]. intros _.
  xb bp. intros _. xb prev; [apply exact_opt, exact_preview|]. intros _.
  xb ba. intros _. destruct ba.
  - apply exact_err. intros c v (c1 & c2 & u & _ & H & _). exact H.
  - rewrite (u32_small o), u32_small by lia. eapply exact_iff; [|apply exact_ret].
    intros c v. split.
    + intros [-> ->]. exists [], [], tt. repeat (split; auto).
    + intros (c1 & c2 & u & -> & [-> _] & [-> ->]). split; reflexivity.
Qed.

Lemma alphaIndices_spec : forall l i,
  alphaIndices i l = map (fun k => i + Z.of_nat k) (filter (fun k => match nth_error l k with Some e => ec_type e =? 0 | None => false end) (seq 0 (length l))).
Proof.
  induction l as [|e t IH]; intros i; [reflexivity|]. cbn [alphaIndices length seq filter nth_error].
  assert (E : forall (j : Z), alphaIndices (j + 1) t =
    map (fun k => j + Z.of_nat k) (filter (fun k => match nth_error (e :: t) k with Some e => ec_type e =? 0 | None => false end) (seq 1 (length t)))).
  { intros j. rewrite IH. rewrite <- seq_shift.
    generalize (seq 0 (length t)) as ks. induction ks as [|k ks IHk]; [reflexivity|].
    cbn [map filter nth_error]. destruct (nth_error t k) as [e'|]; [destruct (ec_type e' =? 0)|]; cbn [map]; rewrite ?IHk; auto.
    f_equal. lia. }
  unfold ALPHA. rewrite E. destruct (ec_type e =? 0); cbn [map]; [|reflexivity]. now rewrite Z.add_0_r.
Qed.
Lemma alpha_ok l : alphaIndices 0 l = alpha_positions l.
Proof. rewrite alphaIndices_spec. unfold alpha_positions. apply map_ext. intros k. lia. Qed.

Lemma mask_bit mask i : 0 <= mask < 8 -> (i < 3)%nat -> negb (Z.land (i32 mask) (2 ^ Z.of_nat i) =? 0) = Z.testbit mask (Z.of_nat i).
Proof.
  intros Hm Hi. rewrite i32_small by lia. rewrite <- land_bit. rewrite Z.shiftl_1_l. now rewrite Z.land_comm.
Qed.

Lemma exact_header icc icc_code level : (forall n, 0 <= n < 2 ^ 32 -> exact (icc n) (icc_code n)) ->
  exact (parseHeaderBody icc level) (header_code implemented icc_code level).
Proof.
  intros Hicc. unfold parseHeaderBody, header_code. xb sig. intros [cs [_ Hs]]. change (2 ^ Z.of_nat 16) with 65536 in Hs.
  rewrite u32_small by lia.
  match goal with |- exact (if ?a then rerr else if ?b then rerr else ?m) _ =>
    apply (exact_eq (if a || b then rerr else m)) end.
  2: apply exact_guard.
  { intros s. destruct (sig =? 0xAFF); cbn [negb orb]; [|reflexivity]. destruct (negb (level =? 5) && negb (level =? 10)); reflexivity. }
  { lia. }
  intros _. xb size; [apply exact_size|]. intros _. xb def. intros _.
  xb xfb; [destruct def; cbn [negb]; ex|]. intros _.
  apply exact_bind; [apply exact_ite; intros _; [apply exact_extra_fields|apply exact_ret]|]. intros [[orient intr] prev] _.
  cbv zeta.
  apply (exact_eq (mid <- (if def : bool then rret mid_default
            else
              bd <- readBitDepth ;;
              m16 <- ReadBool ;;
              n <- ReadU32 0 0 1 0 2 4 1 12 ;;
              ecs <- readExtraChannels (Z.to_nat n) ;;
              xyb <- ReadBool ;;
              col <- readColourEncoding ;;
              rret (bd, m16, ecs, xyb, col)) ;;
    let '(bd, m16, ecs, xyb, col) := mid in
    tone <- (if xfb : bool then readToneMapping else rret NewToneMapping) ;;
    ext <- (if def : bool then rret NewExtensions else readExtensions) ;;
    defaultMatrix <- ReadBool ;;
    opsin <- (if negb defaultMatrix && xyb then readOpsin else rret None) ;;
    cwMask <- (if defaultMatrix : bool then rret 0 else ReadBits 3) ;;
    up2 <- opt (negb (Z.land (i32 cwMask) 1 =? 0)) (readF16List 15) ;;
    up4 <- opt (negb (Z.land (i32 cwMask) 2 =? 0)) (readF16List 55) ;;
    up8 <- opt (negb (Z.land (i32 cwMask) 4 =? 0)) (readF16List 210) ;;
    iccData <- (if col_icc col then
                  n <- ReadU64 ;;
                  if 2 ^ 32 - 1 <? n then rerr else l <- icc n ;; rret (Some l)
                else rret None) ;;
    rret (mkIH level size orient
            (if 4 <? orient then dim_h size else dim_w size)
            (if 4 <? orient then dim_w size else dim_h size) intr prev bd m16 ecs (alpha_positions ecs) xyb col tone ext opsin up2 up4 up8 iccData))).
  { intros s. unfold rbind at 1. destruct def; [reflexivity|].
    unfold rbind. destruct (readBitDepth s) as [[bd| |] s1]; auto. destruct (ReadBool s1) as [[m16| |] s2]; auto.
    destruct (ReadU32 _ _ _ _ _ _ _ _ s2) as [[n| |] s3]; auto. destruct (readExtraChannels _ s3) as [[ecs| |] s4]; auto.
    destruct (ReadBool s4) as [[xyb| |] s5]; auto. destruct (readColourEncoding s5) as [[col| |] s6]; auto.
    cbn [rret]. rewrite alpha_ok. reflexivity. }
  apply exact_bind.
  { apply exact_ite; intros _; [apply exact_ret|]. unfold mid_code.
    xb bd; [apply exact_bitdepth|]. intros _. xb m16. intros _. xb n. intros _. xb ecs; [apply exact_extras|]. intros _.
    xb xyb. intros _. xb col; [apply exact_colour|]. intros _. apply exact_ret. }
  intros [[[[bd m16] ecs] xyb] col] _. cbn [fst snd].
  apply exact_bind; [apply exact_ite; intros _; [apply exact_tone|apply exact_ret]|]. intros tone _.
  apply exact_bind; [apply exact_ite; intros _; [apply exact_ret|apply exact_ext]|]. intros ext _.
  xb dm. intros _.
  apply exact_bind; [apply exact_ite; intros _; [apply exact_opsin|apply exact_ret]|]. intros opsin _.
  apply exact_bind; [apply exact_ite; intros _; ex|]. intros mask [cm Hm].
  assert (Hmask : 0 <= mask < 8).
  { destruct dm; destruct Hm as [_ Hm]; [subst; lia|]. exact Hm. }
  pose proof (mask_bit mask 0 Hmask ltac:(lia)) as E0. pose proof (mask_bit mask 1 Hmask ltac:(lia)) as E1.
  pose proof (mask_bit mask 2 Hmask ltac:(lia)) as E2.
  change (2 ^ Z.of_nat 0) with 1 in E0. change (2 ^ Z.of_nat 1) with 2 in E1. change (2 ^ Z.of_nat 2) with 4 in E2.
  change (Z.of_nat 0) with 0 in E0. change (Z.of_nat 1) with 1 in E1. change (Z.of_nat 2) with 2 in E2.
  rewrite E0, E1, E2.
  xb u2; [apply exact_opt, exact_f16s|]. intros _. xb u4; [apply exact_opt, exact_f16s|]. intros _.
  xb u8; [apply exact_opt, exact_f16s|]. intros _.
  apply exact_bind.
  { apply exact_ite; intros _; [|apply exact_ret]. xb n. intros [cn Hn]. apply u64_code_range in Hn.
    apply exact_guard; [lia|]. intros Hn'. xb l; [apply Hicc; lia|]. intros _. apply exact_ret. }
  intros iccd _. apply exact_ret.
Qed.

(* ---- padding ---- *)
Lemma pad_ok s d p : reader_at s d p ->
  exists s', ZeroPadToByte s = (Ok tt, s') /\ reader_at s' d (8 * ((p + 7) / 8)).
Proof.
  intros Hr. pose proof Hr as (Hd & Hdat & Hp & _ & Hi & _). unfold ZeroPadToByte. rewrite Hi.
  pose proof (Nat.div_mod p 8 ltac:(lia)) as Hdm. pose proof (Nat.mod_upper_bound p 8 ltac:(lia)) as Hlt.
  destruct (Z.eqb_spec (Z.of_nat (p mod 8)) 0) as [E|E].
  - exists s. split; auto. replace (8 * ((p + 7) / 8))%nat with p; [exact Hr|].
    replace (p + 7)%nat with (7 + (p / 8) * 8)%nat by lia. rewrite Nat.div_add by lia. rewrite (Nat.div_small 7) by lia. lia.
  - cbv zeta. replace (u8 (8 - Z.of_nat (p mod 8))) with (Z.of_nat (8 - p mod 8)).
    2: { unfold u8. rewrite Z.mod_small by lia. lia. }
    destruct (Z.ltb_spec 0 (Z.of_nat (8 - p mod 8))); [|lia].
    destruct (readbits_field s d p (8 - p mod 8) Hr) as (v & s' & -> & _ & Hr' & _); [lia|lia|].
    exists s'. split; auto. replace (8 * ((p + 7) / 8))%nat with (p + (8 - p mod 8))%nat; [exact Hr'|].
    replace (p + 7)%nat with ((p mod 8 - 1) + (p / 8 + 1) * 8)%nat by lia. rewrite Nat.div_add by lia.
    rewrite (Nat.div_small (p mod 8 - 1)) by lia. lia.
Qed.

(* ---- monotonicity of the grammar ---- *)
Definition incl_code {A} (R S : code A) : Prop := forall c v, R c v -> S c v.
Lemma seq_mono {A B} (R R' : code A) (S S' : A -> code B) :
  incl_code R R' -> (forall v, incl_code (S v) (S' v)) -> incl_code (c_seq R S) (c_seq R' S').
Proof. intros H1 H2 c w (c1 & c2 & v & E & Hr & Hs). exists c1, c2, v. split; auto. split; [apply H1|apply H2]; auto. Qed.
Lemma guard_mono {A} (P Q : Prop) (R S : code A) : (P -> Q) -> incl_code R S -> incl_code (c_guard P R) (c_guard Q S).
Proof. intros H1 H2 c v [H3 H4]. split; auto. Qed.
Lemma refl_mono {A} (R : code A) : incl_code R R. Proof. intros c v H. exact H. Qed.
Lemma opt_mono {A} b (R S : code A) : incl_code R S -> incl_code (c_opt b R) (c_opt b S).
Proof. intros H. destruct b; [apply seq_mono; auto; intros; apply refl_mono|apply refl_mono]. Qed.
Lemma if_mono {A} (b : bool) (R R' S S' : code A) : incl_code R S -> incl_code R' S' -> incl_code (if b then R else R') (if b then S else S').
Proof. destruct b; auto. Qed.

Record dialect_le (D E : dialect) : Prop := {
  le_size : forall l, incl_code (d_size D l) (d_size E l);
  le_prev : incl_code (d_preview D) (d_preview E);
  le_anim : incl_code (d_animation D) (d_animation E);
  le_ext : forall n, incl_code (d_ext_payload D n) (d_ext_payload E n) }.

Lemma header_mono D E icc level : dialect_le D E -> incl_code (header_code D icc level) (header_code E icc level).
Proof.
  intros H. unfold header_code. apply seq_mono; [apply refl_mono|]. intros sig. apply guard_mono; [auto|].
  apply seq_mono; [apply (le_size _ _ H)|]. intros size. apply seq_mono; [apply refl_mono|]. intros def.
  apply seq_mono; [apply refl_mono|]. intros xfb. apply seq_mono.
  { apply if_mono; [|apply refl_mono]. unfold extra_fields_code. apply seq_mono; [apply refl_mono|]. intros o.
    apply seq_mono; [apply refl_mono|]. intros bi. apply seq_mono; [apply opt_mono, (le_size _ _ H)|]. intros intr.
    apply seq_mono; [apply refl_mono|]. intros bp. apply seq_mono; [apply opt_mono, (le_prev _ _ H)|]. intros prev.
    apply seq_mono; [apply refl_mono|]. intros ba. apply seq_mono; [apply if_mono; [apply (le_anim _ _ H)|apply refl_mono]|].
    intros _. apply refl_mono. }
  intros xf. apply seq_mono; [apply refl_mono|]. intros mid. apply seq_mono; [apply refl_mono|]. intros tone.
  apply seq_mono; [|intros ext; apply refl_mono]. apply if_mono; [apply refl_mono|].
  unfold ext_code. apply seq_mono; [apply refl_mono|]. intros key. apply seq_mono; [apply refl_mono|]. intros ls.
  apply seq_mono; [|intros; apply refl_mono]. induction ls as [|l t IH]; [apply refl_mono|]. cbn [ext_payloads_code].
  apply seq_mono; [apply (le_ext _ _ H)|]. intros p. apply seq_mono; [exact IH|]. intros. apply refl_mono.
Qed.

Lemma ratio_same r h : 0 <= r -> h * ratio_num r < 2 ^ 32 -> 0 <= h -> wrapped_ratio_width r h = ratio_width r h.
Proof.
  intros Hr H Hh. unfold wrapped_ratio_width, ratio_width. rewrite Z.mod_small; auto. split; [|auto].
  apply Z.mul_nonneg_nonneg; auto. unfold ratio_num. set (n := Z.to_nat r). clearbody n.
  do 8 (destruct n as [|n]; [cbn [nth]; lia|]). cbn [nth]. destruct n; lia.
Qed.
Lemma ratio_num_le r : 0 <= ratio_num r <= 16.
Proof.
  unfold ratio_num. set (n := Z.to_nat r). clearbody n.
  do 8 (destruct n as [|n]; [cbn [nth]; lia|]). cbn [nth]. destruct n; lia.
Qed.

Lemma size_handled l : incl_code (d_size iso_handled l) (d_size implemented l).
Proof.
  cbn [d_size iso_handled implemented]. unfold size_code. apply seq_mono; [apply refl_mono|]. intros div8.
  intros c w (c1 & c2 & h & -> & Hh & c3 & c4 & r & -> & Hr & c5 & c6 & x & -> & Hx & ((Hiso & H1 & H2) & -> & ->)).
  exists c1, (c3 ++ c5 ++ []), h. split; auto. split; auto. exists c3, (c5 ++ []), r. split; auto. split; auto.
  exists c5, [], x. split; auto. apply size_field_range in Hh. pose proof Hr as [_ Hrr]. change (2 ^ Z.of_nat 3) with 8 in Hrr.
  split; [|split].
  - destruct (Z.eqb_spec r 0); auto. destruct Hx as [-> ->]. split; auto. symmetry. apply ratio_same; try lia.
    pose proof (ratio_num_le r) as Hn. destruct (Z_lt_le_dec h (2 ^ 28)); [nia|]. assert (h = 2 ^ 28) by lia. subst h.
    destruct (Z.eqb_spec r 5) as [->|].
    + exfalso. revert H1. vm_compute. intros H; apply H. reflexivity.
    + assert (ratio_num r <= 6).
      { assert (r = 1 \/ r = 2 \/ r = 3 \/ r = 4 \/ r = 6 \/ r = 7) as E by lia.
        destruct E as [->|[->|[->|[->|[->| ->]]]]]; vm_compute; discriminate. }
      nia.
  - unfold code_size_ok. destruct Hiso as [(-> & I1 & I2 & I3)|(-> & I1 & I2 & I3)].
    + cbn [Z.leb Z.compare Pos.compare Pos.compare_cont]. split; [lia|]. split; [lia|].
      pose proof (Z.mod_le (x * h) (2 ^ 32)). destruct (Z_le_gt_dec 0 (x * h)); [lia|].
      exfalso. assert (0 <= x).
      { destruct (Z.eqb_spec r 0).
        - apply size_field_range in Hx. lia.
        - destruct Hx as [_ ->]. unfold ratio_width. apply Z.div_pos; [pose proof (ratio_num_le r); nia|].
          unfold ratio_den. set (n' := Z.to_nat r). clearbody n'.
          do 8 (destruct n' as [|n']; [cbn [nth]; lia|]). cbn [nth]. destruct n'; lia. }
      nia.
    + cbn [Z.leb Z.compare Pos.compare Pos.compare_cont]. auto.
  - split; reflexivity.
Qed.

Lemma preview_handled : incl_code (d_preview iso_handled) (d_preview implemented).
Proof.
  cbn [d_preview iso_handled implemented]. unfold preview_code. apply seq_mono; [apply refl_mono|]. intros div8.
  intros c w [Hdiv H]. destruct div8; [destruct (Hdiv eq_refl)|]. split; auto.
  destruct H as (c1 & c2 & h & -> & Hh & c3 & c4 & r & -> & Hr & c5 & c6 & x & -> & Hx & (H1 & -> & ->)).
  exists c1, (c3 ++ c5 ++ []), h. split; auto. split; auto. exists c3, (c5 ++ []), r. split; auto. split; auto.
  exists c5, [], x. split; auto. split; [|split; [exact H1|split; reflexivity]].
  destruct (Z.eqb_spec r 0); auto. destruct Hx as [-> ->]. split; auto. symmetry.
  pose proof Hr as [_ Hrr]. change (2 ^ Z.of_nat 3) with 8 in Hrr. unfold preview_field in Hh.
  apply (c_u32_range _ _ _ _ _ _ _ _ (2 ^ 28)) in Hh; [|u32_rng].
  apply ratio_same; try lia. pose proof (ratio_num_le r). nia.
Qed.

Lemma handled_implemented : dialect_le iso_handled implemented.
Proof.
  split; [exact size_handled|exact preview_handled|intros c v []|].
  intros n c v [-> [-> ->]]. split; reflexivity.
Qed.
Lemma handled_iso : dialect_le iso_handled iso.
Proof.
  split.
  - intros l. cbn [d_size iso_handled iso]. unfold size_code. apply seq_mono; [apply refl_mono|]. intros div8.
    apply seq_mono; [apply refl_mono|]. intros h. apply seq_mono; [apply refl_mono|]. intros r.
    apply seq_mono; [apply refl_mono|]. intros w. apply guard_mono; [tauto|apply refl_mono].
  - cbn [d_preview iso_handled iso]. unfold preview_code. apply seq_mono; [apply refl_mono|]. intros div8.
    apply guard_mono; [auto|apply refl_mono].
  - intros c v [].
  - intros n c v [-> [-> ->]]. split; reflexivity.
Qed.

(* ---- values of the grammar ---- *)

Lemma white_xy_some w : white_kind w -> w <> 2 -> white_xy w <> None.
Proof. intros [->|[->|[->| ->]]] H; try discriminate; lia. Qed.
Lemma prim_xy_some w : prim_kind w -> w <> 2 -> prim_xy w <> None.
Proof. intros [->|[->|[->| ->]]] H; try discriminate; lia. Qed.
Lemma white_code_ok c v : white_code c v -> white_kind (fst v) /\ snd v <> None.
Proof.
  intros (c1 & c2 & w & -> & _ & Hk & H). destruct (Z.eqb_spec w 2).
  - destruct H as (c3 & c4 & xy & _ & _ & _ & ->). cbn [fst snd]. split; auto. discriminate.
  - destruct H as [_ ->]. cbn [fst snd]. split; auto. now apply white_xy_some.
Qed.
Lemma prim_code_ok c v : prim_code c v -> prim_kind (fst v) /\ snd v <> None.
Proof.
  intros (c1 & c2 & w & -> & _ & Hk & H). destruct (Z.eqb_spec w 2).
  - destruct H as (c3 & c4 & r & _ & _ & c5 & c6 & g & _ & _ & c7 & c8 & b & _ & _ & _ & ->). cbn [fst snd]. split; auto. discriminate.
  - destruct H as [_ ->]. cbn [fst snd]. split; auto. now apply prim_xy_some.
Qed.
Lemma tf_code_ok c v : tf_code c v -> 0 <= v <= 10000000 \/ exists e, tf_kind e /\ v = 2 ^ 24 + e.
Proof.
  intros (c1 & c2 & g & -> & _ & H). destruct g; destruct H as (c3 & c4 & x & -> & Hx & Hk & -> & ->).
  - destruct Hx as [_ Hx]. left. lia.
  - right. eauto.
Qed.
Lemma srgb_ok : colour_ok srgb.
Proof.
  unfold colour_ok, srgb, space_kind, white_kind, prim_kind, intent_kind. cbn [col_space col_wp col_white col_prim col_primXY col_tf col_intent].
  split; [lia|]. split; [lia|]. split; [discriminate|]. split; [lia|]. split; [discriminate|]. split; [|lia].
  right. exists 13. split; auto. unfold tf_kind. lia.
Qed.
Lemma colour_code_ok c v : colour_code c v -> colour_ok v.
Proof.
  intros (c1 & c2 & def & -> & _ & H). destruct def; [destruct H as [_ ->]; apply srgb_ok|].
  destruct H as (c3 & c4 & icc & -> & _ & c5 & c6 & s & -> & _ & Hs & H).
  destruct icc.
  - destruct H as [_ ->]. pose proof srgb_ok as H. unfold colour_ok in *. unfold srgb in H. cbn [col_space col_wp col_white col_prim col_primXY col_tf col_intent] in *. tauto.
  - destruct H as (c7 & c8 & w & -> & Hw & c9 & c10 & p & -> & Hp & c11 & c12 & tf & -> & Htf & c13 & c14 & ri & -> & _ & Hri & -> & ->).
    unfold colour_ok. cbn [col_space col_wp col_white col_prim col_primXY col_tf col_intent].
    assert (Hw' : white_kind (fst w) /\ snd w <> None).
    { destruct (s =? 2); [destruct Hw as [_ ->]; cbn; split; [left; auto|discriminate]|now apply white_code_ok in Hw]. }
    assert (Hp' : prim_kind (fst p) /\ snd p <> None).
    { destruct ((s =? 2) || (s =? 1)); [destruct Hp as [_ ->]; cbn; split; [left; auto|discriminate]|now apply prim_code_ok in Hp]. }
    apply tf_code_ok in Htf. tauto.
Qed.

Lemma bitdepth_ok c v : bitdepth_code c v -> 1 <= bd_bits v <= 64 /\ 0 <= bd_exp v <= 16 /\ (bd_float v = false -> bd_exp v = 0).
Proof.
  intros (c1 & c2 & fl & -> & _ & H). destruct fl.
  - destruct H as (c3 & c4 & b & -> & Hb & c5 & c6 & e & -> & [_ He] & _ & ->). change (2 ^ Z.of_nat 4) with 16 in He. cbn [bd_bits bd_exp bd_float].
    split; [|split; [lia|discriminate]].
    destruct Hb as (i & x & Hi & Hx & _ & ->). do 4 (destruct i as [|i]; [cbn [nth] in *; cbn in Hx; lia|]); lia.
  - destruct H as (c3 & c4 & b & -> & Hb & _ & ->). cbn [bd_bits bd_exp bd_float]. split; [|split; [lia|auto]].
    destruct Hb as (i & x & Hi & Hx & _ & ->). do 4 (destruct i as [|i]; [cbn [nth] in *; cbn in Hx; lia|]); lia.
Qed.

Lemma c_list_forall {A} (R : code A) (P : A -> Prop) : (forall c v, R c v -> P v) ->
  forall n c l, c_list n R c l -> length l = n /\ Forall P l.
Proof.
  intros H. induction n as [|n IH]; intros c l.
  - intros [_ ->]. split; auto.
  - intros (c1 & c2 & a & -> & Ha & c3 & c4 & t & -> & Ht & _ & ->). destruct (IH _ _ Ht) as [H1 H2].
    cbn [length]. split; [lia|]. constructor; eauto.
Qed.

Lemma extra_tail_ok t bd sh nm a c v : extra_tail t bd sh nm a c v -> ec_type v = t /\ ec_bd v = bd /\ ec_dimShift v = sh /\ ec_name v = nm.
Proof. intros (c1 & c2 & sp & -> & _ & c3 & c4 & cf & -> & _ & _ & ->). auto. Qed.
Lemma extra_code_ok c v : extra_code c v -> extra_ok v.
Proof.
  intros (c1 & c2 & d & -> & _ & H). destruct d.
  - apply extra_tail_ok in H. destruct H as (E1 & E2 & E3 & E4). unfold extra_ok, extra_kind. rewrite E1, E2, E3, E4. cbn.
    repeat (split; [lia|]). constructor.
  - destruct H as (c3 & c4 & t & -> & _ & Hk & c5 & c6 & bd & -> & Hbd & c7 & c8 & sh & -> & Hsh & c9 & c10 & n & -> & Hn & c11 & c12 & nm & -> & Hnm & c13 & c14 & a & -> & _ & H).
    apply extra_tail_ok in H. destruct H as (E1 & E2 & E3 & E4). unfold extra_ok. rewrite E1, E2, E3, E4.
    apply bitdepth_ok in Hbd. apply (c_list_forall _ is_byte) in Hnm.
    2: { intros cc b [_ Hb]. exact Hb. }
    destruct Hnm as [Hl Hf].
    assert (0 <= sh <= 8).
    { destruct Hsh as (i & x & Hi & Hx & _ & ->). do 4 (destruct i as [|i]; [cbn [nth] in *; cbn in Hx; lia|]); lia. }
    apply (c_u32_range _ _ _ _ _ _ _ _ 1072) in Hn; [|u32_rng].
    split; auto. split; [tauto|]. split; [lia|]. split; [lia|auto].
Qed.


Lemma size_code_ok level c v : size_code wrapped_ratio_width code_size_ok level c v -> level = 5 \/ level = 10 ->
  0 <= dim_w v <= (if level =? 5 then 2 ^ 18 else 2 ^ 28) /\ 1 <= dim_h v <= (if level =? 5 then 2 ^ 18 else 2 ^ 28).
Proof.
  intros (c1 & c2 & div8 & -> & _ & c3 & c4 & h & -> & Hh & c5 & c6 & r & -> & Hr & c7 & c8 & w & -> & Hw & Hok & -> & ->) Hl.
  apply size_field_range in Hh. cbn [dim_w dim_h].
  assert (0 <= w).
  { destruct (r =? 0); [apply size_field_range in Hw; lia|]. destruct Hw as [_ ->]. apply wrapped_range. lia. }
  destruct Hl as [->| ->]; cbn [Z.eqb Pos.eqb]; unfold code_size_ok in Hok; cbn in Hok; lia.
Qed.

Lemma opt_len {A} b n (R : code A) c v : c_opt b (c_list n R) c v -> forall l, v = Some l -> length l = n.
Proof.
  destruct b; cbn [c_opt].
  - intros (c1 & c2 & l & -> & Hl & _ & ->) l' E. assert (l = l') by congruence. subst l'.
    apply (c_list_forall _ (fun _ => True)) in Hl; tauto.
  - intros [_ ->] l E. discriminate.
Qed.

Lemma header_code_ok icc level c v : header_code implemented icc level c v -> header_ok level v.
Proof.
  intros (c1 & c2 & sig & -> & _ & (Hsig & Hlev) & c3 & c4 & size & -> & Hsize & c5 & c6 & def & -> & _ &
    c7 & c8 & xfb & -> & Hxfb & c9 & c10 & xf & -> & Hxf & c11 & c12 & mid & -> & Hmid & c13 & c14 & tone & -> & Htone &
    c15 & c16 & ext & -> & Hext & c17 & c18 & dm & -> & _ & c19 & c20 & opsin & -> & Hop & c21 & c22 & mask & -> & _ &
    c23 & c24 & u2 & -> & Hu2 & c25 & c26 & u4 & -> & Hu4 & c27 & c28 & u8 & -> & Hu8 & c29 & c30 & iccd & -> & Hicc & H).
  destruct xf as [[orient intr] prev]. destruct mid as [[[[bd m16] ecs] xyb] col]. destruct H as [_ ->].
  apply size_code_ok in Hsize; auto.
  assert (Ho : 1 <= orient <= 8).
  { destruct xfb.
    - destruct Hxf as (d1 & d2 & o & _ & [_ Ho] & d3 & d4 & bi & _ & _ & d5 & d6 & i & _ & _ & d7 & d8 & bp & _ & _ & d9 & d10 & pr & _ & _ & d11 & d12 & ba & _ & _ & d13 & d14 & un & _ & _ & _ & E).
      change (2 ^ Z.of_nat 3) with 8 in Ho. assert (orient = 1 + o) by congruence. lia.
    - destruct Hxf as [_ E]. assert (orient = 1) by congruence. lia. }
  assert (Hm : 1 <= bd_bits bd <= 64 /\ 0 <= bd_exp bd <= 16 /\ (length ecs <= 4096)%nat /\ Forall extra_ok ecs /\ colour_ok col).
  { destruct def.
    - destruct Hmid as [_ E]. unfold mid_default in E.
      assert (bd = mkBD 8 0 false /\ ecs = [] /\ col = srgb) as (-> & -> & ->) by (split; [|split]; congruence).
      cbn [bd_bits bd_exp length]. repeat (split; [lia|]). split; [constructor|apply srgb_ok].
    - destruct Hmid as (d1 & d2 & bd' & _ & Hbd & d3 & d4 & m & _ & _ & d5 & d6 & n & _ & Hn & d7 & d8 & ecs' & _ & Hecs & d9 & d10 & x & _ & _ & d11 & d12 & col' & _ & Hcol & _ & E).
      assert (bd = bd' /\ ecs = ecs' /\ col = col') as (-> & -> & ->) by (split; [|split]; congruence).
      apply bitdepth_ok in Hbd. apply (c_list_forall _ extra_ok extra_code_ok) in Hecs. apply colour_code_ok in Hcol.
      apply (c_u32_range _ _ _ _ _ _ _ _ 4097) in Hn; [|u32_rng]. destruct Hecs as [E1 E2]. repeat (split; [lia|]). auto. }
  destruct Hm as (M1 & M2 & M3 & M4 & M5). unfold header_ok.
  cbn [ih_level ih_size ih_orientation ih_ow ih_oh ih_bd ih_extra ih_alpha ih_colour ih_up2 ih_up4 ih_up8 ih_icc].
  split; auto. split; auto. split; [tauto|]. split; [tauto|]. split; [auto|].
  split; [intros Hc; destruct (Z.ltb_spec 4 orient); [lia|auto]|].
  split; [intros Hc; destruct (Z.ltb_spec 4 orient); [auto|lia]|].
  split; auto. split; auto. split; auto. split; auto. split; auto. split; auto.
  split; [exact (opt_len _ _ _ _ _ Hu2)|]. split; [exact (opt_len _ _ _ _ _ Hu4)|]. split; [exact (opt_len _ _ _ _ _ Hu8)|].
  cbn [snd] in Hicc. destruct (col_icc col).
  - destruct Hicc as (d1 & d2 & n & _ & _ & _ & d3 & d4 & l & _ & _ & _ & ->). split; [auto|discriminate].
  - destruct Hicc as [_ ->]. split; [congruence|discriminate].
Qed.
