From Coq Require Import ZArith List Bool Lia Arith ZifyBool ZifyNat.
From Verif Require Import GoBase Bits ModelBitReader SpecBitReader SpecCodes SpecGrammar ModelUtil SpecUtil ModelHeader SpecHeader
  ModelFrameHeader SpecFrameHeader ProofBitReader ProofBitReader2 ProofReads ProofCodes ProofGrammar ProofUtil ProofHeader.
Import ListNotations.
Open Scope Z_scope.

Lemma exact_conv {A} (m : RM A) (f : A -> A) R : exact m R -> (forall c v, R c v -> f v = v) ->
  exact (b <- m ;; rret (f b)) R.
Proof.
  intros Hm Hf. apply (exact_iff _ (c_seq R c_ret)).
  - intros c v. split.
    + intros (c1 & c2 & x & -> & H & -> & ->). now rewrite app_nil_r.
    + intros H. exists c, [], v. rewrite app_nil_r. repeat (split; auto).
  - apply exact_bind; auto. intros v [c Hc]. rewrite (Hf c v Hc). apply exact_ret.
Qed.
Lemma exact_u n k : k = Z.of_nat n -> (n <= 32)%nat -> exact (b <- ReadBits k ;; rret (u32 b)) (c_fixed n).
Proof.
  intros Hk Hn. apply exact_conv; [apply (exact_bits n k Hk); lia|].
  intros c v [_ Hv]. apply u32_small.
  assert (2 ^ Z.of_nat n <= 2 ^ 32) by (apply Z.pow_le_mono_r; lia). lia.
Qed.
Lemma exact_p2 : exact (b <- ReadBits 2 ;; rret (u32 (Z.shiftl 1 b))) (c_pow2 2).
Proof.
  unfold c_pow2. xb b. intros [c [_ Hb]]. change (2 ^ Z.of_nat 2) with 4 in Hb.
  replace (u32 (Z.shiftl 1 b)) with (2 ^ b); [apply exact_ret|].
  assert (b = 0 \/ b = 1 \/ b = 2 \/ b = 3) as [->|[->|[->| ->]]] by lia; reflexivity.
Qed.
Lemma exact_p2' : exact (b <- ReadBits 2 ;; rret (u32 (Z.shiftl 1 (u32 b)))) (c_pow2 2).
Proof.
  unfold c_pow2. xb b. intros [c [_ Hb]]. change (2 ^ Z.of_nat 2) with 4 in Hb.
  replace (u32 (Z.shiftl 1 (u32 b))) with (2 ^ b); [apply exact_ret|].
  assert (b = 0 \/ b = 1 \/ b = 2 \/ b = 3) as [->|[->|[->| ->]]] by lia; reflexivity.
Qed.
Lemma exact_many n m R : exact m R -> exact (readMany n m) (c_list n R).
Proof. intros H. apply (exact_list (fun k => readMany k m) m); auto. Qed.
Lemma exact_when {A} (b b' : bool) (m1 m2 : RM A) R d : b = b' -> exact m1 R -> exact m2 (c_ret d) ->
  exact (if b then m1 else m2) (c_when b' R d).
Proof. intros <-. destruct b; auto. Qed.
Lemma exact_when' {A} (b b' : bool) (m1 m2 : RM A) R d : b = negb b' -> exact m2 R -> exact m1 (c_ret d) ->
  exact (if b then m1 else m2) (c_when b' R d).
Proof. intros ->. destruct b'; auto. Qed.
Lemma exact_lift_l {A B} (o : Outcome A) v (f : A -> RM B) R : o = Ok v -> exact (f v) R -> exact (rbind (lift o) f) R.
Proof. intros ->. apply exact_eq. reflexivity. Qed.
Lemma exact_true {A} (m : RM A) (P : Prop) R : P -> exact m R -> exact m (c_guard P R).
Proof. intros HP. apply exact_iff. unfold c_guard. tauto. Qed.

Lemma exact_blending extra full : exact (readBlending extra full) (blending_code fimplemented extra full).
Proof.
  unfold readBlending, blending_code. xb mode. intros _. apply exact_true; [exact I|].
  unfold BM_BLEND, BM_MULADD, BM_MULT, BM_REPLACE, uses_alpha, fimplemented, fd_clamp.
  apply exact_bind; [apply exact_when; [reflexivity|ex|ex]|]. intros alpha _.
  apply exact_bind; [apply exact_when; [|ex|ex]|].
  { unfold uses_alpha. destruct extra, (mode =? 2), (mode =? 3), (mode =? 4); reflexivity. }
  intros clamp _.
  apply exact_bind; [apply exact_when; [|apply (exact_u 2 2 eq_refl); lia|ex]|].
  { destruct (mode =? 0), full; reflexivity. }
  intros src _. apply exact_ret.
Qed.
Lemma exact_blendings full n : exact (readBlendings n full) (c_list n (blending_code fimplemented true full)).
Proof. apply (exact_list (fun k => readBlendings k full) (readBlending true full)); auto. apply exact_blending. Qed.

Lemma exact_passes : exact readPasses passes_code.
Proof.
  unfold readPasses, passes_code. xb n. intros [cn Hn]. apply (c_u32_range _ _ _ _ _ _ _ _ 12) in Hn as Hn2; [|u32_rng].
  assert (1 <= n).
  { destruct Hn as (i & x & Hi & Hx & _ & ->). do 4 (destruct i as [|i]; [cbn [nth] in *; lia|]). lia. }
  apply exact_bind; [apply exact_when; [reflexivity|ex|ex]|]. intros ds _.
  rewrite (u32_small (n - 1)) by lia.
  apply exact_bind; [apply exact_many, (exact_u 2 2 eq_refl); lia|]. intros shift _.
  apply exact_bind; [apply exact_many, exact_p2'|]. intros down _.
  apply exact_bind; [apply exact_many; ex|]. intros last _. apply exact_ret.
Qed.

Lemma exact_restoration enc : 0 <= enc < 2 ->
  exact (readRestoration enc) (restoration_code fimplemented (enc =? 0)).
Proof.
  intros He. unfold readRestoration, restoration_code. xb def. intros _. destruct def; cbn [negb andb].
  - apply (exact_eq (rret default_filter)); [reflexivity|]. apply exact_ret.
  - xb gab. intros _.
    apply exact_bind; [apply exact_when; [reflexivity|ex|ex]|]. intros cg _.
    apply exact_bind; [apply exact_opt, exact_f16s|]. intros gw _.
    apply exact_bind; [apply (exact_u 2 2 eq_refl); lia|]. intros it [ci [_ Hit]]. change (2 ^ Z.of_nat 2) with 4 in Hit.
    apply exact_true; [exact I|].
    apply exact_bind; [apply exact_when; [reflexivity|ex|ex]|]. intros cs _.
    apply exact_bind; [apply exact_opt, exact_f16s|]. intros sh _.
    destruct (Z.ltb_spec 9 it) as [H|_]; [lia|]. cbn [fd_weights fimplemented c_when].
    apply exact_bind; [ex|]. intros cw [cc [_ ->]]. cbn [opt c_opt].
    apply exact_bind; [ex|]. intros sc _.
    apply exact_bind; [apply exact_when; [reflexivity|ex|ex]|]. intros sg _.
    apply exact_bind; [apply exact_opt, exact_f16|]. intros qm _.
    apply exact_bind; [apply exact_opt, exact_f16s|]. intros sigma _.
    replace (enc =? MODULAR) with (negb (enc =? 0)) by (unfold MODULAR; lia).
    apply exact_bind; [apply exact_opt, exact_f16|]. intros md _.
    apply exact_bind; [apply exact_ext|]. intros ext _. apply exact_ret.
Qed.

Lemma CeilDiv_wrapped n d : 0 <= n < 2 ^ 32 -> 1 <= d < 2 ^ 32 ->
  CeilDiv n d = Ok (wrapped_ceil n d) /\ 0 <= wrapped_ceil n d < 2 ^ 32.
Proof.
  intros Hn Hd. unfold wrapped_ceil. destruct (Z.eqb_spec n 0) as [->|E].
  - split; [|apply Z.mod_pos_bound; lia]. unfold CeilDiv. destruct (Z.eqb_spec d 0); [lia|]. reflexivity.
  - destruct (CeilDiv_ok n d ltac:(lia) Hd) as (q & -> & Hq & Hb). unfold is_ceil_div in Hq.
    assert (ceil_div n d = q).
    { unfold ceil_div. symmetry. apply Z.div_unique with (r := n + d - 1 - d * q); nia. }
    split; [congruence|lia].
Qed.

Lemma land32 flags : (Z.land flags 32 =? 0) = negb (Z.testbit flags 5).
Proof.
  pose proof (land_bit flags 5) as H. change (Z.shiftl 1 (Z.of_nat 5)) with 32 in H. change (Z.of_nat 5) with 5 in H.
  rewrite Z.land_comm, <- H. destruct (_ =? _); reflexivity.
Qed.

Lemma jpeg_modes modes : Forall (fun m => 0 <= m < 4) modes ->
  map (fun m => fst (jpegMode m)) modes = map sub_x modes /\ map (fun m => snd (jpegMode m)) modes = map sub_y modes /\
  Forall (fun j => j = 0 \/ j = 1) (map sub_x modes) /\ Forall (fun j => j = 0 \/ j = 1) (map sub_y modes).
Proof.
  induction 1 as [|m l H _ (I1 & I2 & I3 & I4)]; [repeat split; constructor|]. cbn [map]. rewrite I1, I2.
  assert (m = 0 \/ m = 1 \/ m = 2 \/ m = 3) as [->|[->|[->| ->]]] by lia; cbn; repeat split; constructor; auto.
Qed.
Lemma max3_largest l : length l = 3%nat -> Forall (fun j => j = 0 \/ j = 1) l ->
  max3 l = largest l /\ (largest l = 0 \/ largest l = 1).
Proof.
  intros Hl Hf. destruct l as [|a [|b [|c [|]]]]; try discriminate.
  inversion_clear Hf as [|? ? Ha Hf']. inversion_clear Hf' as [|? ? Hb Hf]. inversion_clear Hf as [|? ? Hc _].
  destruct Ha as [->| ->], Hb as [->| ->], Hc as [->| ->]; cbn; auto.
Qed.
Lemma c_list_all {A} (P : A -> Prop) (R : code A) : (forall c v, R c v -> P v) -> forall n c l, c_list n R c l ->
  length l = n /\ Forall P l.
Proof.
  intros H. induction n as [|n IH]; intros c l Hl.
  - destruct Hl as [_ ->]. split; [reflexivity|constructor].
  - destruct Hl as (c1 & c2 & a & -> & Ha & c3 & c4 & t & -> & Ht & -> & ->).
    destruct (IH _ _ Ht) as [<- IF]. split; [reflexivity|]. constructor; eauto.
Qed.
Lemma c_when_inv {A} b (R : code A) d c v : c_when b R d c v -> (b = true /\ R c v) \/ (b = false /\ v = d).
Proof. destruct b; cbn; [auto|]. intros [_ ->]. auto. Qed.
Lemma exact_pos : exact (ReadU32 0 8 256 11 2304 14 18688 30) frame_pos.
Proof. unfold frame_pos. ex. Qed.
Lemma frame_pos_range c v : frame_pos c v -> 0 <= v < 2 ^ 30 + 18689.
Proof. intros H. apply (c_u32_range _ _ _ _ _ _ _ _ (2 ^ 30 + 18689)) in H; [lia|]. u32_rng. Qed.

Lemma full_ok x y fw fh iw ih : 0 <= x < 2 ^ 31 -> 0 <= y < 2 ^ 31 -> 0 <= fw < 2 ^ 31 -> 0 <= fh < 2 ^ 31 ->
  0 <= iw < 2 ^ 31 -> 0 <= ih < 2 ^ 31 ->
  (unzigzag y <=? 0) && (unzigzag x <=? 0) && (i32 ih <=? i32 (unzigzag y + i32 fh))
    && (i32 iw <=? i32 (unzigzag x + i32 fw)) =
  (unzigzag x <=? 0) && (unzigzag y <=? 0) && (iw <=? unzigzag x + fw) && (ih <=? unzigzag y + fh).
Proof.
  intros Hx Hy Hfw Hfh Hiw Hih. rewrite (i32_small fw), (i32_small fh), (i32_small iw), (i32_small ih) by lia.
  assert (Hz : forall z, 0 <= z < 2 ^ 31 -> - 2 ^ 31 < unzigzag z).
  { intros z Hz. unfold unzigzag. destruct (Z.even z); pose proof (Z.div_mod z 2 ltac:(lia)); pose proof (Z.mod_pos_bound z 2 ltac:(lia));
      try pose proof (Z.div_mod (z + 1) 2 ltac:(lia)); try pose proof (Z.mod_pos_bound (z + 1) 2 ltac:(lia)); lia. }
  pose proof (Hz x Hx). pose proof (Hz y Hy).
  destruct (Z.leb_spec (unzigzag x) 0), (Z.leb_spec (unzigzag y) 0); cbn [andb]; auto.
  rewrite !i32_small by lia. destruct (iw <=? _), (ih <=? _); reflexivity.
Qed.
Lemma pow8 lv : 0 <= lv <= 4 -> u32 (Z.shiftl 1 (u32 (3 * lv))) = 8 ^ lv /\ 1 <= 8 ^ lv < 2 ^ 32.
Proof. intros H. assert (lv = 0 \/ lv = 1 \/ lv = 2 \/ lv = 3 \/ lv = 4) as [->|[->|[->|[->| ->]]]] by lia; vm_compute; repeat split; discriminate. Qed.

Lemma exact_frame img : 0 <= dim_w (ih_size img) < 2 ^ 31 -> 0 <= dim_h (ih_size img) < 2 ^ 31 ->
  exact (readFrameHeader img) (frame_code fimplemented img).
Proof.
  intros Hw Hh. unfold readFrameHeader, frame_code. cbv zeta.
  unfold REGULAR_FRAME, LF_FRAME, REFERENCE_ONLY, SKIP_PROGRESSIVE, VARDCT, MODULAR, USE_LF_FRAME, BM_REPLACE.
  set (ne := length (ih_extra img)).
  xb def. intros _.
  apply exact_bind; [apply exact_when'; [now destruct def|apply (exact_u 2 2 eq_refl); lia|ex]|]. intros ty [ct Hty].
  assert (Hty' : 0 <= ty < 4) by (apply c_when_inv in Hty as [[_ [_ H]]|[_ ->]]; [exact H|lia]).
  apply exact_bind; [apply exact_when'; [now destruct def|apply (exact_u 1 1 eq_refl); lia|ex]|]. intros enc [ce Henc].
  assert (Henc' : 0 <= enc < 2) by (apply c_when_inv in Henc as [[_ [_ H]]|[_ ->]]; [exact H|lia]). clear ce Henc.
  apply exact_bind; [apply exact_when'; [now destruct def|ex|ex]|]. intros flags _. rewrite !land32.
  apply exact_bind; [apply exact_when; [reflexivity|ex|ex]|]. intros ycc _.
  apply exact_bind; [apply exact_when; [reflexivity|apply exact_many; ex|ex]|]. intros modes [cm Hm].
  assert (Hm' : length modes = 3%nat /\ Forall (fun m => 0 <= m < 4) modes).
  { apply c_when_inv in Hm as [[_ H]|[_ ->]]; [|split; auto; repeat constructor; lia].
    apply (c_list_all (fun m => 0 <= m < 4) (c_fixed 2) (fun _ _ H => proj2 H) _ _ _ H). }
  clear cm Hm. destruct Hm' as [Hml Hmf]. destruct (jpeg_modes _ Hmf) as (E1 & E2 & F1 & F2). rewrite E1, E2. clear E1 E2.
  destruct (max3_largest (map sub_x modes)) as [E1 Gx]; [now rewrite map_length|auto|].
  destruct (max3_largest (map sub_y modes)) as [E2 Gy]; [now rewrite map_length|auto|]. rewrite E1, E2. clear E1 E2.
  apply exact_bind; [apply exact_when; [reflexivity|apply exact_p2|ex]|]. intros up [cu Hup].
  assert (Hup' : 1 <= up < 2 ^ 32).
  { apply c_when_inv in Hup as [[_ (c1 & c2 & x & _ & [_ Hx] & _ & ->)]|[_ ->]]; [|lia]. change (2 ^ Z.of_nat 2) with 4 in Hx.
    assert (x = 0 \/ x = 1 \/ x = 2 \/ x = 3) as [->|[->|[->| ->]]] by lia; vm_compute; split; congruence. }
  clear cu Hup.
  apply exact_bind; [apply exact_when; [reflexivity|apply exact_many, exact_p2|ex]|]. intros ecup _.
  apply exact_bind; [apply exact_when; [reflexivity|apply (exact_u 2 2 eq_refl); lia|ex]|]. intros gs [cg Hgs].
  assert (Hgs' : 0 <= gs < 4) by (apply c_when_inv in Hgs as [[_ [_ H]]|[_ ->]]; [exact H|lia]). clear cg Hgs.
  assert (G : u32 (Z.shiftl 128 gs) = 128 * 2 ^ gs /\ u32 (Z.shiftl (128 * 2 ^ gs) 3) = 1024 * 2 ^ gs /\
              CeilLog2_i64 (128 * 2 ^ gs) = 7 + gs /\ CeilLog2_i64 (1024 * 2 ^ gs) = 10 + gs).
  { assert (gs = 0 \/ gs = 1 \/ gs = 2 \/ gs = 3) as [->|[->|[->| ->]]] by lia; repeat split; reflexivity. }
  destruct G as (G1 & G2 & G3 & G4). rewrite G1, G2, G3, G4. clear G1 G2 G3 G4.
  apply exact_bind.
  { destruct (ih_xyb img && (enc =? 0)) eqn:Ex; [destruct (ih_xyb img); [|discriminate]|]; cbn [andb] in Ex; destruct def; cbn [negb andb];
      rewrite ?Ex; cbn [c_when]; try ex. apply (exact_u 3 3 eq_refl); lia. }
  intros xq _.
  apply exact_bind.
  { destruct (ih_xyb img && (enc =? 0)) eqn:Ex; [destruct (ih_xyb img); [|discriminate]|]; cbn [andb] in Ex; destruct def; cbn [negb andb];
      rewrite ?Ex; cbn [c_when]; try ex. apply (exact_u 3 3 eq_refl); lia. }
  intros bq _.
  apply exact_bind; [apply exact_when; [reflexivity|apply exact_passes|ex]|]. intros ps _.
  apply exact_bind; [apply exact_when; [reflexivity| |ex]|].
  { xb b. intros [c [_ Hb]]. change (2 ^ Z.of_nat 2) with 4 in Hb. rewrite (u32_small b), u32_small by lia. apply exact_ret. }
  intros lv [cl Hlv].
  assert (Hlv' : 0 <= lv <= 4).
  { apply c_when_inv in Hlv as [[_ (c1 & c2 & x & _ & [_ Hx] & _ & ->)]|[_ ->]]; [|lia]. change (2 ^ Z.of_nat 2) with 4 in Hx. lia. }
  clear cl Hlv.
  apply exact_bind; [apply exact_when; [reflexivity|ex|ex]|]. intros crop _.
  apply exact_bind; [apply exact_when; [reflexivity|apply exact_pos|ex]|]. intros ux [c1 Hux].
  apply exact_bind; [apply exact_when; [reflexivity|apply exact_pos|ex]|]. intros uy [c2 Huy].
  apply exact_bind; [apply exact_when; [reflexivity|apply exact_pos|ex]|]. intros w [c3 Hw1].
  apply exact_bind; [apply exact_when; [reflexivity|apply exact_pos|ex]|]. intros h [c4 Hh1].
  assert (R : forall b c v, c_when b frame_pos 0 c v -> 0 <= v < 2 ^ 31).
  { intros b c v H. apply c_when_inv in H as [[_ H]|[_ ->]]; [apply frame_pos_range in H|]; lia. }
  apply R in Hux, Huy, Hw1, Hh1. clear R c1 c2 c3 c4.
  apply exact_true; [intros _; exact I|].
  rewrite (unpack_small ux), (unpack_small uy) by lia.
  set (fw := if crop then w else dim_w (ih_size img)). set (fh := if crop then h else dim_h (ih_size img)).
  assert (Hfw : 0 <= fw < 2 ^ 31) by (subst fw; destruct crop; lia).
  assert (Hfh : 0 <= fh < 2 ^ 31) by (subst fh; destruct crop; lia).
  rewrite (full_ok ux uy fw fh) by lia.
  set (full := (unzigzag ux <=? 0) && _ && _ && _).
  destruct (pow8 lv Hlv') as [E8 H8]. rewrite E8.
  destruct (CeilDiv_wrapped fh up ltac:(lia) Hup') as [E1 H1]. apply (exact_lift_l _ _ _ _ E1).
  destruct (CeilDiv_wrapped fw up ltac:(lia) Hup') as [E2 H2]. apply (exact_lift_l _ _ _ _ E2).
  destruct (CeilDiv_wrapped _ _ H1 H8) as [E3 H3]. apply (exact_lift_l _ _ _ _ E3).
  destruct (CeilDiv_wrapped _ _ H2 H8) as [E4 H4]. apply (exact_lift_l _ _ _ _ E4).
  apply exact_bind; [apply exact_when; [reflexivity|apply exact_blending|ex]|]. intros bl _.
  apply exact_bind; [apply exact_when; [reflexivity|apply exact_blendings|ex]|]. intros ebl _.
  apply exact_bind; [apply exact_when; [reflexivity|ex|ex]|]. intros last _.
  apply exact_bind; [apply exact_when; [reflexivity|apply (exact_u 2 2 eq_refl); lia|ex]|]. intros sref _.
  apply exact_bind; [apply exact_when; [reflexivity|ex|ex]|]. intros sct _.
  apply exact_bind; [apply exact_when'; [now destruct def| |ex]|].
  { xb n. intros _. apply exact_bytes. }
  intros name _.
  apply exact_bind; [apply exact_when'; [now destruct def|apply exact_restoration; lia|ex]|]. intros rf _.
  apply exact_bind; [apply exact_when'; [now destruct def|apply exact_ext|ex]|]. intros ext _.
  assert (P : forall s, s = 0 \/ s = 1 -> u32 (Z.shiftl 1 s) = 2 ^ s /\ 1 <= 2 ^ s < 2 ^ 32).
  { intros s [->| ->]; vm_compute; repeat split; congruence. }
  destruct (P _ Gx) as [Px Qx]. destruct (P _ Gy) as [Py Qy]. rewrite Px, Py.
  destruct (CeilDiv_wrapped _ _ H3 Qy) as [E5 H5]. apply (exact_lift_l _ _ _ _ E5).
  destruct (CeilDiv_wrapped _ _ H4 Qx) as [E6 H6]. apply (exact_lift_l _ _ _ _ E6).
  cbn [fd_size fimplemented]. unfold wrapped_side. rewrite !Z.shiftl_mul_pow2 by lia. apply exact_ret.
Qed.

(* ---- invariants ---- *)
Lemma pow2_small x : 0 <= x < 4 -> In (2 ^ x) [1; 2; 4; 8].
Proof. intros H. assert (x = 0 \/ x = 1 \/ x = 2 \/ x = 3) as [->|[->|[->| ->]]] by lia; cbn; auto. Qed.
Lemma c_pow2_in c v : c_pow2 2 c v -> In v [1; 2; 4; 8].
Proof. intros (c1 & c2 & x & _ & [_ Hx] & _ & ->). apply pow2_small. exact Hx. Qed.
Lemma up_in b c v : c_when b (c_pow2 2) 1 c v -> In v [1; 2; 4; 8].
Proof. intros H. apply c_when_inv in H as [[_ H]|[_ ->]]; [eapply c_pow2_in; eauto|cbn; auto]. Qed.
Lemma modes_ok b c modes : c_when b (c_list 3 (c_fixed 2)) [0; 0; 0] c modes ->
  length modes = 3%nat /\ Forall (fun m => 0 <= m < 4) modes.
Proof.
  intros Hm. apply c_when_inv in Hm as [[_ H]|[_ ->]]; [|split; auto; repeat constructor; lia].
  apply (c_list_all (fun m => 0 <= m < 4) (c_fixed 2) (fun _ _ H => proj2 H) _ _ _ H).
Qed.
Lemma passes_range c v : passes_code c v -> 1 <= ps_num v <= 11 /\ 0 <= ps_ds v <= 4.
Proof.
  intros (c1 & c2 & n & -> & Hn & c3 & c4 & ds & -> & Hds & c5 & c6 & sh & -> & _ & c7 & c8 & dn & -> & _ & c9 & c10 & la & -> & _ & _ & ->).
  cbn [ps_num ps_ds]. split.
  - destruct Hn as (i & x & Hi & Hx & _ & ->). do 4 (destruct i as [|i]; [cbn [nth] in *; change (2 ^ Z.of_nat 0) with 1 in *; change (2 ^ Z.of_nat 3) with 8 in *; lia|]). lia.
  - apply c_when_inv in Hds as [[_ Hds]|[_ ->]]; [|lia].
    destruct Hds as (i & x & Hi & Hx & _ & ->). do 4 (destruct i as [|i]; [cbn [nth] in *; change (2 ^ Z.of_nat 0) with 1 in *; change (2 ^ Z.of_nat 1) with 2 in *; lia|]). lia.
Qed.
Lemma jpeg_rel l : length l = 3%nat -> Forall (fun j => j = 0 \/ j = 1) l ->
  Forall (fun j => j = 0 \/ j = 1) (map (fun s => largest l - s) l) /\
  Forall (fun j => j <= largest l) (map (fun s => largest l - s) l).
Proof.
  intros Hl Hf. destruct l as [|a [|b [|c [|]]]]; try discriminate.
  inversion_clear Hf as [|? ? Ha Hf']. inversion_clear Hf' as [|? ? Hb Hf]. inversion_clear Hf as [|? ? Hc _].
  destruct Ha as [->| ->], Hb as [->| ->], Hc as [->| ->]; cbn; split; repeat (apply Forall_cons; [lia|]); apply Forall_nil.
Qed.

Ltac seqs H := repeat match type of H with c_seq _ _ _ _ =>
  let c1 := fresh "c" in let c2 := fresh "c" in let x := fresh "x" in let Hx := fresh "Hx" in
  destruct H as (c1 & c2 & x & -> & Hx & H) end.

Lemma frame_geometry D img c f : frame_code D img c f -> geometry_ok img f.
Proof.
  intros H. unfold frame_code in H. cbv zeta in H.
  destruct H as (c1 & k & def & -> & _ & c2 & k2 & ty & -> & Hty & c3 & k3 & enc & -> & Henc & H).
  destruct H as (c4 & k4 & flags & -> & _ & c5 & k5 & ycc & -> & _ & c6 & k6 & modes & -> & Hmodes & H).
  destruct H as (c7 & k7 & up & -> & Hup & c8 & k8 & ecup & -> & Hecup & c9 & k9 & gs & -> & Hgs & H).
  destruct H as (c10 & k10 & xq & -> & _ & c11 & k11 & bq & -> & _ & c12 & k12 & ps & -> & Hps & H).
  destruct H as (c13 & k13 & lv & -> & Hlv & c14 & k14 & crop & -> & Hcrop & c15 & k15 & ux & -> & Hux & H).
  destruct H as (c16 & k16 & uy & -> & Huy & c17 & k17 & w & -> & _ & c18 & k18 & h & -> & _ & _ & H).
  destruct H as (c19 & k19 & bl & -> & Hbl & c20 & k20 & ebl & -> & Hebl & H).
  seqs H. destruct H as [_ ->].
  destruct (modes_ok _ _ _ Hmodes) as [Hl Hf]. destruct (jpeg_modes _ Hf) as (_ & _ & F1 & F2).
  destruct (jpeg_rel (map sub_x modes)) as [J1 _]; [now rewrite map_length|auto|].
  destruct (jpeg_rel (map sub_y modes)) as [J2 _]; [now rewrite map_length|auto|].
  assert (Hgs' : 0 <= gs < 4) by (apply c_when_inv in Hgs as [[_ [_ Hg]]|[_ ->]]; [exact Hg|lia]).
  assert (Hec : length ecup = length (ih_extra img) /\ Forall (fun u => In u [1; 2; 4; 8]) ecup).
  { apply c_when_inv in Hecup as [[_ H]|[_ ->]].
    - exact (c_list_all _ _ c_pow2_in _ _ _ H).
    - split; [apply repeat_length|]. apply Forall_forall. intros u Hu. apply repeat_spec in Hu. subst. cbn; auto. }
  unfold geometry_ok. cbn [fh_up fh_ecup fh_ecblend fh_gshift fh_enc fh_gdim fh_loggdim fh_lfdim fh_loglfdim fh_lflevel fh_type
    fh_crop fh_ox fh_oy fh_jx fh_jy fh_passes].
  split; [eapply up_in; eauto|]. split; [tauto|]. split; [tauto|]. split.
  { apply c_when_inv in Hebl as [[_ H]|[_ ->]]; [|apply repeat_length].
    apply (c_list_all (fun _ => True) _ (fun _ _ _ => I) _ _ _ H). }
  split; [lia|]. split.
  { intros ->. apply c_when_inv in Hgs as [[? _]|[_ ->]]; [discriminate|reflexivity]. }
  split; [rewrite Z.pow_add_r by lia; lia|]. split; [reflexivity|]. split; [lia|]. split; [rewrite Z.pow_add_r by lia; lia|].
  assert (Hl' : (ty = 1 /\ 1 <= lv <= 4) \/ (ty <> 1 /\ lv = 0)).
  { apply c_when_inv in Hlv as [[E (a1 & a2 & lx & _ & [_ Hlx] & _ & ->)]|[E ->]]; [|right; lia]. change (2 ^ Z.of_nat 2) with 4 in Hlx. left; lia. }
  split; [lia|]. split; [lia|]. split.
  { intros ->. cbn [andb c_when] in *. destruct Hux as [_ ->], Huy as [_ ->]. split; reflexivity. }
  rewrite !map_length. repeat (split; [assumption|]).
  apply c_when_inv in Hps as [[_ H]|[_ ->]]; [exact (passes_range _ _ H)|cbn [ps_num ps_ds]; lia].
Qed.

Lemma ceil_div_spec a b : 1 <= b -> (ceil_div a b - 1) * b < a <= ceil_div a b * b.
Proof.
  intros Hb. unfold ceil_div. pose proof (Z.div_mod (a + b - 1) b ltac:(lia)). pose proof (Z.mod_pos_bound (a + b - 1) b ltac:(lia)). nia.
Qed.
Lemma iso_side_ok v up lv s : 1 <= v -> In up [1; 2; 4; 8] -> 0 <= lv -> s = 0 \/ s = 1 ->
  is_side v up lv s (iso_side v up lv s) /\ 1 <= iso_side v up lv s.
Proof.
  intros Hv Hup Hlv Hs. unfold iso_side.
  assert (1 <= up) by (cbn in Hup; lia). assert (H8 : 1 <= 8 ^ lv) by (assert (0 < 8 ^ lv) by (apply Z.pow_pos_nonneg; lia); lia).
  pose proof (ceil_div_spec v up ltac:(lia)) as A. set (a := ceil_div v up) in *.
  pose proof (ceil_div_spec a (8 ^ lv) H8) as B. set (b := ceil_div a (8 ^ lv)) in *.
  assert (Hp : 1 <= 2 ^ s) by (destruct Hs as [->| ->]; lia).
  pose proof (ceil_div_spec b (2 ^ s) Hp) as C. set (q := ceil_div b (2 ^ s)) in *.
  assert (1 <= a) by nia. assert (1 <= b) by nia. assert (1 <= q) by nia.
  split; [|nia]. exists a, b. split; [lia|]. split; [lia|]. split; [exists q; lia|]. nia.
Qed.
Lemma wrapped_side_iso v up lv s : 1 <= v < 2 ^ 31 -> In up [1; 2; 4; 8] -> 0 <= lv -> s = 0 \/ s = 1 ->
  wrapped_side v up lv s = iso_side v up lv s.
Proof.
  intros Hv Hup Hlv Hs. unfold wrapped_side, iso_side, wrapped_ceil.
  assert (1 <= up) by (cbn in Hup; lia). assert (H8 : 1 <= 8 ^ lv) by (assert (0 < 8 ^ lv) by (apply Z.pow_pos_nonneg; lia); lia).
  destruct (Z.eqb_spec v 0); [lia|].
  pose proof (ceil_div_spec v up ltac:(lia)) as A. set (a := ceil_div v up) in *.
  pose proof (ceil_div_spec a (8 ^ lv) H8) as B. set (b := ceil_div a (8 ^ lv)) in *.
  assert (Hp : 1 <= 2 ^ s) by (destruct Hs as [->| ->]; lia).
  assert (1 <= a <= v) by nia. destruct (Z.eqb_spec a 0); [lia|]. assert (1 <= b <= a) by nia. destruct (Z.eqb_spec b 0); [lia|].
  pose proof (ceil_div_spec b (2 ^ s) Hp) as C. set (q := ceil_div b (2 ^ s)) in *.
  rewrite Z.mod_small; [reflexivity|]. destruct Hs as [->| ->]; [change (2 ^ 0) with 1 in *|change (2 ^ 1) with 2 in *]; lia.
Qed.

Lemma frame_size_ok D img c f :
  1 <= dim_w (ih_size img) < 2 ^ 31 -> 1 <= dim_h (ih_size img) < 2 ^ 31 ->
  (forall v up lv s, 1 <= v < 2 ^ 31 -> In up [1; 2; 4; 8] -> 0 <= lv -> s = 0 \/ s = 1 -> fd_size D v up lv s = iso_side v up lv s) ->
  frame_code D img c f -> (fh_crop f = true -> 1 <= fh_w f /\ 1 <= fh_h f) -> size_ok img f.
Proof.
  intros Hiw Hih HD H Hz. unfold frame_code in H. cbv zeta in H.
  destruct H as (c1 & k & def & -> & _ & c2 & k2 & ty & -> & Hty & c3 & k3 & enc & -> & Henc & H).
  destruct H as (c4 & k4 & flags & -> & _ & c5 & k5 & ycc & -> & _ & c6 & k6 & modes & -> & Hmodes & H).
  destruct H as (c7 & k7 & up & -> & Hup & c8 & k8 & ecup & -> & Hecup & c9 & k9 & gs & -> & Hgs & H).
  destruct H as (c10 & k10 & xq & -> & _ & c11 & k11 & bq & -> & _ & c12 & k12 & ps & -> & Hps & H).
  destruct H as (c13 & k13 & lv & -> & Hlv & c14 & k14 & crop & -> & Hcrop & c15 & k15 & ux & -> & Hux & H).
  destruct H as (c16 & k16 & uy & -> & Huy & c17 & k17 & w & -> & Hw & c18 & k18 & h & -> & Hh & _ & H).
  seqs H. destruct H as [_ ->].
  cbn [fh_crop fh_w fh_h] in Hz.
  destruct (modes_ok _ _ _ Hmodes) as [Hl Hf]. destruct (jpeg_modes _ Hf) as (_ & _ & F1 & F2).
  destruct (jpeg_rel (map sub_x modes)) as [_ J1]; [now rewrite map_length|auto|].
  destruct (jpeg_rel (map sub_y modes)) as [_ J2]; [now rewrite map_length|auto|].
  destruct (max3_largest (map sub_x modes)) as [_ Gx]; [now rewrite map_length|auto|].
  destruct (max3_largest (map sub_y modes)) as [_ Gy]; [now rewrite map_length|auto|].
  apply up_in in Hup.
  assert (0 <= lv).
  { apply c_when_inv in Hlv as [[E (a1 & a2 & lx & _ & [_ Hlx] & _ & ->)]|[E ->]]; lia. }
  unfold size_ok. cbv zeta. cbn [fh_crop fh_w fh_h fh_up fh_lflevel fh_jx fh_jy fh_bw fh_bh].
  assert (Hfw : 1 <= (if crop then w else dim_w (ih_size img)) < 2 ^ 31).
  { destruct crop; [|lia]. destruct Hw as (i & Hw). specialize (Hz eq_refl). pose proof (frame_pos_range _ _ (ex_intro _ i Hw)). lia. }
  assert (Hfh : 1 <= (if crop then h else dim_h (ih_size img)) < 2 ^ 31).
  { destruct crop; [|lia]. destruct Hh as (i & Hh). specialize (Hz eq_refl). pose proof (frame_pos_range _ _ (ex_intro _ i Hh)). lia. }
  rewrite !HD by (auto; lia).
  destruct (iso_side_ok _ up lv _ (proj1 Hfw) Hup ltac:(lia) Gx) as [A1 A2].
  destruct (iso_side_ok _ up lv _ (proj1 Hfh) Hup ltac:(lia) Gy) as [B1 B2].
  split; [exists (largest (map sub_x modes)); split; [lia|]; split; auto|].
  split; [exists (largest (map sub_y modes)); split; [lia|]; split; auto|]. auto.
Qed.

(* ---- monotonicity in the dialect ---- *)
Lemma seq_mono {A B} (R R' : code A) (S S' : A -> code B) :
  (forall c v, R c v -> R' c v) -> (forall v, (exists c, R c v) -> forall c w, S v c w -> S' v c w) ->
  forall c w, c_seq R S c w -> c_seq R' S' c w.
Proof. intros HR HS c w (c1 & c2 & v & -> & H1 & H2). exists c1, c2, v. split; auto. split; auto. apply HS; eauto. Qed.
Lemma guard_mono {A} (P P' : Prop) (R R' : code A) : (P -> P') -> (P -> forall c v, R c v -> R' c v) ->
  forall c v, c_guard P R c v -> c_guard P' R' c v.
Proof. intros HP HR c v [H1 H2]. split; auto. Qed.
Lemma when_mono {A} b (R R' : code A) d : (forall c v, R c v -> R' c v) -> forall c v, c_when b R d c v -> c_when b R' d c v.
Proof. intros H. destruct b; auto. Qed.
Lemma list_mono {A} (R R' : code A) : (forall c v, R c v -> R' c v) -> forall n c v, c_list n R c v -> c_list n R' c v.
Proof.
  intros H. induction n as [|n IH]; auto. cbn [c_list]. apply seq_mono; auto. intros a _. apply seq_mono; auto.
Qed.
Lemma ext_mono D D' : (forall n c v, d_ext_payload D n c v -> d_ext_payload D' n c v) ->
  forall c v, ext_code D c v -> ext_code D' c v.
Proof.
  intros H. unfold ext_code. apply seq_mono; auto. intros key _. apply seq_mono; auto. intros ls _. apply seq_mono; auto.
  induction ls as [|l t IH]; auto. cbn [ext_payloads_code]. apply seq_mono; auto. intros p _. apply seq_mono; auto.
Qed.

Record f_le (D D' : fdialect) : Prop := {
  le_size : forall v up lv s, 1 <= v < 2 ^ 31 -> In up [1; 2; 4; 8] -> 0 <= lv -> s = 0 \/ s = 1 -> fd_size D v up lv s = fd_size D' v up lv s;
  le_crop1 : forall w h, fd_crop D w h -> fd_crop D' w h;
  le_crop2 : forall w h, fd_crop D w h -> 1 <= w /\ 1 <= h;
  le_iters : forall i, fd_iters D i -> fd_iters D' i;
  le_blend : forall e m, fd_blend D e m -> fd_blend D' e m;
  le_weights : forall i, fd_iters D i -> fd_weights D i = fd_weights D' i;
  le_clamp : forall e m, fd_blend D e m -> fd_clamp D e m = fd_clamp D' e m;
  le_ext : forall n c v, d_ext_payload (fd_ext D) n c v -> d_ext_payload (fd_ext D') n c v }.

Lemma blending_mono D D' extra full : f_le D D' -> forall c v, blending_code D extra full c v -> blending_code D' extra full c v.
Proof.
  intros L. unfold blending_code. apply seq_mono; auto. intros m _. apply guard_mono; [apply (le_blend _ _ L)|]. intros Hm.
  now rewrite (le_clamp _ _ L) by auto.
Qed.
Lemma restoration_mono D D' b : f_le D D' -> forall c v, restoration_code D b c v -> restoration_code D' b c v.
Proof.
  intros L. unfold restoration_code. apply seq_mono; auto. intros def _. destruct def; auto.
  do 3 (apply seq_mono; auto; intros ? _). apply seq_mono; auto. intros it _.
  apply guard_mono; [apply (le_iters _ _ L)|]. intros Hi. rewrite (le_weights _ _ L) by auto.
  do 8 (apply seq_mono; auto; intros ? _). apply seq_mono; auto. apply ext_mono. apply (le_ext _ _ L).
Qed.
Lemma frame_mono D D' img : f_le D D' -> 1 <= dim_w (ih_size img) < 2 ^ 31 -> 1 <= dim_h (ih_size img) < 2 ^ 31 ->
  forall c f, frame_code D img c f -> frame_code D' img c f.
Proof.
  intros L Hiw Hih. unfold frame_code. cbv zeta.
  do 5 (apply seq_mono; [intros ? ? HH; exact HH|intros ? _]). apply seq_mono; [intros ? ? HH; exact HH|intros modes [cm Hm]].
  apply seq_mono; [intros ? ? HH; exact HH|intros up [cu Hup]]. do 5 (apply seq_mono; [intros ? ? HH; exact HH|intros ? _]).
  apply seq_mono; [intros ? ? HH; exact HH|intros lv [cl Hlv]]. apply seq_mono; [intros ? ? HH; exact HH|intros crop _]. do 2 (apply seq_mono; [intros ? ? HH; exact HH|intros ? _]).
  apply seq_mono; [intros ? ? HH; exact HH|intros w [cw Hw]]. apply seq_mono; [intros ? ? HH; exact HH|intros h [ch Hh]].
  apply guard_mono; [intros H E; apply (le_crop1 _ _ L), H, E|]. intros Hc.
  destruct (modes_ok _ _ _ Hm) as [Hl Hf]. destruct (jpeg_modes _ Hf) as (_ & _ & F1 & F2).
  destruct (max3_largest (map sub_x modes)) as [_ Gx]; [now rewrite map_length|auto|].
  destruct (max3_largest (map sub_y modes)) as [_ Gy]; [now rewrite map_length|auto|].
  apply up_in in Hup.
  assert (0 <= lv).
  { apply c_when_inv in Hlv as [[E (a1 & a2 & lx & _ & [_ Hlx] & _ & ->)]|[E ->]]; lia. }
  assert (Hfw : 1 <= (if crop then w else dim_w (ih_size img)) < 2 ^ 31).
  { destruct crop; [|lia]. pose proof (le_crop2 _ _ L _ _ (Hc eq_refl)). pose proof (frame_pos_range _ _ Hw). lia. }
  assert (Hfh : 1 <= (if crop then h else dim_h (ih_size img)) < 2 ^ 31).
  { destruct crop; [|lia]. pose proof (le_crop2 _ _ L _ _ (Hc eq_refl)). pose proof (frame_pos_range _ _ Hh). lia. }
  rewrite !(le_size _ _ L) by (auto; lia).
  apply seq_mono; [apply when_mono, blending_mono, L|]. intros bl _.
  apply seq_mono; [apply when_mono, list_mono, blending_mono, L|]. intros ebl _.
  do 4 (apply seq_mono; [intros ? ? HH; exact HH|intros ? _]).
  apply seq_mono; [apply when_mono, restoration_mono, L|]. intros rf _.
  apply seq_mono; [apply when_mono, ext_mono, (le_ext _ _ L)|]. intros ext _ c f HH. exact HH.
Qed.

Lemma handled_le_iso : f_le fhandled fiso.
Proof.
  split; cbn; auto; intros n c v [-> [-> ->]]. split; reflexivity.
Qed.
Lemma handled_le_implemented : f_le fhandled fimplemented.
Proof.
  split; cbn [fhandled fimplemented fd_size fd_crop fd_iters fd_blend fd_weights fd_clamp fd_ext]; auto.
  - intros. symmetry. now apply wrapped_side_iso.
  - intros i ->. reflexivity.
  - intros e m H. unfold iso_clamp. destruct e; cbn [andb]; [reflexivity|]. specialize (H eq_refl).
    destruct (Z.eqb_spec m 4); [contradiction|reflexivity].
  - intros n c v [-> [-> ->]]. split; reflexivity.
Qed.
