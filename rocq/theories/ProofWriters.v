(* Lemmas about the PFM and PNG writers. *)
From Coq Require Import ZArith List Bool Lia Arith ZifyBool ZifyNat.
From Verif Require Import GoBase GoLoop GoMatrix GoFloat32 ProofCodes Bits ModelImage ModelWriters SpecBitReader SpecImage ProofImage.
Import ListNotations.
Open Scope Z_scope.

(* loops that only append *)
Lemma oloop_append {A} (f : nat -> list A -> Outcome (list A)) (g : nat -> list A) : forall n i0 buf,
  (forall i b, (i0 <= i < i0 + n)%nat -> f i b = Ok (b ++ g i)) -> oloop n i0 f buf = Ok (buf ++ flat_map g (seq i0 n)).
Proof.
  induction n as [|n IH]; intros i0 buf H; cbn [oloop seq flat_map].
  - rewrite app_nil_r. reflexivity.
  - rewrite H by lia. cbn [obind]. rewrite IH by (intros; apply H; lia). rewrite app_assoc. reflexivity.
Qed.
(* partial correctness *)
Lemma oloop_post {S} (P : nat -> S -> Prop) f : forall n i0 s s',
  P i0 s -> (forall i s s', (i0 <= i < i0 + n)%nat -> P i s -> f i s = Ok s' -> P (Datatypes.S i) s') ->
  oloop n i0 f s = Ok s' -> P (i0 + n)%nat s'.
Proof.
  induction n as [|n IH]; intros i0 s s' H0 Hf E; cbn [oloop] in E.
  - injection E as <-. rewrite Nat.add_0_r. exact H0.
  - destruct (f i0 s) as [s1| |] eqn:E1; cbn [obind] in E; try discriminate.
    replace (i0 + Datatypes.S n)%nat with (Datatypes.S i0 + n)%nat by lia. apply (IH _ s1); [|intros; eapply Hf; eauto; lia|exact E].
    apply (Hf i0 s s1); [lia|exact H0|exact E1].
Qed.

Lemma be32_value v : 0 <= v < 2 ^ 32 -> be_value (be32 v) = v.
Proof.
  intros H. unfold be32, be_value. cbn [fold_left]. rewrite !Z.shiftr_div_pow2 by lia.
  change (2 ^ 24) with 16777216. change (2 ^ 16) with 65536. change (2 ^ 8) with 256. change (2 ^ 32) with 4294967296 in H.
  lia.
Qed.

(* ---- floats ---- *)
Definition finite (a : Z) : Prop := is_f32 a /\ Z.abs a < 2 ^ 277.
(* |a| as mantissa and exponent *)
Lemma f32_norm a : is_f32 a -> let e := Z.max 0 (Z.log2 (Z.abs a) - 23) in
  Z.abs a = (Z.abs a / 2 ^ e) * 2 ^ e /\ Z.abs a / 2 ^ e < 2 ^ 24 /\ (0 < e -> 2 ^ 23 <= Z.abs a / 2 ^ e).
Proof.
  intros (m & e0 & He0 & Hm & ->) e. assert (P0 : 0 < 2 ^ e0) by (apply Z.pow_pos_nonneg; lia).
  set (v := Z.abs (m * 2 ^ e0)) in *. assert (Hv : v = Z.abs m * 2 ^ e0) by (unfold v; rewrite Z.abs_mul, (Z.abs_eq (2 ^ e0)) by lia; reflexivity).
  assert (Pe : 0 < 2 ^ e) by (apply Z.pow_pos_nonneg; lia).
  pose proof (rnd_exact (Z.abs m) e0 1 ltac:(lia) He0 ltac:(lia)) as R. rewrite Z.mul_1_r, <- Hv in R.
  unfold rnd_pos in R. rewrite Z.div_1_r in R. cbv zeta in R. fold e in R. rewrite Z.mul_1_l in R.
  assert (E : v = v / 2 ^ e * 2 ^ e). { rewrite <- R at 2. rewrite Z.div_mul by lia. symmetry. exact R. }
  split; [exact E|]. destruct (Z.eq_dec v 0) as [Hv0|Hv0]; [rewrite Hv0, Zdiv_0_l; split; [lia|unfold e; rewrite Hv0; cbn; lia]|].
  assert (Vp : 0 < v) by (unfold v in *; lia). pose proof (Z.log2_spec v Vp) as [L1 L2].
  split.
  - apply Z.div_lt_upper_bound; [lia|]. rewrite <- Z.pow_add_r by lia. eapply Z.lt_le_trans; [exact L2|]. apply Z.pow_le_mono_r; lia.
  - intros He. apply Z.div_le_lower_bound; [lia|]. rewrite <- Z.pow_add_r by lia. eapply Z.le_trans; [|exact L1]. apply Z.pow_le_mono_r; lia.
Qed.
Lemma ieee_bits a : finite a -> 0 <= f_bits a < 2 ^ 32 /\ ieee_value (f_bits a) = a.
Proof.
  intros [Hf Hb]. pose proof (f32_norm a Hf) as N. cbv zeta in N. unfold f_bits. cbv zeta.
  set (e := Z.max 0 (Z.log2 (Z.abs a) - 23)) in *. destruct N as (E & B1 & B2). set (q := Z.abs a / 2 ^ e) in *.
  assert (Hq : 0 <= q) by (apply Z.div_pos; [lia|apply Z.pow_pos_nonneg; lia]).
  assert (He : 0 <= e <= 253).
  { split; [lia|]. destruct (Z.eq_dec a 0) as [->|]; [unfold e; cbn; lia|].
    assert (Z.log2 (Z.abs a) < 277) by (apply Z.log2_lt_pow2; lia). lia. }
  assert (E' : Z.abs a = q * 2 ^ e) by exact E. clearbody q. clear E.
  change (2 ^ 23) with 8388608 in *. change (2 ^ 24) with 16777216 in *. change (2 ^ 31) with 2147483648. change (2 ^ 32) with 4294967296.
  set (s := if a <? 0 then 2147483648 else 0). assert (Hs : s = 2147483648 /\ a < 0 \/ s = 0 /\ 0 <= a) by (unfold s; destruct (a <? 0) eqn:Es; lia).
  clearbody s. split; [lia|]. unfold ieee_value. change (2 ^ 23) with 8388608 in *. change (2 ^ 31) with 2147483648. change (2 ^ 8) with 256. cbv zeta.
  assert (Sg : (if (s + e * 8388608 + q) / 2147483648 =? 0 then 1 else -1) = (if a <? 0 then -1 else 1)).
  { destruct Hs as [[-> Ha]|[-> Ha]].
    - replace ((2147483648 + e * 8388608 + q) / 2147483648) with 1 by (apply (Z.div_unique _ _ 1 (e * 8388608 + q)); lia).
      destruct (a <? 0) eqn:Ea; [reflexivity|lia].
    - rewrite Z.div_small by lia. destruct (a <? 0) eqn:Ea; [lia|reflexivity]. }
  rewrite Sg. clear Sg.
  assert (Ex : ((s + e * 8388608 + q) / 8388608) mod 256 = if q <? 8388608 then e else e + 1).
  { destruct (q <? 8388608) eqn:Eq.
    - replace ((s + e * 8388608 + q) / 8388608) with (s / 8388608 + e) by (destruct Hs as [[-> _]|[-> _]]; apply (Z.div_unique _ _ _ q); lia).
      destruct Hs as [[-> _]|[-> _]].
      + change (2147483648 / 8388608) with 256. symmetry. apply (Z.mod_unique _ _ 1); lia.
      + change (0 / 8388608) with 0. apply Z.mod_small; lia.
    - replace ((s + e * 8388608 + q) / 8388608) with (s / 8388608 + (e + 1)) by (destruct Hs as [[-> _]|[-> _]]; apply (Z.div_unique _ _ _ (q - 8388608)); lia).
      destruct Hs as [[-> _]|[-> _]].
      + change (2147483648 / 8388608) with 256. symmetry. apply (Z.mod_unique _ _ 1); lia.
      + change (0 / 8388608) with 0. apply Z.mod_small; lia. }
  rewrite Ex. clear Ex.
  assert (Fr : (s + e * 8388608 + q) mod 8388608 = if q <? 8388608 then q else q - 8388608).
  { destruct (q <? 8388608) eqn:Eq; symmetry; destruct Hs as [[-> _]|[-> _]].
    - apply (Z.mod_unique _ _ (256 + e)); lia.
    - apply (Z.mod_unique _ _ e); lia.
    - apply (Z.mod_unique _ _ (257 + e)); lia.
    - apply (Z.mod_unique _ _ (e + 1)); lia. }
  rewrite Fr. clear Fr.
  assert (V : (if (if q <? 8388608 then e else e + 1) =? 0 then if q <? 8388608 then q else q - 8388608
     else (8388608 + (if q <? 8388608 then q else q - 8388608)) * 2 ^ ((if q <? 8388608 then e else e + 1) - 1)) = Z.abs a).
  { rewrite E'. destruct (q <? 8388608) eqn:Eq.
    - assert (e = 0) by lia. rewrite H. cbn. lia.
    - destruct (e + 1 =? 0) eqn:Ee; [lia|]. replace (8388608 + (q - 8388608)) with q by lia. replace (e + 1 - 1) with e by lia. reflexivity. }
  rewrite V. destruct (a <? 0) eqn:Ea; lia.
Qed.
Lemma be_floats_app4 v t : 0 <= v < 2 ^ 32 -> be_floats (be32 v ++ t) = ieee_value v :: be_floats t.
Proof.
  intros H. rewrite <- (be32_value v H) at 2. reflexivity.
Qed.
Lemma be_floats_bytes l : Forall finite l -> forall t, be_floats (flat_map (fun v => be32 (f_bits v)) l ++ t) = l ++ be_floats t.
Proof.
  induction 1 as [|a l Ha Hl IH]; intros t; cbn [flat_map app]; [reflexivity|].
  destruct (ieee_bits a Ha) as [B V]. rewrite <- app_assoc, be_floats_app4 by exact B. rewrite V, IH. reflexivity.
Qed.

(* ---- decimal numbers ---- *)
Lemma decDigits_ok : forall fuel n acc, 0 <= n < 10 ^ Z.of_nat fuel -> (fuel <> 0)%nat -> exists ds, decDigits fuel n acc = ds ++ acc /\
  ds <> [] /\ Forall (fun b => 48 <= b <= 57) ds /\ fold_left (fun a b => 10 * a + (b - 48)) ds 0 = n /\
  (0 < n -> hd 0 ds <> 48) /\ (n < 10 -> length ds = 1%nat).
Proof.
  induction fuel as [|k IH]; intros n acc Hn Hf; [congruence|].
  cbn [decDigits]. pose proof (Z.mod_pos_bound n 10 ltac:(lia)) as Bm. destruct (n <? 10) eqn:E.
    + exists [48 + n mod 10]. rewrite Z.mod_small by lia. split; [reflexivity|]. split; [discriminate|]. split; [constructor; [lia|constructor]|].
      split; [cbn [fold_left]; lia|]. split; [cbn [hd]; lia|intros _; reflexivity].
    + replace (Z.of_nat (S k)) with (Z.of_nat k + 1) in Hn by lia. rewrite Z.pow_add_r in Hn by lia. change (10 ^ 1) with 10 in Hn.
      destruct (IH (n / 10) ((48 + n mod 10) :: acc)) as (ds & Ed & H1 & H2 & H3 & H4 & _).
      { split; [apply Z.div_pos; lia|]. apply Z.div_lt_upper_bound; lia. }
      { intros ->. change (10 ^ Z.of_nat 0) with 1 in Hn. lia. }
      exists (ds ++ [48 + n mod 10]). split; [rewrite Ed, <- app_assoc; reflexivity|]. split; [destruct ds; discriminate|].
      split; [apply Forall_app; split; [exact H2|constructor; [lia|constructor]]|].
      split; [rewrite fold_left_app, H3; cbn [fold_left]; pose proof (Z.div_mod n 10 ltac:(lia)); lia|].
      assert (0 < n / 10) by (apply Z.div_str_pos; lia).
      split; [|lia]. intros _. destruct ds as [|d ds]; [congruence|]. cbn. apply H4. assumption.
Qed.
Lemma sprintD_decimal n : 0 <= n < 2 ^ 32 -> is_decimal n (sprintD n).
Proof.
  intros H. unfold sprintD. destruct (decDigits_ok 11 n []) as (ds & E & H1 & H2 & H3 & H4 & H5).
  { change (10 ^ Z.of_nat 11) with 100000000000. change (2 ^ 32) with 4294967296 in H. lia. }
  { discriminate. }
  rewrite app_nil_r in E. rewrite E. repeat split; try assumption. destruct ds as [|a [|b t]]; auto.
  destruct (Z.eq_dec n 0) as [->|]; [exfalso; specialize (H5 ltac:(lia)); cbn in H5; lia|]. apply H4. lia.
Qed.

(* ---- PFM ---- *)
Definition sample (bufs : list ImageBuffer) (sel : ImageBuffer -> list (list Z)) (c y x : nat) : Z :=
  px (sel (nth c bufs (mkIB 0 0 0 [] []))) y x.

Lemma flat_map_flat_map {A B C} (f : B -> list C) (g : A -> list B) l : flat_map f (flat_map g l) = flat_map (fun a => flat_map f (g a)) l.
Proof. induction l as [|a l IH]; cbn; auto. rewrite flat_map_app, IH. reflexivity. Qed.
Lemma flat_map_map {A B C} (f : B -> list C) (g : A -> B) l : flat_map f (map g l) = flat_map (fun a => f (g a)) l.
Proof. induction l as [|a l IH]; cbn; auto. rewrite IH. reflexivity. Qed.

Lemma pfmRows_ok h w C nb : forall n buf, (n <= h)%nat ->
  Forall (float_channel h w) nb -> (C <= length nb)%nat ->
  pfmRows n (Z.of_nat n - 1) (Z.of_nat w) C nb buf =
    Ok (buf ++ flat_map (fun v => be32 (f_bits v)) (pfm_samples n w C (sample nb ib_float))).
Proof.
  intros n buf Hn Hnb HC. revert buf Hn. induction n as [|n IH]; intros buf Hn.
  - cbn. rewrite app_nil_r. reflexivity.
  - cbn [pfmRows]. rewrite Nat2Z.id.
    rewrite (oloop_append _ (fun x => flat_map (fun c => be32 (f_bits (sample nb ib_float c n x))) (seq 0 C))).
    2:{ intros x b Hx. apply (oloop_append _ (fun c => be32 (f_bits (sample nb ib_float c n x)))). intros c b' Hc.
        rewrite (slice_get_ok nb _ (mkIB 0 0 0 [] [])) by lia. cbn [obind]. rewrite Nat2Z.id.
        rewrite Forall_forall in Hnb. destruct (Hnb (nth c nb (mkIB 0 0 0 [] []))) as (_ & _ & _ & R); [apply nth_In; lia|].
        replace (Z.of_nat (S n) - 1) with (Z.of_nat n) by lia. rewrite (get_px h w) by (assumption || lia). reflexivity. }
    cbn [obind]. replace (Z.of_nat (S n) - 1 - 1) with (Z.of_nat n - 1) by lia. rewrite IH by lia. rewrite <- app_assoc. f_equal. f_equal.
    unfold pfm_samples. cbn [seq flat_map]. rewrite flat_map_app. f_equal.
    + replace (S n - 1 - 0)%nat with n by lia. rewrite flat_map_flat_map. apply flat_map_ext. intros x. rewrite flat_map_map. reflexivity.
    + rewrite <- seq_shift, !flat_map_flat_map, flat_map_map. apply flat_map_ext. intros i. rewrite !flat_map_flat_map. apply flat_map_ext. intros x.
      rewrite !flat_map_map. apply flat_map_ext. intros c. replace (S n - 1 - S i)%nat with (n - 1 - i)%nat by lia. reflexivity.
Qed.
Lemma pfmCheck_ok nb : Forall (fun ib => ib_type ib = TYPE_FLOAT) nb -> pfmCheck nb = Ok nb.
Proof. induction 1 as [|ib nb H Hn IH]; cbn; auto. unfold IsInt. rewrite H. cbn. rewrite IH. reflexivity. Qed.
Lemma pfmCheck_int nb : Exists (fun ib => ib_type ib = TYPE_INT) nb -> pfmCheck nb = Panic.
Proof.
  induction 1 as [ib nb H|ib nb H IH]; cbn; unfold IsInt.
  - rewrite H. reflexivity.
  - destruct (ib_type ib =? TYPE_INT); [reflexivity|]. rewrite IH. reflexivity.
Qed.

(* ---- PNG ---- *)
Lemma lxor_range n a b : 0 <= n -> 0 <= a < 2 ^ n -> 0 <= b < 2 ^ n -> 0 <= Z.lxor a b < 2 ^ n.
Proof.
  intros Hn Ha Hb. assert (0 <= Z.lxor a b) by (apply Z.lxor_nonneg; lia). split; [assumption|].
  destruct (Z.eq_dec (Z.lxor a b) 0) as [->|]; [lia|]. apply Z.log2_lt_pow2; [lia|].
  eapply Z.le_lt_trans; [apply Z.log2_lxor; lia|].
  destruct (Z.eq_dec n 0) as [->|]; [replace a with 0 in * by lia; replace b with 0 in * by lia; cbn in *; lia|].
  apply Z.max_lub_lt; [destruct (Z.eq_dec a 0) as [->|]; [cbn; lia|apply Z.log2_lt_pow2; lia]|destruct (Z.eq_dec b 0) as [->|]; [cbn; lia|apply Z.log2_lt_pow2; lia]].
Qed.
Lemma crcBits_range n : forall c, 0 <= c < 2 ^ 32 -> 0 <= crcBits n c < 2 ^ 32.
Proof.
  induction n as [|n IH]; intros c H; cbn [crcBits]; [exact H|]. apply IH.
  assert (S1 : 0 <= Z.shiftr c 1 < 2 ^ 32). { rewrite Z.shiftr_div_pow2 by lia. change (2 ^ 1) with 2. lia. }
  destruct (Z.odd c); [|exact S1]. apply lxor_range; [lia|exact S1|]. split; [lia|reflexivity].
Qed.
Lemma crc32_range l : Forall is_byte l -> 0 <= crc32 l < 2 ^ 32.
Proof.
  intros H. unfold crc32. apply lxor_range; [lia| |split; [lia|reflexivity]].
  assert (G : forall c, 0 <= c < 2 ^ 32 -> 0 <= fold_left (fun c b => crcBits 8 (Z.lxor c b)) l c < 2 ^ 32).
  { induction H as [|b l Hb Hl IH]; intros c Hc; cbn [fold_left]; [exact Hc|]. apply IH. apply crcBits_range. apply lxor_range; [lia|exact Hc|].
    unfold is_byte in Hb. change (2 ^ 32) with 4294967296. lia. }
  apply G. split; [lia|reflexivity].
Qed.
Lemma be32_length v : length (be32 v) = 4%nat. Proof. reflexivity. Qed.
Lemma be32_bytes v : Forall is_byte (be32 v).
Proof. unfold be32, is_byte. repeat constructor; try (apply Z.mod_pos_bound; lia). Qed.

Lemma pngChunk_ok ty data : length ty = 4%nat -> Forall is_byte (ty ++ data) -> Z.of_nat (length data) < 2 ^ 32 - 4 ->
  chunk_bytes crc32 (mkCh ty data) (pngChunk (ty ++ data)).
Proof.
  intros Ht Hb Hl. unfold pngChunk, chunk_bytes. cbn [ch_type ch_data].
  exists (be32 (u32 (u32 (Z.of_nat (length (ty ++ data))) - 4))), (be32 (crc32 (ty ++ data))).
  split; [reflexivity|]. split; [reflexivity|]. rewrite app_length, Ht. rewrite (u32_small (Z.of_nat (4 + length data))) by lia.
  rewrite u32_small by lia. split; [rewrite be32_value by lia; lia|]. split; [apply be32_value, crc32_range; exact Hb|].
  rewrite <- !app_assoc. reflexivity.
Qed.
Lemma crc_iend : crc32 [73; 69; 78; 68] = 0xAE426082.
Proof. vm_compute. reflexivity. Qed.

(* length of the image data *)
Definition bytes_of (depth : Z) : Z := if depth =? 8 then 1 else 2.
Lemma sampleBytes_length d v : Z.of_nat (length (sampleBytes d v)) = bytes_of d.
Proof. unfold sampleBytes, bytes_of. destruct (d =? 8); reflexivity. Qed.
Lemma putSample_length img c y x out out' d : putSample img c y x out = Ok out' -> slice_get (im_depths img) c = Ok d ->
  Z.of_nat (length out') = Z.of_nat (length out) + bytes_of d.
Proof.
  unfold putSample. intros E Ed. destruct (slice_get (im_buffer img) c) as [ib| |]; cbn [obind] in E; try discriminate.
  destruct (get2 (ib_int ib) y x) as [dat| |]; cbn [obind] in E; try discriminate. rewrite Ed in E. cbn [obind] in E.
  injection E as <-. rewrite app_length, Nat2Z.inj_add, sampleBytes_length. reflexivity.
Qed.
Lemma putSample_depth img c y x out out' : putSample img c y x out = Ok out' -> exists d, slice_get (im_depths img) c = Ok d.
Proof.
  unfold putSample. intros E. destruct (slice_get (im_buffer img) c) as [ib| |]; cbn [obind] in E; try discriminate.
  destruct (get2 (ib_int ib) y x) as [dat| |]; cbn [obind] in E; try discriminate.
  destruct (slice_get (im_depths img) c) as [d| |]; cbn [obind] in E; try discriminate. eauto.
Qed.
(* the depths of the written channels agree with the header *)
Definition depths_agree (img : JXLImage) (B : Z) : Prop :=
  (forall c d, 0 <= c < hd_colours (im_header img) -> slice_get (im_depths img) c = Ok d -> bytes_of d = B) /\
  (hd_hasAlpha (im_header img) = true -> forall d, slice_get (im_depths img) 3 = Ok d -> bytes_of d = B).
Lemma pngRaw_length img raw B : 0 <= im_w img -> 0 <= im_h img -> 0 <= hd_colours (im_header img) ->
  depths_agree img B -> pngRaw img = Ok raw ->
  Z.of_nat (length raw) = im_h img * (1 + im_w img * ((hd_colours (im_header img) + (if hd_hasAlpha (im_header img) then 1 else 0)) * B)).
Proof.
  intros Hw Hh Hc [Hd Ha] E. unfold pngRaw in E.
  set (P := (hd_colours (im_header img) + (if hd_hasAlpha (im_header img) then 1 else 0)) * B).
  apply (oloop_post (fun i out => Z.of_nat (length out) = Z.of_nat i * (1 + im_w img * P)) _ _ _ _ _) in E.
  - rewrite E. rewrite Nat.add_0_l, Z2Nat.id by lia. reflexivity.
  - cbn. lia.
  - intros y out out' Hy Ho E1. cbv beta in *.
    apply (oloop_post (fun i o => Z.of_nat (length o) = Z.of_nat (length out) + 1 + Z.of_nat i * P) _ _ _ _ _) in E1.
    + rewrite E1, Ho. rewrite Nat.add_0_l, Z2Nat.id by lia. lia.
    + rewrite app_length. cbn [length]. lia.
    + intros x o o' Hx Ho1 E2. cbv beta in *.
      destruct (oloop _ 0 _ o) as [o1| |] eqn:E3; cbn [obind] in E2; try discriminate.
      apply (oloop_post (fun i q => Z.of_nat (length q) = Z.of_nat (length o) + Z.of_nat i * B) _ _ _ _ _) in E3.
      * rewrite Nat.add_0_l, Z2Nat.id in E3 by lia. unfold P. destruct (hd_hasAlpha (im_header img)) eqn:Ea.
        -- destruct (putSample_depth _ _ _ _ _ _ E2) as [d Ed]. rewrite (putSample_length _ _ _ _ _ _ _ E2 Ed), E3, Ho1.
           rewrite (Ha eq_refl d Ed). lia.
        -- injection E2 as <-. rewrite E3, Ho1. lia.
      * cbn. lia.
      * intros c q q' Hcc Hq E4. cbv beta in *. destruct (putSample_depth _ _ _ _ _ _ E4) as [d Ed].
        rewrite (putSample_length _ _ _ _ _ _ _ E4 Ed), Hq. rewrite (Hd (Z.of_nat c) d ltac:(lia) Ed). lia.
Qed.

Lemma pngPrepare_same bd img img' : pngPrepare bd img = Ok img' -> exists b, img' = set_buffer img b.
Proof.
  unfold pngPrepare. intros E.
  match type of E with obind ?a _ = _ => destruct a as [co| |]; cbn [obind] in E; try discriminate end.
  match type of E with obind ?a _ = _ => destruct a as [b1| |]; cbn [obind] in E; try discriminate end.
  destruct (im_premult img); try discriminate.
  match type of E with obind ?a _ = _ => destruct a as [b2| |]; cbn [obind] in E; try discriminate end.
  injection E as <-. eauto.
Qed.
Lemma writeIDAT_inv deflate img idat : writeIDAT deflate img = Ok idat ->
  exists b raw, pngRaw (set_buffer img b) = Ok raw /\ idat = pngChunk ([73; 68; 65; 84] ++ deflate raw).
Proof.
  unfold writeIDAT. intros E.
  repeat (match type of E with obind ?a _ = _ => destruct a as [?b| |] eqn:?E0; cbn [obind] in E; try discriminate end).
  injection E as <-. eauto.
Qed.

(* channels of the depth of the header *)
Definition clampIB (h w : nat) (mx : Z) (ib : ImageBuffer) : ImageBuffer :=
  mkIB (ib_w ib) (ib_h ib) (ib_type ib) (ib_float ib) (mat h w (fun y x => clampv mx (px (ib_int ib) y x))).
Lemma clampIB_channel h w mx ib : int_channel h w ib -> int_channel h w (clampIB h w mx ib).
Proof. intros (H1 & H2 & H3 & H4). repeat split; try assumption; apply rect_mat. Qed.
Lemma mapBuffers_clamp h w D mx : forall l depths pre, Forall (int_channel h w) l -> depths = pre ++ repeat D (length l) ->
  mapBuffers (clampOrCast D mx) (Z.of_nat (length pre)) depths l = Ok (map (clampIB h w mx) l).
Proof.
  induction l as [|ib l IH]; intros depths pre Hl Hd; [reflexivity|]. cbn [mapBuffers map].
  apply Forall_cons_iff in Hl as [Hi Hl]. cbn [length repeat] in Hd.
  rewrite (slice_get_ok depths _ 0) by (rewrite Hd, app_length; cbn [length]; lia). cbn [obind]. rewrite Nat2Z.id.
  rewrite Hd, app_nth2, Nat.sub_diag by lia. cbn [nth]. unfold clampOrCast at 1. unfold IsInt at 1.
  pose proof Hi as (Ht & _). rewrite Ht. rewrite !Z.eqb_refl. cbn [andb]. rewrite (Clamp_ok h w) by exact Hi. cbn [obind].
  replace (Z.of_nat (length pre) + 1) with (Z.of_nat (length (pre ++ [D]))) by (rewrite app_length; cbn [length]; lia).
  rewrite (IH _ (pre ++ [D])); [reflexivity|exact Hl|]. rewrite <- app_assoc. reflexivity.
Qed.
Lemma needsCoerce_no h w D : forall l depths pre, Forall (int_channel h w) l -> depths = pre ++ repeat D (length l) ->
  needsCoerce (Z.of_nat (length pre)) D depths l = Ok false.
Proof.
  induction l as [|ib l IH]; intros depths pre Hl Hd; [reflexivity|]. cbn [needsCoerce].
  apply Forall_cons_iff in Hl as [Hi Hl]. cbn [length repeat] in Hd.
  pose proof Hi as (Ht & _). unfold IsInt. rewrite Ht. rewrite Z.eqb_refl.
  rewrite (slice_get_ok depths _ 0) by (rewrite Hd, app_length; cbn [length]; lia). cbn [obind]. rewrite Nat2Z.id.
  rewrite Hd, app_nth2, Nat.sub_diag by lia. cbn [nth]. rewrite Z.eqb_refl. cbn [negb].
  replace (Z.of_nat (length pre) + 1) with (Z.of_nat (length (pre ++ [D]))) by (rewrite app_length; cbn [length]; lia).
  apply (IH _ (pre ++ [D])); [exact Hl|]. rewrite <- app_assoc. reflexivity.
Qed.
Lemma castAt_int h w mx c l : Forall (int_channel h w) l -> 0 <= c < Z.of_nat (length l) -> castAt mx c l = Ok l.
Proof.
  intros Hl Hc. unfold castAt. set (d := mkIB 0 0 0 [] []). rewrite (slice_get_ok l c d) by lia. cbn [obind].
  assert (Hi : int_channel h w (nth (Z.to_nat c) l d)). { rewrite Forall_forall in Hl. apply Hl, nth_In. lia. }
  unfold CastToIntIfMax, IsInt. destruct Hi as (-> & _). cbn [TYPE_INT Z.eqb obind]. rewrite slice_set_ok by lia. f_equal.
  apply (nth_ext_len _ _ d); [apply list_set_length|]. intros i Hi. rewrite list_set_length in Hi. rewrite nth_list_set by lia.
  destruct (Nat.eqb_spec i (Z.to_nat c)) as [->|]; reflexivity.
Qed.
Lemma depthMax8 : depthMax 8 = 255. Proof. reflexivity. Qed.
Lemma depthMax16 : depthMax 16 = 65535. Proof. reflexivity. Qed.

Lemma sampleBytes_spec D v : D = 8 \/ D = 16 -> 0 <= v <= depthMax D -> sampleBytes D v = png_sample D v.
Proof.
  intros [->| ->] Hv; [rewrite depthMax8 in Hv|rewrite depthMax16 in Hv]; unfold sampleBytes, png_sample; cbn [Z.eqb Pos.eqb].
  - unfold u8. rewrite Z.mod_small by (change (2 ^ 8) with 256; lia). reflexivity.
  - assert (E1 : Z.land v 0xFF = v mod 256). { change 0xFF with (Z.ones 8). rewrite Z.land_ones by lia. reflexivity. }
    assert (E2 : Z.shiftr (Z.land v 0xFF00) 8 = v / 256).
    { rewrite Z.shiftr_land. change (Z.shiftr 0xFF00 8) with (Z.ones 8). rewrite Z.land_ones, Z.shiftr_div_pow2 by lia. change (2 ^ 8) with 256.
      apply Z.mod_small. lia. }
    rewrite E1, E2. unfold u8. change (2 ^ 8) with 256. rewrite (Z.mod_small (v / 256)), Z.mod_mod by lia. reflexivity.
Qed.

(* image data of clamped channels *)
Lemma pngRaw_ok h w D img nch : D = 8 \/ D = 16 -> im_w img = Z.of_nat w -> im_h img = Z.of_nat h ->
  Forall (int_channel h w) (im_buffer img) ->
  (forall c y x, (c < nch)%nat -> 0 <= sample (im_buffer img) ib_int c y x <= depthMax D) ->
  (nch <= length (im_buffer img))%nat ->
  im_depths img = repeat D (length (im_buffer img)) ->
  Z.of_nat nch = hd_colours (im_header img) + (if hd_hasAlpha (im_header img) then 1 else 0) ->
  (hd_hasAlpha (im_header img) = true -> hd_colours (im_header img) = 3) -> 0 <= hd_colours (im_header img) ->
  pngRaw img = Ok (png_rows h w nch D (sample (im_buffer img) ib_int)).
Proof.
  intros HD Hw Hh Hl Hr Hlen Hd Hn Ha Hc. unfold pngRaw. rewrite Hw, Hh, !Nat2Z.id.
  assert (Put : forall c y x o, (c < nch)%nat -> (y < h)%nat -> (x < w)%nat ->
     putSample img (Z.of_nat c) (Z.of_nat y) (Z.of_nat x) o = Ok (o ++ png_sample D (sample (im_buffer img) ib_int c y x))).
  { intros c y x o Hcc Hy Hx. unfold putSample. rewrite (slice_get_ok _ _ (mkIB 0 0 0 [] [])) by lia. cbn [obind]. rewrite Nat2Z.id.
    assert (Hi : int_channel h w (nth c (im_buffer img) (mkIB 0 0 0 [] []))). { rewrite Forall_forall in Hl. apply Hl, nth_In. lia. }
    destruct Hi as (_ & _ & _ & R). rewrite (get_px h w) by assumption. cbn [obind].
    rewrite Hd. rewrite (slice_get_ok _ _ 0) by (rewrite repeat_length; lia). cbn [obind]. rewrite Nat2Z.id.
    rewrite (nth_indep _ 0 D) by (rewrite repeat_length; lia). rewrite nth_repeat. rewrite sampleBytes_spec by (auto; apply (Hr c y x Hcc)). reflexivity. }
  match goal with |- oloop h 0 ?f [] = _ => rewrite (oloop_append f (fun y => 0 :: flat_map (fun x => flat_map (fun c => png_sample D (sample (im_buffer img) ib_int c y x)) (seq 0 nch)) (seq 0 w))) end.
  - reflexivity.
  - intros y b Hy. change (b ++ 0 :: ?t) with (b ++ [0] ++ t) || idtac.
    match goal with |- oloop w 0 ?f _ = _ => rewrite (oloop_append f (fun x => flat_map (fun c => png_sample D (sample (im_buffer img) ib_int c y x)) (seq 0 nch))) end.
    + rewrite <- app_assoc. reflexivity.
    + intros x o Hx. match goal with |- obind (oloop ?n 0 ?f o) _ = _ => rewrite (oloop_append f (fun c => png_sample D (sample (im_buffer img) ib_int c y x))) end.
      * cbn [obind]. destruct (hd_hasAlpha (im_header img)).
        -- specialize (Ha eq_refl). rewrite Ha in *. rewrite (Put 3%nat y x) by lia.
           replace nch with 4%nat by lia. change (Z.to_nat 3) with 3%nat. rewrite <- app_assoc. f_equal. f_equal.
           change (seq 0 4) with (seq 0 3 ++ [3%nat]). rewrite flat_map_app. cbn [flat_map]. rewrite app_nil_r. reflexivity.
        -- replace (Z.to_nat (hd_colours (im_header img))) with nch by lia. reflexivity.
      * intros c q Hcc. assert (hd_colours (im_header img) <= Z.of_nat nch) by (destruct (hd_hasAlpha (im_header img)); lia). apply Put; lia.
Qed.
