(* Lemmas about the conversion to Go images. *)
From Coq Require Import ZArith List Bool Lia Arith ZifyBool ZifyNat.
From Verif Require Import GoBase GoLoop GoMatrix GoFloat32 ProofCodes ModelImage ModelWriters ModelToImage SpecImage SpecToImage ProofImage ProofWriters.
Import ListNotations.
Open Scope Z_scope.

(* ---- bytes of a table of pixels ---- *)
Lemma flat_map_length_const {A} (g : nat -> list A) n : forall k i0, (forall i, (i0 <= i < i0 + k)%nat -> length (g i) = n) ->
  length (flat_map g (seq i0 k)) = (k * n)%nat.
Proof.
  induction k as [|k IH]; intros i0 H; [reflexivity|]. cbn [seq flat_map]. rewrite app_length, IH by (intros; apply H; lia).
  rewrite H by lia. lia.
Qed.
Lemma nth_flat_map_const {A} (g : nat -> list A) n d j : forall k i0 i, (forall i, (i0 <= i < i0 + k)%nat -> length (g i) = n) ->
  (i < k)%nat -> (j < n)%nat -> nth (i * n + j) (flat_map g (seq i0 k)) d = nth j (g (i0 + i)%nat) d.
Proof.
  induction k as [|k IH]; intros i0 i H Hi Hj; [lia|]. cbn [seq flat_map]. destruct i as [|i].
  - rewrite app_nth1 by (rewrite H by lia; lia). rewrite Nat.add_0_r. reflexivity.
  - rewrite app_nth2 by (rewrite H by lia; lia). rewrite H by lia. replace (S i * n + j - n)%nat with (i * n + j)%nat by lia.
    rewrite IH by (try lia; intros; apply H; lia). f_equal. f_equal. lia.
Qed.

Lemma pixels_ok h w n bytes (v : nat -> nat -> nat -> Z) :
  (forall y x, (y < h)%nat -> (x < w)%nat -> exists l, bytes (Z.of_nat y) (Z.of_nat x) = Ok l /\ length l = n /\ forall k, (k < n)%nat -> nth k l 0 = v k y x) ->
  exists pix, pixels (Z.of_nat w) (Z.of_nat h) bytes = Ok pix /\ holds n h w v pix.
Proof.
  intros H. unfold pixels, loop2. rewrite !Nat2Z.id.
  set (g := fun y x => match bytes (Z.of_nat y) (Z.of_nat x) with Ok l => l | _ => [] end).
  assert (G : forall y x, (y < h)%nat -> (x < w)%nat -> bytes (Z.of_nat y) (Z.of_nat x) = Ok (g y x) /\ length (g y x) = n /\ forall k, (k < n)%nat -> nth k (g y x) 0 = v k y x).
  { intros y x Hy Hx. destruct (H y x Hy Hx) as (l & E & L). unfold g. rewrite E. auto. }
  exists (flat_map (fun y => flat_map (g y) (seq 0 w)) (seq 0 h)). split.
  - match goal with |- oloop h 0 ?f [] = _ => rewrite (oloop_append f (fun y => flat_map (g y) (seq 0 w))) end; [reflexivity|].
    intros y b Hy. match goal with |- oloop w 0 ?f b = _ => rewrite (oloop_append f (g y)) end; [reflexivity|].
    intros x b' Hx. destruct (G y x ltac:(lia) ltac:(lia)) as (E & _). rewrite E. reflexivity.
  - assert (L : forall y, (0 <= y < 0 + h)%nat -> length (flat_map (g y) (seq 0 w)) = (w * n)%nat).
    { intros y Hy. apply flat_map_length_const. intros x Hx. apply G; lia. }
    split.
    + rewrite (flat_map_length_const _ (w * n)) by exact L. lia.
    + intros y x k Hy Hx Hk. unfold pix_byte. replace (n * (y * w + x) + k)%nat with (y * (w * n) + (x * n + k))%nat by ring.
      rewrite (nth_flat_map_const _ (w * n)); [|exact L|exact Hy|nia]. rewrite Nat.add_0_l.
      rewrite (nth_flat_map_const _ n); [|intros; apply G; lia|exact Hx|exact Hk]. apply G; assumption.
Qed.

Definition ib0 : ImageBuffer := mkIB 0 0 0 [] [].
Definition int_at (l : list ImageBuffer) (c y x : nat) : Z := px (ib_int (nth c l ib0)) y x.
Definition float_at (l : list ImageBuffer) (c y x : nat) : Z := px (ib_float (nth c l ib0)) y x.
Lemma intByte_ok h w l c y x : Forall (int_channel h w) l -> (c < length l)%nat -> (y < h)%nat -> (x < w)%nat ->
  intByte l (Z.of_nat c) (Z.of_nat y) (Z.of_nat x) = Ok (u8 (int_at l c y x)).
Proof.
  intros Hl Hc Hy Hx. unfold intByte. rewrite (slice_get_ok l _ ib0) by lia. cbn [obind]. rewrite Nat2Z.id.
  assert (Hi : int_channel h w (nth c l ib0)). { rewrite Forall_forall in Hl. apply Hl, nth_In. exact Hc. }
  destruct Hi as (_ & _ & _ & R). rewrite (get_px h w) by assumption. reflexivity.
Qed.

Lemma gray_ok h w l c : Forall (int_channel h w) l -> (c < length l)%nat ->
  exists pix, grayOfChannel l (Z.of_nat c) = Ok (Gray (Z.of_nat w) (Z.of_nat h) pix) /\ holds 1 h w (fun _ y x => u8 (int_at l c y x)) pix.
Proof.
  intros Hl Hc. unfold grayOfChannel. rewrite (slice_get_ok l 0 ib0) by lia. cbn [obind]. change (Z.to_nat 0) with 0%nat.
  assert (H0 : int_channel h w (nth 0 l ib0)). { rewrite Forall_forall in Hl. apply Hl, nth_In. lia. }
  destruct H0 as (Ht & Hh & Hw & _). rewrite Hh, Hw. unfold IsFloat. rewrite Ht. cbn [TYPE_INT TYPE_FLOAT Z.eqb].
  edestruct (pixels_ok h w 1 (fun y x => obind (intByte l (Z.of_nat c) y x) (fun v => Ok [v])) (fun _ y x => u8 (int_at l c y x))) as (pix & E & P).
  - intros y x Hy Hx. rewrite (intByte_ok h w) by assumption. cbn [obind]. eexists. split; [reflexivity|]. split; [reflexivity|].
    intros k Hk. replace k with 0%nat by lia. reflexivity.
  - rewrite E. cbn [obind]. exists pix. split; [reflexivity|exact P].
Qed.
Lemma rgb_ok h w l (a : bool) : Forall (int_channel h w) l -> ((if a then 4 else 3) <= length l)%nat ->
  exists pix, create24BitImage a l = Ok (NRGBA (Z.of_nat w) (Z.of_nat h) pix) /\
    holds 4 h w (fun k y x => if (k =? 3)%nat && negb a then 255 else u8 (int_at l k y x)) pix.
Proof.
  intros Hl Hc. unfold create24BitImage. rewrite (slice_get_ok l 0 ib0) by (destruct a; lia). cbn [obind]. change (Z.to_nat 0) with 0%nat.
  assert (H0 : int_channel h w (nth 0 l ib0)). { rewrite Forall_forall in Hl. apply Hl, nth_In. destruct a; lia. }
  destruct H0 as (Ht & Hh & Hw & _). rewrite Hh, Hw. unfold IsFloat. rewrite Ht. cbn [TYPE_INT TYPE_FLOAT Z.eqb].
  match goal with |- exists pix, obind (pixels _ _ ?f) _ = _ /\ _ =>
    edestruct (pixels_ok h w 4 f (fun k y x => if (k =? 3)%nat && negb a then 255 else u8 (int_at l k y x))) as (pix & E & P) end.
  - intros y x Hy Hx. pose proof (intByte_ok h w l 0 y x Hl ltac:(destruct a; lia) Hy Hx) as B0. pose proof (intByte_ok h w l 1 y x Hl ltac:(destruct a; lia) Hy Hx) as B1.
    pose proof (intByte_ok h w l 2 y x Hl ltac:(destruct a; lia) Hy Hx) as B2.
    change (Z.of_nat 0) with 0 in B0. change (Z.of_nat 1) with 1 in B1. change (Z.of_nat 2) with 2 in B2. rewrite B0, B1, B2. cbn [obind].
    destruct a; [|].
    + pose proof (intByte_ok h w l 3 y x Hl ltac:(lia) Hy Hx) as B3. change (Z.of_nat 3) with 3 in B3. rewrite B3. cbn [obind].
      eexists. split; [reflexivity|]. split; [reflexivity|]. intros k Hk. destruct k as [|[|[|[|]]]]; try lia; reflexivity.
    + cbn [obind]. eexists. split; [reflexivity|]. split; [reflexivity|]. intros k Hk. destruct k as [|[|[|[|]]]]; try lia; reflexivity.
  - rewrite E. cbn [obind]. exists pix. split; [reflexivity|exact P].
Qed.
Lemma holds_ext n h w v v' pix : (forall k y x, (k < n)%nat -> (y < h)%nat -> (x < w)%nat -> v k y x = v' k y x) -> holds n h w v pix -> holds n h w v' pix.
Proof. intros E [L H]. split; [exact L|]. intros y x k Hy Hx Hk. rewrite H by assumption. apply E; assumption. Qed.

(* ---- preparation of float channels ---- *)
Definition toIntIB (h w : nat) (mx : Z) (ib : ImageBuffer) : ImageBuffer :=
  mkIB (ib_w ib) (ib_h ib) TYPE_INT (ib_float ib) (mat h w (fun y x => toInt mx (px (ib_float ib) y x))).
Lemma toIntIB_channel h w mx ib : float_channel h w ib -> int_channel h w (toIntIB h w mx ib).
Proof. intros (H1 & H2 & H3 & H4). repeat split; try assumption; apply rect_mat. Qed.
Lemma needsCoerce_float h w D : forall l depths c, Forall (float_channel h w) l -> needsCoerce c D depths l = Ok false.
Proof.
  induction l as [|ib l IH]; intros depths c Hl; [reflexivity|]. apply Forall_cons_iff in Hl as [(Ht & _) Hl]. cbn [needsCoerce]. unfold IsInt. rewrite Ht.
  cbn [TYPE_INT TYPE_FLOAT Z.eqb]. apply IH, Hl.
Qed.
Lemma mapBuffers_float h w D mx : 1 <= mx -> forall l depths pre post, Forall (float_channel h w) l -> depths = pre ++ post -> (length l <= length post)%nat ->
  mapBuffers (clampOrCast D mx) (Z.of_nat (length pre)) depths l = Ok (map (toIntIB h w mx) l).
Proof.
  intros Hm. induction l as [|ib l IH]; intros depths pre post Hl Hd Hn; [reflexivity|]. cbn [mapBuffers map].
  apply Forall_cons_iff in Hl as [Hi Hl]. destruct post as [|d post]; [cbn in Hn; lia|].
  rewrite (slice_get_ok depths _ 0) by (rewrite Hd, app_length; cbn [length]; lia). cbn [obind].
  unfold clampOrCast at 1. unfold IsInt at 1. pose proof Hi as (Ht & _). rewrite Ht. cbn [TYPE_INT TYPE_FLOAT Z.eqb andb].
  rewrite (castInt_ok h w) by assumption. cbn [obind].
  replace (Z.of_nat (length pre) + 1) with (Z.of_nat (length (pre ++ [d]))) by (rewrite app_length; cbn [length]; lia).
  rewrite (IH _ (pre ++ [d]) post); [reflexivity|exact Hl| |cbn in Hn; lia]. rewrite <- app_assoc. exact Hd.
Qed.
Lemma pngPrepare_float h w D img : 1 <= depthMax D -> im_premult img = false -> Forall (float_channel h w) (im_buffer img) -> (length (im_buffer img) <= length (im_depths img))%nat ->
  pngPrepare D img = Ok (set_buffer img (map (toIntIB h w (depthMax D)) (im_buffer img))).
Proof.
  intros Hm Hp Hl Hd. unfold pngPrepare. rewrite Hp. rewrite (needsCoerce_float h w) by exact Hl. cbn [obind].
  pose proof (mapBuffers_float h w D (depthMax D) Hm (im_buffer img) (im_depths img) [] (im_depths img) Hl eq_refl Hd) as E. cbn [length] in E. change (Z.of_nat 0) with 0 in E.
  rewrite E. reflexivity.
Qed.
Lemma pngPrepare_int h w D img : im_premult img = false -> Forall (int_channel h w) (im_buffer img) -> im_depths img = repeat D (length (im_buffer img)) ->
  pngPrepare D img = Ok (set_buffer img (map (clampIB h w (depthMax D)) (im_buffer img))).
Proof.
  intros Hp Hl Hd. unfold pngPrepare. rewrite Hp. pose proof (needsCoerce_no h w D (im_buffer img) (im_depths img) [] Hl Hd) as N. cbn [length] in N. change (Z.of_nat 0) with 0 in N. rewrite N. cbn [obind].
  pose proof (mapBuffers_clamp h w D (depthMax D) (im_buffer img) (im_depths img) [] Hl Hd) as E. cbn [length] in E. change (Z.of_nat 0) with 0 in E.
  rewrite E. reflexivity.
Qed.
(* integer channels of other depths *)
Definition rescaleIB (h w : nat) (mx d : Z) (ib : ImageBuffer) : ImageBuffer :=
  mkIB (ib_w ib) (ib_h ib) TYPE_INT (mat h w (fun y x => f_mul (f_of_int (px (ib_int ib) y x)) (f_div F_ONE (f_of_int (depthMax d)))))
    (mat h w (fun y x => toInt mx (f_mul (f_of_int (px (ib_int ib) y x)) (f_div F_ONE (f_of_int (depthMax d)))))).
Lemma mapBuffers_toFloat h w d : 1 <= depthMax d -> forall l depths pre, Forall (int_channel h w) l -> depths = pre ++ repeat d (length l) ->
  mapBuffers (fun d ib => CastToFloatIfMax ib (depthMax d)) (Z.of_nat (length pre)) depths l =
    Ok (map (fun ib => mkIB (ib_w ib) (ib_h ib) TYPE_FLOAT (mat h w (fun y x => f_mul (f_of_int (px (ib_int ib) y x)) (f_div F_ONE (f_of_int (depthMax d))))) (ib_int ib)) l).
Proof.
  intros Hm. induction l as [|ib l IH]; intros depths pre Hl Hd; [reflexivity|]. cbn [mapBuffers map].
  apply Forall_cons_iff in Hl as [Hi Hl]. cbn [length repeat] in Hd.
  rewrite (slice_get_ok depths _ 0) by (rewrite Hd, app_length; cbn [length]; lia). cbn [obind]. rewrite Nat2Z.id.
  rewrite Hd, app_nth2, Nat.sub_diag by lia. cbn [nth]. rewrite (castFloat_ok h w) by assumption. cbn [obind].
  replace (Z.of_nat (length pre) + 1) with (Z.of_nat (length (pre ++ [d]))) by (rewrite app_length; cbn [length]; lia).
  rewrite (IH _ (pre ++ [d])); [reflexivity|exact Hl|]. rewrite <- app_assoc. reflexivity.
Qed.
Lemma pngPrepare_rescale h w D d img : 1 <= depthMax D -> 1 <= depthMax d -> d <> D -> im_premult img = false -> Forall (int_channel h w) (im_buffer img) ->
  im_buffer img <> [] -> im_depths img = repeat d (length (im_buffer img)) ->
  pngPrepare D img = Ok (set_buffer img (map (rescaleIB h w (depthMax D) d) (im_buffer img))).
Proof.
  intros HM Hm Hne Hp Hl Hn Hd. unfold pngPrepare. rewrite Hp.
  assert (C : needsCoerce 0 D (im_depths img) (im_buffer img) = Ok true).
  { destruct (im_buffer img) as [|ib l]; [congruence|]. cbn [needsCoerce]. apply Forall_cons_iff in Hl as [(Ht & _) _]. unfold IsInt. rewrite Ht. cbn [TYPE_INT Z.eqb].
    rewrite Hd. cbn [length repeat]. rewrite (slice_get_ok _ 0 0) by (cbn [length]; lia). cbn [obind]. change (Z.to_nat 0) with 0%nat. cbn [nth].
    destruct (Z.eqb_spec d D); [congruence|]. reflexivity. }
  rewrite C. cbn [obind].
  pose proof (mapBuffers_toFloat h w d Hm (im_buffer img) (im_depths img) [] Hl Hd) as E. cbn [length] in E. change (Z.of_nat 0) with 0 in E. rewrite E. cbn [obind].
  match goal with |- context[mapBuffers _ 0 _ ?l] => set (fl := l) end.
  assert (Hf : Forall (float_channel h w) fl).
  { unfold fl. rewrite Forall_forall in *. intros ib Hin. rewrite in_map_iff in Hin. destruct Hin as (ib' & <- & Hin). destruct (Hl _ Hin) as (_ & H1 & H2 & _).
    split; [reflexivity|]. split; [exact H1|]. split; [exact H2|]. apply rect_mat. }
  pose proof (mapBuffers_float h w D (depthMax D) HM fl (im_depths img) [] (im_depths img) Hf eq_refl) as E2. cbn [length] in E2. change (Z.of_nat 0) with 0 in E2.
  rewrite E2 by (unfold fl; rewrite map_length, Hd, repeat_length; lia). cbn [obind]. f_equal. f_equal. unfold fl. rewrite map_map.
  apply map_ext_in. intros ib Hin. unfold toIntIB, rescaleIB. cbn [ib_w ib_h ib_float]. f_equal.
  apply (rect_ext h w); [apply rect_mat|apply rect_mat|]. intros y x Hy Hx. rewrite !px_mat by assumption. reflexivity.
Qed.

(* ---- the byte of a float sample ---- *)
(* rounding to float32 with the bound 2^-24 m/d, down to 2^-150 for small m *)
Lemma rnd_err_le n d M : 0 < d -> 0 <= n <= M -> 2 ^ 23 * d <= M -> 2 ^ 24 * Z.abs (rnd_pos n d * d - n) <= M.
Proof.
  intros Hd Hn HM. destruct (Z.le_gt_cases (2 ^ 23 * d) n) as [H|H]; [pose proof (rnd_err n d Hd H); lia|].
  unfold rnd_pos. assert (Hq : n / d < 2 ^ 23) by (apply Z.div_lt_upper_bound; lia).
  assert (0 <= n / d) by (apply Z.div_pos; lia).
  assert (Hl : Z.log2 (n / d) <= 23). { transitivity (Z.log2 (2 ^ 23)); [apply Z.log2_le_mono; lia|]. rewrite Z.log2_pow2 by lia. lia. }
  replace (Z.max 0 (Z.log2 (n / d) - 23)) with 0 by lia. cbv zeta. rewrite Z.pow_0_r, !Z.mul_1_r. pose proof (rdiv_err n d Hd) as E.
  change (2 ^ 24) with (2 * 2 ^ 23). lia.
Qed.
Lemma rnd_pos_lower n d m e : 0 < d -> 0 <= e -> 0 <= m <= 2 ^ 24 -> m * 2 ^ e * d <= n -> 23 <= e + 23 -> 2 ^ 23 <= m -> m * 2 ^ e <= rnd_pos n d.
Proof.
  intros Hd He Hm Hn _ Hm2. unfold rnd_pos. cbv zeta. set (f := Z.max 0 (Z.log2 (n / d) - 23)).
  assert (P : 0 < 2 ^ e) by (apply Z.pow_pos_nonneg; lia). assert (Q : m * 2 ^ e <= n / d) by (apply Z.div_le_lower_bound; lia).
  assert (L : 23 + e <= Z.log2 (n / d)).
  { rewrite <- (Z.log2_pow2 (23 + e)) by lia. apply Z.log2_le_mono. rewrite Z.pow_add_r by lia. nia. }
  assert (Hf : f = Z.log2 (n / d) - 23) by lia. clearbody f.
  assert (Pf : 0 < 2 ^ f) by (apply Z.pow_pos_nonneg; lia).
  pose proof (Z.log2_spec (n / d) ltac:(nia)) as [S1 _].
  (* rdiv n (d 2^f) is at least the quotient *)
  assert (R : n / (d * 2 ^ f) <= rdiv n (d * 2 ^ f)).
  { unfold rdiv. cbv zeta. destruct (_ <? _); [lia|]. destruct (_ <? _); [lia|]. destruct (Z.even _); lia. }
  rewrite <- Z.div_div in R by lia.
  destruct (Z.eq_dec f e) as [->|Hne].
  - assert (m <= n / d / 2 ^ e) by (apply Z.div_le_lower_bound; lia). nia.
  - assert (Hfe : e + 1 <= f) by lia.
    assert (2 ^ 23 <= n / d / 2 ^ f).
    { apply Z.div_le_lower_bound; [lia|]. rewrite <- Z.pow_add_r by lia. replace (f + 23) with (Z.log2 (n / d)) by lia. exact S1. }
    assert (2 ^ 24 * 2 ^ e <= 2 ^ 23 * 2 ^ f). { rewrite <- !Z.pow_add_r by lia. apply Z.pow_le_mono_r; lia. }
    nia.
Qed.
Lemma f_round_nonneg n d : 0 < d -> 0 <= n -> f_round n d = rnd_pos n d.
Proof.
  intros Hd H. destruct (Z.eq_dec n 0) as [->|]; [|apply f_round_pos; lia].
  pose proof (rnd_exact 0 0 d Hd ltac:(lia) ltac:(lia)) as E. cbn [Z.mul] in E. rewrite E. reflexivity.
Qed.
Lemma toInt_near a : near_byte F_ONE a (toInt 255 a).
Proof.
  split; [pose proof (toInt_range 255 a); lia|]. unfold toInt. rewrite (f_of_int_exact 255) by (change (2 ^ 24) with 16777216; lia).
  assert (HH : 2 * F_HALF = F_ONE) by reflexivity. assert (HF : F_ONE = 2 ^ 26 * 2 ^ 123) by reflexivity. assert (P : 0 < 2 ^ 123) by (apply Z.pow_pos_nonneg; lia).
  change (2 ^ 26) with 67108864 in HF.
  set (U := F_ONE) in *. set (H := F_HALF) in *.
  assert (Add : forall x M, 0 <= x + H <= M -> 2 ^ 23 <= M -> 2 ^ 24 * Z.abs (f_add x H - (x + H)) <= M).
  { intros x M Hx HM. unfold f_add. rewrite f_round_nonneg by lia. pose proof (rnd_err_le (x + H) 1 M ltac:(lia) Hx ltac:(lia)) as E. rewrite Z.mul_1_r in E. exact E. }
  assert (Mul : forall M, 0 <= a -> 255 * a <= M -> 2 ^ 23 <= M -> 2 ^ 24 * Z.abs (f_mul a (255 * U) - 255 * a) <= M).
  { intros M Ha HM HM2. unfold f_mul. fold U. rewrite f_round_nonneg by nia.
    pose proof (rnd_err_le (a * (255 * U)) U (M * U) ltac:(lia) ltac:(nia) ltac:(nia)) as E.
    replace (rnd_pos (a * (255 * U)) U * U - a * (255 * U)) with ((rnd_pos (a * (255 * U)) U - 255 * a) * U) in E by ring.
    rewrite Z.abs_mul, (Z.abs_eq U) in E by lia. apply (Z.mul_le_mono_pos_r _ _ U); [lia|]. lia. }
  change (2 ^ 23) with 8388608 in *. change (2 ^ 24) with 16777216 in *. change (2 ^ 22) with 4194304 in *. change (2 ^ 16) with 65536. change (2 ^ 15) with 32768.
  set (q := 2 ^ 123) in *.
  assert (Hu : U = F_ONE) by reflexivity.
  split; [|split].
  - intros Ha.
    assert (Hx : f_mul a (255 * U) <= 0).
    { unfold f_mul, f_round. pose proof (rnd_nonneg (Z.abs (a * (255 * U))) F_ONE ltac:(lia) ltac:(lia)) as R. assert (Z.sgn (a * (255 * U)) <= 0) by nia. nia. }
    set (x := f_mul a (255 * U)) in *. clearbody x. unfold f_to_i32. fold U. cbv zeta.
    assert (Hq : Z.quot (f_add x H) U <= 0).
    { destruct (Z.le_gt_cases 0 (x + H)) as [Hp|Hp].
      - pose proof (Add x H ltac:(lia) ltac:(lia)) as E. rewrite Z.quot_small; [lia|]. split; [|lia].
        unfold f_add. rewrite f_round_nonneg by lia. apply rnd_nonneg; lia.
      - assert (f_add x H <= 0). { unfold f_add, f_round. pose proof (rnd_nonneg (Z.abs (x + H)) 1 ltac:(lia) ltac:(lia)). rewrite Z.sgn_neg by lia. lia. }
        rewrite <- (Z.opp_involutive (f_add x H)), Z.quot_opp_l by lia. pose proof (Z.quot_pos (- f_add x H) U). lia. }
    set (t := Z.quot _ _) in *. clearbody t. unfold clampv. destruct (_ || _); [reflexivity|]. destruct (t <? 0) eqn:E1; [reflexivity|]. destruct (255 <? t) eqn:E2; lia.
  - intros Ha. pose proof (Mul (255 * (4194304 * U)) ltac:(lia) ltac:(lia) ltac:(lia)) as M.
    assert (L : 255 * U <= f_mul a (255 * U)).
    { unfold f_mul. fold U. rewrite f_round_nonneg by nia. replace (255 * U) with (16711680 * 2 ^ 133) at 1 by reflexivity.
      apply rnd_pos_lower; try (change (2 ^ 23) with 8388608; change (2 ^ 24) with 16777216); lia. }
    set (x := f_mul a (255 * U)) in *. clearbody x.
    pose proof (Add x (1073741824 * U) ltac:(lia) ltac:(lia)) as A.
    assert (L2 : 255 * U <= f_add x H).
    { unfold f_add. rewrite f_round_nonneg by lia. replace (255 * U) with (16711680 * 2 ^ 133) by reflexivity.
      apply rnd_pos_lower; try (change (2 ^ 23) with 8388608; change (2 ^ 24) with 16777216); lia. }
    set (s := f_add x H) in *. clearbody s. unfold f_to_i32. fold U. cbv zeta. rewrite Z.quot_div_nonneg by lia.
    assert (255 <= s / U) by (apply Z.div_le_lower_bound; lia). assert (s / U < 2147483648). { apply Z.div_lt_upper_bound; [lia|]. clear - M A Ha HF P HH. clearbody U H q. lia. }
    set (t := s / U) in *. clearbody t. change (2 ^ 31) with 2147483648. match goal with |- context[?a || ?b] => replace (a || b) with false by lia end.
    unfold clampv. destruct (t <? 0) eqn:E3; [lia|]. destruct (255 <? t) eqn:E4; lia.
  - intros Ha. pose proof (Mul (256 * U) ltac:(lia) ltac:(lia) ltac:(lia)) as M.
    assert (L : 0 <= f_mul a (255 * U)). { unfold f_mul. rewrite f_round_nonneg by nia. apply rnd_nonneg; nia. }
    set (x := f_mul a (255 * U)) in *. clearbody x.
    pose proof (Add x (256 * U) ltac:(lia) ltac:(lia)) as A.
    assert (L2 : 0 <= f_add x H). { unfold f_add. rewrite f_round_nonneg by lia. apply rnd_nonneg; lia. }
    set (s := f_add x H) in *. clearbody s. unfold f_to_i32. fold U. cbv zeta. rewrite Z.quot_div_nonneg by lia.
    pose proof (Z.div_mod s U ltac:(lia)) as D. pose proof (Z.mod_pos_bound s U ltac:(lia)) as B.
    assert (0 <= s / U) by (apply Z.div_pos; lia). assert (s / U <= 255). { assert (s / U < 256); [|lia]. apply Z.div_lt_upper_bound; lia. }
    set (t := s / U) in *. set (r := s mod U) in *. clearbody t r. change (2 ^ 31) with 2147483648.
    match goal with |- context[?a || ?b] => replace (a || b) with false by lia end.
    unfold clampv. destruct (t <? 0) eqn:E3; [lia|]. destruct (255 <? t) eqn:E4; [lia|]. nia.
Qed.

(* integer samples of depth d scaled to 255 *)
Lemma mul_near U a b M : 0 < U -> 0 <= a * b <= M * U -> 8388608 <= M -> U = F_ONE -> 0 <= f_mul a b /\ 16777216 * Z.abs (f_mul a b * U - a * b) <= M * U.
Proof.
  intros HU Hab HM EU. unfold f_mul. rewrite <- EU. rewrite f_round_nonneg by lia. split; [apply rnd_nonneg; lia|].
  pose proof (rnd_err_le (a * b) U (M * U) HU Hab) as E. change (2 ^ 23) with 8388608 in E. change (2 ^ 24) with 16777216 in E. apply E. nia.
Qed.
Lemma inv_near U mx : U = F_ONE -> 1 <= mx <= 127 -> 0 <= f_div U (mx * U) /\ 16777216 * Z.abs (f_div U (mx * U) * mx - U) <= U.
Proof.
  intros EU Hm. assert (HU : 8388608 * 127 <= U) by (rewrite EU; unfold F_ONE; change (8388608 * 127) with 1065353216; change 1065353216 with (Z.min 1065353216 (2 ^ 149)); apply Z.le_min_r).
  assert (PM : 0 < mx * U) by lia. assert (PU : 0 < U * U) by nia.
  assert (Es : f_div U (mx * U) = rnd_pos (U * U) (mx * U)).
  { unfold f_div. rewrite <- EU. rewrite Z.sgn_pos, (Z.abs_eq (mx * U)), Z.mul_1_l by lia. apply f_round_pos. exact PU. }
  rewrite Es. split; [apply rnd_nonneg; lia|].
  pose proof (rnd_err (U * U) (mx * U) PM) as E. clear Es. set (s := rnd_pos (U * U) (mx * U)) in *. clearbody s. clear EU.
  assert (H : 2 ^ 23 * (mx * U) <= U * U). { change (2 ^ 23) with 8388608. nia. }
  specialize (E H). change (2 ^ 24) with 16777216 in E. replace (s * (mx * U) - U * U) with ((s * mx - U) * U) in E by ring.
  rewrite Z.abs_mul, (Z.abs_eq U) in E by lia. apply (Z.mul_le_mono_pos_r _ _ U); lia.
Qed.
Lemma rescale_arith U mx v s a b : 0 < U -> 1 <= mx <= 127 -> 0 <= v <= mx -> 16777216 * Z.abs (s * mx - U) <= U -> 16777216 * Z.abs (a - v * s) <= 254 * U ->
  65536 * Z.abs (b * U - 255 * a) <= 32770 * U -> 2 * Z.abs (b * mx - 255 * v) <= mx.
Proof.
  intros HU Hm Hv B1 B2 N.
  assert (X1 : 65536 * Z.abs ((b * U - 255 * a) * mx) <= 32770 * (U * mx)) by (rewrite Z.abs_mul, (Z.abs_eq mx) by lia; nia).
  assert (X2 : 16777216 * Z.abs (255 * mx * (a - v * s)) <= 64770 * (U * mx)) by (rewrite Z.abs_mul, (Z.abs_eq (255 * mx)) by lia; nia).
  assert (X3 : 16777216 * Z.abs (255 * v * (s * mx - U)) <= 255 * (U * mx)).
  { rewrite Z.abs_mul, (Z.abs_eq (255 * v)) by lia. set (e := Z.abs (s * mx - U)) in *. assert (0 <= e) by (unfold e; lia). clearbody e. nia. }
  assert (X : Z.abs ((b * mx - 255 * v) * U) = Z.abs (b * mx - 255 * v) * U) by (rewrite Z.abs_mul, (Z.abs_eq U) by lia; reflexivity).
  replace ((b * mx - 255 * v) * U) with ((b * U - 255 * a) * mx + 255 * mx * (a - v * s) + 255 * v * (s * mx - U)) in X by ring.
  set (u1 := (b * U - 255 * a) * mx) in *. set (u2 := 255 * mx * (a - v * s)) in *. set (u3 := 255 * v * (s * mx - U)) in *.
  set (z := Z.abs (b * mx - 255 * v)) in *. clearbody u1 u2 u3 z.
  assert (Y2 : 16777216 * z * U <= 8454145 * mx * U) by lia.
  apply Z.mul_le_mono_pos_r in Y2; [|lia]. lia.
Qed.
Lemma rescale_byte mx v : 1 <= mx <= 127 -> 0 <= v <= mx ->
  2 * Z.abs (toInt 255 (f_mul (f_of_int v) (f_div F_ONE (f_of_int mx))) * mx - 255 * v) <= mx.
Proof.
  intros Hm Hv. rewrite !f_of_int_exact by (change (2 ^ 24) with 16777216; lia).
  remember F_ONE as U eqn:EU. assert (HU : 8388608 * 127 <= U) by (rewrite EU; unfold F_ONE; change (8388608 * 127) with 1065353216; change 1065353216 with (Z.min 1065353216 (2 ^ 149)); apply Z.le_min_r).
  destruct (inv_near U mx EU Hm) as [S0 B1]. set (s := f_div U (mx * U)) in *. clearbody s.
  assert (Hs1 : s * mx <= 2 * U) by lia. assert (Hs2 : v * s <= 2 * U) by nia.
  destruct (mul_near U (v * U) s (254 * U) ltac:(lia) ltac:(nia) ltac:(lia) EU) as [A0 B2]. pose proof (toInt_near (f_mul (v * U) s)) as T. rewrite <- EU in T.
  set (a := f_mul (v * U) s) in *. set (b := toInt 255 a) in *. clearbody a b.
  replace (a * U - v * U * s) with ((a - v * s) * U) in B2 by ring. rewrite Z.abs_mul, (Z.abs_eq U), Z.mul_assoc in B2 by lia.
  apply Z.mul_le_mono_pos_r in B2; [|lia]. clear EU. destruct T as (R & _ & N1 & N2).
  change (2 ^ 22) with 4194304 in N1. change (2 ^ 16) with 65536 in N2. change (2 ^ 15) with 32768 in N2.
  destruct (Z.le_gt_cases U a) as [C|C].
  - assert (E : b = 255) by (apply N1; lia). assert (V : v = mx).
    { destruct (Z.eq_dec v mx) as [|Hne]; [assumption|exfalso]. assert (v * s + s <= s * mx) by nia. assert (U <= 128 * s) by nia. lia. }
    subst. lia.
  - apply (rescale_arith U mx v s a b); try assumption; lia.
Qed.

(* ---- transfer ---- *)
Definition fIB (h w : nat) (f : Z -> Z) (ib : ImageBuffer) : ImageBuffer :=
  mkIB (ib_w ib) (ib_h ib) (ib_type ib) (mat h w (fun y x => f (px (ib_float ib) y x))) (ib_int ib).
Lemma slice_at {A} (pre : list A) a post c : c = Z.of_nat (length pre) -> slice_get (pre ++ a :: post) c = Ok a.
Proof. intros ->. rewrite (slice_get_ok _ _ a) by (rewrite app_length; cbn [length]; lia). rewrite Nat2Z.id, app_nth2, Nat.sub_diag by lia. reflexivity. Qed.
Lemma slice_set_at {A} (pre : list A) a b post c : c = Z.of_nat (length pre) -> slice_set (pre ++ a :: post) c b = Ok (pre ++ b :: post).
Proof. intros ->. rewrite slice_set_ok by (rewrite app_length; cbn [length]; lia). rewrite Nat2Z.id. f_equal. clear. induction pre as [|x pre IH]; cbn; [reflexivity|]. f_equal. exact IH. Qed.
Lemma castDepth_float h w c img pre ib post : im_buffer img = pre ++ ib :: post -> c = Z.of_nat (length pre) -> float_channel h w ib ->
  c < Z.of_nat (length (im_depths img)) -> castDepth c img = Ok img.
Proof.
  intros Hb Hc (Ht & _) Hd. unfold castDepth. rewrite Hb, (slice_at pre ib post) by exact Hc. cbn [obind]. rewrite (slice_get_ok (im_depths img) c 0) by lia. cbn [obind].
  unfold CastToFloatIfMax, IsFloat. rewrite Ht. cbn [TYPE_FLOAT Z.eqb Pos.eqb obind]. rewrite slice_set_at by exact Hc. cbn [obind]. unfold set_buffer. rewrite <- Hb. destruct img. reflexivity.
Qed.
Lemma loop2_inplace h w (f : Z -> Z) m : rect h w m ->
  loop2 h w (fun y x m => obind (get2 m (Z.of_nat y) (Z.of_nat x)) (fun v => set2 m (Z.of_nat y) (Z.of_nat x) (f v))) m = Ok (mat h w (fun y x => f (px m y x))).
Proof.
  intros Hm.
  set (done := fun (yy xx y x : nat) => ((y <? yy) || (y =? yy) && (x <? xx))%nat).
  destruct (loop2_inv (fun yy xx s => rect h w s /\ forall y x, (y < h)%nat -> (x < w)%nat -> px s y x = if done yy xx y x then f (px m y x) else px m y x)
    (fun y x m => obind (get2 m (Z.of_nat y) (Z.of_nat x)) (fun v => set2 m (Z.of_nat y) (Z.of_nat x) (f v))) h w m) as (s & E & R & V).
  - split; [exact Hm|]. intros y x _ _. unfold done. destruct y; reflexivity.
  - intros y x s Hy Hx [R V]. rewrite (get_px h w) by assumption. cbn [obind]. destruct (set2_ok h w s (Z.of_nat y) (Z.of_nat x) (f (px s y x)) R) as (s' & E & R' & V'); [lia..|].
    exists s'. split; [exact E|]. split; [exact R'|]. intros y' x' Hy' Hx'. rewrite V', !Nat2Z.id, !V by assumption. unfold done.
    destruct (Nat.eqb_spec y' y) as [->|N1]; cbn [andb].
    + rewrite !Nat.ltb_irrefl. cbn [orb]. destruct (Nat.eqb_spec x' x) as [->|N2].
      * rewrite ?Nat.ltb_irrefl, ?Nat.eqb_refl. cbn [andb]. destruct (Nat.ltb_spec x (S x)); [reflexivity|lia].
      * destruct (Nat.ltb_spec x' x), (Nat.ltb_spec x' (S x)); try lia; reflexivity.
    + reflexivity.
  - intros y s Hy [R V]. split; [exact R|]. intros y' x' Hy' Hx'. rewrite V by assumption. unfold done.
    destruct (Nat.eqb_spec y' y), (Nat.ltb_spec y' y), (Nat.ltb_spec y' (S y)), (Nat.ltb_spec x' w), (Nat.eqb_spec y' (S y)), (Nat.ltb_spec x' 0); try lia; reflexivity.
  - rewrite E. f_equal. apply (rect_ext h w); [exact R|apply rect_mat|]. intros y x Hy Hx. rewrite V, px_mat by assumption. unfold done.
    destruct (Nat.ltb_spec y h); [reflexivity|lia].
Qed.
Lemma transferChannel_ok h w f c img pre ib post : im_buffer img = pre ++ ib :: post -> c = Z.of_nat (length pre) -> float_channel h w ib ->
  im_h img = Z.of_nat h -> im_w img = Z.of_nat w -> transferChannel f c img = Ok (set_buffer img (pre ++ fIB h w f ib :: post)).
Proof.
  intros Hb Hc (Ht & _ & _ & R) Hh Hw. unfold transferChannel. rewrite Hb, (slice_at pre ib post) by exact Hc. cbn [obind]. rewrite Hh, Hw, !Nat2Z.id.
  rewrite loop2_inplace by exact R. cbn [obind]. rewrite slice_set_at by exact Hc. reflexivity.
Qed.
(* the first n channels are changed *)
Definition onFirst (n : nat) (g : ImageBuffer -> ImageBuffer) (l : list ImageBuffer) : list ImageBuffer := map g (firstn n l) ++ skipn n l.
Lemma transferInPlace_float h w f img (n := if im_encoding img =? CE_GRAY then 1%nat else 3%nat) :
  Forall (float_channel h w) (im_buffer img) -> im_h img = Z.of_nat h -> im_w img = Z.of_nat w -> (n <= length (im_buffer img))%nat -> (length (im_buffer img) <= length (im_depths img))%nat ->
  transferInPlace f img = Ok (set_buffer img (onFirst n (fIB h w f) (im_buffer img))).
Proof.
  intros Hl Hh Hw Hn Hd. unfold transferInPlace. fold n.
  assert (C : forall k i0, (i0 + k <= n)%nat -> oloop k i0 (fun c img => castDepth (Z.of_nat c) img) img = Ok img).
  { induction k as [|k IH]; intros i0 Hk; [reflexivity|]. cbn [oloop].
    destruct (nth_split (im_buffer img) ib0 (n := i0)) as (pre & post & E & L); [lia|].
    rewrite (castDepth_float h w _ img pre (nth i0 (im_buffer img) ib0) post); [|exact E|lia|rewrite Forall_forall in Hl; apply Hl, nth_In; lia|lia].
    cbn [obind]. apply IH. lia. }
  rewrite C by lia. cbn [obind].
  assert (T : forall k pre l, Forall (float_channel h w) l -> (k <= length l)%nat ->
    oloop k (length pre) (fun c img => transferChannel f (Z.of_nat c) img) (set_buffer img (pre ++ l)) = Ok (set_buffer img (pre ++ onFirst k (fIB h w f) l))).
  { induction k as [|k IH]; intros pre l Hl' Hk; [reflexivity|]. destruct l as [|ib l]; [cbn in Hk; lia|]. apply Forall_cons_iff in Hl' as [Hi Hl']. cbn [oloop].
    rewrite (transferChannel_ok h w f _ (set_buffer img (pre ++ ib :: l)) pre ib l) by (reflexivity || assumption). cbn [obind].
    change (set_buffer (set_buffer img (pre ++ ib :: l)) (pre ++ fIB h w f ib :: l)) with (set_buffer img (pre ++ fIB h w f ib :: l)).
    replace (pre ++ fIB h w f ib :: l) with ((pre ++ [fIB h w f ib]) ++ l) by (rewrite <- app_assoc; reflexivity).
    replace (S (length pre)) with (length (pre ++ [fIB h w f ib])) by (rewrite app_length; cbn [length]; lia).
    rewrite IH by (assumption || (cbn in Hk; lia)). rewrite <- app_assoc. reflexivity. }
  specialize (T n [] (im_buffer img) Hl Hn). cbn [length app] in T. rewrite <- T. f_equal. destruct img. reflexivity.
Qed.
Lemma onFirst_length n g l : length (onFirst n g l) = length l.
Proof. unfold onFirst. rewrite app_length, map_length, <- app_length, firstn_skipn. reflexivity. Qed.
Lemma onFirst_nth n g l c d : (c < length l)%nat -> nth c (onFirst n g l) d = if (c <? n)%nat then g (nth c l d) else nth c l d.
Proof.
  intros Hc. unfold onFirst. destruct (Nat.ltb_spec c n) as [H|H].
  - rewrite app_nth1 by (rewrite map_length, firstn_length; lia). rewrite (nth_indep _ d (g d)) by (rewrite map_length, firstn_length; lia).
    rewrite map_nth. f_equal. apply nth_firstn_lt. exact H.
  - rewrite app_nth2 by (rewrite map_length, firstn_length; lia). rewrite map_length, firstn_length, nth_skipn. f_equal. lia.
Qed.
Lemma onFirst_forall (P : ImageBuffer -> Prop) n g l : Forall P l -> (forall ib, P ib -> P (g ib)) -> Forall P (onFirst n g l).
Proof.
  intros Hl Hg. rewrite <- (firstn_skipn n l) in Hl. apply Forall_app in Hl as [H1 H2]. unfold onFirst. apply Forall_app. split; [|exact H2].
  rewrite Forall_map. eapply Forall_impl; [exact Hg|exact H1].
Qed.

(* ---- the steps of ToImage ---- *)
(* nothing is transferred: there is an ICC profile, or the image has the target
   primaries and transfer function already *)
Definition in_target (matches : bool) (img : JXLImage) : Prop := im_icc img <> [] \/ matches = true /\ im_transfer img = target img.
Lemma toTarget_same fl matches img : in_target matches img -> toTarget fl matches img = Ok img.
Proof.
  intros [H|[H1 H2]]; unfold toTarget.
  - destruct (im_icc img); [congruence|reflexivity].
  - destruct (_ =? 0)%nat; [|reflexivity]. unfold transform. rewrite H1. unfold transferImage. rewrite H2, Z.eqb_refl. reflexivity.
Qed.
Lemma target_not_linear img : (target img =? TF_LINEAR) = false.
Proof. unfold target. destruct (isHDR img); reflexivity. Qed.
Lemma toTarget_linear fl matches img f : im_icc img = [] -> im_transfer img = TF_LINEAR -> fl (target img) = Some f ->
  toTarget fl matches img = transferInPlace f img.
Proof.
  intros Hi Ht Hf. unfold toTarget. rewrite Hi. cbn [length Nat.eqb]. unfold transform.
  assert (L : linearize img = Ok img) by (unfold linearize; rewrite Ht, Z.eqb_refl; reflexivity).
  assert (T : transferImage fl (target img) PEAK_DETECT_AUTO img = transferInPlace f img).
  { unfold transferImage. rewrite Ht, target_not_linear, L. cbn [obind]. destruct (Z.eqb_spec (im_tagged img) TF_PQ) as [G|G]; [|cbn [andb obind]; rewrite Hf; reflexivity].
    assert (TP : target img = TF_PQ) by (unfold target, isHDR; rewrite G, Z.eqb_refl; reflexivity). rewrite TP in *. rewrite Hf. rewrite Z.eqb_refl. cbn [orb negb]. rewrite !andb_false_r. destruct (true && _); reflexivity. }
  rewrite L. cbn [obind]. rewrite T. destruct matches; reflexivity.
Qed.
Lemma toTarget_panic fl matches img : im_icc img = [] -> im_transfer img <> TF_LINEAR -> ~ (matches = true /\ im_transfer img = target img) ->
  toTarget fl matches img = Panic.
Proof.
  intros Hi Ht Hn. unfold toTarget. rewrite Hi. cbn [length Nat.eqb]. unfold transform, transferImage, linearize. destruct (Z.eqb_spec (im_transfer img) TF_LINEAR); [congruence|].
  destruct matches; [|reflexivity]. destruct (Z.eqb_spec (target img) (im_transfer img)); [exfalso; apply Hn; auto|reflexivity].
Qed.

Lemma u8_small v : 0 <= v <= 255 -> u8 v = v.
Proof. intros H. unfold u8. apply Z.mod_small. lia. Qed.

(* ---- copies ---- *)
Definition copyIB (ib : ImageBuffer) : ImageBuffer :=
  if IsInt ib then mkIB (ib_w ib) (ib_h ib) TYPE_INT [] (ib_int ib) else mkIB (ib_w ib) (ib_h ib) TYPE_FLOAT (ib_float ib) [].
Lemma copyBuffers_ok h w : Z.of_nat h <= 2 ^ 30 -> Z.of_nat w <= 2 ^ 30 -> forall l, Forall (fun ib => int_channel h w ib \/ float_channel h w ib) l -> copyBuffers l = Ok (map copyIB l).
Proof.
  intros Bh Bw. induction l as [|ib l IH]; intros Hl; [reflexivity|]. apply Forall_cons_iff in Hl as [Hi Hl]. cbn [copyBuffers map].
  pose proof (rect_zeros (Z.of_nat h) (Z.of_nat w)) as RZ. rewrite !Nat2Z.id in RZ.
  assert (G : forall m, rect h w m -> loop2 h w (fun y x m' => obind (get2 m (Z.of_nat y) (Z.of_nat x)) (fun v => set2 m' (Z.of_nat y) (Z.of_nat x) v)) (zeros2 (Z.of_nat h) (Z.of_nat w)) = Ok m).
  { intros m Hm. rewrite (loop2_map h w _ (px m)); [rewrite mat_px by exact Hm; reflexivity|exact RZ|]. intros y x Hy Hx. apply (get_px h w); assumption. }
  destruct Hi as [(Ht & Hh & Hw & R)|(Ht & Hh & Hw & R)]; unfold NewImageBuffer, copyIB at 1, IsInt; rewrite Ht, Hh, Hw; cbn [TYPE_INT TYPE_FLOAT Z.eqb Pos.eqb negb andb];
    (replace ((Z.of_nat h <? 0) || (2 ^ 30 <? Z.of_nat h) || (Z.of_nat w <? 0) || (2 ^ 30 <? Z.of_nat w)) with false by lia); rewrite make_ok by lia; cbn [obind ib_type ib_int ib_float ib_w ib_h TYPE_INT TYPE_FLOAT Z.eqb Pos.eqb];
    rewrite !Nat2Z.id, (G _ R); cbn [obind]; rewrite IH by exact Hl; reflexivity.
Qed.
