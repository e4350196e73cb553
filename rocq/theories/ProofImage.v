(* Lemmas about the image layer. *)
From Coq Require Import ZArith List Bool Lia Arith ZifyBool ZifyNat.
From Verif Require Import GoBase GoLoop GoMatrix GoFloat32 ProofCodes ModelImage SpecImage.
Import ListNotations.
Open Scope Z_scope.

(* Loops that write each cell of a region once *)
Lemma loop2_fill h w H W (g : nat -> nat -> Outcome Z) (fy fx : nat -> nat -> Z) (V : nat -> nat -> Z) m :
  rect H W m ->
  (forall y x, (y < h)%nat -> (x < w)%nat -> g y x = Ok (V y x) /\ 0 <= fy y x < Z.of_nat H /\ 0 <= fx y x < Z.of_nat W) ->
  (forall y x y' x', (y < h)%nat -> (x < w)%nat -> (y' < h)%nat -> (x' < w)%nat -> fy y x = fy y' x' -> fx y x = fx y' x' -> y = y' /\ x = x') ->
  exists m', loop2 h w (fun y x m => obind (g y x) (fun v => set2 m (fy y x) (fx y x) v)) m = Ok m' /\ rect H W m' /\
    (forall y x, (y < h)%nat -> (x < w)%nat -> px m' (Z.to_nat (fy y x)) (Z.to_nat (fx y x)) = V y x) /\
    (forall a b, (forall y x, (y < h)%nat -> (x < w)%nat -> ~ (a = Z.to_nat (fy y x) /\ b = Z.to_nat (fx y x))) -> px m' a b = px m a b).
Proof.
  intros Hm Hg Hinj.
  set (before := fun (y x : nat) (y0 x0 : nat) => (y0 < h)%nat /\ (x0 < w)%nat /\ ((y0 < y)%nat \/ y0 = y /\ (x0 < x)%nat)).
  set (P := fun y x m1 => rect H W m1 /\
     (forall y0 x0, before y x y0 x0 -> px m1 (Z.to_nat (fy y0 x0)) (Z.to_nat (fx y0 x0)) = V y0 x0) /\
     (forall a b, (forall y0 x0, before y x y0 x0 -> ~ (a = Z.to_nat (fy y0 x0) /\ b = Z.to_nat (fx y0 x0))) -> px m1 a b = px m a b)).
  destruct (loop2_inv P (fun y x m => obind (g y x) (fun v => set2 m (fy y x) (fx y x) v)) h w m) as (m' & E & (R & A & B)).
  - split; [exact Hm|]. split; [|reflexivity]. unfold before. intros. lia.
  - intros y x m1 Hy Hx (R & A & B). destruct (Hg y x Hy Hx) as (E & By & Bx). rewrite E. cbn [obind].
    destruct (set2_ok H W m1 (fy y x) (fx y x) (V y x) R By Bx) as (m2 & E2 & R2 & N2). exists m2. split; [exact E2|].
    split; [exact R2|]. split.
    + intros y0 x0 (H1 & H2 & H3). rewrite N2.
      destruct ((Z.to_nat (fy y0 x0) =? Z.to_nat (fy y x))%nat && (Z.to_nat (fx y0 x0) =? Z.to_nat (fx y x))%nat) eqn:Eb.
      * apply andb_prop in Eb as [E3 E4]. apply Nat.eqb_eq in E3, E4.
        destruct (Hg y0 x0 H1 H2) as (_ & By0 & Bx0).
        destruct (Hinj y0 x0 y x) as [Ey Ex]; try assumption; try lia. subst. reflexivity.
      * apply A. split; [exact H1|]. split; [exact H2|].
        destruct H3 as [H3|[H3 H4]]; [lia|]. subst y0. destruct (Nat.eq_dec x0 x) as [->|]; [|lia].
        rewrite !Nat.eqb_refl in Eb. discriminate.
    + intros a b Hab. rewrite N2.
      destruct ((a =? Z.to_nat (fy y x))%nat && (b =? Z.to_nat (fx y x))%nat) eqn:Eb.
      * apply andb_prop in Eb as [E3 E4]. apply Nat.eqb_eq in E3, E4. exfalso. apply (Hab y x); [|tauto].
        unfold before. lia.
      * apply B. intros y0 x0 (H1 & H2 & H3). apply Hab. unfold before. lia.
  - intros y m1 Hy (R & A & B). split; [exact R|]. split.
    + intros y0 x0 (H1 & H2 & H3). apply A. unfold before. lia.
    + intros a b Hab. apply B. intros y0 x0 (H1 & H2 & H3). apply Hab. unfold before. lia.
  - exists m'. split; [exact E|]. split; [exact R|]. split.
    + intros y x Hy Hx. apply A. unfold before. lia.
    + intros a b Hab. apply B. intros y0 x0 (H1 & H2 & _). apply Hab; assumption.
Qed.

(* pointwise maps *)
Lemma loop2_map h w (g : nat -> nat -> Outcome Z) V m :
  rect h w m -> (forall y x, (y < h)%nat -> (x < w)%nat -> g y x = Ok (V y x)) ->
  loop2 h w (fun y x m => obind (g y x) (fun v => set2 m (Z.of_nat y) (Z.of_nat x) v)) m = Ok (mat h w V).
Proof.
  intros Hm Hg.
  destruct (loop2_fill h w h w g (fun y x => Z.of_nat y) (fun y x => Z.of_nat x) V m Hm) as (m' & E & R & A & _).
  - intros y x Hy Hx. rewrite Hg by assumption. split; [reflexivity|lia].
  - intros. lia.
  - rewrite E. f_equal. apply (rect_ext h w); [exact R|apply rect_mat|]. intros y x Hy Hx. rewrite px_mat by assumption.
    rewrite <- (A y x Hy Hx). rewrite !Nat2Z.id. reflexivity.
Qed.

Lemma make_ok h w : 0 <= h -> 0 <= w -> MakeMatrix2D h w = Ok (zeros2 h w).
Proof. intros. unfold MakeMatrix2D. destruct (h <? 0) eqn:E; [lia|]. destruct ((0 <? h) && (w <? 0)) eqn:E2; [lia|]. reflexivity. Qed.
Lemma zeros_rect h w : 0 <= h -> 0 <= w -> rect (Z.to_nat h) (Z.to_nat w) (zeros2 h w).
Proof. intros. apply rect_zeros. Qed.

Lemma gocopy_zero l : gocopy (repeat 0 (length l)) l = l.
Proof. unfold gocopy. rewrite repeat_length, firstn_all, skipn_all2 by (rewrite repeat_length; lia). apply app_nil_r. Qed.
Lemma copyMatrix_id m : copyMatrix m = m.
Proof. unfold copyMatrix. induction m as [|r m IH]; cbn [map]; [reflexivity|]. rewrite gocopy_zero, IH. reflexivity. Qed.
Lemma gocopy_same a b : length a = length b -> gocopy a b = b.
Proof. intros H. unfold gocopy. rewrite H, firstn_all, skipn_all2 by lia. apply app_nil_r. Qed.

(* ---- orientation ---- *)
Lemma permute_ok h w H W fy fx src dest (s : nat -> nat -> nat * nat) :
  rect h w src -> rect H W dest ->
  (forall y x, (y < h)%nat -> (x < w)%nat ->
     fy (Z.of_nat y) (Z.of_nat x) = Z.of_nat (fst (s y x)) /\ fx (Z.of_nat y) (Z.of_nat x) = Z.of_nat (snd (s y x)) /\
     (fst (s y x) < H)%nat /\ (snd (s y x) < W)%nat) ->
  (forall y x y' x', (y < h)%nat -> (x < w)%nat -> (y' < h)%nat -> (x' < w)%nat -> s y x = s y' x' -> y = y' /\ x = x') ->
  exists d, permuteLoop (Z.of_nat h) (Z.of_nat w) fy fx src dest = Ok d /\ rect H W d /\
    forall y x, (y < h)%nat -> (x < w)%nat -> px d (fst (s y x)) (snd (s y x)) = px src y x.
Proof.
  intros Hs Hd Hf Hinj. unfold permuteLoop. rewrite !Nat2Z.id.
  destruct (loop2_fill h w H W (fun y x => get2 src (Z.of_nat y) (Z.of_nat x))
              (fun y x => fy (Z.of_nat y) (Z.of_nat x)) (fun y x => fx (Z.of_nat y) (Z.of_nat x)) (px src) dest Hd) as (d & E & R & A & _).
  - intros y x Hy Hx. destruct (Hf y x Hy Hx) as (-> & -> & B1 & B2). rewrite (get2_ok h w) by (assumption || lia).
    rewrite !Nat2Z.id. split; [reflexivity|lia].
  - intros y x y' x' Hy Hx Hy' Hx' E1 E2. destruct (Hf y x Hy Hx) as (F1 & F2 & _). destruct (Hf y' x' Hy' Hx') as (F3 & F4 & _).
    apply Hinj; try assumption. destruct (s y x), (s y' x'). cbn [fst snd] in *. f_equal; lia.
  - exists d. split; [exact E|]. split; [exact R|]. intros y x Hy Hx. destruct (Hf y x Hy Hx) as (F1 & F2 & _).
    rewrite <- (A y x Hy Hx), F1, F2, !Nat2Z.id. reflexivity.
Qed.

Definition orientation_of k := 1 <= k <= 8.
Lemma seen_in k h w r c : orientation_of k -> (r < h)%nat -> (c < w)%nat ->
  (fst (seen_at k h w r c) < fst (seen_size k h w))%nat /\ (snd (seen_at k h w r c) < snd (seen_size k h w))%nat.
Proof.
  intros Hk Hr Hc. unfold orientation_of in Hk.
  assert (D : k = 1 \/ k = 2 \/ k = 3 \/ k = 4 \/ k = 5 \/ k = 6 \/ k = 7 \/ k = 8) by lia.
  destruct D as [->|[->|[->|[->|[->|[->|[->| ->]]]]]]]; cbn; lia.
Qed.
Lemma seen_inj k h w r c r' c' : orientation_of k -> (r < h)%nat -> (c < w)%nat -> (r' < h)%nat -> (c' < w)%nat ->
  seen_at k h w r c = seen_at k h w r' c' -> r = r' /\ c = c'.
Proof.
  intros Hk Hr Hc Hr' Hc'. unfold orientation_of in Hk.
  assert (D : k = 1 \/ k = 2 \/ k = 3 \/ k = 4 \/ k = 5 \/ k = 6 \/ k = 7 \/ k = 8) by lia.
  destruct D as [->|[->|[->|[->|[->|[->|[->| ->]]]]]]]; cbn; intros E; injection E; lia.
Qed.
(* applying k and then its inverse *)
Lemma seen_inverse k h w r c : orientation_of k -> (r < h)%nat -> (c < w)%nat ->
  let '(H, W) := seen_size k h w in let '(y, x) := seen_at k h w r c in
  seen_size (exif_inverse k) H W = (h, w) /\ seen_at (exif_inverse k) H W y x = (r, c).
Proof.
  intros Hk Hr Hc. unfold orientation_of in Hk.
  assert (D : k = 1 \/ k = 2 \/ k = 3 \/ k = 4 \/ k = 5 \/ k = 6 \/ k = 7 \/ k = 8) by lia.
  destruct D as [->|[->|[->|[->|[->|[->|[->| ->]]]]]]]; cbn; split; try reflexivity; f_equal; lia.
Qed.
Lemma seen_surj k h w y x : orientation_of k -> (y < fst (seen_size k h w))%nat -> (x < snd (seen_size k h w))%nat ->
  exists r c, (r < h)%nat /\ (c < w)%nat /\ seen_at k h w r c = (y, x).
Proof.
  intros Hk. unfold orientation_of in Hk.
  assert (D : k = 1 \/ k = 2 \/ k = 3 \/ k = 4 \/ k = 5 \/ k = 6 \/ k = 7 \/ k = 8) by lia.
  destruct D as [->|[->|[->|[->|[->|[->|[->| ->]]]]]]]; cbn; intros Hy Hx.
  - exists y, x. repeat split; lia || reflexivity.
  - exists y, (w - 1 - x)%nat. repeat split; try lia. f_equal; lia.
  - exists (h - 1 - y)%nat, (w - 1 - x)%nat. repeat split; try lia. f_equal; lia.
  - exists (h - 1 - y)%nat, x. repeat split; try lia. f_equal; lia.
  - exists x, y. repeat split; try lia.
  - exists (h - 1 - x)%nat, y. repeat split; try lia. f_equal; lia.
  - exists (h - 1 - x)%nat, (w - 1 - y)%nat. repeat split; try lia. f_equal; lia.
  - exists x, (w - 1 - y)%nat. repeat split; try lia. f_equal; lia.
Qed.

(* orientation 4 copies rows *)
Lemma flip_rows h w src dest : rect h w src -> rect h w dest ->
  exists d, oloop (length src) 0 (fun y d =>
      obind (slice_get d (Z.of_nat h - 1 - Z.of_nat y)) (fun dr =>
      obind (slice_get src (Z.of_nat y)) (fun sr =>
      slice_set d (Z.of_nat h - 1 - Z.of_nat y) (gocopy dr sr)))) dest = Ok d /\ rect h w d /\
    forall y x, (y < h)%nat -> (x < w)%nat -> px d (h - 1 - y)%nat x = px src y x.
Proof.
  intros Hs Hd. destruct (Hs) as [Ls _]. rewrite Ls.
  destruct (oloop_inv (fun i d => rect h w d /\ forall y, (y < i)%nat -> nth (h - 1 - y) d [] = nth y src [])
    (fun y d => obind (slice_get d (Z.of_nat h - 1 - Z.of_nat y)) (fun dr => obind (slice_get src (Z.of_nat y)) (fun sr => slice_set d (Z.of_nat h - 1 - Z.of_nat y) (gocopy dr sr)))) h 0 dest) as (d & E & R & A).
  - split; [exact Hd|]. intros; lia.
  - intros i d Hi (R & A). destruct (R) as [Ld _]. rewrite (slice_get_ok d _ []) by lia. cbn [obind].
    rewrite (slice_get_ok src _ []) by lia. cbn [obind]. rewrite slice_set_ok by lia. eexists. split; [reflexivity|].
    replace (Z.to_nat (Z.of_nat h - 1 - Z.of_nat i)) with (h - 1 - i)%nat by lia. rewrite Nat2Z.id.
    rewrite gocopy_same by (rewrite (rect_row h w d), (rect_row h w src) by (assumption || lia); reflexivity).
    split.
    + split; [rewrite list_set_length; exact Ld|]. apply Forall_forall. intros r Hr. apply list_set_In in Hr as [->|Hr].
      * apply (rect_row h w); [exact Hs|lia].
      * destruct R as [_ R]. rewrite Forall_forall in R. auto.
    + intros y Hy. rewrite nth_list_set by lia. destruct (Nat.eqb_spec (h - 1 - y) (h - 1 - i)) as [E|E].
      * replace y with i by lia. reflexivity.
      * apply A. lia.
  - exists d. split; [exact E|]. split; [exact R|]. intros y x Hy Hx. unfold px. rewrite A by lia. reflexivity.
Qed.

Lemma transposeMatrix_ok k h w src : orientation_of k -> rect h w src -> (0 < h)%nat ->
  exists d, transposeMatrix src k = Ok d /\ rect (fst (seen_size k h w)) (snd (seen_size k h w)) d /\
    forall r c, (r < h)%nat -> (c < w)%nat ->
      px d (fst (seen_at k h w r c)) (snd (seen_at k h w r c)) = px src r c.
Proof.
  intros Hk Hs Hh. pose proof (rect_row h w src 0 Hs Hh) as L0. destruct (Hs) as [Ls _]. unfold transposeMatrix.
  rewrite (slice_get_ok src 0 []) by lia. cbn [obind]. change (Z.to_nat 0) with 0%nat. rewrite L0, Ls.
  pose proof (rect_zeros (Z.of_nat h) (Z.of_nat w)) as Z1. pose proof (rect_zeros (Z.of_nat w) (Z.of_nat h)) as Z2.
  rewrite !Nat2Z.id in Z1, Z2. unfold orientation_of in Hk.
  assert (D : k = 1 \/ k = 2 \/ k = 3 \/ k = 4 \/ k = 5 \/ k = 6 \/ k = 7 \/ k = 8) by lia.
  destruct D as [->|D].
  { exists src. split; [reflexivity|]. split; [exact Hs|]. intros; reflexivity. }
  destruct D as [->|[->|[->|D]]].
  - cbn [Z.eqb Z.ltb Z.compare Pos.eqb Pos.compare Pos.compare_cont].
    apply (permute_ok h w h w _ _ src _ (seen_at 2 h w) Hs Z1); [|intros *; apply seen_inj; unfold orientation_of; lia].
    intros y x Hy Hx. cbn. lia.
  - cbn [Z.eqb Z.ltb Z.compare Pos.eqb Pos.compare Pos.compare_cont].
    apply (permute_ok h w h w _ _ src _ (seen_at 3 h w) Hs Z1); [|intros *; apply seen_inj; unfold orientation_of; lia].
    intros y x Hy Hx. cbn. lia.
  - cbn [Z.eqb Z.ltb Z.compare Pos.eqb Pos.compare Pos.compare_cont].
    destruct (flip_rows h w src _ Hs Z1) as (d & E & R & A). rewrite Ls in E. exists d. split; [exact E|]. split; [exact R|].
    intros r c Hr Hc. cbn. apply A; assumption.
  - destruct D as [->|[->|[->| ->]]]; cbn [Z.eqb Z.ltb Z.compare Pos.eqb Pos.compare Pos.compare_cont].
    + apply (permute_ok h w w h _ _ src _ (seen_at 5 h w) Hs Z2); [|intros *; apply seen_inj; unfold orientation_of; lia].
      intros y x Hy Hx. cbn. lia.
    + apply (permute_ok h w w h _ _ src _ (seen_at 6 h w) Hs Z2); [|intros *; apply seen_inj; unfold orientation_of; lia].
      intros y x Hy Hx. cbn. lia.
    + apply (permute_ok h w w h _ _ src _ (seen_at 7 h w) Hs Z2); [|intros *; apply seen_inj; unfold orientation_of; lia].
      intros y x Hy Hx. cbn. lia.
    + apply (permute_ok h w w h _ _ src _ (seen_at 8 h w) Hs Z2); [|intros *; apply seen_inj; unfold orientation_of; lia].
      intros y x Hy Hx. cbn. lia.
Qed.
Lemma transpose_bad k h w src : ~ orientation_of k -> rect h w src -> (0 < h)%nat -> transposeMatrix src k = Err.
Proof.
  intros Hk Hs Hh. destruct (Hs) as [Ls _]. unfold transposeMatrix. rewrite (slice_get_ok src 0 []) by lia. cbn [obind].
  unfold orientation_of in Hk. repeat (destruct (k =? _) eqn:?E; [lia|]; clear E). reflexivity.
Qed.

(* ---- conversions ---- *)
Definition clampv (mx v : Z) : Z := if v <? 0 then 0 else if mx <? v then mx else v.
Lemma clampv_clamped mx v : 0 <= mx -> clampv mx v = clamped mx v.
Proof. intros. unfold clampv, clamped. destruct (v <? 0) eqn:E1; destruct (mx <? v) eqn:E2; lia. Qed.
(* an int (float) channel of h rows and w columns *)
Definition int_channel (h w : nat) (ib : ImageBuffer) : Prop :=
  ib_type ib = TYPE_INT /\ ib_h ib = Z.of_nat h /\ ib_w ib = Z.of_nat w /\ rect h w (ib_int ib).
Definition float_channel (h w : nat) (ib : ImageBuffer) : Prop :=
  ib_type ib = TYPE_FLOAT /\ ib_h ib = Z.of_nat h /\ ib_w ib = Z.of_nat w /\ rect h w (ib_float ib).

Lemma get_px h w m y x : rect h w m -> (y < h)%nat -> (x < w)%nat -> get2 m (Z.of_nat y) (Z.of_nat x) = Ok (px m y x).
Proof. intros Hm Hy Hx. rewrite (get2_ok h w) by (assumption || lia). rewrite !Nat2Z.id. reflexivity. Qed.

Lemma Clamp_ok h w ib mx : int_channel h w ib ->
  Clamp ib mx = Ok (mkIB (ib_w ib) (ib_h ib) (ib_type ib) (ib_float ib) (mat h w (fun y x => clampv mx (px (ib_int ib) y x)))).
Proof.
  intros (Ht & Hh & Hw & Hr). unfold Clamp, IsFloat. rewrite Ht. cbn [TYPE_INT TYPE_FLOAT Z.eqb].
  rewrite Hh, Hw. rewrite make_ok by lia. cbn [obind]. rewrite !Nat2Z.id.
  pose proof (rect_zeros (Z.of_nat h) (Z.of_nat w)) as Z1. rewrite !Nat2Z.id in Z1.
  assert (L : loop2 h w (fun y x buf => obind (obind (get2 (ib_int ib) (Z.of_nat y) (Z.of_nat x)) (fun v => Ok (clampv mx v)))
              (fun v => set2 buf (Z.of_nat y) (Z.of_nat x) v)) (zeros2 (Z.of_nat h) (Z.of_nat w)) =
              Ok (mat h w (fun y x => clampv mx (px (ib_int ib) y x)))).
  { apply loop2_map; [exact Z1|]. intros y x Hy Hx. rewrite (get_px h w) by assumption. reflexivity. }
  match goal with |- obind (loop2 h w ?f _) _ = _ => replace (loop2 h w f (zeros2 (Z.of_nat h) (Z.of_nat w))) with (Ok (mat h w (fun y x => clampv mx (px (ib_int ib) y x)))) end.
  - reflexivity.
  - rewrite <- L. apply oloop_ext. intros y s Hy. apply oloop_ext. intros x s' Hx. rewrite (get_px h w) by (assumption || lia). reflexivity.
Qed.

Lemma castFloat_ok h w ib mx : int_channel h w ib -> 1 <= mx ->
  CastToFloatIfMax ib mx = Ok (mkIB (ib_w ib) (ib_h ib) TYPE_FLOAT
    (mat h w (fun y x => f_mul (f_of_int (px (ib_int ib) y x)) (f_div F_ONE (f_of_int mx)))) (ib_int ib)).
Proof.
  intros (Ht & Hh & Hw & Hr) Hm. unfold CastToFloatIfMax, castToFloatBuffer, IsFloat. rewrite Ht. cbn [TYPE_INT TYPE_FLOAT Z.eqb].
  destruct (mx <? 1) eqn:E; [lia|]. clear E. rewrite Hh, Hw. rewrite make_ok by lia. cbn [obind]. rewrite !Nat2Z.id.
  pose proof (rect_zeros (Z.of_nat h) (Z.of_nat w)) as Z1. rewrite !Nat2Z.id in Z1.
  set (V := fun y x => f_mul (f_of_int (px (ib_int ib) y x)) (f_div F_ONE (f_of_int mx))).
  pose proof (loop2_map h w (fun y x => Ok (V y x)) V _ Z1 ltac:(reflexivity)) as L.
  match goal with |- obind (loop2 h w ?f _) _ = _ => replace (loop2 h w f (zeros2 (Z.of_nat h) (Z.of_nat w))) with (Ok (mat h w V)) end.
  - reflexivity.
  - rewrite <- L. apply oloop_ext. intros y s Hy. apply oloop_ext. intros x s' Hx. rewrite (get_px h w) by (assumption || lia). reflexivity.
Qed.

Definition toInt (mx f : Z) : Z := clampv mx (f_to_i32 (f_add (f_mul f (f_of_int mx)) F_HALF)).
Lemma castInt_ok h w ib mx : float_channel h w ib -> 1 <= mx ->
  CastToIntIfMax ib mx = Ok (mkIB (ib_w ib) (ib_h ib) TYPE_INT (ib_float ib) (mat h w (fun y x => toInt mx (px (ib_float ib) y x)))).
Proof.
  intros (Ht & Hh & Hw & Hr) Hm. unfold CastToIntIfMax, castToIntBuffer, IsInt. rewrite Ht. cbn [TYPE_INT TYPE_FLOAT Z.eqb].
  destruct (mx <? 1) eqn:E; [lia|]. clear E. rewrite Hh, Hw. rewrite make_ok by lia. cbn [obind]. rewrite !Nat2Z.id.
  pose proof (rect_zeros (Z.of_nat h) (Z.of_nat w)) as Z1. rewrite !Nat2Z.id in Z1.
  set (V := fun y x => toInt mx (px (ib_float ib) y x)).
  pose proof (loop2_map h w (fun y x => Ok (V y x)) V _ Z1 ltac:(reflexivity)) as L.
  match goal with |- obind (loop2 h w ?f _) _ = _ => replace (loop2 h w f (zeros2 (Z.of_nat h) (Z.of_nat w))) with (Ok (mat h w V)) end.
  - reflexivity.
  - rewrite <- L. apply oloop_ext. intros y s Hy. apply oloop_ext. intros x s' Hx. rewrite (get_px h w) by (assumption || lia). reflexivity.
Qed.
Lemma toInt_range mx f : 0 <= mx -> 0 <= toInt mx f <= mx.
Proof. intros. unfold toInt. rewrite clampv_clamped by assumption. unfold clamped. lia. Qed.
Lemma toInt_roundtrip v mx : 0 <= v <= mx -> 1 <= mx <= 2 ^ 20 -> toInt mx (f_mul (f_of_int v) (f_div F_ONE (f_of_int mx))) = v.
Proof. intros Hv Hm. unfold toInt. rewrite scale_roundtrip by assumption. unfold clampv. destruct (v <? 0) eqn:E1; [lia|]. destruct (mx <? v) eqn:E2; lia. Qed.

(* ---- blending ---- *)
(* region limits used by all lemmas *)
Definition blend_sizes (ox oy fw fh iw ih : Z) : Prop :=
  - 2 ^ 30 <= ox <= 2 ^ 30 /\ - 2 ^ 30 <= oy <= 2 ^ 30 /\ 0 <= fw < 2 ^ 30 /\ 0 <= fh < 2 ^ 30 /\ 0 <= iw <= 2 ^ 30 /\ 0 <= ih <= 2 ^ 30.
(* the offsets that the code handles *)
Definition good_origin (ox oy : Z) : Prop := 0 <= ox /\ 0 <= oy \/ ox < 0 /\ oy <= 0.
Lemma region_ok ox oy fw fh iw ih : blend_sizes ox oy fw fh iw ih -> good_origin ox oy ->
  blendRegion ox oy fw fh iw ih =
    mkRg (Z.max 0 oy) (Z.max 0 ox) (Z.max 0 (- oy)) (Z.max 0 (- ox)) (Z.min (oy + fh) ih - Z.max 0 oy) (Z.min (ox + fw) iw - Z.max 0 ox).
Proof.
  intros (H1 & H2 & H3 & H4 & H5 & H6) Hg. unfold blendRegion. change (2 ^ 30) with 1073741824 in *.
  assert (E1 : (if 0 <=? ox then oy else 0) = Z.max 0 oy) by (unfold good_origin in Hg; destruct (0 <=? ox) eqn:E; lia).
  assert (E2 : (if 0 <=? ox then ox else 0) = Z.max 0 ox) by (destruct (0 <=? ox) eqn:E; lia).
  rewrite E1, E2. rewrite (i32_small fw), (i32_small fh), (i32_small iw), (i32_small ih) by lia.
  rewrite (i32_small (ox + fw)), (i32_small (oy + fh)) by lia. rewrite !i32_small by lia. f_equal; lia.
Qed.

Lemma coveredb_spec oy ox fh fw y x : coveredb oy ox fh fw y x = true <-> covered oy ox fh fw y x.
Proof. unfold coveredb, covered. lia. Qed.

Lemma blendLoop_ok ox oy fw fh iw ih pixel V canvas :
  blend_sizes ox oy fw fh (Z.of_nat iw) (Z.of_nat ih) -> good_origin ox oy -> rect ih iw canvas ->
  (forall y x, (y < ih)%nat -> (x < iw)%nat -> covered oy ox fh fw y x ->
     pixel (Z.of_nat y) (Z.of_nat x) (Z.of_nat y - oy) (Z.of_nat x - ox) = Ok (V y x)) ->
  blendLoop (blendRegion ox oy fw fh (Z.of_nat iw) (Z.of_nat ih)) pixel canvas =
    Ok (mat ih iw (fun y x => if coveredb oy ox fh fw y x then V y x else px canvas y x)).
Proof.
  intros Hs Hg Hc HV. rewrite (region_ok _ _ _ _ _ _ Hs Hg). destruct Hs as (H1 & H2 & H3 & H4 & H5 & H6).
  change (2 ^ 30) with 1073741824 in *. unfold blendLoop. cbn [rg_h rg_w rg_startY rg_startX rg_offY rg_offX].
  set (h := Z.to_nat (Z.min (oy + fh) (Z.of_nat ih) - Z.max 0 oy)). set (w := Z.to_nat (Z.min (ox + fw) (Z.of_nat iw) - Z.max 0 ox)).
  assert (Hh : forall y, (y < h)%nat -> Z.of_nat y + Z.max 0 oy < Z.of_nat ih /\ Z.of_nat y + Z.max 0 oy < oy + fh) by (unfold h; lia).
  assert (Hw : forall x, (x < w)%nat -> Z.of_nat x + Z.max 0 ox < Z.of_nat iw /\ Z.of_nat x + Z.max 0 ox < ox + fw) by (unfold w; lia).
  destruct (loop2_fill h w ih iw
     (fun y x => pixel (i32 (Z.of_nat y + Z.max 0 oy)) (i32 (Z.of_nat x + Z.max 0 ox)) (i32 (Z.of_nat y + Z.max 0 (- oy))) (i32 (Z.of_nat x + Z.max 0 (- ox))))
     (fun y x => i32 (Z.of_nat y + Z.max 0 oy)) (fun y x => i32 (Z.of_nat x + Z.max 0 ox))
     (fun y x => V (Z.to_nat (Z.of_nat y + Z.max 0 oy)) (Z.to_nat (Z.of_nat x + Z.max 0 ox))) canvas Hc) as (m & E & R & A & B).
  - intros y x Hy Hx. specialize (Hh y Hy). specialize (Hw x Hx). rewrite !i32_small by lia. split; [|lia].
    rewrite <- HV; [f_equal; lia| | |unfold covered]; lia.
  - intros y x y' x' Hy Hx Hy' Hx'. pose proof (Hh y Hy). pose proof (Hh y' Hy'). pose proof (Hw x Hx). pose proof (Hw x' Hx').
    rewrite !i32_small by lia. lia.
  - rewrite E. f_equal. apply (rect_ext ih iw); [exact R|apply rect_mat|]. intros y x Hy Hx. rewrite px_mat by assumption.
    destruct (coveredb oy ox fh fw y x) eqn:Ec.
    + unfold coveredb in Ec. assert (Hy' : (Z.to_nat (Z.of_nat y - Z.max 0 oy) < h)%nat) by (unfold h; lia).
      assert (Hx' : (Z.to_nat (Z.of_nat x - Z.max 0 ox) < w)%nat) by (unfold w; lia).
      specialize (A _ _ Hy' Hx'). cbv beta in A. rewrite !i32_small in A by lia.
      replace (Z.to_nat (Z.of_nat (Z.to_nat (Z.of_nat y - Z.max 0 oy)) + Z.max 0 oy)) with y in A by lia.
      replace (Z.to_nat (Z.of_nat (Z.to_nat (Z.of_nat x - Z.max 0 ox)) + Z.max 0 ox)) with x in A by lia. exact A.
    + apply B. intros y' x' Hy' Hx' [-> ->]. specialize (Hh y' Hy'). specialize (Hw x' Hx').
      clear - Ec Hh Hw H1 H2 H5 H6. rewrite !i32_small in Ec by lia. unfold coveredb in Ec. lia.
Qed.

(* one row of copyToCanvas *)
Lemma skipn_add {A} a b (l : list A) : skipn a (skipn b l) = skipn (b + a) l.
Proof. revert l. induction b as [|b IH]; intros [|x l]; cbn [skipn Nat.add]; auto. apply skipn_nil. Qed.
Lemma nth_skipn {A} n (l : list A) i d : nth i (skipn n l) d = nth (n + i) l d.
Proof. revert l. induction n as [|n IH]; intros [|a l]; cbn; auto. destruct i; reflexivity. Qed.
Lemma nth_firstn_lt {A} n (l : list A) i d : (i < n)%nat -> nth i (firstn n l) d = nth i l d.
Proof. revert l i. induction n as [|n IH]; intros [|a l] [|i] H; cbn; auto; try lia. apply IH. lia. Qed.
Lemma row_splice row src lo x : (lo + length src <= length row)%nat ->
  nth x (firstn lo row ++ gocopy (skipn lo row) src) 0 =
  (if (lo <=? x)%nat && (x <? lo + length src)%nat then nth (x - lo) src 0 else nth x row 0).
Proof.
  intros H. unfold gocopy. assert (Ls : length (skipn lo row) = (length row - lo)%nat) by apply skipn_length.
  rewrite (firstn_all2 src) by lia. rewrite skipn_add.
  destruct (lo <=? x)%nat eqn:E1; cbn [andb].
  - rewrite app_nth2 by (rewrite firstn_length; lia). rewrite firstn_length, Nat.min_l by lia.
    destruct (x <? lo + length src)%nat eqn:E2.
    + rewrite app_nth1 by lia. reflexivity.
    + rewrite app_nth2 by lia. rewrite nth_skipn. f_equal. lia.
  - rewrite app_nth1 by (rewrite firstn_length; lia). apply nth_firstn_lt. lia.
Qed.
Lemma row_splice_length row src lo : (lo + length src <= length row)%nat ->
  length (firstn lo row ++ gocopy (skipn lo row) src) = length row.
Proof.
  intros H. unfold gocopy. rewrite !app_length, !firstn_length, !skipn_length. lia.
Qed.

Lemma subslice_ok row lo hi : 0 <= lo <= hi -> hi <= Z.of_nat (length row) ->
  subslice row lo hi = Ok (firstn (Z.to_nat (hi - lo)) (skipn (Z.to_nat lo) row)).
Proof. intros. unfold subslice. destruct (lo <? 0) eqn:E1; [lia|]. destruct (hi <? lo) eqn:E2; [lia|]. destruct (_ <? hi) eqn:E3; [lia|]. reflexivity. Qed.

Lemma copyToCanvas_ok ox oy fw fh iw ih FH FW canvas frame :
  blend_sizes ox oy fw fh (Z.of_nat iw) (Z.of_nat ih) -> good_origin ox oy -> rect ih iw canvas ->
  rect FH FW frame -> fh <= Z.of_nat FH -> fw <= Z.of_nat FW ->
  oy <= Z.of_nat ih -> ox <= Z.of_nat iw -> 0 <= oy + fh -> 0 <= ox + fw ->
  copyToCanvas (blendRegion ox oy fw fh (Z.of_nat iw) (Z.of_nat ih)) canvas frame =
    Ok (mat ih iw (fun y x => if coveredb oy ox fh fw y x then px frame (Z.to_nat (Z.of_nat y - oy)) (Z.to_nat (Z.of_nat x - ox)) else px canvas y x)).
Proof.
  intros Hs Hg Hc Hf HFH HFW Hoy Hox Hy0 Hx0. rewrite (region_ok _ _ _ _ _ _ Hs Hg). destruct Hs as (H1 & H2 & H3 & H4 & H5 & H6).
  change (2 ^ 30) with 1073741824 in *. unfold copyToCanvas. cbn [rg_h rg_w rg_startY rg_startX rg_offY rg_offX].
  set (h := Z.min (oy + fh) (Z.of_nat ih) - Z.max 0 oy). set (w := Z.min (ox + fw) (Z.of_nat iw) - Z.max 0 ox).
  assert (Hh : 0 <= h <= 1073741824) by (unfold h; lia). assert (Hw : 0 <= w <= 1073741824) by (unfold w; lia).
  rewrite (u32_small h) by lia.
  match goal with |- oloop ?n 0 ?f canvas = _ =>
    destruct (oloop_inv (fun i cv => rect ih iw cv /\ forall y x, (y < ih)%nat -> (x < iw)%nat ->
       px cv y x = if coveredb oy ox fh fw y x && (Z.of_nat y <? Z.max 0 oy + Z.of_nat i) then px frame (Z.to_nat (Z.of_nat y - oy)) (Z.to_nat (Z.of_nat x - ox)) else px canvas y x)
      f n 0 canvas) as (m & E & R & A) end.
  - split; [exact Hc|]. intros y x Hy Hx. destruct (coveredb oy ox fh fw y x) eqn:Ec; cbn [andb]; [|reflexivity].
    unfold coveredb in Ec. destruct (Z.of_nat y <? Z.max 0 oy + Z.of_nat 0) eqn:E; [clear - Ec E; lia|reflexivity].
  - intros i cv Hi (R & A). assert (Bi : Z.of_nat i < h) by lia.
    rewrite (u32_small (Z.max 0 oy)), (u32_small (Z.max 0 (- oy))), (u32_small (Z.max 0 (- ox))), (u32_small w) by lia.
    rewrite !u32_small by lia.
    set (cy := Z.of_nat i + Z.max 0 oy). set (fy := Z.of_nat i + Z.max 0 (- oy)).
    assert (Bcy : 0 <= cy < Z.of_nat ih) by (unfold cy, h in *; lia).
    assert (Bfy : 0 <= fy < Z.of_nat FH) by (unfold fy, h in *; lia).
    destruct (R) as [Lcv Rcv]. destruct (Hf) as [Lf _].
    rewrite (slice_get_ok cv cy []) by lia. cbn [obind].
    set (crow := nth (Z.to_nat cy) cv []). assert (Lc : length crow = iw) by (apply (rect_row ih iw); [exact R|lia]).
    rewrite subslice_ok by (rewrite Lc; lia). cbn [obind].
    rewrite (slice_get_ok frame fy []) by lia. cbn [obind].
    set (frow := nth (Z.to_nat fy) frame []). assert (Lr : length frow = FW) by (apply (rect_row FH FW); [exact Hf|lia]).
    rewrite subslice_ok by (rewrite ?Lr; unfold w in *; lia). cbn [obind].
    replace (Z.to_nat (Z.max 0 (- ox) + w - Z.max 0 (- ox))) with (Z.to_nat w) by lia.
    rewrite Lc. rewrite (firstn_all2 (skipn (Z.to_nat (Z.max 0 ox)) crow)) by (rewrite skipn_length; lia).
    set (src := firstn (Z.to_nat w) (skipn (Z.to_nat (Z.max 0 (- ox))) frow)).
    assert (Lsrc : length src = Z.to_nat w) by (unfold src; rewrite firstn_length, skipn_length; unfold w in *; lia).
    rewrite slice_set_ok by lia. eexists. split; [reflexivity|].
    assert (Lsp : (Z.to_nat (Z.max 0 ox) + length src <= length crow)%nat) by (rewrite Lsrc, Lc; unfold w in *; lia).
    split.
    + split; [rewrite list_set_length; exact Lcv|]. apply Forall_forall. intros r Hr. apply list_set_In in Hr as [->|Hr].
      * rewrite row_splice_length by exact Lsp. exact Lc.
      * rewrite Forall_forall in Rcv. auto.
    + intros y x Hy Hx. unfold px at 1. rewrite nth_list_set by lia. destruct (Nat.eqb_spec y (Z.to_nat cy)) as [->|Ey].
      * rewrite row_splice by exact Lsp. rewrite Lsrc.
        destruct ((Z.to_nat (Z.max 0 ox) <=? x)%nat && (x <? Z.to_nat (Z.max 0 ox) + Z.to_nat w)%nat) eqn:Ex.
        -- assert (Ec : coveredb oy ox fh fw (Z.to_nat cy) x = true) by (unfold coveredb; unfold cy, w, h in *; lia).
           rewrite Ec. destruct (Z.of_nat (Z.to_nat cy) <? Z.max 0 oy + Z.of_nat (S i)) eqn:El; [|unfold cy in *; lia]. cbn [andb].
           unfold src. rewrite nth_firstn_lt by lia. rewrite nth_skipn. unfold px, frow.
           replace (Z.to_nat fy) with (Z.to_nat (Z.of_nat (Z.to_nat cy) - oy)) by (clear - Bcy; unfold fy, cy in *; lia). f_equal. clear - Ex. lia.
        -- assert (Ec : coveredb oy ox fh fw (Z.to_nat cy) x = false) by (unfold coveredb; unfold cy, w, h in *; lia).
           rewrite Ec. cbn [andb]. unfold crow. fold (px cv (Z.to_nat cy) x). rewrite A by lia. rewrite Ec. reflexivity.
      * fold (px cv y x). rewrite A by assumption.
        destruct (coveredb oy ox fh fw y x) eqn:Ec; cbn [andb]; [|reflexivity].
        replace (Z.of_nat y <? Z.max 0 oy + Z.of_nat (S i)) with (Z.of_nat y <? Z.max 0 oy + Z.of_nat i) by (unfold cy in *; lia). reflexivity.
  - rewrite E. f_equal. apply (rect_ext ih iw); [exact R|apply rect_mat|]. intros y x Hy Hx. rewrite px_mat by assumption. rewrite A by assumption.
    destruct (coveredb oy ox fh fw y x) eqn:Ec; cbn [andb]; [|reflexivity].
    unfold coveredb in Ec. match goal with |- (if ?b then _ else _) = _ => destruct b eqn:El; [reflexivity|] end. clear - Ec El Hy. unfold h in *. lia.
Qed.

(* ---- modular samples ---- *)
Lemma f_mul_one v : Z.abs v <= 2 ^ 24 -> f_mul F_ONE (f_of_int v) = v * F_ONE.
Proof.
  intros H. rewrite f_of_int_exact by exact H. unfold f_mul. rewrite Z.mul_comm. apply f_round_exact; [reflexivity|].
  exists v, 149. split; [lia|]. split; [exact H|reflexivity].
Qed.
Lemma f_to_i32_int v : - 2 ^ 31 <= v < 2 ^ 31 -> f_to_i32 (v * F_ONE) = v.
Proof.
  intros H. unfold f_to_i32. rewrite Z.quot_mul by discriminate. cbv zeta.
  destruct (v <? - 2 ^ 31) eqn:E1; [lia|]. destruct (2 ^ 31 <=? v) eqn:E2; [lia|]. reflexivity.
Qed.
