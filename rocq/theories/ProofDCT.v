(* The loops of the transform compute the sums of the specification. *)
From Coq Require Import ZArith List Bool Arith Reals Lia Lra ZifyBool ZifyNat.
From Verif Require Import GoBase GoLoop ModelUtil ProofUtil ModelDCT SpecDCT ProofDCTMath.
Import ListNotations.
Open Scope nat_scope.

Lemma nth_map_seq {A} (f : nat -> A) n i d : i < n -> nth i (map f (seq 0 n)) d = f i.
Proof. intros H. rewrite (nth_indep _ d (f 0)) by (rewrite map_length, seq_length; lia). rewrite map_nth, seq_nth by lia. reflexivity. Qed.
Lemma get_map_seq {A} (f : nat -> A) n i z : z = Z.of_nat i -> i < n -> slice_get (map f (seq 0 n)) z = Ok (f i).
Proof.
  intros -> H. rewrite (slice_get_ok _ _ (f i)) by (rewrite map_length, seq_length; lia). f_equal. rewrite Nat2Z.id. now rewrite nth_map_seq.
Qed.
Lemma CeilLog2_pow l : l < 32 -> CeilLog2_u32 (Z.of_nat (2 ^ l)) = Z.of_nat l.
Proof.
  intros H. assert (E : Z.of_nat (2 ^ l) = (2 ^ Z.of_nat l)%Z) by (rewrite Nat2Z.inj_pow; reflexivity). rewrite E.
  assert (B : (1 <= 2 ^ Z.of_nat l < 2 ^ 32)%Z).
  { split; [pose proof (Z.pow_pos_nonneg 2 (Z.of_nat l)); lia|apply Z.pow_lt_mono_r; lia]. }
  unfold CeilLog2_u32. rewrite ProofCodes.u32_small by lia. rewrite CeilLog1p_len by lia.
  destruct (Z.eqb_spec (2 ^ Z.of_nat l - 1) 0) as [E0|E0].
  - destruct l; [reflexivity|]. exfalso. rewrite Nat2Z.inj_succ, Z.pow_succ_r in * by lia. lia.
  - destruct l; [cbn in E0; lia|]. rewrite <- Z.pred_succ with (n := (2 ^ Z.of_nat (S l) - 1)%Z).
    replace (Z.pred (Z.succ (2 ^ Z.of_nat (S l) - 1))) with (Z.pred (2 ^ Z.of_nat (S l))) by lia.
    rewrite Z.log2_pred_pow2 by lia. lia.
Qed.

Section Lut.
Context (l : nat) (Hl : l < 9).
Let N := 2 ^ l.
Definition lutOf (l : nat) : list (list R) :=
  map (fun n => map (fun k => (sqrt 2 * cos (PI * (INR n + 1) * (INR k + 1 / 2) / INR (2 ^ l)))%R) (seq 0 (2 ^ l))) (seq 0 (2 ^ l - 1)).
Definition lutRow (l n : nat) : list R :=
  map (fun k => (sqrt 2 * cos (PI * (INR n + 1) * (INR k + 1 / 2) / INR (2 ^ l)))%R) (seq 0 (2 ^ l)).
Lemma lut_get : slice_get cosineLUT (Z.of_nat l) = Ok (lutOf l).
Proof. unfold cosineLUT. rewrite (get_map_seq _ _ l) by (reflexivity || exact Hl). reflexivity. Qed.
Lemma lut_row n : 1 <= n < N -> slice_get (lutOf l) (Z.of_nat n - 1) = Ok (lutRow l (n - 1)).
Proof. intros H. unfold lutOf. rewrite (get_map_seq _ _ (n - 1)) by (unfold N in *; lia). reflexivity. Qed.
Lemma lut_val n k z : 1 <= n < N -> k < N -> z = Z.of_nat k -> slice_get (lutRow l (n - 1)) z = Ok (basis N n k).
Proof.
  intros H Hk ->. unfold lutRow. rewrite (get_map_seq _ _ k) by (reflexivity || exact Hk). f_equal. unfold basis.
  destruct (Nat.eqb_spec n 0); [lia|]. f_equal. f_equal. fold N. rewrite minus_INR by lia. cbn [INR].
  assert (0 < INR N)%R by (apply lt_0_INR; lia). field. lra.
Qed.
End Lut.

(* a row with the entries from x0 on replaced *)
Definition row_replaced (r r' : list R) (x0 w : nat) (f : nat -> R) : Prop :=
  length r' = length r /\ forall x, nth x r' 0%R = if (x0 <=? x) && (x <? x0 + w) then f (x - x0) else nth x r 0%R.

Ltac bcase := repeat match goal with
  | |- context [(?a <=? ?b)%nat] => destruct (Nat.leb_spec a b)
  | |- context [(?a <? ?b)%nat] => destruct (Nat.ltb_spec a b)
  | |- context [(?a =? ?b)%nat] => destruct (Nat.eqb_spec a b)
  end; cbn [andb]; try lia; try reflexivity.

Lemma inverseRow_ok src dest xi xo l : l < 9 -> xi + 2 ^ l <= length src -> xo + 2 ^ l <= length dest ->
  exists dest', inverseDCTHorizontal src dest (Z.of_nat xi) (Z.of_nat xo) (Z.of_nat l) (2 ^ l) = Ok dest' /\
    row_replaced dest dest' xo (2 ^ l) (idct (2 ^ l) (fun k => nth (xi + k) src 0%R)).
Proof.
  intros Hl Hs Hd. set (N := 2 ^ l) in *. assert (HN : 1 <= N) by (unfold N; pose proof (Nat.pow_nonzero 2 l); lia).
  unfold inverseDCTHorizontal. set (c := fun k => nth (xi + k) src 0%R).
  destruct (oloop_inv (fun i d => row_replaced dest d xo i (fun _ => c 0))
    (fun i dest0 => obind (slice_get src (Z.of_nat xi)) (fun v => slice_set dest0 (Z.of_nat xo + Z.of_nat i) v)) N 0 dest) as (d1 & E1 & H1).
  { split; [reflexivity|]. intros x. bcase. }
  { intros i d Hi [Ld Pd]. rewrite (slice_get_ok _ _ 0%R) by lia. cbn [obind]. rewrite slice_set_ok by lia. eexists. split; [reflexivity|].
    split; [rewrite list_set_length; exact Ld|]. intros x. rewrite nth_list_set by lia. rewrite Pd, Nat2Z.id. unfold c. rewrite Nat.add_0_r. bcase. }
  rewrite E1. cbn [obind]. rewrite lut_get by exact Hl. cbn [obind]. rewrite Nat.add_0_l in H1.
  destruct (oloop_inv (fun n d => row_replaced dest d xo N (fun x => sum n (fun k => (c k * basis N k x)%R)))
    (fun n dest0 => obind (slice_get (lutOf l) (Z.of_nat n - 1)) (fun lut => obind (slice_get src (Z.of_nat xi + Z.of_nat n)) (fun s2 =>
       oloop N 0 (fun k dest0 => obind (slice_get dest0 (Z.of_nat xo + Z.of_nat k)) (fun d => obind (slice_get lut (Z.of_nat k)) (fun c =>
          slice_set dest0 (Z.of_nat xo + Z.of_nat k) (d + s2 * c)%R))) dest0))) (N - 1) 1 d1) as (d2 & E2 & H2).
  { destruct H1 as [L1 P1]. split; [exact L1|]. intros x. rewrite P1. bcase. cbn [sum]. unfold basis. cbn [Nat.eqb].
    replace (PI * INR 0 * (2 * INR (x - xo) + 1) / (2 * INR N))%R with 0%R by (cbn [INR]; unfold Rdiv; ring). rewrite cos_0. ring. }
  { intros n d Hn [Ld Pd]. rewrite lut_row by (exact Hl || (fold N; lia)). cbn [obind].
    rewrite (slice_get_ok src _ 0%R) by lia. cbn [obind].
    replace (Z.to_nat (Z.of_nat xi + Z.of_nat n)) with (xi + n) by lia. fold (c n).
    destruct (oloop_inv (fun i e => row_replaced d e xo i (fun x => (sum n (fun k => (c k * basis N k x)%R) + c n * basis N n x)%R))
      (fun k dest0 => obind (slice_get dest0 (Z.of_nat xo + Z.of_nat k)) (fun d0 => obind (slice_get (lutRow l (n - 1)) (Z.of_nat k)) (fun c0 =>
          slice_set dest0 (Z.of_nat xo + Z.of_nat k) (d0 + c n * c0)%R))) N 0 d) as (e & E & He).
    { split; [reflexivity|]. intros x. bcase. }
    { intros k e Hk [Le Pe]. rewrite (slice_get_ok e _ 0%R) by lia. cbn [obind]. rewrite (lut_val l Hl n k) by (reflexivity || (fold N; lia)).
      cbn [obind]. rewrite slice_set_ok by lia. eexists. split; [reflexivity|]. split; [rewrite list_set_length; exact Le|].
      replace (Z.to_nat (Z.of_nat xo + Z.of_nat k)) with (xo + k) by lia.
      intros x. rewrite nth_list_set by lia. rewrite !Pe. fold N.
      destruct (Nat.eqb_spec x (xo + k)) as [->|Ex].
      - replace ((xo <=? xo + k) && (xo + k <? xo + k)) with false by bcase. rewrite Pd.
        replace ((xo <=? xo + k) && (xo + k <? xo + N)) with true by bcase.
        replace ((xo <=? xo + k) && (xo + k <? xo + S k)) with true by bcase.
        replace (xo + k - xo) with k by lia. reflexivity.
      - bcase. }
    exists e. split; [exact E|]. destruct He as [Le Pe]. split; [lia|]. rewrite Nat.add_0_l in Pe. intros x. rewrite Pe, Pd. cbn [sum]. bcase. }
  exists d2. split; [exact E2|]. replace (1 + (N - 1)) with N in H2 by lia. exact H2.
Qed.

Lemma forwardRow_ok src dest xi xo l : l < 9 -> xi + 2 ^ l <= length src -> xo + 2 ^ l <= length dest ->
  exists dest', forwardDCTHorizontal src dest (Z.of_nat xi) (Z.of_nat xo) (Z.of_nat l) (2 ^ l) = Ok dest' /\
    row_replaced dest dest' xo (2 ^ l) (dct (2 ^ l) (fun k => nth (xi + k) src 0%R)).
Proof.
  intros Hl Hs Hd. set (N := 2 ^ l) in *. assert (HN : 1 <= N) by (unfold N; pose proof (Nat.pow_nonzero 2 l); lia).
  assert (PN : (0 < INR N)%R) by (apply lt_0_INR; lia).
  unfold forwardDCTHorizontal. set (f := fun k => nth (xi + k) src 0%R).
  rewrite (slice_get_ok src _ 0%R) by lia. cbn [obind]. rewrite Nat2Z.id.
  replace (nth xi src 0%R) with (f 0) by (unfold f; now rewrite Nat.add_0_r).
  destruct (oloop_inv (fun (n : nat) (d : R) => d = sum n f)
    (fun x d2 => obind (slice_get src (Z.of_nat xi + Z.of_nat x)) (fun v => Ok (d2 + v)%R)) (N - 1) 1 (f 0)) as (d1 & E1 & H1).
  { cbn. ring. }
  { intros n d Hn ->. rewrite (slice_get_ok src _ 0%R) by lia. cbn [obind]. eexists. split; [reflexivity|]. cbn [sum].
    replace (Z.to_nat (Z.of_nat xi + Z.of_nat n)) with (xi + n) by lia. reflexivity. }
  rewrite E1. cbn [obind]. rewrite slice_set_ok by lia. cbn [obind]. replace (1 + (N - 1)) with N in H1 by lia. subst d1. rewrite Nat2Z.id.
  assert (D0 : dct N f 0 = (sum N f * (1 / INR N))%R).
  { unfold dct. rewrite (sum_ext _ (fun n => (f n * basis N 0 n)%R) f); [field; lra|]. intros i _. unfold basis. cbn [Nat.eqb].
    replace (PI * INR 0 * (2 * INR i + 1) / (2 * INR N))%R with 0%R by (cbn [INR]; unfold Rdiv; ring). rewrite cos_0. ring. }
  match goal with |- exists zz, oloop _ _ ?F ?D = _ /\ _ =>
    destruct (oloop_inv (fun k d => row_replaced dest d xo k (dct N f)) F (N - 1) 1 D) as (d2 & E2 & H2) end.
  { split; [apply list_set_length|]. intros x. rewrite nth_list_set by lia. bcase. subst x. rewrite Nat.sub_diag. rewrite D0. reflexivity. }
  { intros k d Hk [Ld Pd]. rewrite lut_get by exact Hl. cbn [obind]. rewrite lut_row by (exact Hl || (fold N; lia)). cbn [obind].
    rewrite (lut_val l Hl k 0) by (reflexivity || (fold N; lia)). cbn [obind].
    destruct (oloop_inv (fun n d => d = sum n (fun i => (f i * basis N k i)%R))
      (fun n d2 => obind (slice_get src (Z.of_nat xi + Z.of_nat n)) (fun v => obind (slice_get (lutRow l (k - 1)) (Z.of_nat n)) (fun c => Ok (d2 + v * c)%R)))
      (N - 1) 1 (f 0%nat * basis N k 0%nat)%R) as (d2 & E2 & H2).
    { cbn. ring. }
    { intros n e Hn ->. rewrite (slice_get_ok src _ 0%R) by lia. cbn [obind]. rewrite (lut_val l Hl k n) by (reflexivity || (fold N; lia)). cbn [obind].
      eexists. split; [reflexivity|]. cbn [sum]. replace (Z.to_nat (Z.of_nat xi + Z.of_nat n)) with (xi + n) by lia. reflexivity. }
    fold N. rewrite E2. cbn [obind]. rewrite slice_set_ok by lia. eexists. split; [reflexivity|].
    replace (1 + (N - 1)) with N in H2 by lia. subst d2.
    split; [rewrite list_set_length; exact Ld|]. intros x. rewrite nth_list_set by lia. rewrite Pd.
    replace (Z.to_nat (Z.of_nat xo + Z.of_nat k)) with (xo + k) by lia. bcase. subst x. replace (xo + k - xo) with k by lia. unfold dct, Rdiv. ring. }
  exists d2. split; [exact E2|]. replace (1 + (N - 1)) with N in H2 by lia. exact H2.
Qed.

(* matrices *)
Lemma nth_rows_set m y r y' : y < length m -> nth y' (list_set m y r) [] = if y' =? y then r else nth y' m ([] : list R).
Proof. apply nth_list_set. Qed.
Lemma replaced_refl m y0 x0 w f : replaced m m y0 x0 0 w f.
Proof. split; [reflexivity|]. split; [reflexivity|]. intros y x. unfold in_block. bcase. Qed.
Lemma inside_replaced m m' a b c d f y0 x0 h w : replaced m m' a b c d f -> inside m y0 x0 h w -> inside m' y0 x0 h w.
Proof. intros (H1 & H2 & _) [I1 I2]. split; [lia|]. intros y Hy. rewrite H2. apply I2, Hy. Qed.
Lemma inside_sub m y0 x0 h w : inside m 0 0 h w -> y0 <= h -> x0 <= w -> inside m 0 0 y0 x0.
Proof. intros [I1 I2] Hy Hx. split; [lia|]. intros y H. specialize (I2 y ltac:(lia)). cbn in *. lia. Qed.

Lemma eachRow_ok n f src dest sy dy xo w g : sy + n <= length src -> dy + n <= length dest ->
  (forall y, y < n -> exists d', f (nth (sy + y) src []) (nth (dy + y) dest []) = Ok d' /\ row_replaced (nth (dy + y) dest []) d' xo w (g y)) ->
  exists dest', eachRow n f src dest (Z.of_nat sy) (Z.of_nat dy) = Ok dest' /\ replaced dest dest' dy xo n w g.
Proof.
  intros Hs Hd Hf. unfold eachRow.
  match goal with |- exists zz, oloop _ _ ?F ?D = _ /\ _ =>
    destruct (oloop_inv (fun k d => replaced dest d dy xo k w g /\ forall y, k <= y -> nth (dy + y) d [] = nth (dy + y) dest []) F n 0 D) as (d2 & E2 & H2) end.
  { split; [apply replaced_refl|reflexivity]. }
  { intros i d Hi [(L & Lr & P) Q]. rewrite (slice_get_ok src _ []) by lia. cbn [obind]. rewrite (slice_get_ok d _ []) by lia. cbn [obind].
    replace (Z.to_nat (Z.of_nat sy + Z.of_nat i)) with (sy + i) by lia. replace (Z.to_nat (Z.of_nat dy + Z.of_nat i)) with (dy + i) by lia.
    rewrite (Q i) by lia. destruct (Hf i ltac:(lia)) as (d' & E & Lw & Pw). rewrite E. cbn [obind]. rewrite slice_set_ok by lia.
    replace (Z.to_nat (Z.of_nat dy + Z.of_nat i)) with (dy + i) by lia.
    eexists. split; [reflexivity|]. split; [split; [rewrite list_set_length; exact L|split]|].
    - intros y. rewrite nth_rows_set by lia. destruct (Nat.eqb_spec y (dy + i)) as [->|]; [exact Lw|apply Lr].
    - intros y x. unfold pixel. rewrite nth_rows_set by lia. destruct (Nat.eqb_spec y (dy + i)) as [->|Ey].
      + rewrite Pw. unfold in_block. replace (dy + i - dy) with i by lia. bcase.
      + change (nth x (nth y d []) 0%R) with (pixel d y x). rewrite P. unfold in_block, pixel. bcase.
    - intros y Hy. rewrite nth_rows_set by lia. destruct (Nat.eqb_spec (dy + y) (dy + i)); [lia|]. apply Q. lia. }
  exists d2. split; [exact E2|apply H2].
Qed.

Lemma rset2_ok m y x v : y < length m -> x < length (nth y m []) ->
  exists m', rset2 m (Z.of_nat y) (Z.of_nat x) v = Ok m' /\ length m' = length m /\ (forall y', length (nth y' m' []) = length (nth y' m [])) /\
    forall y' x', pixel m' y' x' = if (y' =? y) && (x' =? x) then v else pixel m y' x'.
Proof.
  intros Hy Hx. unfold rset2. rewrite (slice_get_ok m _ []) by lia. cbn [obind]. rewrite Nat2Z.id. rewrite slice_set_ok by lia. cbn [obind].
  rewrite slice_set_ok by lia. rewrite !Nat2Z.id. eexists. split; [reflexivity|]. split; [apply list_set_length|]. split.
  - intros y'. rewrite nth_rows_set by lia. destruct (Nat.eqb_spec y' y) as [->|]; [apply list_set_length|reflexivity].
  - intros y' x'. unfold pixel. rewrite nth_rows_set by lia. destruct (Nat.eqb_spec y' y) as [->|]; cbn [andb]; [|reflexivity].
    rewrite nth_list_set by lia. reflexivity.
Qed.
Lemma rget2_ok m y x : y < length m -> x < length (nth y m []) -> rget2 m (Z.of_nat y) (Z.of_nat x) = Ok (pixel m y x).
Proof.
  intros Hy Hx. unfold rget2. rewrite (slice_get_ok m _ []) by lia. cbn [obind]. rewrite Nat2Z.id. rewrite (slice_get_ok _ _ 0%R) by lia.
  rewrite Nat2Z.id. reflexivity.
Qed.

Lemma transpose_ok src dest sy sx dy dx h w : inside src sy sx h w -> inside dest dy dx w h ->
  exists dest', TransposeMatrixInto src dest (Z.of_nat sy, Z.of_nat sx) (Z.of_nat dy, Z.of_nat dx) h w = Ok dest' /\
    replaced dest dest' dy dx w h (fun x y => pixel src (sy + y) (sx + x)).
Proof.
  intros [S1 S2] [D1 D2]. unfold TransposeMatrixInto. cbn [fst snd].
  match goal with |- exists zz, oloop _ _ ?F ?D = _ /\ _ =>
    destruct (oloop_inv (fun k d => replaced dest d dy dx w k (fun x y => pixel src (sy + y) (sx + x))) F h 0 D) as (d2 & E2 & H2) end.
  { split; [reflexivity|]. split; [reflexivity|]. intros y x. unfold in_block. bcase. }
  { intros i d Hi (L & Lr & P). rewrite (slice_get_ok src _ []) by lia. cbn [obind].
    replace (Z.to_nat (Z.of_nat i + Z.of_nat sy)) with (sy + i) by lia.
    match goal with |- exists zz, oloop _ _ ?F ?D = _ /\ _ =>
      destruct (oloop_inv (fun k e => length e = length dest /\ (forall y, length (nth y e []) = length (nth y dest [])) /\
        forall y x, pixel e y x = if (x =? dx + i) && (dy <=? y) && (y <? dy + k) then pixel src (sy + i) (sx + (y - dy)) else pixel d y x) F w 0 D) as (e & Ee & He) end.
    { split; [exact L|]. split; [exact Lr|]. intros y x. bcase. }
    { intros k e Hk (Le & Ler & Pe). specialize (S2 i ltac:(lia)). rewrite (slice_get_ok _ _ 0%R) by lia. cbn [obind].
      replace (Z.of_nat dy + Z.of_nat k)%Z with (Z.of_nat (dy + k)) by lia. replace (Z.of_nat dx + Z.of_nat i)%Z with (Z.of_nat (dx + i)) by lia.
      specialize (D2 k ltac:(lia)).
      destruct (rset2_ok e (dy + k) (dx + i) (nth (Z.to_nat (Z.of_nat sx + Z.of_nat k)) (nth (sy + i) src []) 0%R)) as (e' & E' & Le' & Ler' & Pe').
      { lia. } { rewrite Ler. lia. }
      exists e'. split; [exact E'|]. split; [lia|]. split; [intros y; rewrite Ler'; apply Ler|].
      intros y x. rewrite Pe', Pe. replace (Z.to_nat (Z.of_nat sx + Z.of_nat k)) with (sx + k) by lia.
      destruct (Nat.eqb_spec y (dy + k)) as [->|Ey].
      - destruct (Nat.eqb_spec x (dx + i)) as [->|Ex]; cbn [andb]; [|reflexivity].
        replace ((dy <=? dy + k) && (dy + k <? dy + S k)) with true by bcase. replace (dy + k - dy) with k by lia. reflexivity.
      - cbn [andb]. bcase. }
    exists e. split; [exact Ee|]. destruct He as (Le & Ler & Pe). split; [exact Le|]. split; [exact Ler|].
    intros y x. rewrite Pe, P. unfold in_block. destruct (Nat.eqb_spec x (dx + i)) as [->|]; [|bcase].
    replace (dx + i - dx) with i by lia. bcase. }
  exists d2. split; [exact E2|exact H2].
Qed.

Lemma replaced_ext m m' y0 x0 h w f g : (forall y x, y < h -> x < w -> f y x = g y x) -> replaced m m' y0 x0 h w f -> replaced m m' y0 x0 h w g.
Proof.
  intros E (H1 & H2 & H3). split; [exact H1|]. split; [exact H2|]. intros y x. rewrite H3. unfold in_block. bcase. apply E; lia.
Qed.
Lemma replaced_px m m' y0 x0 h w f y x : replaced m m' y0 x0 h w f -> y < h -> x < w -> pixel m' (y0 + y) (x0 + x) = f y x.
Proof.
  intros (_ & _ & H) Hy Hx. rewrite H. unfold in_block. replace (y0 + y - y0) with y by lia. replace (x0 + x - x0) with x by lia. bcase.
Qed.
Lemma inside_len m y0 x0 h w y : inside m y0 x0 h w -> y < h -> x0 + w <= length (nth (y0 + y) m []).
Proof. intros [_ H]. apply H. Qed.

Lemma InverseDCT2D_ok src dest iy ix oy ox lh lw s0 s1 : lh < 9 -> lw < 9 ->
  let H := 2 ^ lh in let W := 2 ^ lw in let M := Nat.max H W in
  inside src iy ix H W -> inside dest oy ox H W -> inside s0 0 0 M M -> inside s1 0 0 M M ->
  exists dest' s0' s1', InverseDCT2D src dest (Z.of_nat iy, Z.of_nat ix) (Z.of_nat oy, Z.of_nat ox) H W s0 s1 false = Ok (dest', s0', s1') /\
    replaced dest dest' oy ox H W (idct2 H W (fun v u => pixel src (iy + v) (ix + u))) /\
    (forall a b c d, inside s0 a b c d -> inside s0' a b c d) /\ (forall a b c d, inside s1 a b c d -> inside s1' a b c d).
Proof.
  intros Hlh Hlw H W M Is Id I0 I1. unfold InverseDCT2D. assert (EH : CeilLog2_u32 (Z.of_nat H) = Z.of_nat lh) by (apply CeilLog2_pow; lia). assert (EW : CeilLog2_u32 (Z.of_nat W) = Z.of_nat lw) by (apply CeilLog2_pow; lia). rewrite EH, EW. cbn [fst snd].
  pose proof (inside_sub s0 W H M M I0 ltac:(lia) ltac:(lia)) as I0a. pose proof (inside_sub s0 H W M M I0 ltac:(lia) ltac:(lia)) as I0b.
  pose proof (inside_sub s1 W H M M I1 ltac:(lia) ltac:(lia)) as I1a.
  destruct (transpose_ok src s0 iy ix 0 0 H W Is I0a) as (t0 & E0 & R0). change (Z.of_nat 0) with 0%Z in E0. rewrite E0. cbn [obind].
  pose proof (inside_replaced _ _ _ _ _ _ _ _ _ _ _ R0 I0a) as J0.
  destruct (eachRow_ok W (fun s d => inverseDCTHorizontal s d 0 0 (Z.of_nat lh) H) t0 s1 0 0 0 H
    (fun u => idct H (fun v => pixel src (iy + v) (ix + u)))) as (t1 & E1 & R1).
  { apply J0. } { apply I1a. }
  { intros y Hy. destruct (inverseRow_ok (nth (0 + y) t0 []) (nth (0 + y) s1 []) 0 0 lh Hlh) as (d' & Ed & Rd).
    { apply (inside_len _ _ _ _ _ _ J0 Hy). } { apply (inside_len _ _ _ _ _ _ I1a Hy). }
    exists d'. split; [exact Ed|]. destruct Rd as [Ld Pd]. split; [exact Ld|]. intros x. rewrite Pd. fold H. bcase.
    apply idct_ext. intros k Hk. exact (replaced_px _ _ _ _ _ _ _ _ _ R0 Hy Hk). }
  change (Z.of_nat 0) with 0%Z in E1. rewrite E1. cbn [obind].
  pose proof (inside_replaced _ _ _ _ _ _ _ _ _ _ _ R1 I1a) as J1.
  pose proof (inside_replaced _ _ _ _ _ _ _ _ _ _ _ R0 I0b) as J0b.
  destruct (transpose_ok t1 t0 0 0 0 0 W H J1 J0b) as (t2 & E2 & R2). change (Z.of_nat 0) with 0%Z in E2. rewrite E2. cbn [obind].
  pose proof (inside_replaced _ _ _ _ _ _ _ _ _ _ _ R2 J0b) as J2.
  destruct (eachRow_ok H (fun s d => inverseDCTHorizontal s d 0 (Z.of_nat ox) (Z.of_nat lw) W) t2 dest 0 oy ox W
    (idct2 H W (fun v u => pixel src (iy + v) (ix + u)))) as (t3 & E3 & R3).
  { apply J2. } { apply Id. }
  { intros y Hy. destruct (inverseRow_ok (nth (0 + y) t2 []) (nth (oy + y) dest []) 0 ox lw Hlw) as (d' & Ed & Rd).
    { apply (inside_len _ _ _ _ _ _ J2 Hy). } { apply (inside_len _ _ _ _ _ _ Id Hy). }
    exists d'. split; [exact Ed|]. destruct Rd as [Ld Pd]. split; [exact Ld|]. intros x. rewrite Pd. fold W. bcase. rewrite idct2_sep.
    apply idct_ext. intros k Hk. cbn [Nat.add]. change (nth k (nth y t2 []) 0%R) with (pixel t2 (0 + y) (0 + k)).
    rewrite (replaced_px _ _ _ _ _ _ _ _ _ R2 Hy Hk). cbn [Nat.add]. exact (replaced_px _ _ _ _ _ _ _ _ _ R1 Hk Hy). }
  change (Z.of_nat 0) with 0%Z in E3. rewrite E3. cbn [obind]. exists t3, t2, t1. split; [reflexivity|]. split; [exact R3|].
  split; intros a b c d I; [exact (inside_replaced _ _ _ _ _ _ _ _ _ _ _ R2 (inside_replaced _ _ _ _ _ _ _ _ _ _ _ R0 I))|exact (inside_replaced _ _ _ _ _ _ _ _ _ _ _ R1 I)].
Qed.

Lemma InverseDCT2D_transposed_ok src dest iy ix oy ox lh lw s0 s1 : lh < 9 -> lw < 9 ->
  let H := 2 ^ lh in let W := 2 ^ lw in let M := Nat.max H W in
  inside src iy ix H W -> inside dest oy ox W H -> inside s0 0 0 M M -> inside s1 0 0 M M ->
  exists dest' s0' s1', InverseDCT2D src dest (Z.of_nat iy, Z.of_nat ix) (Z.of_nat oy, Z.of_nat ox) H W s0 s1 true = Ok (dest', s0', s1') /\
    replaced dest dest' oy ox W H (fun x y => idct2 H W (fun v u => pixel src (iy + v) (ix + u)) y x) /\
    (forall a b c d, inside s0 a b c d -> inside s0' a b c d) /\ (forall a b c d, inside s1 a b c d -> inside s1' a b c d).
Proof.
  intros Hlh Hlw H W M Is Id I0 I1. unfold InverseDCT2D. assert (EH : CeilLog2_u32 (Z.of_nat H) = Z.of_nat lh) by (apply CeilLog2_pow; lia). assert (EW : CeilLog2_u32 (Z.of_nat W) = Z.of_nat lw) by (apply CeilLog2_pow; lia). rewrite EH, EW. cbn [fst snd].
  pose proof (inside_sub s0 W H M M I0 ltac:(lia) ltac:(lia)) as I0a. 
  pose proof (inside_sub s1 H W M M I1 ltac:(lia) ltac:(lia)) as I1a.
  destruct (eachRow_ok H (fun s d => inverseDCTHorizontal s d (Z.of_nat ix) 0 (Z.of_nat lw) W) src s1 iy 0 0 W
    (fun v => idct W (fun u => pixel src (iy + v) (ix + u)))) as (t1 & E1 & R1).
  { apply Is. } { apply I1a. }
  { intros y Hy. destruct (inverseRow_ok (nth (iy + y) src []) (nth (0 + y) s1 []) ix 0 lw Hlw) as (d' & Ed & Rd).
    { apply (inside_len _ _ _ _ _ _ Is Hy). } { apply (inside_len _ _ _ _ _ _ I1a Hy). }
    exists d'. split; [exact Ed|exact Rd]. }
  change (Z.of_nat 0) with 0%Z in E1. rewrite E1. cbn [obind].
  pose proof (inside_replaced _ _ _ _ _ _ _ _ _ _ _ R1 I1a) as J1.
  destruct (transpose_ok t1 s0 0 0 0 0 H W J1 I0a) as (t2 & E2 & R2). change (Z.of_nat 0) with 0%Z in E2. rewrite E2. cbn [obind].
  pose proof (inside_replaced _ _ _ _ _ _ _ _ _ _ _ R2 I0a) as J2.
  destruct (eachRow_ok W (fun s d => inverseDCTHorizontal s d 0 (Z.of_nat ox) (Z.of_nat lh) H) t2 dest 0 oy ox H
    (fun x y => idct2 H W (fun v u => pixel src (iy + v) (ix + u)) y x)) as (t3 & E3 & R3).
  { apply J2. } { apply Id. }
  { intros y Hy. destruct (inverseRow_ok (nth (0 + y) t2 []) (nth (oy + y) dest []) 0 ox lh Hlh) as (d' & Ed & Rd).
    { apply (inside_len _ _ _ _ _ _ J2 Hy). } { apply (inside_len _ _ _ _ _ _ Id Hy). }
    exists d'. split; [exact Ed|]. destruct Rd as [Ld Pd]. split; [exact Ld|]. intros x. rewrite Pd. fold H. bcase. rewrite idct2_sep'.
    apply idct_ext. intros k Hk. cbn [Nat.add]. change (nth k (nth y t2 []) 0%R) with (pixel t2 (0 + y) (0 + k)).
    rewrite (replaced_px _ _ _ _ _ _ _ _ _ R2 Hy Hk). cbn [Nat.add]. exact (replaced_px _ _ _ _ _ _ _ _ _ R1 Hk Hy). }
  change (Z.of_nat 0) with 0%Z in E3. rewrite E3. cbn [obind]. exists t3, t2, t1. split; [reflexivity|]. split; [exact R3|].
  split; intros a b c d I; [exact (inside_replaced _ _ _ _ _ _ _ _ _ _ _ R2 I)|exact (inside_replaced _ _ _ _ _ _ _ _ _ _ _ R1 I)].
Qed.

Lemma ForwardDCT2D_ok src dest iy ix oy ox lh lw s0 s1 : lh < 9 -> lw < 9 ->
  let H := 2 ^ lh in let W := 2 ^ lw in let M := Nat.max H W in
  inside src iy ix H W -> inside dest oy ox H W -> inside s0 0 0 M M -> inside s1 0 0 M M ->
  exists dest' s0' s1', ForwardDCT2D src dest (Z.of_nat iy, Z.of_nat ix) (Z.of_nat oy, Z.of_nat ox) H W s0 s1 = Ok (dest', s0', s1') /\
    replaced dest dest' oy ox H W (dct2 H W (fun y x => pixel src (iy + y) (ix + x))) /\
    (forall a b c d, inside s0 a b c d -> inside s0' a b c d) /\ (forall a b c d, inside s1 a b c d -> inside s1' a b c d).
Proof.
  intros Hlh Hlw H W M Is Id I0 I1. unfold ForwardDCT2D. assert (EH : CeilLog2_u32 (Z.of_nat H) = Z.of_nat lh) by (apply CeilLog2_pow; lia). assert (EW : CeilLog2_u32 (Z.of_nat W) = Z.of_nat lw) by (apply CeilLog2_pow; lia). rewrite EH, EW. cbn [fst snd].
  assert (PH : 0 < H) by (unfold H; pose proof (Nat.pow_nonzero 2 lh); lia). assert (PW : 0 < W) by (unfold W; pose proof (Nat.pow_nonzero 2 lw); lia).
  pose proof (inside_sub s0 W H M M I0 ltac:(lia) ltac:(lia)) as I0a. pose proof (inside_sub s0 H W M M I0 ltac:(lia) ltac:(lia)) as I0b.
  pose proof (inside_sub s1 W H M M I1 ltac:(lia) ltac:(lia)) as I1a.
  destruct (eachRow_ok H (fun s d => forwardDCTHorizontal s d (Z.of_nat ix) 0 (Z.of_nat lw) W) src s0 iy 0 0 W
    (fun y => dct W (fun x => pixel src (iy + y) (ix + x)))) as (t0 & E0 & R0).
  { apply Is. } { apply I0b. }
  { intros y Hy. destruct (forwardRow_ok (nth (iy + y) src []) (nth (0 + y) s0 []) ix 0 lw Hlw) as (d' & Ed & Rd).
    { apply (inside_len _ _ _ _ _ _ Is Hy). } { apply (inside_len _ _ _ _ _ _ I0b Hy). }
    exists d'. split; [exact Ed|exact Rd]. }
  change (Z.of_nat 0) with 0%Z in E0. rewrite E0. cbn [obind].
  pose proof (inside_replaced _ _ _ _ _ _ _ _ _ _ _ R0 I0b) as J0.
  destruct (transpose_ok t0 s1 0 0 0 0 H W J0 I1a) as (t1 & E1 & R1). change (Z.of_nat 0) with 0%Z in E1. rewrite E1. cbn [obind].
  pose proof (inside_replaced _ _ _ _ _ _ _ _ _ _ _ R1 I1a) as J1.
  pose proof (inside_replaced _ _ _ _ _ _ _ _ _ _ _ R0 I0a) as J0a.
  destruct (eachRow_ok W (fun s d => forwardDCTHorizontal s d 0 0 (Z.of_nat lh) H) t1 t0 0 0 0 H
    (fun u => dct H (fun y => dct W (fun x => pixel src (iy + y) (ix + x)) u))) as (t2 & E2 & R2).
  { apply J1. } { apply J0a. }
  { intros y Hy. destruct (forwardRow_ok (nth (0 + y) t1 []) (nth (0 + y) t0 []) 0 0 lh Hlh) as (d' & Ed & Rd).
    { apply (inside_len _ _ _ _ _ _ J1 Hy). } { apply (inside_len _ _ _ _ _ _ J0a Hy). }
    exists d'. split; [exact Ed|]. destruct Rd as [Ld Pd]. split; [exact Ld|]. intros x. rewrite Pd. fold H. bcase.
    apply dct_ext. intros k Hk. cbn [Nat.add]. change (nth k (nth y t1 []) 0%R) with (pixel t1 (0 + y) (0 + k)).
    rewrite (replaced_px _ _ _ _ _ _ _ _ _ R1 Hy Hk). cbn [Nat.add]. exact (replaced_px _ _ _ _ _ _ _ _ _ R0 Hk Hy). }
  change (Z.of_nat 0) with 0%Z in E2. rewrite E2. cbn [obind].
  pose proof (inside_replaced _ _ _ _ _ _ _ _ _ _ _ R2 J0a) as J2.
  destruct (transpose_ok t2 dest 0 0 oy ox W H J2 Id) as (t3 & E3 & R3). change (Z.of_nat 0) with 0%Z in E3. rewrite E3. cbn [obind].
  exists t3, t2, t1. split; [reflexivity|]. split.
  - refine (replaced_ext _ _ _ _ _ _ _ _ _ R3). intros y x Hy Hx. rewrite (replaced_px _ _ _ _ _ _ _ _ _ R2 Hx Hy). rewrite dct2_sep by lia. reflexivity.
  - split; intros a b c d I; [exact (inside_replaced _ _ _ _ _ _ _ _ _ _ _ R2 (inside_replaced _ _ _ _ _ _ _ _ _ _ _ R0 I))|exact (inside_replaced _ _ _ _ _ _ _ _ _ _ _ R1 I)].
Qed.
