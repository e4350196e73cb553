(* The block transforms with cosine parts, Hornuss and AFV. *)
From Coq Require Import ZArith List Bool Arith Reals Lia Lra ZifyBool ZifyNat.
From Verif Require Import GoBase GoLoop ModelUtil ModelDCT ModelVarBlock SpecDCT SpecVarBlock ProofDCTMath ProofDCT ProofVarBlock.
Import ListNotations.
Open Scope nat_scope.

Definition first_cell (y x : nat) : bool := (y =? 0) && (x =? 0).
Lemma exceptFirst_eq {T} w (body : Z -> Z -> T -> Outcome T) s : 1 <= w ->
  exceptFirst w body s = oloop 4 0 (fun y s => oloop w 0 (fun x s => if first_cell y x then Ok s else body (Z.of_nat y) (Z.of_nat x) s) s) s.
Proof.
  intros Hw. unfold exceptFirst. apply oloop_ext. intros y s0 Hy. destruct (Nat.eqb_spec y 0) as [->|E].
  - destruct w as [|w]; [lia|]. replace (S w - 1) with w by lia. cbn [oloop]. unfold first_cell at 1. cbn [Nat.eqb andb obind].
    apply oloop_ext. intros x s1 Hx. unfold first_cell. destruct (Nat.eqb_spec x 0); [lia|]. reflexivity.
  - rewrite Nat.sub_0_r. apply oloop_ext. intros x s1 Hx. unfold first_cell. destruct (Nat.eqb_spec y 0); [lia|]. reflexivity.
Qed.
Lemma exceptFirst_ok w body m0 v00 g : 1 <= w -> inside m0 0 0 4 w -> pixel m0 0 0 = v00 ->
  (forall y x m, y < 4 -> x < w -> first_cell y x = false -> shape m0 m -> body (Z.of_nat y) (Z.of_nat x) m = rset2 m (Z.of_nat y) (Z.of_nat x) (g y x)) ->
  exists m', exceptFirst w body m0 = Ok m' /\ replaced m0 m' 0 0 4 w (fun y x => if first_cell y x then v00 else g y x).
Proof.
  intros Hw Hi Hv Hb. rewrite exceptFirst_eq by exact Hw.
  destruct (cells_ok (fun m => pixel m 0 0 = v00) 4 w 0 0 (fun y x s => if first_cell y x then Ok s else body (Z.of_nat y) (Z.of_nat x) s)
    (fun y x => if first_cell y x then v00 else g y x) m0 Hv) as (m' & E & Rm & _).
  - intros y x m Hy Hx Hs Hm. destruct (first_cell y x) eqn:F.
    + exists m. split; [reflexivity|]. split; [|exact Hm]. unfold first_cell in F. assert (y = 0 /\ x = 0) as [-> ->] by lia.
      split; [reflexivity|]. split; [reflexivity|]. intros Y X. unfold in_block. cbn [Nat.add]. bcase. assert (Y = 0 /\ X = 0) as [-> ->] by lia. exact Hm.
    + rewrite Hb by assumption. destruct (cell_ok m y x (g y x)) as (m' & E & Rm). { apply (inside_part m 0 0 4 w); try lia. exact (inside_shape _ _ _ _ _ _ Hs Hi). }
      exists m'. split; [exact E|]. split; [exact Rm|]. destruct Rm as (_ & _ & P). rewrite P. unfold in_block, first_cell in *. rewrite <- Hm. bcase.
  - exists m'. split; [exact E|exact Rm].
Qed.
(* the first coefficient and the rest *)
Lemma load_ok w body m0 v00 g : 1 <= w -> inside m0 0 0 4 w ->
  (forall y x m, y < 4 -> x < w -> first_cell y x = false -> body (Z.of_nat y) (Z.of_nat x) m = rset2 m (Z.of_nat y) (Z.of_nat x) (g y x)) ->
  exists m', obind (rset2 m0 0 0 v00) (fun m => exceptFirst w body m) = Ok m' /\ replaced m0 m' 0 0 4 w (fun y x => if first_cell y x then v00 else g y x).
Proof.
  intros Hw Hi Hb. change (rset2 m0 0 0 v00) with (rset2 m0 (Z.of_nat 0) (Z.of_nat 0) v00).
  destruct (cell_ok m0 0 0 v00) as (m1 & E1 & R1). { apply (inside_part m0 0 0 4 w); (exact Hi || lia). }
  rewrite E1. cbn [obind]. pose proof (inside_replaced _ _ _ _ _ _ _ _ _ _ _ R1 Hi) as I1.
  destruct (exceptFirst_ok w body m1 v00 g Hw I1) as (m2 & E2 & R2).
  { destruct R1 as (_ & _ & P). rewrite P. reflexivity. }
  { intros y x m Hy Hx F _. apply Hb; assumption. }
  exists m2. split; [exact E2|]. destruct R1 as (A1 & A2 & A3), R2 as (B1 & B2 & B3). split; [lia|]. split; [intros Y; rewrite B2; apply A2|].
  intros y x. rewrite B3, A3. unfold in_block. bcase.
Qed.

Lemma replaced_vcat m m1 m2 a b h h' w f g : replaced m m1 a b h w f -> replaced m1 m2 (a + h) b h' w g ->
  replaced m m2 a b (h + h') w (fun y x => if y <? h then f y x else g (y - h) x).
Proof.
  intros (A1 & A2 & A3) (B1 & B2 & B3). split; [lia|]. split; [intros Y; rewrite B2; apply A2|]. intros y x. rewrite B3, A3. unfold in_block.
  replace (y - a - h) with (y - (a + h)) by lia. bcase.
Qed.
Lemma replaced_hcat m m1 m2 a b h w w' f g : replaced m m1 a b h w f -> replaced m1 m2 a (b + w) h w' g ->
  replaced m m2 a b h (w + w') (fun y x => if x <? w then f y x else g y (x - w)).
Proof.
  intros (A1 & A2 & A3) (B1 & B2 & B3). split; [lia|]. split; [intros Y; rewrite B2; apply A2|]. intros y x. rewrite B3, A3. unfold in_block.
  replace (x - b - w) with (x - (b + w)) by lia. bcase.
Qed.

Lemma interleave_get d0 d1 k iy ix : k < 2 -> first_cell iy ix = false ->
  interleave d0 d1 (k + iy * 2) ix = (if k =? 0 then d0 else d1) iy ix.
Proof.
  intros Hk F. unfold interleave, first_cell in *. replace ((k + iy * 2 =? 0) && (ix =? 0)) with false by lia. replace ((k + iy * 2 =? 1) && (ix =? 0)) with false by lia.
  rewrite Nat.even_add, Nat.even_mul, orb_true_r. destruct k as [|[|k]]; [| |lia]; cbn [Nat.even Nat.eqb Bool.eqb]; f_equal; lia.
Qed.

(* one half of a DCT 4x8 or 8x4 block *)
Lemma half_load coeffs gy gx s0 d0 d1 k : k < 2 -> inside coeffs gy gx 8 8 -> inside s0 0 0 8 8 ->
  (forall v u, v < 8 -> u < 8 -> pixel coeffs (gy + v) (gx + u) = interleave d0 d1 v u) ->
  exists s0', obind (rset2 s0 0 0 (if k =? 0 then pixel coeffs gy gx + pixel coeffs (gy + 1) gx else pixel coeffs gy gx - pixel coeffs (gy + 1) gx)%R)
     (fun s0 => exceptFirst 8 (fun iy ix s0 => obind (rget2 coeffs (Z.of_nat gy + Z.of_nat k + iy * 2) (Z.of_nat gx + ix)) (fun v => rset2 s0 iy ix v)) s0) = Ok s0' /\
    replaced s0 s0' 0 0 4 8 (if k =? 0 then d0 else d1).
Proof.
  intros Hk Ic I0 Hc.
  destruct (load_ok 8 (fun iy ix s0 => obind (rget2 coeffs (Z.of_nat gy + Z.of_nat k + iy * 2) (Z.of_nat gx + ix)) (fun v => rset2 s0 iy ix v)) s0
    (if k =? 0 then pixel coeffs gy gx + pixel coeffs (gy + 1) gx else pixel coeffs gy gx - pixel coeffs (gy + 1) gx)%R
    (fun iy ix => pixel coeffs (gy + (k + iy * 2)) (gx + ix))) as (s0' & E & Rs); [lia| | |].
  - apply (inside_part s0 0 0 8 8); (exact I0 || lia).
  - intros y x m Hy Hx _. replace (Z.of_nat gy + Z.of_nat k + Z.of_nat y * 2)%Z with (Z.of_nat (gy + (k + y * 2))) by lia.
    replace (Z.of_nat gx + Z.of_nat x)%Z with (Z.of_nat (gx + x)) by lia. rewrite (get_inside coeffs gy gx 8 8) by (exact Ic || lia). reflexivity.
  - exists s0'. split; [exact E|]. refine (replaced_ext _ _ _ _ _ _ _ _ _ Rs). intros y x Hy Hx. cbv beta. destruct (first_cell y x) eqn:F.
    + unfold first_cell in F. assert (y = 0 /\ x = 0) as [-> ->] by lia. pose proof (Hc 0 0 ltac:(lia) ltac:(lia)) as H0. pose proof (Hc 1 0 ltac:(lia) ltac:(lia)) as H1.
      rewrite !Nat.add_0_r in *. rewrite H0, H1. unfold interleave. cbn [Nat.eqb andb]. destruct k as [|[|k]]; [| |lia]; cbn [Nat.eqb]; lra.
    + rewrite Hc by lia. apply interleave_get; [exact Hk|exact F].
Qed.

Lemma invertDCT4_8_ok coeffs buffer gy gx fy fx s0 s1 s2 f : inside coeffs gy gx 8 8 -> inside buffer fy fx 8 8 ->
  inside s0 0 0 8 8 -> inside s1 0 0 8 8 -> inside s2 0 0 8 8 ->
  (forall v u, v < 8 -> u < 8 -> pixel coeffs (gy + v) (gx + u) = enc_dct4_8 f v u) ->
  exists b' s0' s1' s2', invertDCT4_8 coeffs buffer (Z.of_nat gy, Z.of_nat gx) (Z.of_nat fy, Z.of_nat fx) s0 s1 s2 = Ok (b', s0', s1', s2') /\ replaced buffer b' fy fx 8 8 f.
Proof.
  intros Ic Ib I0 I1 I2 Hc. unfold invertDCT4_8. cbn [fst snd].
  rewrite (get_inside coeffs gy gx 8 8) by (exact Ic || lia). cbn [obind].
  replace (Z.of_nat gy + 1)%Z with (Z.of_nat (gy + 1)) by lia. rewrite (get_inside coeffs gy gx 8 8) by (exact Ic || lia). cbn [obind oloop].
  destruct (half_load coeffs gy gx s0 _ _ 0 ltac:(lia) Ic I0 Hc) as (t0 & E0 & R0). cbn [Nat.eqb] in *.
  pose proof (inside_replaced _ _ _ _ _ _ _ _ _ _ _ R0 I0) as J0.
  destruct (half_load coeffs gy gx t0 _ _ 1 ltac:(lia) Ic J0 Hc) as (u0 & E0' & R0'). cbn [Nat.eqb] in *.
  pose proof (inside_replaced _ _ _ _ _ _ _ _ _ _ _ R0' J0) as J0'.
  match type of E0 with obind ?a ?b = _ => destruct a as [sa| |] eqn:Ea; cbn [obind] in E0; try discriminate E0 end.
  cbn [obind]. rewrite E0. cbn [obind].
  destruct (InverseDCT2D_ok t0 buffer 0 0 fy fx 2 3 s1 s2) as (b1 & t1 & t2 & E1 & R1 & K1 & K2); [lia|lia| | | | |].
  { apply (inside_part t0 0 0 8 8); cbn; (exact J0 || lia). } { apply (inside_part buffer fy fx 8 8); cbn; (exact Ib || lia). } { exact I1. } { exact I2. }
  change (2 ^ 2) with 4 in *. change (2 ^ 3) with 8 in *. change (Z.of_nat 0) with 0%Z in *.
  change (Z.shiftl 0 2) with 0%Z. rewrite Z.add_0_r. rewrite E1. cbn [obind].
  match type of E0' with obind ?a ?b = _ => destruct a as [sa'| |] eqn:Ea'; cbn [obind] in E0'; try discriminate E0' end.
  cbn [obind]. rewrite E0'. cbn [obind].
  destruct (InverseDCT2D_ok u0 b1 0 0 (fy + 4) fx 2 3 t1 t2) as (b2 & v1 & v2 & E2 & R2 & _); [lia|lia| | | | |].
  { apply (inside_part u0 0 0 8 8); cbn; (exact J0' || lia). }
  { apply (inside_part b1 fy fx 8 8); cbn; try lia. exact (inside_replaced _ _ _ _ _ _ _ _ _ _ _ R1 Ib). } { apply K1, I1. } { apply K2, I2. }
  change (2 ^ 2) with 4 in *. change (2 ^ 3) with 8 in *. change (Z.of_nat 0) with 0%Z in *.
  change (Z.shiftl (Z.of_nat 1) 2) with 4%Z. replace (Z.of_nat fy + 4)%Z with (Z.of_nat (fy + 4)) by lia. rewrite E2. cbn [obind].
  exists b2, u0, v1, v2. split; [reflexivity|]. pose proof (replaced_vcat _ _ _ _ _ _ _ _ _ _ R1 R2) as R12.
  refine (replaced_ext _ _ _ _ _ _ _ _ _ R12). intros y x Hy Hx. cbv beta. destruct (Nat.ltb_spec y 4) as [L|L].
  - rewrite (idct2_ext _ _ _ (dct2 4 8 f)) by (intros v u Hv Hu; exact (replaced_px _ _ _ _ _ _ _ _ _ R0 Hv Hu)). rewrite idct2_dct2 by lia. reflexivity.
  - rewrite (idct2_ext _ _ _ (dct2 4 8 (fun y x => f (4 + y) x))) by (intros v u Hv Hu; exact (replaced_px _ _ _ _ _ _ _ _ _ R0' Hv Hu)).
    rewrite idct2_dct2 by lia. f_equal. lia.
Qed.

Lemma invertDCT8_4_ok coeffs buffer gy gx fy fx s0 s1 s2 f : inside coeffs gy gx 8 8 -> inside buffer fy fx 8 8 ->
  inside s0 0 0 8 8 -> inside s1 0 0 8 8 -> inside s2 0 0 8 8 ->
  (forall v u, v < 8 -> u < 8 -> pixel coeffs (gy + v) (gx + u) = enc_dct8_4 f v u) ->
  exists b' s0' s1' s2', invertDCT8_4 coeffs buffer (Z.of_nat gy, Z.of_nat gx) (Z.of_nat fy, Z.of_nat fx) s0 s1 s2 = Ok (b', s0', s1', s2') /\ replaced buffer b' fy fx 8 8 f.
Proof.
  intros Ic Ib I0 I1 I2 Hc. unfold invertDCT8_4. cbn [fst snd].
  rewrite (get_inside coeffs gy gx 8 8) by (exact Ic || lia). cbn [obind].
  replace (Z.of_nat gy + 1)%Z with (Z.of_nat (gy + 1)) by lia. rewrite (get_inside coeffs gy gx 8 8) by (exact Ic || lia). cbn [obind oloop].
  destruct (half_load coeffs gy gx s0 _ _ 0 ltac:(lia) Ic I0 Hc) as (t0 & E0 & R0). cbn [Nat.eqb] in *.
  pose proof (inside_replaced _ _ _ _ _ _ _ _ _ _ _ R0 I0) as J0.
  destruct (half_load coeffs gy gx t0 _ _ 1 ltac:(lia) Ic J0 Hc) as (u0 & E0' & R0'). cbn [Nat.eqb] in *.
  pose proof (inside_replaced _ _ _ _ _ _ _ _ _ _ _ R0' J0) as J0'.
  match type of E0 with obind ?a ?b = _ => destruct a as [sa| |] eqn:Ea; cbn [obind] in E0; try discriminate E0 end.
  cbn [obind]. rewrite E0. cbn [obind].
  destruct (InverseDCT2D_transposed_ok t0 buffer 0 0 fy fx 2 3 s1 s2) as (b1 & t1 & t2 & E1 & R1 & K1 & K2); [lia|lia| | | | |].
  { apply (inside_part t0 0 0 8 8); cbn; (exact J0 || lia). } { apply (inside_part buffer fy fx 8 8); cbn; (exact Ib || lia). } { exact I1. } { exact I2. }
  change (2 ^ 2) with 4 in *. change (2 ^ 3) with 8 in *. change (Z.of_nat 0) with 0%Z in *.
  change (Z.shiftl 0 2) with 0%Z. rewrite Z.add_0_r. rewrite E1. cbn [obind].
  match type of E0' with obind ?a ?b = _ => destruct a as [sa'| |] eqn:Ea'; cbn [obind] in E0'; try discriminate E0' end.
  cbn [obind]. rewrite E0'. cbn [obind].
  destruct (InverseDCT2D_transposed_ok u0 b1 0 0 fy (fx + 4) 2 3 t1 t2) as (b2 & v1 & v2 & E2 & R2 & _); [lia|lia| | | | |].
  { apply (inside_part u0 0 0 8 8); cbn; (exact J0' || lia). }
  { apply (inside_part b1 fy fx 8 8); cbn; try lia. exact (inside_replaced _ _ _ _ _ _ _ _ _ _ _ R1 Ib). } { apply K1, I1. } { apply K2, I2. }
  change (2 ^ 2) with 4 in *. change (2 ^ 3) with 8 in *. change (Z.of_nat 0) with 0%Z in *.
  change (Z.shiftl (Z.of_nat 1) 2) with 4%Z. replace (Z.of_nat fx + 4)%Z with (Z.of_nat (fx + 4)) by lia. rewrite E2. cbn [obind].
  exists b2, u0, v1, v2. split; [reflexivity|]. pose proof (replaced_hcat _ _ _ _ _ _ _ _ _ _ R1 R2) as R12.
  refine (replaced_ext _ _ _ _ _ _ _ _ _ R12). intros y x Hy Hx. cbv beta. destruct (Nat.ltb_spec x 4) as [L|L].
  - rewrite (idct2_ext _ _ _ (dct2 4 8 (fun y x => f x y))) by (intros v u Hv Hu; exact (replaced_px _ _ _ _ _ _ _ _ _ R0 Hv Hu)). rewrite idct2_dct2 by lia. reflexivity.
  - rewrite (idct2_ext _ _ _ (dct2 4 8 (fun y x => f x (4 + y)))) by (intros v u Hv Hu; exact (replaced_px _ _ _ _ _ _ _ _ _ R0' Hv Hu)).
    rewrite idct2_dct2 by lia. f_equal. lia.
Qed.

(* accumulation *)
Lemma oloop_sum (body : nat -> R -> Outcome R) g n i0 r0 : (forall i r, i0 <= i < i0 + n -> body i r = Ok (r + g i)%R) ->
  oloop n i0 body r0 = Ok (r0 + sum n (fun k => g (i0 + k)%nat))%R.
Proof.
  revert i0 r0. induction n as [|n IH]; intros i0 r0 H.
  - cbn. f_equal. ring.
  - cbn [oloop]. rewrite H by lia. cbn [obind]. rewrite IH by (intros; apply H; lia). rewrite sum_first. rewrite Nat.add_0_r.
    rewrite (sum_ext n (fun k => g (S i0 + k)) (fun i => g (i0 + S i))) by (intros; f_equal; lia). f_equal. ring.
Qed.
Lemma exceptFirst_sum w body g : 1 <= w -> (forall y x r, y < 4 -> x < w -> first_cell y x = false -> body (Z.of_nat y) (Z.of_nat x) r = Ok (r + g y x)%R) ->
  exceptFirst w body 0%R = Ok (sum 4 (fun y => sum w (fun x => if first_cell y x then 0 else g y x)))%R.
Proof.
  intros Hw Hb. rewrite exceptFirst_eq by exact Hw.
  rewrite (oloop_sum _ (fun y => sum w (fun x => if first_cell y x then 0%R else g y x))).
  - f_equal. rewrite Rplus_0_l. reflexivity.
  - intros y r Hy. rewrite (oloop_sum _ (fun x => if first_cell y x then 0%R else g y x)); [reflexivity|].
    intros x r' Hx. destruct (first_cell y x) eqn:F; [f_equal; ring|]. apply Hb; (assumption || lia).
Qed.

Lemma butterfly1_high c v u : 2 <= v \/ 2 <= u -> butterfly 1 c v u = c v u.
Proof. intros H. unfold butterfly. replace ((v <? 2 * 1) && (u <? 2 * 1)) with false by lia. reflexivity. Qed.
Lemma step1_high c v u : 2 <= v \/ 2 <= u -> hadamard_step 1 c v u = c v u.
Proof. intros H. unfold hadamard_step. replace ((v <? 2 * 1) && (u <? 2 * 1)) with false by lia. reflexivity. Qed.

Lemma invertHornuss_ok coeffs buffer gy gx fy fx s0 s1 f : inside coeffs gy gx 8 8 -> inside buffer fy fx 8 8 -> inside s0 0 0 8 8 -> inside s1 0 0 8 8 ->
  (forall v u, v < 8 -> u < 8 -> pixel coeffs (gy + v) (gx + u) = enc_hornuss f v u) ->
  exists b' s0' s1', invertHornuss coeffs buffer (Z.of_nat gy, Z.of_nat gx) (Z.of_nat fy, Z.of_nat fx) s0 s1 = Ok (b', s0', s1') /\ replaced buffer b' fy fx 8 8 f.
Proof.
  intros Ic Ib I0 I1 Hc. unfold invertHornuss. change (0, 0)%Z with (Z.of_nat 0, Z.of_nat 0). cbn [fst snd].
  destruct (auxDCT2_ok coeffs s1 gy gx 0 0 1 ltac:(lia) Ic I1) as (t1 & E1 & R1). change (2 * Z.of_nat 1)%Z with 2%Z in E1. rewrite E1. cbn [obind].
  pose proof (inside_replaced _ _ _ _ _ _ _ _ _ _ _ R1 I1) as J1.
  (* coefficients away from the averages, and the averages *)
  assert (HC : forall y x iy ix, y < 2 -> x < 2 -> iy < 4 -> ix < 4 -> first_cell iy ix = false ->
     pixel coeffs (gy + (y + iy * 2)) (gx + (x + ix * 2)) = (f ((if first_cell (iy - 1) (ix - 1) && (1 <=? iy) && (1 <=? ix) then 4 * y else 4 * y + iy))%nat
       ((if first_cell (iy - 1) (ix - 1) && (1 <=? iy) && (1 <=? ix) then 4 * x else 4 * x + ix))%nat - f (4 * y + 1)%nat (4 * x + 1)%nat)%R).
  { intros y x iy ix Hy Hx Hiy Hix F. rewrite Hc by lia. unfold enc_hornuss. unfold first_cell in *. rewrite step1_high by lia.
    replace ((y + iy * 2) mod 2) with y by lia. replace ((x + ix * 2) mod 2) with x by lia. replace ((y + iy * 2) / 2) with iy by lia. replace ((x + ix * 2) / 2) with ix by lia.
    rewrite F. destruct ((iy =? 1) && (ix =? 1)) eqn:G.
    - assert (iy = 1 /\ ix = 1) as [-> ->] by lia. reflexivity.
    - replace ((iy - 1 =? 0) && (ix - 1 =? 0) && (1 <=? iy) && (1 <=? ix)) with false by lia. reflexivity. }
  assert (HL : forall y x, y < 2 -> x < 2 -> pixel t1 y x = quadrant_mean f y x).
  { intros y x Hy Hx. pose proof (replaced_px _ _ _ _ _ _ _ y x R1 ltac:(lia) ltac:(lia)) as P. cbn [Nat.add] in P. rewrite P.
    rewrite (butterfly_ext 1 _ (enc_hornuss f)) by (lia || (intros; apply Hc; assumption)). unfold enc_hornuss. rewrite butterfly_step by lia.
    replace (y mod 2) with y by lia. replace (x mod 2) with x by lia. replace (y / 2) with 0 by lia. replace (x / 2) with 0 by lia. reflexivity. }
  match goal with |- exists b' s0' s1', obind (oloop _ _ (fun y s => oloop _ _ (fun x s' => @?B y x s') s) _) _ = _ /\ _ =>
    destruct (tiles_ok (fun _ => True) 2 2 4 4 0 0 B (fun y x iy ix => f (4 * y + iy) (4 * x + ix)) s0) as (t0 & E0 & R0 & _) end; [lia|lia|exact Logic.I| |].
  { intros y x m Hy Hx Sm _. cbv beta. cbn [Nat.add]. pose proof (inside_shape _ _ _ _ _ _ Sm I0) as Im.
    rewrite (get_inside t1 0 0 8 8) by (exact J1 || lia). cbn [obind]. rewrite HL by assumption.
    rewrite (exceptFirst_sum 4 _ (fun iy ix => pixel coeffs (gy + (y + iy * 2)) (gx + (x + ix * 2)))); [|lia|].
    2:{ intros iy ix r Hiy Hix _. replace (Z.of_nat gy + Z.of_nat y + Z.of_nat iy * 2)%Z with (Z.of_nat (gy + (y + iy * 2))) by lia.
        replace (Z.of_nat gx + Z.of_nat x + Z.of_nat ix * 2)%Z with (Z.of_nat (gx + (x + ix * 2))) by lia.
        rewrite (get_inside coeffs gy gx 8 8) by (exact Ic || lia). reflexivity. }
    cbn [obind].
    set (mid := f (4 * y + 1) (4 * x + 1)).
    assert (Em : (quadrant_mean f y x - sum 4 (fun iy => sum 4 (fun ix => if first_cell iy ix then 0 else pixel coeffs (gy + (y + iy * 2)) (gx + (x + ix * 2)))) * (1 / 16))%R = mid).
    { rewrite (sum_ext 4 _ (fun iy => sum 4 (fun ix => if first_cell iy ix then 0%R else
         (f ((if first_cell (iy - 1) (ix - 1) && (1 <=? iy) && (1 <=? ix) then 4 * y else 4 * y + iy))%nat
            ((if first_cell (iy - 1) (ix - 1) && (1 <=? iy) && (1 <=? ix) then 4 * x else 4 * x + ix))%nat - mid)%R))).
      2:{ intros iy Hiy. apply sum_ext. intros ix Hix. destruct (first_cell iy ix) eqn:F; [reflexivity|]. apply HC; assumption. }
      unfold quadrant_mean. cbn [sum first_cell Nat.eqb andb Nat.sub Nat.leb]. unfold mid. rewrite !Nat.add_0_r. field. }
    rewrite Em.
    replace (4 * Z.of_nat y + 1)%Z with (Z.of_nat (4 * y + 1)) by lia. replace (4 * Z.of_nat x + 1)%Z with (Z.of_nat (4 * x + 1)) by lia.
    destruct (cell_ok m (4 * y + 1) (4 * x + 1) mid) as (m1 & F1 & G1). { apply (inside_part m 0 0 8 8); (exact Im || lia). }
    rewrite F1. cbn [obind]. pose proof (inside_replaced _ _ _ _ _ _ _ _ _ _ _ G1 Im) as Im1.
    assert (P1 : pixel m1 (4 * y + 1) (4 * x + 1) = mid). { destruct G1 as (_ & _ & P). rewrite P. unfold in_block. bcase. }
    match goal with |- exists m', obind (oloop _ _ (fun iy s => oloop _ _ (fun ix s' => @?B iy ix s') s) _) _ = _ /\ _ =>
      destruct (cells_ok (fun m => pixel m (4 * y + 1) (4 * x + 1) = mid) 4 4 (4 * y) (4 * x) B
        (fun iy ix => if (ix =? 1) && (iy =? 1) then mid else (pixel coeffs (gy + (y + iy * 2)) (gx + (x + ix * 2)) + mid)%R) m1 P1) as (m2 & F2 & G2 & P2) end.
    { intros iy ix m' Hiy Hix Sm' Pm'. cbv beta. pose proof (inside_shape _ _ _ _ _ _ Sm' Im1) as Im'.
      replace ((Z.of_nat ix =? 1)%Z && (Z.of_nat iy =? 1)%Z) with ((ix =? 1) && (iy =? 1)) by lia.
      destruct ((ix =? 1) && (iy =? 1)) eqn:C.
      - exists m'. split; [reflexivity|]. split; [|exact Pm']. assert (iy = 1 /\ ix = 1) as [-> ->] by lia.
        split; [reflexivity|]. split; [reflexivity|]. intros Y X. unfold in_block. bcase. assert (Y = 4 * y + 1 /\ X = 4 * x + 1) as [-> ->] by lia. exact Pm'.
      - replace (Z.of_nat gy + Z.of_nat y + Z.of_nat iy * 2)%Z with (Z.of_nat (gy + (y + iy * 2))) by lia.
        replace (Z.of_nat gx + Z.of_nat x + Z.of_nat ix * 2)%Z with (Z.of_nat (gx + (x + ix * 2))) by lia.
        rewrite (get_inside coeffs gy gx 8 8) by (exact Ic || lia). cbn [obind].
        rewrite (get_inside m' 0 0 8 8) by (exact Im' || lia). cbn [obind]. rewrite Pm'.
        replace (4 * Z.of_nat y + Z.of_nat iy)%Z with (Z.of_nat (4 * y + iy)) by lia. replace (Z.of_nat x * 4 + Z.of_nat ix)%Z with (Z.of_nat (4 * x + ix)) by lia.
        destruct (cell_ok m' (4 * y + iy) (4 * x + ix) (pixel coeffs (gy + (y + iy * 2)) (gx + (x + ix * 2)) + mid)%R) as (m2 & F2 & G2).
        { apply (inside_part m' 0 0 8 8); (exact Im' || lia). }
        exists m2. split; [exact F2|]. split; [exact G2|]. destruct G2 as (_ & _ & P). rewrite P. unfold in_block. rewrite <- Pm' at 2. bcase. }
    rewrite F2. cbn [obind]. pose proof (inside_replaced _ _ _ _ _ _ _ _ _ _ _ G2 Im1) as Im2.
    replace (Z.of_nat gy + Z.of_nat y + 2)%Z with (Z.of_nat (gy + (y + 1 * 2))) by lia. replace (Z.of_nat gx + Z.of_nat x + 2)%Z with (Z.of_nat (gx + (x + 1 * 2))) by lia.
    rewrite (get_inside coeffs gy gx 8 8) by (exact Ic || lia). cbn [obind].
    rewrite (get_inside m2 0 0 8 8) by (exact Im2 || lia). cbn [obind]. rewrite P2.
    replace (4 * Z.of_nat y)%Z with (Z.of_nat (4 * y)) by lia. replace (4 * Z.of_nat x)%Z with (Z.of_nat (4 * x)) by lia.
    destruct (cell_ok m2 (4 * y) (4 * x) (pixel coeffs (gy + (y + 1 * 2)) (gx + (x + 1 * 2)) + mid)%R) as (m3 & F3 & G3). { apply (inside_part m2 0 0 8 8); (exact Im2 || lia). }
    exists m3. split; [exact F3|]. split; [|exact Logic.I].
    destruct G1 as (A1 & A2 & A3), G2 as (B1 & B2 & B3), G3 as (C1 & C2 & C3). split; [lia|]. split; [intros Y; rewrite C2, B2; apply A2|].
    intros Y X. rewrite C3, B3, A3. replace (y * 4) with (4 * y) by lia. replace (x * 4) with (4 * x) by lia.
    destruct (in_block (4 * y) (4 * x) 4 4 Y X) eqn:InB.
    2:{ replace (in_block (4 * y) (4 * x) 1 1 Y X) with false by (unfold in_block in *; lia). replace (in_block (4 * y + 1) (4 * x + 1) 1 1 Y X) with false by (unfold in_block in *; lia). reflexivity. }
    unfold in_block in InB. assert (HY : exists iy, Y = 4 * y + iy /\ iy < 4) by (exists (Y - 4 * y); lia). assert (HX : exists ix, X = 4 * x + ix /\ ix < 4) by (exists (X - 4 * x); lia).
    destruct HY as (iy & -> & Hiy), HX as (ix & -> & Hix). replace (4 * y + iy - 4 * y) with iy by lia. replace (4 * x + ix - 4 * x) with ix by lia.
    destruct (in_block (4 * y) (4 * x) 1 1 (4 * y + iy) (4 * x + ix)) eqn:I00; unfold in_block in I00.
    + assert (iy = 0 /\ ix = 0) as [-> ->] by lia. rewrite HC by (lia || reflexivity). cbn [first_cell Nat.sub Nat.eqb Nat.leb andb]. rewrite !Nat.add_0_r. fold mid. ring.
    + destruct ((ix =? 1) && (iy =? 1)) eqn:I11.
      * assert (iy = 1 /\ ix = 1) as [-> ->] by lia. reflexivity.
      * rewrite HC by (lia || (unfold first_cell; lia)). unfold first_cell. replace ((iy - 1 =? 0) && (ix - 1 =? 0) && (1 <=? iy) && (1 <=? ix)) with false by lia. fold mid. ring. }
  cbv beta in E0. rewrite E0. cbn [obind]. pose proof (inside_replaced _ _ _ _ _ _ _ _ _ _ _ R0 I0) as J0.
  destruct (layBlock_ok t0 buffer 0 0 fy fx 8 8 J0 Ib) as (b' & Eb & Rb). rewrite Eb. cbn [obind]. exists b', t0, t1. split; [reflexivity|].
  refine (replaced_ext _ _ _ _ _ _ _ _ _ Rb). intros y x Hy Hx. cbv beta. rewrite (replaced_px _ _ _ _ _ _ _ _ _ R0 Hy Hx).
  replace (4 * (y / 4) + y mod 4) with y by lia. replace (4 * (x / 4) + x mod 4) with x by lia. reflexivity.
Qed.
