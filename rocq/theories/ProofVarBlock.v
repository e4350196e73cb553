(* The block transforms of the model undo the encoder's transforms. *)
From Coq Require Import ZArith List Bool Arith Reals Lia Lra ZifyBool ZifyNat.
From Verif Require Import GoBase GoLoop ModelUtil ModelDCT ModelVarBlock SpecDCT SpecVarBlock ProofDCTMath ProofDCT.
Import ListNotations.
Open Scope nat_scope.

Definition shape (m m' : list (list R)) : Prop := length m' = length m /\ forall y, length (nth y m' []) = length (nth y m []).
Lemma shape_refl m : shape m m. Proof. split; reflexivity. Qed.
Lemma shape_trans a b c : shape a b -> shape b c -> shape a c.
Proof. intros [H1 H2] [H3 H4]. split; [lia|]. intros y. rewrite H4. apply H2. Qed.
Lemma replaced_shape m m' a b c d f : replaced m m' a b c d f -> shape m m'.
Proof. intros (H1 & H2 & _). split; assumption. Qed.
Lemma inside_shape m m' y0 x0 h w : shape m m' -> inside m y0 x0 h w -> inside m' y0 x0 h w.
Proof. intros (H1 & H2) [I1 I2]. split; [lia|]. intros y Hy. rewrite H2. apply I2, Hy. Qed.
Lemma inside_part m a b h w y0 x0 h' w' : inside m a b h w -> a <= y0 -> y0 + h' <= a + h -> b <= x0 -> x0 + w' <= b + w -> inside m y0 x0 h' w'.
Proof. intros [I1 I2] H1 H2 H3 H4. split; [lia|]. intros y Hy. specialize (I2 (y0 + y - a) ltac:(lia)). replace (a + (y0 + y - a)) with (y0 + y) in I2 by lia. lia. Qed.

Lemma cell_ok m y x v : inside m y x 1 1 -> exists m', rset2 m (Z.of_nat y) (Z.of_nat x) v = Ok m' /\ replaced m m' y x 1 1 (fun _ _ => v).
Proof.
  intros [I1 I2]. specialize (I2 0 ltac:(lia)). rewrite Nat.add_0_r in I2. destruct (rset2_ok m y x v) as (m' & E & H1 & H2 & H3); [lia|lia|].
  exists m'. split; [exact E|]. split; [exact H1|]. split; [exact H2|]. intros y' x'. rewrite H3. unfold in_block. bcase.
Qed.
Lemma get_inside m y x h w a b : inside m y x h w -> y <= a -> a < y + h -> x <= b -> b < x + w -> rget2 m (Z.of_nat a) (Z.of_nat b) = Ok (pixel m a b).
Proof.
  intros [I1 I2] H1 H2 H3 H4. specialize (I2 (a - y) ltac:(lia)). replace (y + (a - y)) with a in I2 by lia. apply rget2_ok; lia.
Qed.

(* Loops that fill tile after tile *)
Lemma tiles_ok (I : list (list R) -> Prop) nh nw th tw a b (body : nat -> nat -> list (list R) -> Outcome (list (list R))) g m0 :
  0 < th -> 0 < tw -> I m0 ->
  (forall y x m, y < nh -> x < nw -> shape m0 m -> I m ->
     exists m', body y x m = Ok m' /\ replaced m m' (a + y * th) (b + x * tw) th tw (g y x) /\ I m') ->
  exists m', oloop nh 0 (fun y m => oloop nw 0 (fun x m => body y x m) m) m0 = Ok m' /\
    replaced m0 m' a b (nh * th) (nw * tw) (fun y x => g (y / th) (x / tw) (y mod th) (x mod tw)) /\ I m'.
Proof.
  intros Hth Htw I0 Hb. set (G := fun y x => g (y / th) (x / tw) (y mod th) (x mod tw)).
  assert (TG : forall y x m, (y < nh) -> (x < nw) -> shape m0 m -> I m -> exists m', body y x m = Ok m' /\ replaced m m' (a + y * th) (b + x * tw) th tw (fun Y X => G (y * th + Y) (x * tw + X)) /\ I m').
  { intros y x m Hy Hx Hs HI. destruct (Hb y x m Hy Hx Hs HI) as (m' & E & Rm & I'). exists m'. split; [exact E|]. split; [|exact I'].
    refine (replaced_ext _ _ _ _ _ _ _ _ _ Rm). intros Y X HY HX. unfold G.
    replace (y * th + Y) with (Y + y * th) by lia. replace (x * tw + X) with (X + x * tw) by lia.
    rewrite !Nat.div_add, !Nat.mod_add, (Nat.div_small Y), (Nat.div_small X), !Nat.mod_small by lia. reflexivity. }
  destruct (oloop_inv (fun k m => replaced m0 m a b (k * th) (nw * tw) G /\ I m) (fun y m => oloop nw 0 (fun x m => body y x m) m) nh 0 m0) as (m1 & E1 & R1).
  { split; [apply replaced_refl|exact I0]. }
  { intros y m Hy [Rm Im]. pose proof (replaced_shape _ _ _ _ _ _ _ Rm) as Sm.
    destruct (oloop_inv (fun k m' => replaced m m' (a + y * th) b th (k * tw) (fun Y X => G (y * th + Y) X) /\ I m') (fun x m => body y x m) nw 0 m) as (m1 & E1 & R1 & I1).
    { split; [|exact Im]. split; [reflexivity|]. split; [reflexivity|]. intros Y X. unfold in_block. bcase. }
    { intros x m' Hx [Rm' Im']. destruct (TG y x m' ltac:(lia) ltac:(lia) (shape_trans _ _ _ Sm (replaced_shape _ _ _ _ _ _ _ Rm')) Im') as (m2 & E2 & R2 & I2).
      exists m2. split; [exact E2|]. split; [|exact I2]. destruct Rm' as (A1 & A2 & A3). destruct R2 as (B1 & B2 & B3).
      split; [lia|]. split; [intros Y; rewrite B2; apply A2|]. intros Y X. rewrite B3, A3. unfold in_block. replace (S x * tw) with (x * tw + tw) by lia.
      clear. generalize (y * th) (x * tw). intros p q. bcase; f_equal; lia. }
    exists m1. split; [exact E1|]. split; [|exact I1]. destruct Rm as (A1 & A2 & A3). destruct R1 as (B1 & B2 & B3).
    split; [lia|]. split; [intros Y; rewrite B2; apply A2|]. intros Y X. rewrite B3, A3. unfold in_block. replace (S y * th) with (y * th + th) by lia. rewrite Nat.add_0_l.
    clear. generalize (y * th) (nw * tw). intros p q. bcase; f_equal; lia. }
  exists m1. split; [exact E1|]. exact R1.
Qed.
Lemma cells_ok (I : list (list R) -> Prop) h w a b body (g : nat -> nat -> R) m0 :
  I m0 ->
  (forall y x m, y < h -> x < w -> shape m0 m -> I m -> exists m', body y x m = Ok m' /\ replaced m m' (a + y) (b + x) 1 1 (fun _ _ => g y x) /\ I m') ->
  exists m', oloop h 0 (fun y m => oloop w 0 (fun x m => body y x m) m) m0 = Ok m' /\ replaced m0 m' a b h w g /\ I m'.
Proof.
  intros I0 Hb. destruct (tiles_ok I h w 1 1 a b body (fun y x _ _ => g y x) m0) as (m' & E & Rm & Im); [lia|lia|exact I0| |].
  - intros y x m. rewrite !Nat.mul_1_r. apply Hb.
  - exists m'. split; [exact E|]. split; [|exact Im]. rewrite !Nat.mul_1_r in Rm. refine (replaced_ext _ _ _ _ _ _ _ _ _ Rm).
    intros y x _ _. now rewrite !Nat.div_1_r.
Qed.

(* row copies *)
Lemma nth_skipn {A} n (l : list A) i d : nth i (skipn n l) d = nth (n + i) l d.
Proof. revert l. induction n; intros [|a l]; cbn; auto. destruct i; reflexivity. Qed.
Lemma nth_firstn_lt {A} n (l : list A) i d : i < n -> nth i (firstn n l) d = nth i l d.
Proof. revert l i. induction n; intros [|a l] [|i] H; cbn; auto; try lia. apply IHn. lia. Qed.
Lemma copyRow_ok d s o i w : o + w <= length d -> i + w <= length s ->
  exists d', copyRow d s (Z.of_nat o) (Z.of_nat i) w = Ok d' /\ row_replaced d d' o w (fun x => nth (i + x) s 0%R).
Proof.
  intros H1 H2. unfold copyRow.
  replace ((Z.of_nat o <? 0)%Z || (Z.of_nat (length d) <? Z.of_nat o + Z.of_nat w)%Z || (Z.of_nat i <? 0)%Z || (Z.of_nat (length s) <? Z.of_nat i + Z.of_nat w)%Z) with false by lia.
  rewrite !Nat2Z.id. eexists. split; [reflexivity|].
  assert (L1 : length (firstn o d) = o) by (rewrite firstn_length; lia).
  assert (L2 : length (firstn w (skipn i s)) = w) by (rewrite firstn_length, skipn_length; lia).
  split; [rewrite !app_length, L1, L2, skipn_length; lia|]. intros x. bcase.
  - rewrite app_nth2 by lia. rewrite app_nth1 by lia. rewrite L1, nth_firstn_lt by lia. rewrite nth_skipn. reflexivity.
  - rewrite app_nth2 by lia. rewrite app_nth2 by lia. rewrite L1, L2, nth_skipn. f_equal. lia.
  - rewrite app_nth1 by lia. apply nth_firstn_lt. lia.
Qed.
Lemma layBlock_ok block buffer iy ix oy ox h w : inside block iy ix h w -> inside buffer oy ox h w ->
  exists b', layBlock block buffer (Z.of_nat iy, Z.of_nat ix) (Z.of_nat oy, Z.of_nat ox) h w = Ok b' /\
    replaced buffer b' oy ox h w (fun y x => pixel block (iy + y) (ix + x)).
Proof.
  intros [B1 B2] [C1 C2]. unfold layBlock. cbn [fst snd]. apply eachRow_ok; [exact B1|exact C1|].
  intros y Hy. apply copyRow_ok; [apply C2, Hy|apply B2, Hy].
Qed.

(* decoder's step: undoes hadamard_step *)
Definition butterfly (n : nat) (c : nat -> nat -> R) (y x : nat) : R :=
  if (y <? 2 * n) && (x <? 2 * n) then
    let c00 := c (y / 2) (x / 2) in let c01 := c (y / 2) (x / 2 + n) in let c10 := c (y / 2 + n) (x / 2) in let c11 := c (y / 2 + n) (x / 2 + n) in
    match Nat.even y, Nat.even x with
    | true, true => (c00 + c01 + c10 + c11)%R
    | true, false => (c00 + c01 - c10 - c11)%R
    | false, true => (c00 - c01 + c10 - c11)%R
    | false, false => (c00 - c01 - c10 + c11)%R
    end
  else c y x.
Lemma square_ok m a b v00 v01 v10 v11 : inside m a b 2 2 ->
  exists m', obind (rset2 m (Z.of_nat a) (Z.of_nat b) v00) (fun m => obind (rset2 m (Z.of_nat a) (Z.of_nat (b + 1)) v01) (fun m =>
             obind (rset2 m (Z.of_nat (a + 1)) (Z.of_nat b) v10) (fun m => rset2 m (Z.of_nat (a + 1)) (Z.of_nat (b + 1)) v11))) = Ok m' /\
    replaced m m' a b 2 2 (fun i j => match i, j with O, O => v00 | O, _ => v01 | _, O => v10 | _, _ => v11 end).
Proof.
  intros [I1 I2]. pose proof (I2 0 ltac:(lia)) as L0. pose proof (I2 1 ltac:(lia)) as L1. rewrite Nat.add_0_r in L0.
  destruct (rset2_ok m a b v00) as (m1 & E1 & A1 & B1 & C1); [lia|lia|]. rewrite E1. cbn [obind].
  destruct (rset2_ok m1 a (b + 1) v01) as (m2 & E2 & A2 & B2 & C2); [lia|rewrite B1; lia|]. rewrite E2. cbn [obind].
  destruct (rset2_ok m2 (a + 1) b v10) as (m3 & E3 & A3 & B3 & C3); [lia|rewrite B2, B1; lia|]. rewrite E3. cbn [obind].
  destruct (rset2_ok m3 (a + 1) (b + 1) v11) as (m4 & E4 & A4 & B4 & C4); [lia|rewrite B3, B2, B1; lia|].
  exists m4. split; [exact E4|]. split; [lia|]. split; [intros y; rewrite B4, B3, B2; apply B1|].
  intros y x. rewrite C4, C3, C2, C1. clear. destruct (in_block a b 2 2 y x) eqn:Ib; unfold in_block in Ib.
  - assert (Hy : y - a = 0 /\ y = a \/ y - a = 1 /\ y = a + 1) by lia. assert (Hx : x - b = 0 /\ x = b \/ x - b = 1 /\ x = b + 1) by lia.
    destruct Hy as [[-> ->]|[-> ->]], Hx as [[-> ->]|[-> ->]]; bcase.
  - assert (N : ~ ((y = a \/ y = a + 1) /\ (x = b \/ x = b + 1))) by lia. bcase.
Qed.
Lemma auxDCT2_ok coeffs result py px oy ox n : n <= 4 -> inside coeffs py px 8 8 -> inside result oy ox 8 8 ->
  exists r', auxDCT2 coeffs result (Z.of_nat py, Z.of_nat px) (Z.of_nat oy, Z.of_nat ox) (2 * Z.of_nat n) = Ok r' /\
    replaced result r' oy ox 8 8 (butterfly n (fun y x => pixel coeffs (py + y) (px + x))).
Proof.
  intros Hn Ic Ir. unfold auxDCT2. destruct (layBlock_ok coeffs result py px oy ox 8 8 Ic Ir) as (r1 & E1 & R1). rewrite E1. cbn [obind fst snd].
  replace (Z.quot (2 * Z.of_nat n) 2) with (Z.of_nat n) by (rewrite Z.mul_comm, Z.quot_mul; lia). rewrite Nat2Z.id.
  set (c := fun y x => pixel coeffs (py + y) (px + x)) in *.
  assert (Ir1 : inside r1 oy ox 8 8) by (exact (inside_replaced _ _ _ _ _ _ _ _ _ _ _ R1 Ir)).
  match goal with |- exists r', oloop _ _ (fun iy r => oloop _ _ (fun ix r0 => @?B iy ix r0) r) _ = _ /\ _ =>
    destruct (tiles_ok (fun _ => True) n n 2 2 oy ox B (fun iy ix a b => butterfly n c (2 * iy + a) (2 * ix + b)) r1) as (r2 & E2 & R2 & _) end; [lia|lia|exact Logic.I| |].
  { intros y x m Hy Hx Sm _. pose proof (inside_shape _ _ _ _ _ _ Sm Ir1) as Im. cbv beta.
    replace (Z.of_nat py + Z.of_nat y)%Z with (Z.of_nat (py + y)) by lia. replace (Z.of_nat px + Z.of_nat x)%Z with (Z.of_nat (px + x)) by lia.
    replace (Z.of_nat (px + x) + Z.of_nat n)%Z with (Z.of_nat (px + (x + n))) by lia. replace (Z.of_nat (py + y) + Z.of_nat n)%Z with (Z.of_nat (py + (y + n))) by lia.
    rewrite !(get_inside coeffs py px 8 8) by (exact Ic || lia). cbn [obind].
    fold (c y x) (c y (x + n)) (c (y + n) x) (c (y + n) (x + n)).
    replace (Z.of_nat oy + Z.of_nat y * 2)%Z with (Z.of_nat (oy + y * 2)) by lia. replace (Z.of_nat ox + Z.of_nat x * 2)%Z with (Z.of_nat (ox + x * 2)) by lia.
    replace (Z.of_nat (oy + y * 2) + 1)%Z with (Z.of_nat (oy + y * 2 + 1)) by lia. replace (Z.of_nat (ox + x * 2) + 1)%Z with (Z.of_nat (ox + x * 2 + 1)) by lia.
    destruct (square_ok m (oy + y * 2) (ox + x * 2) (c y x + c y (x + n)%nat + c (y + n)%nat x + c (y + n)%nat (x + n)%nat)%R (c y x + c y (x + n)%nat - c (y + n)%nat x - c (y + n)%nat (x + n)%nat)%R
      (c y x - c y (x + n)%nat + c (y + n)%nat x - c (y + n)%nat (x + n)%nat)%R (c y x - c y (x + n)%nat - c (y + n)%nat x + c (y + n)%nat (x + n)%nat)%R) as (m' & F & G);
      [apply (inside_part m oy ox 8 8); (exact Im || lia)|].
    exists m'. split; [exact F|]. split; [|exact Logic.I]. refine (replaced_ext _ _ _ _ _ _ _ _ _ G). intros a b Ha Hb.
    unfold butterfly. replace ((2 * y + a <? 2 * n) && (2 * x + b <? 2 * n)) with true by lia.
    replace ((2 * y + a) / 2) with y by lia. replace ((2 * x + b) / 2) with x by lia.
    rewrite !Nat.even_add, !Nat.even_mul. cbn [Nat.even orb]. destruct a as [|[|a]], b as [|[|b]]; try lia; reflexivity. }
  exists r2. split; [exact E2|]. destruct R1 as (A1 & A2 & A3), R2 as (B1 & B2 & B3). split; [lia|]. split; [intros Y; rewrite B2; apply A2|].
  intros Y X. rewrite B3, A3. unfold in_block. destruct (Nat.leb_spec oy Y); cbn [andb]; [|bcase]. destruct (Nat.leb_spec ox X); cbn [andb]; [|bcase].
  replace (2 * ((Y - oy) / 2) + (Y - oy) mod 2) with (Y - oy) by lia. replace (2 * ((X - ox) / 2) + (X - ox) mod 2) with (X - ox) by lia.
  bcase; unfold butterfly, c; bcase.
Qed.

Lemma butterfly_step n f y x : n = 1 \/ n = 2 \/ n = 4 -> butterfly n (hadamard_step n f) y x = f y x.
Proof.
  intros Hn. assert (P : 0 < n) by lia. unfold butterfly. destruct (Nat.ltb_spec y (2 * n)) as [Ly|Ly]; cbn [andb].
  2:{ unfold hadamard_step. bcase. }
  destruct (Nat.ltb_spec x (2 * n)) as [Lx|Lx]; cbn [andb].
  2:{ unfold hadamard_step. bcase. }
  assert (Dy : y / 2 < n) by lia. assert (Dx : x / 2 < n) by lia.
  assert (E : forall a b, a < n -> b < n ->
    hadamard_step n f a b = ((f (2 * a)%nat (2 * b)%nat + f (2 * a)%nat (2 * b + 1)%nat + f (2 * a + 1)%nat (2 * b)%nat + f (2 * a + 1)%nat (2 * b + 1)%nat) / 4)%R /\
    hadamard_step n f a (b + n) = ((f (2 * a)%nat (2 * b)%nat + f (2 * a)%nat (2 * b + 1)%nat - f (2 * a + 1)%nat (2 * b)%nat - f (2 * a + 1)%nat (2 * b + 1)%nat) / 4)%R /\
    hadamard_step n f (a + n) b = ((f (2 * a)%nat (2 * b)%nat - f (2 * a)%nat (2 * b + 1)%nat + f (2 * a + 1)%nat (2 * b)%nat - f (2 * a + 1)%nat (2 * b + 1)%nat) / 4)%R /\
    hadamard_step n f (a + n) (b + n) = ((f (2 * a)%nat (2 * b)%nat - f (2 * a)%nat (2 * b + 1)%nat - f (2 * a + 1)%nat (2 * b)%nat + f (2 * a + 1)%nat (2 * b + 1)%nat) / 4)%R).
  { intros a b Ha Hb. assert (M : forall z, z < n -> z mod n = z /\ (z + n) mod n = z).
    { intros z Hz. split; [apply Nat.mod_small; exact Hz|]. rewrite <- (Nat.mul_1_l n) at 1. rewrite Nat.mod_add by lia. apply Nat.mod_small; exact Hz. }
    destruct (M a Ha) as [Ma1 Ma2], (M b Hb) as [Mb1 Mb2]. unfold hadamard_step. rewrite Ma1, Ma2, Mb1, Mb2.
    repeat match goal with |- context [(?a <? ?b)] => first [replace (a <? b) with true by lia | replace (a <? b) with false by lia] end.
    cbn [andb]. auto. }
  destruct (E _ _ Dy Dx) as (E1 & E2 & E3 & E4). rewrite E1, E2, E3, E4.
  pose proof (Nat.div_mod y 2 ltac:(lia)) as My. pose proof (Nat.div_mod x 2 ltac:(lia)) as Mx.
  assert (By : y mod 2 = 0 \/ y mod 2 = 1) by lia. assert (Bx : x mod 2 = 0 \/ x mod 2 = 1) by lia.
  assert (Ey : Nat.even y = (y mod 2 =? 0)). { rewrite My at 1. rewrite Nat.even_add, Nat.even_mul. cbn [Nat.even orb]. destruct By as [->| ->]; reflexivity. }
  assert (Ex : Nat.even x = (x mod 2 =? 0)). { rewrite Mx at 1. rewrite Nat.even_add, Nat.even_mul. cbn [Nat.even orb]. destruct Bx as [->| ->]; reflexivity. }
  rewrite Ey, Ex. set (iy := y / 2) in *. set (ix := x / 2) in *.
  destruct By as [By|By], Bx as [Bx|Bx]; rewrite By, Bx in *; cbn [Nat.eqb];
  clearbody iy ix; clear - My Mx; rewrite My, Mx, ?Nat.add_0_r;
  generalize (f (2 * iy) (2 * ix)) (f (2 * iy) (2 * ix + 1)) (f (2 * iy + 1) (2 * ix)) (f (2 * iy + 1) (2 * ix + 1)); intros; field.
Qed.
Lemma butterfly_ext n f g y x : n <= 4 -> y < 8 -> x < 8 -> (forall v u, v < 8 -> u < 8 -> f v u = g v u) -> butterfly n f y x = butterfly n g y x.
Proof.
  intros Hn Hy Hx H. unfold butterfly. destruct (Nat.ltb_spec y (2 * n)); cbn [andb]; [|apply H; assumption].
  destruct (Nat.ltb_spec x (2 * n)); cbn [andb]; [|apply H; assumption].
  rewrite (H (y / 2) (x / 2)), (H (y / 2) (x / 2 + n)), (H (y / 2 + n) (x / 2)), (H (y / 2 + n) (x / 2 + n)) by lia. reflexivity.
Qed.

Lemma invertDCT2_ok coeffs buffer gy gx fy fx s0 s1 f : inside coeffs gy gx 8 8 -> inside buffer fy fx 8 8 -> inside s0 0 0 8 8 -> inside s1 0 0 8 8 ->
  (forall v u, v < 8 -> u < 8 -> pixel coeffs (gy + v) (gx + u) = enc_dct2 f v u) ->
  exists b' s0' s1', invertDCT2 coeffs buffer (Z.of_nat gy, Z.of_nat gx) (Z.of_nat fy, Z.of_nat fx) s0 s1 = Ok (b', s0', s1') /\ replaced buffer b' fy fx 8 8 f.
Proof.
  intros Ic Ib I0 I1 Hc. unfold invertDCT2. change (0, 0)%Z with (Z.of_nat 0, Z.of_nat 0).
  destruct (auxDCT2_ok coeffs s0 gy gx 0 0 1 ltac:(lia) Ic I0) as (t0 & E0 & R0). change (2 * Z.of_nat 1)%Z with 2%Z in E0. rewrite E0. cbn [obind].
  pose proof (inside_replaced _ _ _ _ _ _ _ _ _ _ _ R0 I0) as J0.
  destruct (auxDCT2_ok t0 s1 0 0 0 0 2 ltac:(lia) J0 I1) as (t1 & E1 & R1). change (2 * Z.of_nat 2)%Z with 4%Z in E1. rewrite E1. cbn [obind].
  pose proof (inside_replaced _ _ _ _ _ _ _ _ _ _ _ R1 I1) as J1.
  destruct (auxDCT2_ok t1 buffer 0 0 fy fx 4 ltac:(lia) J1 Ib) as (t2 & E2 & R2). change (2 * Z.of_nat 4)%Z with 8%Z in E2. rewrite E2. cbn [obind].
  exists t2, t0, t1. split; [reflexivity|]. refine (replaced_ext _ _ _ _ _ _ _ _ _ R2). intros y x Hy Hx.
  rewrite <- (butterfly_step 4 f y x) by lia. apply butterfly_ext; [lia|exact Hy|exact Hx|]. intros v u Hv Hu. rewrite (replaced_px _ _ _ _ _ _ _ _ _ R1 Hv Hu).
  rewrite <- (butterfly_step 2 (hadamard_step 4 f) v u) by lia. apply butterfly_ext; [lia|exact Hv|exact Hu|]. intros v' u' Hv' Hu'. rewrite (replaced_px _ _ _ _ _ _ _ _ _ R0 Hv' Hu').
  rewrite <- (butterfly_step 1 (hadamard_step 2 (hadamard_step 4 f)) v' u') by lia. apply butterfly_ext; [lia|exact Hv'|exact Hu'|]. intros v2 u2 Hv2 Hu2. apply Hc; assumption.
Qed.
