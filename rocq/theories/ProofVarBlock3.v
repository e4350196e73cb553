(* The AFV blocks. *)
From Coq Require Import ZArith List Bool Arith Reals Lia Lra ZifyBool ZifyNat.
From Verif Require Import GoBase GoLoop ModelUtil ModelDCT ModelVarBlock SpecDCT SpecVarBlock ProofDCTMath ProofDCT ProofVarBlock ProofVarBlock2.
Import ListNotations.
Open Scope nat_scope.

Lemma basis_inside : inside AFV_BASIS 0 0 16 16.
Proof. split; [reflexivity|]. intros y Hy. do 16 (destruct y as [|y]; [apply le_n|]). lia. Qed.
Definition Bs (j i : nat) : R := pixel AFV_BASIS j i.

(* what the decoder computes from the coefficients c *)
Definition afvA (c : nat -> nat -> R) (j : nat) : R := if j =? 0 then ((c 0%nat 0%nat + c 1%nat 0%nat + c 0%nat 1%nat) * 4)%R else c (j / 4 * 2) (j mod 4 * 2).
Definition afvD1 (c : nat -> nat -> R) (iy ix : nat) : R := if first_cell iy ix then (c 0%nat 0%nat + c 1%nat 0%nat - c 0%nat 1%nat)%R else c (iy * 2) (ix * 2 + 1).
Definition afvD2 (c : nat -> nat -> R) (iy ix : nat) : R := if first_cell iy ix then (c 0%nat 0%nat - c 1%nat 0%nat)%R else c (1 + iy * 2) ix.
Definition dec_afv (c : nat -> nat -> R) (by_ bx : bool) (y x : nat) : R :=
  let yo := if by_ then 4 else 0 in let yo' := if by_ then 0 else 4 in
  let xo := if bx then 4 else 0 in let xo' := if bx then 0 else 4 in
  if (yo' <=? y) && (y <? yo' + 4) then idct2 4 8 (afvD2 c) (y - yo') x
  else if (xo' <=? x) && (x <? xo' + 4) then idct2 4 4 (afvD1 c) (x - xo') (y - yo)
  else sum 16 (fun j => (afvA c j * Bs j ((if by_ then 7 - y else y) * 4 + (if bx then 7 - x else x))%nat)%R).

(* copies of a scratch block into a part of the buffer *)
Lemma part_ok h w a b (pos : nat -> nat -> nat * nat) src (body : nat -> nat -> list (list R) -> Outcome (list (list R))) m0 hs ws :
  inside src 0 0 hs ws -> inside m0 a b h w ->
  (forall y x, y < h -> x < w -> fst (pos y x) < hs /\ snd (pos y x) < ws) ->
  (forall y x m, y < h -> x < w -> body y x m = obind (rget2 src (Z.of_nat (fst (pos y x))) (Z.of_nat (snd (pos y x)))) (fun v => rset2 m (Z.of_nat (a + y)) (Z.of_nat (b + x)) v)) ->
  exists m', oloop h 0 (fun y m => oloop w 0 (fun x m => body y x m) m) m0 = Ok m' /\ replaced m0 m' a b h w (fun y x => pixel src (fst (pos y x)) (snd (pos y x))).
Proof.
  intros Is Im Hp Hb. destruct (cells_ok (fun _ => True) h w a b body (fun y x => pixel src (fst (pos y x)) (snd (pos y x))) m0 Logic.I) as (m' & E & Rm & _).
  - intros y x m Hy Hx Sm _. rewrite Hb by assumption. destruct (Hp y x Hy Hx). rewrite (get_inside src 0 0 hs ws) by (exact Is || lia). cbn [obind].
    destruct (cell_ok m (a + y) (b + x) (pixel src (fst (pos y x)) (snd (pos y x)))) as (m' & E & Rm).
    { apply (inside_part m a b h w); try lia. exact (inside_shape _ _ _ _ _ _ Sm Im). }
    exists m'. auto.
  - exists m'. auto.
Qed.

Definition bottom (tt : TTPtr) : bool := is_global tt 16 || is_global tt 17.
Definition right (tt : TTPtr) : bool := is_global tt 15 || is_global tt 17.

Lemma invertAFV_ok coeffs buffer tt gy gx oy ox s0 s1 s2 s3 : inside coeffs gy gx 8 8 -> inside buffer oy ox 8 8 ->
  inside s0 0 0 8 8 -> inside s1 0 0 8 8 -> inside s2 0 0 8 8 -> inside s3 0 0 8 8 ->
  exists b' s0' s1' s2' s3', invertAFV coeffs buffer tt (Z.of_nat gy, Z.of_nat gx) (Z.of_nat oy, Z.of_nat ox) s0 s1 s2 s3 = Ok (b', s0', s1', s2', s3') /\
    replaced buffer b' oy ox 8 8 (dec_afv (fun v u => pixel coeffs (gy + v) (gx + u)) (bottom tt) (right tt)).
Proof.
  intros Ic Ib I0 I1 I2 I3. unfold invertAFV. cbn [fst snd]. set (c := fun v u => pixel coeffs (gy + v) (gx + u)).
  assert (C00 : pixel coeffs gy gx = c 0 0) by (unfold c; now rewrite !Nat.add_0_r).
  assert (C10 : pixel coeffs (gy + 1) gx = c 1 0) by (unfold c; now rewrite !Nat.add_0_r).
  assert (C01 : pixel coeffs gy (gx + 1) = c 0 1) by (unfold c; now rewrite !Nat.add_0_r).
  replace (Z.of_nat gy + 1)%Z with (Z.of_nat (gy + 1)) by lia. 
  replace (rget2 coeffs (Z.of_nat gy) (Z.of_nat gx + 1)) with (rget2 coeffs (Z.of_nat gy) (Z.of_nat (gx + 1))) by (f_equal; lia).
  rewrite !(get_inside coeffs gy gx 8 8) by (exact Ic || lia). cbn [obind]. rewrite C00, C10, C01.
  (* corner *)
  match goal with |- exists _ _ _ _ _, obind (rset2 s0 0 0 ?v) (fun m => obind (exceptFirst 4 ?B m) _) = _ /\ _ =>
    destruct (load_ok 4 B s0 v (fun y x => c (y * 2) (x * 2))) as (t0 & E0 & R0) end; [lia|apply (inside_part s0 0 0 8 8); (exact I0 || lia)| |].
  { intros y x m Hy Hx _. replace (Z.of_nat gy + Z.of_nat y * 2)%Z with (Z.of_nat (gy + y * 2)) by lia. replace (Z.of_nat gx + Z.of_nat x * 2)%Z with (Z.of_nat (gx + x * 2)) by lia.
    rewrite (get_inside coeffs gy gx 8 8) by (exact Ic || lia). reflexivity. }
  match type of E0 with obind ?a ?b = _ => destruct a as [sa| |] eqn:Ea; cbn [obind] in E0; try discriminate E0 end.
  cbn [obind]. rewrite E0. cbn [obind]. clear E0 Ea sa. pose proof (inside_replaced _ _ _ _ _ _ _ _ _ _ _ R0 I0) as J0.
  fold (bottom tt). fold (right tt).
  match goal with |- exists _ _ _ _ _, obind (oloop _ _ (fun iy s => oloop _ _ (fun ix s' => @?B iy ix s') s) _) _ = _ /\ _ =>
    destruct (cells_ok (fun _ => True) 4 4 0 0 B (fun iy ix => sum 16 (fun j => (afvA c j * Bs j (iy * 4 + ix)%nat)%R)) s1 Logic.I) as (t1 & E1 & R1 & _) end.
  { intros iy ix m Hy Hx Sm _. cbv beta.
    rewrite (oloop_sum _ (fun j => (afvA c j * Bs j (iy * 4 + ix)%nat)%R)).
    - cbn [obind Nat.add]. rewrite Rplus_0_l. destruct (cell_ok m iy ix (sum 16 (fun j => (afvA c j * Bs j (iy * 4 + ix)%nat)%R))) as (m' & E & Rm).
      { apply (inside_part m 0 0 8 8); try lia. exact (inside_shape _ _ _ _ _ _ Sm I1). }
      exists m'. auto.
    - intros j r Hj. rewrite Z.shiftr_div_pow2 by lia. change (2 ^ 2)%Z with 4%Z. change 3%Z with (Z.ones 2). rewrite Z.land_ones by lia. change (2 ^ 2)%Z with 4%Z.
      replace (Z.of_nat j / 4)%Z with (Z.of_nat (j / 4)) by lia. replace (Z.of_nat j mod 4)%Z with (Z.of_nat (j mod 4)) by lia.
      rewrite (get_inside t0 0 0 8 8) by (exact J0 || lia). cbn [obind]. replace (Z.of_nat iy * 4 + Z.of_nat ix)%Z with (Z.of_nat (iy * 4 + ix)) by lia.
      rewrite (get_inside AFV_BASIS 0 0 16 16) by (exact basis_inside || lia). cbn [obind].
      pose proof (replaced_px _ _ _ _ _ _ _ (j / 4) (j mod 4) R0 ltac:(lia) ltac:(lia)) as W. rewrite !Nat.add_0_l in W. rewrite W. unfold afvA, first_cell.
      replace ((j / 4 =? 0) && (j mod 4 =? 0)) with (j =? 0) by lia. fold (Bs j (iy * 4 + ix)%nat). reflexivity. }
  cbv beta in E1. rewrite E1. cbn [obind]. clear E1. pose proof (inside_replaced _ _ _ _ _ _ _ _ _ _ _ R1 I1) as J1.
  set (yo := if bottom tt then 4 else 0). set (xo := if right tt then 4 else 0). set (yo' := if bottom tt then 0 else 4). set (xo' := if right tt then 0 else 4).
  assert (Hyo : (if bottom tt then 1%Z else 0%Z) = (Z.of_nat yo / 4)%Z) by (unfold yo; destruct (bottom tt); reflexivity).
  assert (Hxo : (if right tt then 1%Z else 0%Z) = (Z.of_nat xo / 4)%Z) by (unfold xo; destruct (right tt); reflexivity).
  assert (Byo : yo <= 4 /\ yo' <= 4 /\ xo <= 4 /\ xo' <= 4) by (unfold yo, yo', xo, xo'; destruct (bottom tt), (right tt); lia).
  match goal with |- exists _ _ _ _ _, obind (oloop _ _ (fun iy s => oloop _ _ (fun ix s' => @?B iy ix s') s) _) _ = _ /\ _ =>
    destruct (part_ok 4 4 (oy + yo) (ox + xo) (fun iy ix => (if bottom tt then 3 - iy else iy, if right tt then 3 - ix else ix)) t1 B buffer 8 8) as (b1 & E1 & B1) end.
  { exact J1. } { apply (inside_part buffer oy ox 8 8); (exact Ib || lia). }
  { intros y x Hy Hx. cbn [fst snd]. destruct (bottom tt), (right tt); lia. }
  { intros y x m Hy Hx. cbv beta. cbn [fst snd]. unfold yo, xo. destruct (bottom tt), (right tt); cbn [Z.eqb Pos.eqb];
    apply (f_equal2 obind); try (apply (f_equal2 (rget2 t1)); lia); (apply FunctionalExtensionality.functional_extensionality; intros v; f_equal; lia) || idtac. }
  cbv beta in E1. rewrite E1. cbn [obind]. clear E1. pose proof (inside_replaced _ _ _ _ _ _ _ _ _ _ _ B1 Ib) as Jb1.
  (* beside *)
  match goal with |- exists _ _ _ _ _, obind (rset2 t0 0 0 ?v) (fun m => obind (exceptFirst 4 ?B m) _) = _ /\ _ =>
    destruct (load_ok 4 B t0 v (fun y x => c (y * 2) (x * 2 + 1))) as (u0 & E0 & U0) end; [lia|apply (inside_part t0 0 0 8 8); (exact J0 || lia)| |].
  { intros y x m Hy Hx _. replace (Z.of_nat gy + Z.of_nat y * 2)%Z with (Z.of_nat (gy + y * 2)) by lia. replace (Z.of_nat gx + Z.of_nat x * 2 + 1)%Z with (Z.of_nat (gx + (x * 2 + 1))) by lia.
    rewrite (get_inside coeffs gy gx 8 8) by (exact Ic || lia). reflexivity. }
  match type of E0 with obind ?a ?b = _ => destruct a as [sa| |] eqn:Ea; cbn [obind] in E0; try discriminate E0 end.
  cbn [obind]. rewrite E0. cbn [obind]. clear E0 Ea sa. pose proof (inside_replaced _ _ _ _ _ _ _ _ _ _ _ U0 J0) as K0.
  destruct (InverseDCT2D_ok u0 t1 0 0 0 0 2 2 s2 s3) as (u1 & u2 & u3 & E1 & U1 & K2 & K3); [lia|lia| | | | |].
  { apply (inside_part u0 0 0 8 8); cbn; (exact K0 || lia). } { apply (inside_part t1 0 0 8 8); cbn; (exact J1 || lia). }
  { apply (inside_part s2 0 0 8 8); cbn; (exact I2 || lia). } { apply (inside_part s3 0 0 8 8); cbn; (exact I3 || lia). }
  change (2 ^ 2) with 4 in *. change (Z.of_nat 0) with 0%Z in *. rewrite E1. cbn [obind]. clear E1. pose proof (inside_replaced _ _ _ _ _ _ _ _ _ _ _ U1 J1) as L1.
  match goal with |- exists _ _ _ _ _, obind (oloop _ _ (fun iy s => oloop _ _ (fun ix s' => @?B iy ix s') s) _) _ = _ /\ _ =>
    destruct (part_ok 4 4 (oy + yo) (ox + xo') (fun iy ix => (ix, iy)) u1 B b1 8 8) as (b2 & E2 & B2) end.
  { exact L1. } { apply (inside_part b1 oy ox 8 8); (exact Jb1 || lia). }
  { intros y x Hy Hx. cbn [fst snd]. lia. }
  { intros y x m Hy Hx. cbv beta. cbn [fst snd]. unfold yo, xo'. destruct (bottom tt), (right tt); cbn [Z.eqb Pos.eqb];
    apply (f_equal2 obind); try reflexivity; (apply FunctionalExtensionality.functional_extensionality; intros v; f_equal; lia) || idtac. }
  cbv beta in E2. rewrite E2. cbn [obind]. clear E2. pose proof (inside_replaced _ _ _ _ _ _ _ _ _ _ _ B2 Jb1) as Jb2.
  (* the other half *)
  match goal with |- exists _ _ _ _ _, obind (rset2 u0 0 0 ?v) (fun m => obind (exceptFirst 8 ?B m) _) = _ /\ _ =>
    destruct (load_ok 8 B u0 v (fun y x => c (1 + y * 2) x)) as (v0 & E0 & V0) end; [lia|apply (inside_part u0 0 0 8 8); (exact K0 || lia)| |].
  { intros y x m Hy Hx _. replace (Z.of_nat (gy + 1) + Z.of_nat y * 2)%Z with (Z.of_nat (gy + (1 + y * 2))) by lia. replace (Z.of_nat gx + Z.of_nat x)%Z with (Z.of_nat (gx + x)) by lia.
    rewrite (get_inside coeffs gy gx 8 8) by (exact Ic || lia). reflexivity. }
  match type of E0 with obind ?a ?b = _ => destruct a as [sa| |] eqn:Ea; cbn [obind] in E0; try discriminate E0 end.
  cbn [obind]. rewrite E0. cbn [obind]. clear E0 Ea sa. pose proof (inside_replaced _ _ _ _ _ _ _ _ _ _ _ V0 K0) as M0.
  destruct (InverseDCT2D_ok v0 u1 0 0 0 0 2 3 u2 u3) as (v1 & v2 & v3 & E1 & V1 & _); [lia|lia| | | | |].
  { apply (inside_part v0 0 0 8 8); cbn; (exact M0 || lia). } { apply (inside_part u1 0 0 8 8); cbn; (exact L1 || lia). }
  { exact (K2 0 0 8 8 I2). } { exact (K3 0 0 8 8 I3). }
  change (2 ^ 2) with 4 in *. change (2 ^ 3) with 8 in *. change (Z.of_nat 0) with 0%Z in *. rewrite E1. cbn [obind]. clear E1. pose proof (inside_replaced _ _ _ _ _ _ _ _ _ _ _ V1 L1) as N1.
  match goal with |- exists _ _ _ _ _, obind (oloop _ _ (fun iy s => oloop _ _ (fun ix s' => @?B iy ix s') s) _) _ = _ /\ _ =>
    destruct (part_ok 4 8 (oy + yo') ox (fun iy ix => (iy, ix)) v1 B b2 8 8) as (b3 & E3 & B3) end.
  { exact N1. } { apply (inside_part b2 oy ox 8 8); (exact Jb2 || lia). }
  { intros y x Hy Hx. cbn [fst snd]. lia. }
  { intros y x m Hy Hx. cbv beta. cbn [fst snd]. unfold yo'. destruct (bottom tt); cbn [Z.eqb Pos.eqb];
    apply (f_equal2 obind); try reflexivity; (apply FunctionalExtensionality.functional_extensionality; intros v; f_equal; lia) || idtac. }
  cbv beta in E3. rewrite E3. cbn [obind]. clear E3. exists b3, v0, v1, v2, v3. split; [reflexivity|].
  destruct B1 as (P1 & P2 & P3), B2 as (Q1 & Q2 & Q3), B3 as (S1 & S2 & S3). split; [lia|]. split; [intros y; rewrite S2, Q2; apply P2|].
  intros y x. rewrite S3, Q3, P3. cbn [fst snd].
  destruct (in_block oy ox 8 8 y x) eqn:InB.
  2:{ unfold in_block in InB.
      replace (in_block (oy + yo') ox 4 8 y x) with false by (unfold in_block; lia).
      replace (in_block (oy + yo) (ox + xo') 4 4 y x) with false by (unfold in_block; lia).
      replace (in_block (oy + yo) (ox + xo) 4 4 y x) with false by (unfold in_block; lia). reflexivity. }
  unfold in_block in InB. assert (HY : exists iy, y = oy + iy /\ iy < 8) by (exists (y - oy); lia). assert (HX : exists ix, x = ox + ix /\ ix < 8) by (exists (x - ox); lia).
  destruct HY as (iy & -> & Hiy), HX as (ix & -> & Hix). replace (oy + iy - oy) with iy by lia. replace (ox + ix - ox) with ix by lia.
  unfold dec_afv. fold yo yo' xo xo'.
  replace (in_block (oy + yo') ox 4 8 (oy + iy) (ox + ix)) with ((yo' <=? iy) && (iy <? yo' + 4)) by (unfold in_block; lia).
  destruct ((yo' <=? iy) && (iy <? yo' + 4)) eqn:Half.
  - replace (oy + iy - (oy + yo')) with (iy - yo') by lia. 
    pose proof (replaced_px _ _ _ _ _ _ _ (iy - yo') ix V1 ltac:(lia) ltac:(lia)) as W. rewrite ?Nat.add_0_l in W. rewrite W.
    apply idct2_ext. intros v u Hv Hu. exact (replaced_px _ _ _ _ _ _ _ v u V0 Hv Hu).
  - assert (Hy4 : yo <= iy /\ iy < yo + 4) by (unfold yo, yo' in *; destruct (bottom tt); lia).
    replace (in_block (oy + yo) (ox + xo') 4 4 (oy + iy) (ox + ix)) with ((xo' <=? ix) && (ix <? xo' + 4)) by (unfold in_block; lia).
    destruct ((xo' <=? ix) && (ix <? xo' + 4)) eqn:Bes.
    + replace (oy + iy - (oy + yo)) with (iy - yo) by lia. replace (ox + ix - (ox + xo')) with (ix - xo') by lia.
      pose proof (replaced_px _ _ _ _ _ _ _ (ix - xo') (iy - yo) U1 ltac:(lia) ltac:(lia)) as W. rewrite ?Nat.add_0_l in W. rewrite W.
      apply idct2_ext. intros v u Hv Hu. exact (replaced_px _ _ _ _ _ _ _ v u U0 Hv Hu).
    + assert (Hx4 : xo <= ix /\ ix < xo + 4) by (unfold xo, xo' in *; destruct (right tt); lia).
      replace (in_block (oy + yo) (ox + xo) 4 4 (oy + iy) (ox + ix)) with true by (unfold in_block; lia).
      assert (Hp : (if bottom tt then 3 - (oy + iy - (oy + yo)) else oy + iy - (oy + yo)) = (if bottom tt then 7 - iy else iy) /\ (if bottom tt then 7 - iy else iy) < 4)
        by (unfold yo in *; destruct (bottom tt); lia).
      assert (Hq : (if right tt then 3 - (ox + ix - (ox + xo)) else ox + ix - (ox + xo)) = (if right tt then 7 - ix else ix) /\ (if right tt then 7 - ix else ix) < 4)
        by (unfold xo in *; destruct (right tt); lia).
      destruct Hp as [-> Hp], Hq as [-> Hq]. pose proof (replaced_px _ _ _ _ _ _ _ _ _ R1 Hp Hq) as W. rewrite ?Nat.add_0_l in W. exact W.
Qed.

(* the decoder on the encoder's coefficients *)
Lemma enc_first B by_ bx f : let e := enc_afv B by_ bx f in
  ((e 0%nat 0%nat + e 1%nat 0%nat + e 0%nat 1%nat) * 4 = sum 16 (fun i => afv_corner by_ bx f (i / 4)%nat (i mod 4)%nat * B 0%nat i))%R /\
  (e 0%nat 0%nat + e 1%nat 0%nat - e 0%nat 1%nat = dct2 4 4 (fun y x => afv_beside by_ bx f x y) 0%nat 0%nat)%R /\
  (e 0%nat 0%nat - e 1%nat 0%nat = dct2 4 8 (afv_half by_ f) 0%nat 0%nat)%R.
Proof. unfold enc_afv. cbn [Nat.eqb andb]. repeat split; lra. Qed.
Lemma afvA_enc B by_ bx f j : j < 16 -> afvA (enc_afv B by_ bx f) j = sum 16 (fun i => (afv_corner by_ bx f (i / 4)%nat (i mod 4)%nat * B j i)%R).
Proof.
  intros Hj. unfold afvA. destruct (Nat.eqb_spec j 0) as [->|E]; [apply (enc_first B by_ bx f)|].
  unfold enc_afv. 
  replace ((j / 4 * 2 =? 0) && (j mod 4 * 2 =? 0)) with false by lia. replace ((j / 4 * 2 =? 1) && (j mod 4 * 2 =? 0)) with false by lia.
  replace ((j / 4 * 2 =? 0) && (j mod 4 * 2 =? 1)) with false by lia. rewrite !Nat.odd_mul. cbn [Nat.odd Nat.even negb]. rewrite !andb_false_r.
  replace (4 * (j / 4 * 2 / 2) + j mod 4 * 2 / 2) with j by lia. reflexivity.
Qed.
Lemma afvD1_enc B by_ bx f y x : y < 4 -> x < 4 -> afvD1 (enc_afv B by_ bx f) y x = dct2 4 4 (fun y x => afv_beside by_ bx f x y) y x.
Proof.
  intros Hy Hx. unfold afvD1. destruct (first_cell y x) eqn:E; unfold first_cell in E.
  - assert (y = 0 /\ x = 0) as [-> ->] by lia. apply (enc_first B by_ bx f).
  - unfold enc_afv. replace ((y * 2 =? 0) && (x * 2 + 1 =? 0)) with false by lia. replace ((y * 2 =? 1) && (x * 2 + 1 =? 0)) with false by lia.
    replace ((y * 2 =? 0) && (x * 2 + 1 =? 1)) with false by lia. rewrite Nat.odd_add, !Nat.odd_mul. cbn [Nat.odd Nat.even negb]. rewrite !andb_false_r. cbn [xorb].
    replace (y * 2 / 2) with y by lia. replace ((x * 2 + 1) / 2) with x by lia. reflexivity.
Qed.
Lemma afvD2_enc B by_ bx f y x : y < 4 -> x < 8 -> afvD2 (enc_afv B by_ bx f) y x = dct2 4 8 (afv_half by_ f) y x.
Proof.
  intros Hy Hx. unfold afvD2. destruct (first_cell y x) eqn:E; unfold first_cell in E.
  - assert (y = 0 /\ x = 0) as [-> ->] by lia. apply (enc_first B by_ bx f).
  - unfold enc_afv. replace ((1 + y * 2 =? 0) && (x =? 0)) with false by lia. replace ((1 + y * 2 =? 1) && (x =? 0)) with false by lia.
    replace ((1 + y * 2 =? 0) && (x =? 1)) with false by lia. rewrite Nat.odd_add, Nat.odd_mul. cbn [Nat.odd Nat.even negb]. rewrite !andb_false_r. cbn [xorb].
    replace ((1 + y * 2) / 2) with y by lia. reflexivity.
Qed.

Definition in_corner (by_ bx : bool) (y x : nat) : bool := Bool.eqb by_ (4 <=? y) && Bool.eqb bx (4 <=? x).
Lemma dec_enc_outside B by_ bx f y x : y < 8 -> x < 8 -> in_corner by_ bx y x = false -> dec_afv (enc_afv B by_ bx f) by_ bx y x = f y x.
Proof.
  intros Hy Hx Hc. unfold dec_afv, in_corner in *. set (yo' := if by_ then 0 else 4). set (yo := if by_ then 4 else 0). set (xo' := if bx then 0 else 4).
  destruct ((yo' <=? y) && (y <? yo' + 4)) eqn:E1.
  - rewrite (idct2_ext 4 8 _ (dct2 4 8 (afv_half by_ f))) by (intros v u Hv Hu; apply afvD2_enc; assumption). rewrite idct2_dct2 by lia.
    unfold afv_half. fold yo'. f_equal. lia.
  - assert (Hyo : yo <= y /\ y < yo + 4) by (unfold yo, yo' in *; destruct by_; lia).
    assert (E2 : (xo' <=? x) && (x <? xo' + 4) = true) by (unfold xo', yo, yo' in *; destruct by_, bx, (Nat.leb_spec 4 y), (Nat.leb_spec 4 x); cbn [Bool.eqb andb] in *; lia || discriminate).
    rewrite E2. rewrite (idct2_ext 4 4 _ (dct2 4 4 (fun y x => afv_beside by_ bx f x y))) by (intros v u Hv Hu; apply afvD1_enc; assumption).
    rewrite idct2_dct2 by lia. unfold afv_beside. fold yo xo'. f_equal; lia.
Qed.
Lemma dec_enc_corner B by_ bx f y x : y < 8 -> x < 8 -> in_corner by_ bx y x = true ->
  dec_afv (enc_afv B by_ bx f) by_ bx y x =
  sum 16 (fun k => (afv_corner by_ bx f (k / 4)%nat (k mod 4)%nat * sum 16 (fun j => B j k * Bs j ((if by_ then 7 - y else y) * 4 + (if bx then 7 - x else x))%nat))%R).
Proof.
  intros Hy Hx Hc. unfold dec_afv, in_corner in *. set (i := (if by_ then 7 - y else y) * 4 + (if bx then 7 - x else x)).
  replace (((if by_ then 0 else 4) <=? y) && (y <? (if by_ then 0 else 4) + 4)) with false by (destruct by_, bx, (Nat.leb_spec 4 y), (Nat.leb_spec 4 x); cbn [Bool.eqb andb] in *; lia || discriminate).
  replace (((if bx then 0 else 4) <=? x) && (x <? (if bx then 0 else 4) + 4)) with false by (destruct by_, bx, (Nat.leb_spec 4 y), (Nat.leb_spec 4 x); cbn [Bool.eqb andb] in *; lia || discriminate).
  rewrite (sum_ext 16 _ (fun j => sum 16 (fun k => (afv_corner by_ bx f (k / 4)%nat (k mod 4)%nat * (B j k * Bs j i))%R))).
  - rewrite sum_swap. apply sum_ext. intros k _. apply sum_scal.
  - intros j Hj. rewrite afvA_enc by exact Hj. rewrite <- sum_scal_r. apply sum_ext. intros k _. ring.
Qed.

(* AFV_BASIS is orthonormal up to 10^-14 *)
Fixpoint zsum (n : nat) (f : nat -> Z) : Z := match n with O => 0%Z | S n' => (zsum n' f + f n')%Z end.
Definition digit (j i : nat) : Z := nth i (nth j AFV_DIGITS []) 0%Z.
Definition gram_ok : bool := forallb (fun i => forallb (fun k =>
  (Z.abs (zsum 16 (fun j => digit j i * digit j k) - (if (i =? k)%nat then 10 ^ 38 else 0)) <=? 10 ^ 24)%Z) (seq 0 16)) (seq 0 16).
Lemma gram_check : gram_ok = true. Proof. vm_compute. reflexivity. Qed.
Lemma Bs_digit j i : Bs j i = (IZR (digit j i) / IZR (10 ^ 19))%R.
Proof.
  unfold Bs, pixel, AFV_BASIS, digit. change (@nil R) with (map (fun z => (IZR z / IZR (10 ^ 19))%R) []) at 1. rewrite map_nth.
  rewrite <- (map_nth (fun z => (IZR z / IZR (10 ^ 19))%R)). destruct (Nat.lt_ge_cases i (length (nth j AFV_DIGITS []))) as [L|L].
  - apply nth_indep. rewrite map_length. exact L.
  - rewrite !nth_overflow by (rewrite map_length; exact L). unfold Rdiv. ring.
Qed.
Lemma IZR_zsum n f : IZR (zsum n f) = sum n (fun i => IZR (f i)).
Proof. induction n; cbn; [reflexivity|]. rewrite plus_IZR, IHn. reflexivity. Qed.
Lemma basis_near i k : i < 16 -> k < 16 -> (Rabs (sum 16 (fun j => Bs j k * Bs j i) - (if i =? k then 1 else 0)) <= / IZR (10 ^ 14))%R.
Proof.
  intros Hi Hk. pose proof gram_check as G. unfold gram_ok in G. rewrite forallb_forall in G. specialize (G i). rewrite in_seq in G. specialize (G ltac:(lia)).
  rewrite forallb_forall in G. specialize (G k). rewrite in_seq in G. specialize (G ltac:(lia)). apply Z.leb_le in G. apply IZR_le in G. rewrite abs_IZR, minus_IZR, IZR_zsum in G.
  rewrite (sum_ext 16 _ (fun j => (IZR (digit j i * digit j k) / IZR (10 ^ 38))%R)).
  - rewrite sum_div. 
    assert (P : (0 < IZR (10 ^ 38))%R) by (apply IZR_lt; reflexivity).
    replace (sum 16 (fun j => IZR (digit j i * digit j k)) / IZR (10 ^ 38) - (if i =? k then 1 else 0))%R
      with ((sum 16 (fun j => IZR (digit j i * digit j k)) - IZR (if i =? k then 10 ^ 38 else 0)) / IZR (10 ^ 38))%R.
    + unfold Rdiv. rewrite Rabs_mult, (Rabs_right (/ IZR (10 ^ 38))) by (apply Rle_ge, Rlt_le, Rinv_0_lt_compat, P).
      apply (Rmult_le_reg_r (IZR (10 ^ 38))); [exact P|]. rewrite Rmult_assoc, Rinv_l, Rmult_1_r by lra.
      replace (/ IZR (10 ^ 14) * IZR (10 ^ 38))%R with (IZR (10 ^ 24)); [exact G|].
      replace (10 ^ 38)%Z with (10 ^ 14 * 10 ^ 24)%Z by reflexivity. rewrite mult_IZR. assert (0 < IZR (10 ^ 14))%R by (apply IZR_lt; reflexivity). field. lra.
    + destruct (i =? k); [field; lra|]. unfold Rdiv. rewrite Rminus_0_r. ring.
  - intros j _. rewrite !Bs_digit, mult_IZR. replace (10 ^ 38)%Z with (10 ^ 19 * 10 ^ 19)%Z by reflexivity. rewrite mult_IZR.
    assert (0 < IZR (10 ^ 19))%R by (apply IZR_lt; reflexivity). field. lra.
Qed.
Lemma Rabs_sum n f : (Rabs (sum n f) <= sum n (fun i => Rabs (f i)))%R.
Proof. induction n; cbn; [rewrite Rabs_R0; lra|]. eapply Rle_trans; [apply Rabs_triang|]. lra. Qed.
Lemma sum_le n f g : (forall i, i < n -> (f i <= g i)%R) -> (sum n f <= sum n g)%R.
Proof. induction n; intros H; cbn; [lra|]. pose proof (H n ltac:(lia)). specialize (IHn ltac:(intros; apply H; lia)). lra. Qed.
Lemma corner_near by_ bx f y x M : y < 8 -> x < 8 -> in_corner by_ bx y x = true -> (forall v u, v < 8 -> u < 8 -> (Rabs (f v u) <= M)%R) ->
  (Rabs (dec_afv (enc_afv Bs by_ bx f) by_ bx y x - f y x) <= 16 * M / IZR (10 ^ 14))%R.
Proof.
  intros Hy Hx Hc HM. rewrite dec_enc_corner by assumption. set (i := (if by_ then 7 - y else y) * 4 + (if bx then 7 - x else x)).
  unfold in_corner in Hc. assert (Hi : i < 16 /\ i / 4 = (if by_ then 7 - y else y) /\ i mod 4 = (if bx then 7 - x else x))
    by (unfold i; destruct by_, bx, (Nat.leb_spec 4 y), (Nat.leb_spec 4 x); cbn [Bool.eqb andb] in *; lia || discriminate).
  destruct Hi as (Hi & Hd & Hm). set (q := fun k => afv_corner by_ bx f (k / 4) (k mod 4)).
  assert (Ef : f y x = q i). { unfold q, afv_corner. rewrite Hd, Hm. destruct by_, bx, (Nat.leb_spec 4 y), (Nat.leb_spec 4 x); cbn [Bool.eqb andb] in Hc; try discriminate Hc; f_equal; lia. }
  rewrite Ef. replace (q i) with (sum 16 (fun k => (q k * (if i =? k then 1 else 0))%R)).
  2:{ rewrite (sum_ext 16 _ (fun k => if k =? i then q k else 0%R)); [apply sum_delta; exact Hi|]. intros k _. rewrite Nat.eqb_sym. destruct (k =? i); ring. }
  match goal with |- (Rabs ?t <= _)%R => replace t with (sum 16 (fun k => (q k * (sum 16 (fun j => Bs j k * Bs j i) - (if i =? k then 1 else 0)))%R)) end.
  2:{ rewrite (sum_ext 16 _ (fun k => (q k * sum 16 (fun j => Bs j k * Bs j i) + (-1) * (q k * (if i =? k then 1 else 0)))%R)) by (intros k _; ring).
      rewrite sum_plus, sum_scal. fold q. unfold q. lra. }
  eapply Rle_trans; [apply Rabs_sum|]. eapply Rle_trans; [apply (sum_le 16 _ (fun _ => (M * / IZR (10 ^ 14))%R))|].
  - intros k Hk. rewrite Rabs_mult. apply Rmult_le_compat; try apply Rabs_pos; [|apply basis_near; assumption].
    unfold q, afv_corner. apply HM; destruct by_, bx; lia.
  - rewrite sum_const. replace (INR 16) with 16%R by (cbn; lra). unfold Rdiv. lra.
Qed.
Lemma dec_afv_ext c d by_ bx y x : (forall v u, v < 8 -> u < 8 -> c v u = d v u) -> dec_afv c by_ bx y x = dec_afv d by_ bx y x.
Proof.
  intros H. unfold dec_afv. destruct (_ && _).
  - apply idct2_ext. intros v u Hv Hu. unfold afvD2. rewrite !H by lia. reflexivity.
  - destruct (_ && _).
    + apply idct2_ext. intros v u Hv Hu. unfold afvD1. rewrite !H by lia. reflexivity.
    + apply sum_ext. intros j Hj. unfold afvA. rewrite !H by lia. reflexivity.
Qed.
