(* Colour transforms, neighbours, predictors. *)
From Coq Require Import ZArith List Bool Lia Arith ZifyBool ZifyNat.
From Verif Require Import GoBase GoLoop GoMatrix ModelUtil ModelModular SpecModular ProofUtil ProofCodes ProofSqueeze.
Import ListNotations.
Open Scope Z_scope.

(* ---- colour transforms ---- *)
Lemma wrap_i32 v : wrap v = i32 v.
Proof. reflexivity. Qed.
Lemma shr1 v : Z.shiftr v 1 = v / 2.
Proof. rewrite Z.shiftr_div_pow2 by lia. reflexivity. Qed.
Lemma i32_i32 v : i32 (i32 v) = i32 v.
Proof. apply i32_small, i32_range. Qed.
Definition int32 (v : Z) := - 2 ^ 31 <= v < 2 ^ 31.
Lemma rf_low t a b c : (t =? 6) = false -> rct_forward t a b c =
  (a, (if t / 2 =? 1 then i32 (b - a) else if t / 2 =? 2 then i32 (b - i32 (a + c) / 2) else b), (if t mod 2 =? 1 then i32 (c - a) else c)).
Proof. intros H. unfold rct_forward. rewrite H, !wrap_i32. reflexivity. Qed.
Lemma rf_6 a b c : exists co tmp cg, co = i32 (a - c) /\ tmp = i32 (c + co / 2) /\ cg = i32 (b - tmp) /\
  rct_forward 6 a b c = (i32 (tmp + cg / 2), co, cg).
Proof.
  exists (wrap (a - c)), (wrap (c + wrap (a - c) / 2)), (wrap (b - wrap (c + wrap (a - c) / 2))).
  split; [apply wrap_i32|]. split; [apply wrap_i32|]. split; [apply wrap_i32|]. rewrite <- wrap_i32.
  unfold rct_forward. change (6 =? 6) with true. reflexivity.
Qed.
Lemma undo u v : int32 v -> i32 (i32 (v - u) + u) = v.
Proof. intros Hv. rewrite i32_idem_l. replace (v - u + u) with v by lia. apply i32_small. exact Hv. Qed.
Lemma undo' u v : int32 v -> i32 (u + i32 (v - u)) = v.
Proof. intros Hv. rewrite Z.add_comm. apply undo, Hv. Qed.
Lemma undo2 u v : int32 v -> i32 (i32 (v + u) - u) = v.
Proof. intros Hv. rewrite i32_sub_l. replace (v + u - u) with v by lia. apply i32_small. exact Hv. Qed.
Lemma rct_pixel_ok t a b c : 0 <= t <= 6 -> int32 a -> int32 b -> int32 c ->
  rctPixel t (fst3 (rct_forward t a b c)) (snd3 (rct_forward t a b c)) (thd3 (rct_forward t a b c)) = Ok (a, b, c).
Proof.
  intros Ht Ha Hb Hc. assert (C : t = 0 \/ t = 1 \/ t = 2 \/ t = 3 \/ t = 4 \/ t = 5 \/ t = 6) by lia. clear Ht.
  destruct C as [->|[->|[->|[->|[->|[->| ->]]]]]].
  - reflexivity.
  - rewrite rf_low by reflexivity. change (1 / 2 =? 1) with false. change (1 / 2 =? 2) with false. change (1 mod 2 =? 1) with true. unfold fst3, snd3, thd3. cbn [fst snd rctPixel]. rewrite undo by assumption. reflexivity.
  - rewrite rf_low by reflexivity. change (2 / 2 =? 1) with true. change (2 mod 2 =? 1) with false. unfold fst3, snd3, thd3. cbn [fst snd rctPixel]. rewrite undo by assumption. reflexivity.
  - rewrite rf_low by reflexivity. change (3 / 2 =? 1) with true. change (3 mod 2 =? 1) with true. unfold fst3, snd3, thd3. cbn [fst snd rctPixel]. rewrite !undo by assumption. reflexivity.
  - rewrite rf_low by reflexivity. change (4 / 2 =? 1) with false. change (4 / 2 =? 2) with true. change (4 mod 2 =? 1) with false. unfold fst3, snd3, thd3. cbn [fst snd rctPixel]. rewrite shr1, undo by assumption. reflexivity.
  - rewrite rf_low by reflexivity. change (5 / 2 =? 1) with false. change (5 / 2 =? 2) with true. change (5 mod 2 =? 1) with true. unfold fst3, snd3, thd3. cbn [fst snd rctPixel]. cbv zeta; rewrite shr1, undo', undo by assumption. reflexivity.
  - destruct (rf_6 a b c) as (co & tmp & cg & E1 & E2 & E3 & ->). unfold fst3, snd3, thd3. cbn [fst snd rctPixel]. cbv zeta. rewrite !shr1.
    rewrite (undo2 (cg / 2) tmp) by (rewrite E2; unfold int32; apply i32_range).
    assert (F : i32 (tmp - co / 2) = c) by (rewrite E2; apply undo2; exact Hc). rewrite F.
    assert (G : i32 (c + co) = a) by (rewrite E1; apply undo'; exact Ha). rewrite G.
    assert (K : i32 (cg + tmp) = b) by (rewrite E3; apply undo; exact Hb). rewrite K. reflexivity.
Qed.

Lemma get_pre {A} (pre l post : list A) k d : 0 <= k < Z.of_nat (length l) -> slice_get (pre ++ l ++ post) (Z.of_nat (length pre) + k) = Ok (nth (Z.to_nat k) l d).
Proof.
  intros H. rewrite (slice_get_ok _ _ d) by (rewrite !app_length; lia). f_equal.
  rewrite app_nth2 by lia. rewrite app_nth1 by lia. f_equal. lia.
Qed.
Lemma list_set_app1 {A} (l r : list A) n v : (n < length l)%nat -> list_set (l ++ r) n v = list_set l n v ++ r.
Proof. revert n. induction l as [|a l IH]; intros [|n] H; cbn in *; try lia; [reflexivity|]. rewrite IH by lia. reflexivity. Qed.
Lemma list_set_app2 {A} (l r : list A) n v : list_set (l ++ r) (length l + n) v = l ++ list_set r n v.
Proof. induction l as [|a l IH]; cbn; [reflexivity|]. rewrite IH. reflexivity. Qed.
Lemma set_pre {A} (pre l post : list A) k v : 0 <= k < Z.of_nat (length l) ->
  slice_set (pre ++ l ++ post) (Z.of_nat (length pre) + k) v = Ok (pre ++ list_set l (Z.to_nat k) v ++ post).
Proof.
  intros H. rewrite slice_set_ok by (rewrite !app_length; lia). f_equal.
  replace (Z.to_nat (Z.of_nat (length pre) + k)) with (length pre + Z.to_nat k)%nat by lia.
  rewrite list_set_app2, list_set_app1 by lia. reflexivity.
Qed.

Lemma rect_i32 h w A y x : rect h w A -> samples_i32 A -> (y < h)%nat -> (x < w)%nat -> int32 (px A y x).
Proof.
  intros R W Hy Hx. unfold samples_i32 in W. rewrite Forall_forall in W. destruct (R) as [R1 R2].
  assert (I : In (nth y A []) A) by (apply nth_In; lia). specialize (W _ I). rewrite Forall_forall in W. apply W. apply nth_In.
  rewrite (rect_row h w) by assumption. lia.
Qed.
Lemma beforeb_step y x y' x' : ((y' <? y) || (y' =? y) && (x' <? S x) = ((y' =? y) && (x' =? x)) || ((y' <? y) || (y' =? y) && (x' <? x)))%nat.
Proof. destruct (Nat.ltb_spec y' y), (Nat.eqb_spec y' y), (Nat.ltb_spec x' (S x)), (Nat.eqb_spec x' x), (Nat.ltb_spec x' x); cbn; try reflexivity; lia. Qed.

Definition rctBody (t : Z) := fun (y x : nat) (s : list (list Z) * list (list Z) * list (list Z)) =>
      let '(b0, b1, b2) := s in let y := Z.of_nat y in let x := Z.of_nat x in
      p0 <o- get2 b0 y x ;; p1 <o- get2 b1 y x ;; p2 <o- get2 b2 y x ;;
      r <o- rctPixel t p0 p1 p2 ;;
      let '(q0, q1, q2) := r in
      b0 <o- set2 b0 y x q0 ;; b1 <o- set2 b1 y x q1 ;; b2 <o- set2 b2 y x q2 ;; Ok (b0, b1, b2).
Lemma rct_planes h w t A B C : 0 <= t <= 6 -> rect h w A -> rect h w B -> rect h w C -> samples_i32 A -> samples_i32 B -> samples_i32 C ->
  loop2 h w (rctBody t) (plane h w fst3 t A B C, plane h w snd3 t A B C, plane h w thd3 t A B C) = Ok (A, B, C).
Proof.
  intros Ht RA RB RC IA IB IC.
  set (mix := fun (y x : nat) (F O : list (list Z)) (m : list (list Z)) => rect h w m /\
     forall y' x', (y' < h)%nat -> (x' < w)%nat -> px m y' x' = if ((y' <? y) || (y' =? y) && (x' <? x))%nat then px O y' x' else px F y' x').
  set (FA := plane h w fst3 t A B C). set (FB := plane h w snd3 t A B C). set (FC := plane h w thd3 t A B C).
  destruct (loop2_inv (fun y x s => let '(m0, m1, m2) := s in mix y x FA A m0 /\ mix y x FB B m1 /\ mix y x FC C m2) (rctBody t) h w (FA, FB, FC))
    as ([[m0 m1] m2] & E & (R0 & M0) & (R1 & M1) & (R2 & M2)).
  - assert (Z : forall F O, rect h w F -> mix 0%nat 0%nat F O F).
    { intros F O RF. split; [exact RF|]. intros y' x' Hy Hx. replace (x' <? 0)%nat with false by lia. rewrite andb_false_r. reflexivity. }
    split; [|split]; apply Z; apply rect_mat.
  - intros y x [[m0 m1] m2] Hy Hx ((R0 & M0) & (R1 & M1) & (R2 & M2)). unfold rctBody. cbv zeta.
    rewrite !(get2_ok h w) by (assumption || lia). cbn [obind]. rewrite !Nat2Z.id, M0, M1, M2 by lia.
    replace ((y <? y) || (y =? y) && (x <? x))%nat with false by lia.
    unfold FA at 1, FB at 1, FC at 1, plane. rewrite !px_mat by lia.
    rewrite rct_pixel_ok by (try apply (rect_i32 h w); assumption). cbn [obind].
    destruct (set2_ok h w m0 (Z.of_nat y) (Z.of_nat x) (px A y x) R0 ltac:(lia) ltac:(lia)) as (n0 & -> & N0 & P0).
    destruct (set2_ok h w m1 (Z.of_nat y) (Z.of_nat x) (px B y x) R1 ltac:(lia) ltac:(lia)) as (n1 & -> & N1 & P1).
    destruct (set2_ok h w m2 (Z.of_nat y) (Z.of_nat x) (px C y x) R2 ltac:(lia) ltac:(lia)) as (n2 & -> & N2 & P2). cbn [obind].
    eexists. split; [reflexivity|]. cbv beta iota.
    assert (Z : forall F O m n, rect h w n -> (forall y' x', px n y' x' = if ((y' =? Z.to_nat (Z.of_nat y)) && (x' =? Z.to_nat (Z.of_nat x)))%nat then px O y x else px m y' x') ->
       (forall y' x', (y' < h)%nat -> (x' < w)%nat -> px m y' x' = if ((y' <? y) || (y' =? y) && (x' <? x))%nat then px O y' x' else px F y' x') -> mix y (S x) F O n).
    { intros F O m n Rn Pn Pm. split; [exact Rn|]. intros y' x' Hy' Hx'. rewrite Pn, !Nat2Z.id, beforeb_step, Pm by assumption.
      destruct (Nat.eqb_spec y' y) as [->|]; cbn [andb orb]; [|reflexivity]. destruct (Nat.eqb_spec x' x) as [->|]; cbn [andb orb]; reflexivity. }
    split; [|split]; [exact (Z FA A m0 n0 N0 P0 M0)|exact (Z FB B m1 n1 N1 P1 M1)|exact (Z FC C m2 n2 N2 P2 M2)].
  - intros y [[m0 m1] m2] Hy ((R0 & M0) & (R1 & M1) & (R2 & M2)).
    assert (Z : forall F O m, (forall y' x', (y' < h)%nat -> (x' < w)%nat -> px m y' x' = if ((y' <? y) || (y' =? y) && (x' <? w))%nat then px O y' x' else px F y' x') ->
      rect h w m -> mix (S y) 0%nat F O m).
    { intros F O m Pm Rm. split; [exact Rm|]. intros y' x' Hy' Hx'. rewrite Pm by assumption.
      replace ((y' <? S y) || (y' =? S y) && (x' <? 0))%nat with ((y' <? y) || (y' =? y) && (x' <? w))%nat by lia. reflexivity. }
    split; [|split]; apply Z; assumption.
  - fold FA FB FC. rewrite E. f_equal.
    assert (Z : forall F O m, rect h w O -> rect h w m -> (forall y' x', (y' < h)%nat -> (x' < w)%nat -> px m y' x' = if ((y' <? h) || (y' =? h) && (x' <? 0))%nat then px O y' x' else px F y' x') -> m = O).
    { intros F O m RO Rm Pm. apply (rect_ext h w); try assumption. intros y' x' Hy' Hx'. rewrite Pm by assumption.
      replace (y' <? h)%nat with true by lia. reflexivity. }
    rewrite (Z FA A m0 RA R0 M0), (Z FB B m1 RB R1 M1), (Z FC C m2 RC R2 M2). reflexivity.
Qed.

Lemma set_buf_id c : set_buf c (c_buf c) = c.
Proof. destruct c; reflexivity. Qed.
Lemma set_set c a b : set_buf (set_buf c a) b = set_buf c b.
Proof. reflexivity. Qed.

Lemma rct_ok h w rctType pre post (o : Z -> Chan) : 0 <= rctType < 42 ->
  (forall j, 0 <= j <= 2 -> c_height (o j) = Z.of_nat h /\ c_width (o j) = Z.of_nat w /\ rect h w (c_buf (o j)) /\ samples_i32 (c_buf (o j))) ->
  let p := rctType / 7 in let t := rctType mod 7 in
  let a := o (rct_position p 0) in let b := o (rct_position p 1) in let c := o (rct_position p 2) in
  inverseRCT rctType (Z.of_nat (length pre))
    (pre ++ [set_buf a (plane h w fst3 t (c_buf a) (c_buf b) (c_buf c));
             set_buf b (plane h w snd3 t (c_buf a) (c_buf b) (c_buf c));
             set_buf c (plane h w thd3 t (c_buf a) (c_buf b) (c_buf c))] ++ post)
  = Ok (pre ++ [o 0; o 1; o 2] ++ post).
Proof.
  intros Hr Ho p t a b c. unfold inverseRCT.
  rewrite Z.quot_div_nonneg, Z.rem_mod_nonneg by lia. fold p t. cbv zeta.
  assert (Hp : 0 <= p < 6) by (split; [apply Z.div_pos|apply Z.div_lt_upper_bound]; lia).
  assert (Ht : 0 <= t <= 6) by (pose proof (Z.mod_pos_bound rctType 7); lia).
  assert (Pb : forall j, 0 <= rct_position p j <= 2).
  { intros j. unfold rct_position. pose proof (Z.mod_pos_bound p 3). pose proof (Z.mod_pos_bound (p + 1 + p / 3) 3). pose proof (Z.mod_pos_bound (p + 2 - p / 3) 3).
    destruct (j =? 0); [lia|]. destruct (j =? 1); lia. }
  destruct (Ho _ (Pb 0)) as (A1 & A2 & A3 & A4). destruct (Ho _ (Pb 1)) as (B1 & B2 & B3 & B4). destruct (Ho _ (Pb 2)) as (C1 & C2 & C3 & C4).
  fold a in A1, A2, A3, A4. fold b in B1, B2, B3, B4. fold c in C1, C2, C3, C4.
  set (fa := set_buf a _) in *. set (fb := set_buf b _) in *. set (fc := set_buf c _) in *.
  rewrite <- (Z.add_0_r (Z.of_nat (length pre))) at 1.
  rewrite (get_pre pre [fa; fb; fc] post 0 fa), (get_pre pre [fa; fb; fc] post 1 fa), (get_pre pre [fa; fb; fc] post 2 fa) by (cbn; lia). cbn [obind].
  change (Z.to_nat 0) with 0%nat. change (Z.to_nat 1) with 1%nat. change (Z.to_nat 2) with 2%nat. cbn [nth].
  change (c_height fa) with (c_height a). change (c_width fa) with (c_width a). rewrite A1, A2, !Nat2Z.id.
  change (c_buf fa) with (plane h w fst3 t (c_buf a) (c_buf b) (c_buf c)).
  change (c_buf fb) with (plane h w snd3 t (c_buf a) (c_buf b) (c_buf c)).
  change (c_buf fc) with (plane h w thd3 t (c_buf a) (c_buf b) (c_buf c)).
  pose proof (rct_planes h w t (c_buf a) (c_buf b) (c_buf c) Ht A3 B3 C3 A4 B4 C4) as E. unfold rctBody in E. rewrite E. cbn [obind]. clear E.
  change (set_buf fa (c_buf a)) with (set_buf a (c_buf a)). change (set_buf fb (c_buf b)) with (set_buf b (c_buf b)). change (set_buf fc (c_buf c)) with (set_buf c (c_buf c)).
  rewrite !set_buf_id.
  assert (Cases : p = 0 \/ p = 1 \/ p = 2 \/ p = 3 \/ p = 4 \/ p = 5) by lia.
  assert (S3 : forall (x0 x1 x2 : Chan) k v, 0 <= k < 3 -> slice_set (pre ++ [x0; x1; x2] ++ post) (Z.of_nat (length pre) + k) v = Ok (pre ++ list_set [x0; x1; x2] (Z.to_nat k) v ++ post))
    by (intros; apply set_pre; cbn; lia).
  unfold a, b, c. clearbody fa fb fc. clear - Cases S3.
  destruct Cases as [->|[->|[->|[->|[->| ->]]]]]; 
  match goal with |- context [rct_position ?q 0] => let r := eval vm_compute in (rct_position q 0) in change (rct_position q 0) with r end;
  match goal with |- context [rct_position ?q 1] => let r := eval vm_compute in (rct_position q 1) in change (rct_position q 1) with r end;
  match goal with |- context [rct_position ?q 2] => let r := eval vm_compute in (rct_position q 2) in change (rct_position q 2) with r end;
  unfold permutationLUT;
  repeat (match goal with |- context [slice_get ?l ?k] => let r := eval vm_compute in (slice_get l k) in change (slice_get l k) with r end; cbn [obind]);
  rewrite S3 by lia; cbn [obind]; change (Z.to_nat 0) with 0%nat; change (Z.to_nat 1) with 1%nat; change (Z.to_nat 2) with 2%nat; cbn [list_set];
  rewrite S3 by lia; cbn [obind]; change (Z.to_nat 0) with 0%nat; change (Z.to_nat 1) with 1%nat; change (Z.to_nat 2) with 2%nat; cbn [list_set];
  rewrite S3 by lia; change (Z.to_nat 0) with 0%nat; change (Z.to_nat 1) with 1%nat; change (Z.to_nat 2) with 2%nat; cbn [list_set]; reflexivity.
Qed.
