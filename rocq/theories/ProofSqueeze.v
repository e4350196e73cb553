(* The inverse squeeze undoes the forward squeeze. *)
From Coq Require Import ZArith List Bool Lia Arith ZifyBool ZifyNat.
From Verif Require Import GoBase GoLoop GoMatrix ModelModular SpecModular ProofCodes.
Import ListNotations.
Open Scope Z_scope.

Lemma land1 x : Z.land x 1 = x mod 2.
Proof. change 1 with (Z.ones 1). rewrite Z.land_ones by lia. reflexivity. Qed.

Lemma quot12 v : 0 <= v -> Z.quot v 12 = v / 12.
Proof. intros. apply Z.quot_div_nonneg; lia. Qed.
Lemma quot12n v : v <= 0 -> Z.quot v 12 = - ((- v) / 12).
Proof. intros. rewrite <- (Z.opp_involutive v) at 1. rewrite Z.quot_opp_l by lia. rewrite quot12 by lia. reflexivity. Qed.

Definition small (v : Z) := - (2 ^ 28 - 1) <= v <= 2 ^ 28 - 1.
Lemma tendancy_ok a b c : small a -> small b -> small c -> tendancy a b c = tend a b c.
Proof.
  unfold small. intros Ha Hb Hc. unfold tendancy, tend.
  destruct ((b <=? a) && (c <=? b)) eqn:E1.
  - apply andb_prop in E1 as [E1 E2]. rewrite (i32_small (4 * a - 3 * c - b + 6)) by lia. rewrite quot12 by lia.
    assert (B : 0 <= (4 * a - 3 * c - b + 6) / 12 <= 2 ^ 28) by (split; [apply Z.div_pos; lia|apply Z.div_le_upper_bound; lia]).
    set (x := _ / 12) in *. clearbody x. cbv zeta. rewrite !land1.
    pose proof (Z.mod_pos_bound x 2 ltac:(lia)) as M. rewrite (i32_small (2 * (a - b))), (i32_small (2 * (b - c))), (i32_small (x - x mod 2)) by lia.
    set (d := 2 * (a - b)) in *. assert (Bd : 0 <= d < 2 ^ 30) by lia. clearbody d.
    destruct (Z.ltb_spec d (x - x mod 2)) as [H|H].
    + rewrite (i32_small (d + 1)) by lia. pose proof (Z.mod_pos_bound (d + 1) 2 ltac:(lia)). rewrite (i32_small (d + 1 + _)) by lia. reflexivity.
    + rewrite (i32_small (x + _)) by lia. reflexivity.
  - destruct ((a <=? b) && (b <=? c)) eqn:E2; [|reflexivity]. apply andb_prop in E2 as [E2 E3].
    rewrite (i32_small (4 * a - 3 * c - b - 6)) by lia. rewrite quot12n by lia.
    replace (- (4 * a - 3 * c - b - 6)) with (3 * c + b - 4 * a + 6) by lia.
    assert (B : 0 <= (3 * c + b - 4 * a + 6) / 12 <= 2 ^ 28) by (split; [apply Z.div_pos; lia|apply Z.div_le_upper_bound; lia]).
    set (x0 := (3 * c + b - 4 * a + 6) / 12) in *. clearbody x0. cbv zeta. set (x := - x0). assert (Bx : - 2 ^ 28 <= x <= 0) by lia. clearbody x.
    rewrite !land1. pose proof (Z.mod_pos_bound x 2 ltac:(lia)) as M. rewrite (i32_small (2 * (a - b))), (i32_small (2 * (b - c))), (i32_small (x + x mod 2)) by lia.
    set (d := 2 * (a - b)) in *. assert (Bd : - 2 ^ 30 < d <= 0) by lia. clearbody d.
    destruct (Z.ltb_spec (x + x mod 2) d) as [H|H].
    + rewrite (i32_small (d - 1)) by lia. pose proof (Z.mod_pos_bound (d - 1) 2 ltac:(lia)). rewrite (i32_small (d - 1 - _)) by lia. reflexivity.
    + rewrite (i32_small (x - _)) by lia. reflexivity.
Qed.

(* i32 arithmetic *)
Lemma i32_mod a b : a mod 2 ^ 32 = b mod 2 ^ 32 -> i32 a = i32 b.
Proof. intros H. unfold i32. f_equal. rewrite (Z.add_mod a), (Z.add_mod b), H by lia. reflexivity. Qed.
Lemma i32_cong a : i32 a mod 2 ^ 32 = a mod 2 ^ 32.
Proof. unfold i32. rewrite Zminus_mod_idemp_l. f_equal. lia. Qed.
Lemma i32_range a : - 2 ^ 31 <= i32 a < 2 ^ 31.
Proof. unfold i32. pose proof (Z.mod_pos_bound (a + 2 ^ 31) (2 ^ 32) ltac:(lia)). lia. Qed.
Lemma i32_idem_l a b : i32 (i32 a + b) = i32 (a + b).
Proof. apply i32_mod. rewrite Z.add_mod, i32_cong, <- Z.add_mod by lia. reflexivity. Qed.
Lemma i32_idem_r a b : i32 (a + i32 b) = i32 (a + b).
Proof. rewrite Z.add_comm, i32_idem_l, Z.add_comm. reflexivity. Qed.
Lemma i32_sub_l a b : i32 (i32 a - b) = i32 (a - b).
Proof. unfold Z.sub. apply i32_idem_l. Qed.
Lemma i32_sub_r a b : i32 (a - i32 b) = i32 (a - b).
Proof. apply i32_mod. rewrite Zminus_mod, i32_cong, <- Zminus_mod. reflexivity. Qed.

Lemma avg2_range a b lo hi : lo <= a <= hi -> lo <= b <= hi -> lo <= avg2 a b <= hi.
Proof. intros. unfold avg2. destruct (b <? a) eqn:E; split; (apply Z.div_le_lower_bound || (apply Z.lt_succ_r, Z.div_lt_upper_bound)); lia. Qed.
(* one pair *)
Lemma unpair a b : - 2 ^ 30 <= a < 2 ^ 30 -> - 2 ^ 30 <= b < 2 ^ 30 -> forall t,
  let diff := i32 ((a - b - t) + t) in let first := i32 (avg2 a b + Z.quot diff 2) in
  first = a /\ i32 (first - diff) = b.
Proof.
  intros Ha Hb t. replace (a - b - t + t) with (a - b) by lia. cbv zeta. rewrite (i32_small (a - b)) by lia.
  assert (E : avg2 a b + Z.quot (a - b) 2 = a).
  { unfold avg2. destruct (Z.ltb_spec b a).
    - rewrite Z.quot_div_nonneg by lia. pose proof (Z.div_mod (a + b + 1) 2). pose proof (Z.div_mod (a - b) 2).
      pose proof (Z.mod_pos_bound (a + b + 1) 2). pose proof (Z.mod_pos_bound (a - b) 2). lia.
    - rewrite <- (Z.opp_involutive (a - b)), Z.quot_opp_l, Z.quot_div_nonneg by lia.
      pose proof (Z.div_mod (a + b + 0) 2). pose proof (Z.div_mod (- (a - b)) 2).
      pose proof (Z.mod_pos_bound (a + b + 0) 2). pose proof (Z.mod_pos_bound (- (a - b)) 2). lia. }
  rewrite E, i32_small by lia. split; [reflexivity|]. rewrite i32_small by lia. lia.
Qed.

(* the steps of the two loops, for a line s of n samples *)
Section line.
  Context (t : Z -> Z -> Z -> Z) (lo hi : Z) (n : nat) (s : nat -> Z).
  Hypothesis Hlo : - 2 ^ 30 <= lo. Hypothesis Hhi : hi < 2 ^ 30.
  Hypothesis Ht : forall a b c, lo <= a <= hi -> lo <= b <= hi -> lo <= c <= hi -> tendancy a b c = t a b c.
  Hypothesis Hs : forall i, (i < n)%nat -> lo <= s i <= hi.
  Lemma sq_avg_range i : (2 * i < n)%nat -> lo <= sq_avg n s i <= hi.
  Proof.
    intros H. unfold sq_avg. destruct (Nat.ltb_spec (2 * i + 1) n) as [L|L]; [apply avg2_range; apply Hs; lia|apply Hs; lia].
  Qed.
  Lemma line_step i : (2 * i + 1 < n)%nat -> forall left next,
    left = match i with O => sq_avg n s i | _ => s (2 * i - 1)%nat end ->
    next = (if (2 * (i + 1) <? n)%nat then sq_avg n s (i + 1) else sq_avg n s i) ->
    let diff := i32 (sq_res t n s i + tendancy left (sq_avg n s i) next) in
    let first := i32 (sq_avg n s i + Z.quot diff 2) in
    first = s (2 * i)%nat /\ i32 (first - diff) = s (2 * i + 1)%nat.
  Proof.
    intros Hi left next El En. rewrite Ht.
    - unfold sq_res. cbv zeta. rewrite <- El, <- En.
      assert (Ea : sq_avg n s i = avg2 (s (2 * i)%nat) (s (2 * i + 1)%nat))
        by (unfold sq_avg; destruct (Nat.ltb_spec (2 * i + 1) n); [reflexivity|lia]).
      rewrite Ea. pose proof (Hs (2 * i) ltac:(lia)). pose proof (Hs (2 * i + 1) ltac:(lia)). apply unpair; lia.
    - rewrite El. destruct i; [apply sq_avg_range; lia|apply Hs; lia].
    - apply sq_avg_range. lia.
    - rewrite En. destruct (Nat.ltb_spec (2 * (i + 1)) n); apply sq_avg_range; lia.
  Qed.
End line.

Definition blank (h w : nat) : Chan -> Prop := fun c => c_height c = Z.of_nat h /\ c_width c = Z.of_nat w /\ c_buf c = [].
Definition holds (h w : nat) (b : list (list Z)) : Chan -> Prop := fun c => c_height c = Z.of_nat h /\ c_width c = Z.of_nat w /\ c_buf c = b.

Lemma rect_within b h w A y x : rect h w A -> samples_within b A -> (y < h)%nat -> (x < w)%nat -> - b <= px A y x <= b.
Proof.
  intros R W Hy Hx. unfold samples_within in W. rewrite Forall_forall in W. destruct (R) as [R1 R2].
  assert (I : In (nth y A []) A) by (apply nth_In; lia). specialize (W _ I). rewrite Forall_forall in W. apply W. apply nth_In.
  rewrite (rect_row h w) by assumption. lia.
Qed.

Lemma half_facts w : (w = w / 2 + (w + 1) / 2 /\ ((w + 1) / 2 = w / 2 \/ (w + 1) / 2 = w / 2 + 1) /\ 2 * (w / 2) <= w <= 2 * (w / 2) + 1)%nat.
Proof.
  pose proof (Nat.div_mod w 2). pose proof (Nat.mod_upper_bound w 2). pose proof (Nat.div_mod (w + 1) 2). pose proof (Nat.mod_upper_bound (w + 1) 2). lia.
Qed.

Ltac gnat := repeat match goal with |- context [Z.to_nat (Z.of_nat ?n)] => rewrite (Nat2Z.id n) end.

Section squeeze.
  Context (t : Z -> Z -> Z -> Z) (b : Z) (h w : nat) (A : list (list Z)) (ch orig res : Chan).
  Hypothesis Hb : b < 2 ^ 30.
  Hypothesis Ht : forall a1 a2 a3, - b <= a1 <= b -> - b <= a2 <= b -> - b <= a3 <= b -> tendancy a1 a2 a3 = t a1 a2 a3.
  Hypothesis HA : rect h w A. Hypothesis HW : samples_within b A.
  Hypothesis Hh : (1 <= h)%nat. Hypothesis Hw : (1 <= w)%nat. Hypothesis Hmax : Z.of_nat h < 2 ^ 31 /\ Z.of_nat w < 2 ^ 31.
  Hypothesis Hch : blank h w ch.

  Lemma alloc_blank : allocate ch = set_buf ch (zeros2 (Z.of_nat h) (Z.of_nat w)).
  Proof.
    destruct Hch as (E1 & E2 & E3). unfold allocate. rewrite E1, E2, E3. cbn [length Nat.eqb negb].
    destruct (Z.eqb_spec (Z.of_nat h) 0); [lia|]. destruct (Z.eqb_spec (Z.of_nat w) 0); [lia|]. reflexivity.
  Qed.
  Lemma A_range y x : (y < h)%nat -> (x < w)%nat -> - b <= px A y x <= b.
  Proof. apply rect_within; assumption. Qed.

  Section horizontal.
    Hypothesis Horig : holds h ((w + 1) / 2) (squeezeH_avg h w A) orig.
    Hypothesis Hres : holds h (w / 2) (squeezeH_res t h w A) res.
    Lemma horizontal_ok : inverseHorizontalSqueeze ch orig res = Ok (set_buf ch A).
    Proof.
      destruct Hch as (C1 & C2 & C3). destruct Horig as (O1 & O2 & O3). destruct Hres as (R1 & R2 & R3).
      destruct (half_facts w) as (F1 & F2 & F3). unfold inverseHorizontalSqueeze. rewrite C1, C2, O1, O2, R1, R2.
      set (w2 := (w / 2)%nat) in *. set (wa := ((w + 1) / 2)%nat) in *.
      rewrite !u32_small by lia.
      replace (Z.of_nat w =? Z.of_nat wa + Z.of_nat w2) with true by lia.
      replace (negb (Z.of_nat wa =? Z.of_nat w2) && negb (Z.of_nat wa =? 1 + Z.of_nat w2)) with false by lia.
      rewrite !Z.eqb_refl. cbn [negb orb]. rewrite alloc_blank. cbv zeta.
      unfold set_buf at 1 2 3. cbn [c_height c_buf]. rewrite C1. gnat.
      assert (RO : rect h wa (c_buf orig)) by (rewrite O3; apply rect_mat).
      assert (RR : rect h w2 (c_buf res)) by (rewrite R3; apply rect_mat).
      assert (PO : forall y i, (y < h)%nat -> (i < wa)%nat -> px (c_buf orig) y i = sq_avg w (px A y) i) by (intros; rewrite O3; apply px_mat; assumption).
      assert (PR : forall y i, (y < h)%nat -> (i < w2)%nat -> px (c_buf res) y i = sq_res t w (px A y) i) by (intros; rewrite R3; apply px_mat; assumption).
      set (P := fun (y x : nat) (m : list (list Z)) => rect h w m /\
        forall y' x', ((y' < y /\ x' < 2 * w2) \/ (y' = y /\ x' < 2 * x))%nat -> px m y' x' = px A y' x').
      match goal with |- obind (loop2 _ _ ?body _) _ = _ =>
        destruct (loop2_inv P body h w2 (zeros2 (Z.of_nat h) (Z.of_nat w))) as (buf & E & RB & PB) end.
      - split; [pose proof (rect_zeros (Z.of_nat h) (Z.of_nat w)) as Z0; rewrite !Nat2Z.id in Z0; exact Z0|]. lia.
      - intros y x m Hy Hx [Rm Pm]. cbv zeta.
        rewrite (get2_ok h wa) by (assumption || lia). rewrite (get2_ok h w2) by (assumption || lia). cbn [obind]. gnat.
        rewrite PO, PR by lia.
        assert (En : (if Z.of_nat x + 1 <? Z.of_nat wa then get2 (c_buf orig) (Z.of_nat y) (Z.of_nat x + 1) else Ok (sq_avg w (px A y) x))
          = Ok (if (2 * (x + 1) <? w)%nat then sq_avg w (px A y) (x + 1) else sq_avg w (px A y) x)).
        { destruct (Nat.ltb_spec (2 * (x + 1)) w) as [L|L].
          - replace (Z.of_nat x + 1 <? Z.of_nat wa) with true by lia. rewrite (get2_ok h wa) by (assumption || lia).
            rewrite PO by lia. rewrite Nat2Z.id. replace (Z.to_nat (Z.of_nat x + 1)) with (x + 1)%nat by lia. reflexivity.
          - replace (Z.of_nat x + 1 <? Z.of_nat wa) with false by lia. reflexivity. }
        rewrite En. cbn [obind].
        assert (El : (if 0 <? Z.of_nat x then get2 m (Z.of_nat y) (2 * Z.of_nat x - 1) else Ok (sq_avg w (px A y) x))
          = Ok (match x with O => sq_avg w (px A y) x | _ => px A y (2 * x - 1) end)).
        { destruct x as [|x']; [reflexivity|]. replace (0 <? Z.of_nat (S x')) with true by lia.
          rewrite (get2_ok h w) by (assumption || lia). rewrite Pm by lia. rewrite Nat2Z.id. do 2 f_equal; lia. }
        rewrite El. cbn [obind].
        destruct (line_step t (- b) b w (px A y) ltac:(lia) ltac:(lia) Ht ltac:(intros; apply A_range; lia) x ltac:(lia) _ _ eq_refl eq_refl) as [S1 S2].
        cbv zeta in S1, S2. rewrite S1 in S2. rewrite S1, S2.
        destruct (set2_ok h w m (Z.of_nat y) (2 * Z.of_nat x) (px A y (2 * x)) Rm ltac:(lia) ltac:(lia)) as (m1 & E1 & Rm1 & Pm1).
        rewrite E1. cbn [obind].
        destruct (set2_ok h w m1 (Z.of_nat y) (2 * Z.of_nat x + 1) (px A y (2 * x + 1)) Rm1 ltac:(lia) ltac:(lia)) as (m2 & E2 & Rm2 & Pm2).
        exists m2. split; [exact E2|]. split; [exact Rm2|]. intros y' x' Hyx. rewrite Pm2, Pm1.
        destruct (Nat.eqb_spec y' (Z.to_nat (Z.of_nat y))) as [->|Ny]; cbn [andb]; [|apply Pm; lia]. rewrite Nat2Z.id.
        destruct (Nat.eqb_spec x' (Z.to_nat (2 * Z.of_nat x + 1))) as [->|Nx]; [f_equal; lia|].
        destruct (Nat.eqb_spec x' (Z.to_nat (2 * Z.of_nat x))) as [->|Nx']; [f_equal; lia|]. apply Pm. lia.
      - intros y m Hy [Rm Pm]. split; [exact Rm|]. intros y' x' H. apply Pm. lia.
      - rewrite E. cbn [obind].
        assert (FIN : forall buf', rect h w buf' -> (forall y' x', (y' < h)%nat -> (x' < w)%nat -> px buf' y' x' = px A y' x') -> buf' = A)
          by (intros buf' Rb Pb; apply (rect_ext h w); assumption).
        destruct (Z.ltb_spec (Z.of_nat w2) (Z.of_nat wa)) as [L|L].
        + match goal with |- obind (oloop _ _ ?f _) _ = _ =>
            destruct (oloop_inv (fun y m => rect h w m /\ (forall y' x', (y' < h)%nat -> (x' < 2 * w2 \/ (x' < w /\ y' < y))%nat -> px m y' x' = px A y' x')) f h 0 buf) as (buf' & E' & RB' & PB') end.
          * split; [exact RB|]. intros y' x' Hy [Hx|[_ Hx]]; [apply PB|]; lia.
          * intros y m Hy [Rm Pm]. rewrite (get2_ok h wa) by (assumption || lia). cbn [obind]. gnat. rewrite PO by lia.
            destruct (set2_ok h w m (Z.of_nat y) (2 * Z.of_nat w2) (sq_avg w (px A y) w2) Rm ltac:(lia) ltac:(lia)) as (m1 & E1 & Rm1 & Pm1).
            exists m1. split; [exact E1|]. split; [exact Rm1|]. intros y' x' Hy' Hx'. rewrite Pm1.
            destruct (Nat.eqb_spec y' (Z.to_nat (Z.of_nat y))) as [->|Ny]; cbn [andb]; [|apply Pm; lia]. rewrite Nat2Z.id.
            destruct (Nat.eqb_spec x' (Z.to_nat (2 * Z.of_nat w2))) as [->|Nx]; [|apply Pm; lia].
            unfold sq_avg. destruct (Nat.ltb_spec (2 * w2 + 1) w); [lia|]. f_equal. lia.
          * rewrite E'. cbn [obind]. f_equal. rewrite (FIN buf'); [reflexivity|assumption|].
            intros y' x' Hy' Hx'. apply PB'; lia.
        + cbn [obind]. f_equal. rewrite (FIN buf); [reflexivity|assumption|]. intros y' x' Hy' Hx'. apply PB. lia.
    Qed.
  End horizontal.

  Section vertical.
    Hypothesis Horig : holds ((h + 1) / 2) w (squeezeV_avg h w A) orig.
    Hypothesis Hres : holds (h / 2) w (squeezeV_res t h w A) res.
    Lemma vertical_ok : inverseVerticalSqueeze ch orig res = Ok (set_buf ch A).
    Proof.
      destruct Hch as (C1 & C2 & C3). destruct Horig as (O1 & O2 & O3). destruct Hres as (R1 & R2 & R3).
      destruct (half_facts h) as (F1 & F2 & F3). unfold inverseVerticalSqueeze. rewrite C1, C2, O1, O2, R1, R2.
      set (h2 := (h / 2)%nat) in *. set (ha := ((h + 1) / 2)%nat) in *.
      rewrite !u32_small by lia.
      replace (Z.of_nat h =? Z.of_nat ha + Z.of_nat h2) with true by lia.
      replace (negb (Z.of_nat ha =? Z.of_nat h2) && negb (Z.of_nat ha =? 1 + Z.of_nat h2)) with false by lia.
      rewrite !Z.eqb_refl. cbn [negb orb]. rewrite alloc_blank. cbv zeta.
      unfold set_buf at 1 2. cbn [c_width c_buf]. rewrite C2. gnat.
      assert (RO : rect ha w (c_buf orig)) by (rewrite O3; apply rect_mat).
      assert (RR : rect h2 w (c_buf res)) by (rewrite R3; apply rect_mat).
      set (col := fun x y => px A y x).
      assert (PO : forall i x, (i < ha)%nat -> (x < w)%nat -> px (c_buf orig) i x = sq_avg h (col x) i) by (intros; rewrite O3; unfold col; apply (px_mat ha w (fun i x => sq_avg h (fun y => px A y x) i)); assumption).
      assert (PR : forall i x, (i < h2)%nat -> (x < w)%nat -> px (c_buf res) i x = sq_res t h (col x) i) by (intros; rewrite R3; unfold col; apply (px_mat h2 w (fun i x => sq_res t h (fun y => px A y x) i)); assumption).
      set (P := fun (y x : nat) (m : list (list Z)) => rect h w m /\
        forall y' x', (x' < w)%nat -> (y' < 2 * y \/ (y' < 2 * y + 2 /\ x' < x))%nat -> px m y' x' = px A y' x').
      match goal with |- obind (loop2 _ _ ?body _) _ = _ =>
        destruct (loop2_inv P body h2 w (zeros2 (Z.of_nat h) (Z.of_nat w))) as (buf & E & RB & PB) end.
      - split; [pose proof (rect_zeros (Z.of_nat h) (Z.of_nat w)) as Z0; rewrite !Nat2Z.id in Z0; exact Z0|]. lia.
      - intros y x m Hy Hx [Rm Pm]. cbv zeta.
        rewrite (get2_ok ha w) by (assumption || lia). rewrite (get2_ok h2 w) by (assumption || lia). cbn [obind]. gnat.
        rewrite PO, PR by lia.
        assert (En : (if Z.of_nat y + 1 <? Z.of_nat ha then get2 (c_buf orig) (Z.of_nat y + 1) (Z.of_nat x) else Ok (sq_avg h (col x) y))
          = Ok (if (2 * (y + 1) <? h)%nat then sq_avg h (col x) (y + 1) else sq_avg h (col x) y)).
        { destruct (Nat.ltb_spec (2 * (y + 1)) h) as [L|L].
          - replace (Z.of_nat y + 1 <? Z.of_nat ha) with true by lia. rewrite (get2_ok ha w) by (assumption || lia).
            rewrite PO by lia. rewrite Nat2Z.id. replace (Z.to_nat (Z.of_nat y + 1)) with (y + 1)%nat by lia. reflexivity.
          - replace (Z.of_nat y + 1 <? Z.of_nat ha) with false by lia. reflexivity. }
        rewrite En. cbn [obind].
        assert (El : (if 0 <? Z.of_nat y then get2 m (2 * Z.of_nat y - 1) (Z.of_nat x) else Ok (sq_avg h (col x) y))
          = Ok (match y with O => sq_avg h (col x) y | _ => col x (2 * y - 1)%nat end)).
        { destruct y as [|y']; [reflexivity|]. replace (0 <? Z.of_nat (S y')) with true by lia.
          rewrite (get2_ok h w) by (assumption || lia). unfold col. rewrite Pm by lia. rewrite Nat2Z.id. do 2 f_equal; lia. }
        rewrite El. cbn [obind].
        destruct (line_step t (- b) b h (col x) ltac:(lia) ltac:(lia) Ht ltac:(intros; apply A_range; lia) y ltac:(lia) _ _ eq_refl eq_refl) as [S1 S2].
        cbv zeta in S1, S2. rewrite S1 in S2. rewrite S1, S2.
        destruct (set2_ok h w m (2 * Z.of_nat y) (Z.of_nat x) (col x (2 * y)%nat) Rm ltac:(lia) ltac:(lia)) as (m1 & E1 & Rm1 & Pm1).
        rewrite E1. cbn [obind].
        destruct (set2_ok h w m1 (2 * Z.of_nat y + 1) (Z.of_nat x) (col x (2 * y + 1)%nat) Rm1 ltac:(lia) ltac:(lia)) as (m2 & E2 & Rm2 & Pm2).
        exists m2. split; [exact E2|]. split; [exact Rm2|]. intros y' x' Hx' Hyx. rewrite Pm2, Pm1. unfold col.
        destruct (Nat.eqb_spec x' (Z.to_nat (Z.of_nat x))) as [->|Nx]; rewrite ?andb_true_r, ?andb_false_r; [|apply Pm; lia]. rewrite Nat2Z.id.
        destruct (Nat.eqb_spec y' (Z.to_nat (2 * Z.of_nat y + 1))) as [->|Ny]; [f_equal; lia|].
        destruct (Nat.eqb_spec y' (Z.to_nat (2 * Z.of_nat y))) as [->|Ny']; [f_equal; lia|]. apply Pm; lia.
      - intros y m Hy [Rm Pm]. split; [exact Rm|]. intros y' x' Hx' H. apply Pm; lia.
      - rewrite E. cbn [obind].
        assert (FIN : forall buf', rect h w buf' -> (forall y' x', (y' < h)%nat -> (x' < w)%nat -> px buf' y' x' = px A y' x') -> buf' = A)
          by (intros buf' Rb Pb; apply (rect_ext h w); assumption).
        destruct (Z.ltb_spec (Z.of_nat h2) (Z.of_nat ha)) as [L|L].
        + rewrite (slice_get_ok (c_buf orig) (Z.of_nat h2) []) by (destruct RO; lia). cbn [obind]. gnat.
          rewrite (rect_row ha w) by (assumption || lia).
          match goal with |- obind (oloop _ _ ?f _) _ = _ =>
            destruct (oloop_inv (fun x m => rect h w m /\ (forall y' x', (x' < w)%nat -> (y' < 2 * h2 \/ (y' < h /\ x' < x))%nat -> px m y' x' = px A y' x')) f w 0 buf) as (buf' & E' & RB' & PB') end.
          * split; [exact RB|]. intros y' x' Hx [Hy|[_ Hy]]; [apply PB|]; lia.
          * intros x m Hx [Rm Pm]. rewrite (get2_ok ha w) by (assumption || lia). cbn [obind]. gnat. rewrite PO by lia.
            destruct (set2_ok h w m (2 * Z.of_nat h2) (Z.of_nat x) (sq_avg h (col x) h2) Rm ltac:(lia) ltac:(lia)) as (m1 & E1 & Rm1 & Pm1).
            exists m1. split; [exact E1|]. split; [exact Rm1|]. intros y' x' Hx' Hy'. rewrite Pm1.
            destruct (Nat.eqb_spec x' (Z.to_nat (Z.of_nat x))) as [->|Nx]; rewrite ?andb_true_r, ?andb_false_r; [|apply Pm; lia]. rewrite Nat2Z.id.
            destruct (Nat.eqb_spec y' (Z.to_nat (2 * Z.of_nat h2))) as [->|Ny]; [|apply Pm; lia].
            unfold sq_avg, col. destruct (Nat.ltb_spec (2 * h2 + 1) h); [lia|]. f_equal. lia.
          * rewrite E'. cbn [obind]. f_equal. rewrite (FIN buf'); [reflexivity|assumption|].
            intros y' x' Hy' Hx'. apply PB'; lia.
        + cbn [obind]. f_equal. rewrite (FIN buf); [reflexivity|assumption|]. intros y' x' Hy' Hx'. apply PB; lia.
    Qed.
  End vertical.
End squeeze.
