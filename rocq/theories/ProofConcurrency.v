(* Lemmas on row splitting, interleavings, the work queue and the semaphore. *)
From Coq Require Import ZArith List Bool Lia Arith Permutation ZifyBool ZifyNat.
From Verif Require Import GoBase GoLoop GoMatrix ModelConcurrency SpecConcurrency ProofCodes.
Import ListNotations.
Open Scope Z_scope.

(* ---- splitting rows ---- *)
Inductive chain (h : Z) : Z -> list (Z * Z) -> Prop :=
| ch_end a : h <= a -> chain h a []
| ch_cons a b t : a < b -> b <= h -> chain h b t -> chain h a ((a, b) :: t).

Lemma ranges32_chain rows h : forall n w, 0 <= w -> 1 <= rows -> 0 <= h -> (w + Z.of_nat n) * rows < 2 ^ 31 -> w + Z.of_nat n < 2 ^ 31 -> h <= (w + Z.of_nat n) * rows ->
  chain h (Z.min h (w * rows)) (ranges32 n w rows h).
Proof.
  induction n as [|n IH]; intros w Hw Hr Hh Hb Hb' Hc; cbn [ranges32].
  - constructor. nia.
  - assert (B : 0 <= w * rows /\ w * rows + rows <= (w + Z.of_nat (S n)) * rows) by nia.
    rewrite (i32_small w) by lia. rewrite (i32_small (w * rows)) by lia. rewrite (i32_small (w * rows + rows)) by lia.
    specialize (IH (w + 1) ltac:(lia) Hr Hh ltac:(replace (w + 1 + Z.of_nat n) with (w + Z.of_nat (S n)) by lia; lia) ltac:(lia)
      ltac:(replace (w + 1 + Z.of_nat n) with (w + Z.of_nat (S n)) by lia; lia)).
    replace ((w + 1) * rows) with (w * rows + rows) in IH by lia.
    destruct (Z.leb_spec h (w * rows)); [rewrite Z.min_l by lia; constructor; lia|].
    rewrite Z.min_r by lia. destruct (Z.ltb_spec h (w * rows + rows)).
    + rewrite Z.min_l in IH by lia. constructor; [lia|lia|exact IH].
    + rewrite Z.min_r in IH by lia. constructor; [lia|lia|exact IH].
Qed.
Lemma ranges64_chain rows h : forall n w, 0 <= w -> 1 <= rows -> 0 <= h -> (w + Z.of_nat n) * rows < 2 ^ 63 -> h <= (w + Z.of_nat n) * rows ->
  chain h (Z.min h (w * rows)) (ranges64 n w rows h).
Proof.
  induction n as [|n IH]; intros w Hw Hr Hh Hb Hc; cbn [ranges64].
  - constructor. nia.
  - assert (B : 0 <= w * rows /\ w * rows + rows <= (w + Z.of_nat (S n)) * rows) by nia.
    rewrite (i64_small (w * rows)) by lia. rewrite (i64_small (w * rows + rows)) by lia.
    specialize (IH (w + 1) ltac:(lia) Hr Hh ltac:(replace (w + 1 + Z.of_nat n) with (w + Z.of_nat (S n)) by lia; lia)
      ltac:(replace (w + 1 + Z.of_nat n) with (w + Z.of_nat (S n)) by lia; lia)).
    replace ((w + 1) * rows) with (w * rows + rows) in IH by lia.
    destruct (Z.leb_spec h (w * rows)); [rewrite Z.min_l by lia; constructor; lia|].
    rewrite Z.min_r by lia. destruct (Z.ltb_spec h (w * rows + rows)).
    + rewrite Z.min_l in IH by lia. constructor; [lia|lia|exact IH].
    + rewrite Z.min_r in IH by lia. constructor; [lia|lia|exact IH].
Qed.

Lemma ceil_quot h n : 1 <= h -> 1 <= n -> let r := Z.quot (h + n - 1) n in 1 <= r /\ h <= n * r <= h + n - 1.
Proof.
  intros Hh Hn r. unfold r. rewrite Z.quot_div_nonneg by lia. pose proof (Z.div_mod (h + n - 1) n ltac:(lia)). pose proof (Z.mod_pos_bound (h + n - 1) n ltac:(lia)).
  set (q := (h + n - 1) / n) in *. clearbody q. nia.
Qed.
Lemma empty_ranges32 n w rows : 0 <= w < 2 ^ 31 -> rows = 0 -> ranges32 n w rows 0 = [].
Proof. intros Hw ->. destruct n; cbn [ranges32]; [reflexivity|]. rewrite Z.mul_0_r. reflexivity. Qed.

Lemma split_chain m h : 0 <= h -> h + Z.max 1 m <= 2 ^ 31 -> exists rs, splitRows m h = Ok rs /\ chain h 0 rs.
Proof.
  intros Hh Hm. unfold splitRows. replace (if m <? 1 then 1 else m) with (Z.max 1 m) by (destruct (Z.ltb_spec m 1); lia).
  set (n := Z.max 1 m) in *. assert (Hn : 1 <= n) by lia. clearbody n. clear m.
  destruct (Z.eqb_spec h 0) as [->|Hh0].
  - assert (Hn' : n <= 2 ^ 31) by lia. clear Hm.
    destruct (Z.eq_dec n (2 ^ 31)) as [->|]; [eexists; split; [reflexivity|]|].
    + rewrite empty_ranges32; [constructor; lia|lia|reflexivity].
    + rewrite (i32_small n) by lia. destruct (Z.eqb_spec n 0); [lia|]. eexists. split; [reflexivity|].
      rewrite empty_ranges32; [constructor; lia|lia|]. rewrite (i32_small (0 + n - 1)) by lia. rewrite Z.quot_small by lia. reflexivity.
  - destruct (ceil_quot h n ltac:(lia) Hn) as [R1 R2]. rewrite (i32_small n) by lia. destruct (Z.eqb_spec n 0); [lia|].
    rewrite (i32_small (h + n - 1)) by lia. set (r := Z.quot (h + n - 1) n) in *. assert (r <= n * r) by nia. rewrite (i32_small r) by lia.
    eexists. split; [reflexivity|]. pose proof (ranges32_chain r h (Z.to_nat n) 0 ltac:(lia) R1 Hh) as C. rewrite !Z2Nat.id in C by lia.
    specialize (C ltac:(lia) ltac:(lia) ltac:(lia)). replace (Z.min h (0 * r)) with 0 in C by lia. exact C.
Qed.
Lemma split_up_chain m h : 0 <= h -> h + Z.max 1 m <= 2 ^ 63 -> chain h 0 (splitRowsUp m h).
Proof.
  intros Hh Hm. unfold splitRowsUp. replace (if m <? 1 then 1 else m) with (Z.max 1 m) by (destruct (Z.ltb_spec m 1); lia).
  set (n := Z.max 1 m) in *. assert (Hn : 1 <= n) by lia. clearbody n. clear m. cbv zeta.
  rewrite (i64_small (h + n - 1)) by lia.
  destruct (Z.eqb_spec h 0) as [->|Hh0].
  - rewrite Z.quot_small by lia. destruct (Z.to_nat n); cbn [ranges64]; [constructor; lia|]. change (i64 (0 * 0)) with 0. cbn. constructor; lia.
  - destruct (ceil_quot h n ltac:(lia) Hn) as [R1 R2]. set (r := Z.quot (h + n - 1) n) in *.
    pose proof (ranges64_chain r h (Z.to_nat n) 0 ltac:(lia) R1 Hh) as C. rewrite !Z2Nat.id in C by lia.
    specialize (C ltac:(lia) ltac:(lia)). replace (Z.min h (0 * r)) with 0 in C by lia. exact C.
Qed.

Lemma chain_ge h a rs : chain h a rs -> Forall (fun r => a <= fst r < snd r /\ snd r <= h) rs.
Proof.
  induction 1 as [|a b t Hab Hb H IH]; constructor; [cbn; lia|]. eapply Forall_impl; [|exact IH]. cbn. intros. lia.
Qed.
Lemma chain_cover h a rs : chain h a rs -> forall y, a <= y < h -> exists i, (i < length rs)%nat /\ in_range y (nth i rs (0, 0)) /\
    forall j, (j < length rs)%nat -> in_range y (nth j rs (0, 0)) -> j = i.
Proof.
  induction 1 as [|a b t Hab Hb H IH]; intros y Hy; [lia|]. pose proof (chain_ge _ _ _ H) as G. rewrite Forall_forall in G.
  destruct (Z.lt_ge_cases y b) as [Hlt|Hge].
  - exists 0%nat. cbn [length nth]. unfold in_range. cbn [fst snd]. split; [lia|]. split; [lia|]. intros [|j] Hj Hr; [reflexivity|]. exfalso.
    cbn [nth] in Hr. specialize (G (nth j t (0, 0)) ltac:(apply nth_In; cbn in Hj; lia)). lia.
  - destruct (IH y ltac:(lia)) as (i & Hi & Ri & Ui). exists (S i). cbn [length nth]. split; [lia|]. split; [exact Ri|].
    intros [|j] Hj Hr; [unfold in_range in Hr; cbn in Hr; lia|]. f_equal. apply Ui; [lia|exact Hr].
Qed.
Lemma chain_partition h rs : chain h 0 rs -> partition h rs.
Proof.
  intros C. split; [|exact (chain_cover h 0 rs C)]. exact (chain_ge h 0 rs C).
Qed.

(* ---- interleavings ---- *)
Lemma interleaving_perm {A} (ls : list (list A)) l : interleaving ls l -> Permutation (concat ls) l.
Proof.
  induction 1 as [ls H|pre a t post l H IH].
  - assert (E : concat ls = []). { induction H as [|x ls Hx H IH]; [reflexivity|]. cbn. rewrite Hx, IH. reflexivity. } rewrite E. constructor.
  - rewrite concat_app in *. cbn [concat] in *. rewrite <- app_comm_cons. etransitivity; [symmetry; apply Permutation_middle|]. constructor. exact IH.
Qed.

Lemma zseq_app a b c : a <= b <= c -> zseq a c = zseq a b ++ zseq b c.
Proof.
  intros H. unfold zseq. replace (Z.to_nat (c - a)) with (Z.to_nat (b - a) + Z.to_nat (c - b))%nat by lia.
  rewrite seq_app, map_app. f_equal. rewrite Nat.add_0_l.
  replace (seq (Z.to_nat (b - a)) (Z.to_nat (c - b))) with (map (fun i => (Z.to_nat (b - a) + i)%nat) (seq 0 (Z.to_nat (c - b)))).
  - rewrite map_map. apply map_ext. intros i. lia.
  - clear. generalize (Z.to_nat (c - b)) as n. intros n. generalize (Z.to_nat (b - a)) as k. intros k.
    assert (G : forall n s, map (fun i => (k + i)%nat) (seq s n) = seq (k + s) n).
    { clear. induction n as [|n IH]; intros s; [reflexivity|]. cbn. rewrite IH. do 2 f_equal. lia. }
    rewrite G, Nat.add_0_r. reflexivity.
Qed.
Lemma in_zseq a b y : In y (zseq a b) <-> a <= y < b.
Proof.
  unfold zseq. rewrite in_map_iff. split.
  - intros (i & <- & Hi). apply in_seq in Hi. lia.
  - intros H. exists (Z.to_nat (y - a)). split; [lia|]. apply in_seq. lia.
Qed.
Lemma zseq_nodup a b : NoDup (zseq a b).
Proof. unfold zseq. apply FinFun.Injective_map_NoDup; [intros i j H; lia|apply seq_NoDup]. Qed.

Lemma concat_workers width h : forall a rs, chain h a rs -> a <= h -> concat (map (worker width) rs) = worker width (a, h).
Proof.
  intros a rs C. induction C as [a H|a b t Hab Hb C IH]; intros Ha.
  - assert (a = h) by lia. subst. unfold worker. cbn [fst snd map concat]. unfold zseq at 2. rewrite Z.sub_diag. reflexivity.
  - cbn [map concat]. rewrite IH by lia. unfold worker. cbn [fst snd]. rewrite (zseq_app a b h) by lia. rewrite flat_map_app. reflexivity.
Qed.
Lemma in_worker width a b y x : In (y, x) (worker width (a, b)) <-> a <= y < b /\ 0 <= x < width.
Proof.
  unfold worker. cbn [fst snd]. rewrite in_flat_map. split.
  - intros (y' & H1 & H2). apply in_map_iff in H2 as (x' & [= -> ->] & H3). rewrite in_zseq in H1, H3. tauto.
  - intros [H1 H2]. exists y. split; [apply in_zseq; exact H1|]. apply in_map_iff. exists x. split; [reflexivity|]. apply in_zseq. exact H2.
Qed.
Lemma worker_nodup width a b : NoDup (worker width (a, b)).
Proof.
  unfold worker. cbn [fst snd]. pose proof (zseq_nodup a b) as N. induction (zseq a b) as [|y l IH]; cbn [flat_map]; [constructor|].
  inversion N; subst.
  assert (G : forall (l1 l2 : list (Z * Z)), NoDup l1 -> NoDup l2 -> (forall a, In a l1 -> ~ In a l2) -> NoDup (l1 ++ l2)).
  { clear. induction l1 as [|a l1 IH]; intros l2 N1 N2 D; [exact N2|]. inversion N1; subst. cbn. constructor.
    - rewrite in_app_iff. intros [H|H]; [tauto|]. exact (D a (or_introl eq_refl) H).
    - apply IH; auto. intros b Hb. apply D. right. exact Hb. }
  apply G.
  - apply FinFun.Injective_map_NoDup; [intros i j [=]; assumption|apply zseq_nodup].
  - apply IH. assumption.
  - intros [y' x'] H1' H2'. apply in_map_iff in H1' as (x1 & [= <- <-] & _). apply in_flat_map in H2' as (y2 & Hy2 & H3).
    apply in_map_iff in H3 as (x3 & [= -> ->] & _). contradiction.
Qed.

(* ---- executing steps ---- *)
Lemma exec_ok h w (val : Z -> Z -> Outcome Z) (V : nat -> nat -> Z) :
  (forall y x, (y < h)%nat -> (x < w)%nat -> val (Z.of_nat y) (Z.of_nat x) = Ok (V y x)) ->
  forall steps out, rect h w out -> (forall y x, In (y, x) steps -> 0 <= y < Z.of_nat h /\ 0 <= x < Z.of_nat w) ->
  exists out', execSteps val steps out = Ok out' /\ rect h w out' /\
    forall y x, (y < h)%nat -> (x < w)%nat -> (In (Z.of_nat y, Z.of_nat x) steps -> px out' y x = V y x) /\
      (~ In (Z.of_nat y, Z.of_nat x) steps -> px out' y x = px out y x).
Proof.
  intros HV. induction steps as [|[y0 x0] t IH]; intros out R HS; cbn [execSteps].
  - exists out. split; [reflexivity|]. split; [exact R|]. intros y x _ _. split; [intros []|reflexivity].
  - destruct (HS y0 x0 (or_introl eq_refl)) as [B1 B2].
    pose proof (HV (Z.to_nat y0) (Z.to_nat x0) ltac:(lia) ltac:(lia)) as E. rewrite !Z2Nat.id in E by lia. rewrite E. cbn [obind].
    destruct (set2_ok h w out y0 x0 (V (Z.to_nat y0) (Z.to_nat x0)) R B1 B2) as (m & -> & Rm & Pm). cbn [obind].
    destruct (IH m Rm (fun y x H => HS y x (or_intror H))) as (out' & Eo & Ro & Po). exists out'. split; [exact Eo|]. split; [exact Ro|].
    intros y x Hy Hx. destruct (Po y x Hy Hx) as [P1 P2].
    destruct (in_dec (fun a b : Z * Z => ltac:(decide equality; apply Z.eq_dec) : {a = b} + {a <> b}) (Z.of_nat y, Z.of_nat x) t) as [I|I].
    + split; [intros _; exact (P1 I)|]. intros N. exfalso. apply N. right. exact I.
    + rewrite (P2 I), Pm. split.
      * intros [[= -> ->]|H]; [|contradiction]. rewrite !Nat2Z.id, !Nat.eqb_refl. reflexivity.
      * intros N. destruct (Nat.eqb_spec y (Z.to_nat y0)) as [Ey|Ey]; [|reflexivity]. destruct (Nat.eqb_spec x (Z.to_nat x0)) as [Ex|Ex]; [|reflexivity].
        exfalso. apply N. left. f_equal; lia.
Qed.

Lemma schedule_ok h w (val : Z -> Z -> Outcome Z) (V : nat -> nat -> Z) rs steps out :
  (forall y x, (y < h)%nat -> (x < w)%nat -> val (Z.of_nat y) (Z.of_nat x) = Ok (V y x)) -> rect h w out ->
  chain (Z.of_nat h) 0 rs -> interleaving (map (worker (Z.of_nat w)) rs) steps ->
  NoDup steps /\ execSteps val steps out = Ok (mat h w V).
Proof.
  intros HV R C I. pose proof (interleaving_perm _ _ I) as P. rewrite (concat_workers _ (Z.of_nat h) 0 rs C ltac:(lia)) in P.
  split; [exact (Permutation_NoDup P (worker_nodup _ _ _))|].
  assert (M : forall y x, In (y, x) steps <-> 0 <= y < Z.of_nat h /\ 0 <= x < Z.of_nat w).
  { intros y x. rewrite <- in_worker. split; [apply Permutation_in; symmetry; exact P|apply Permutation_in; exact P]. }
  destruct (exec_ok h w val V HV steps out R (fun y x => proj1 (M y x))) as (out' & E & R' & Q). rewrite E. f_equal.
  apply (rect_ext h w); [exact R'|apply rect_mat|]. intros y x Hy Hx. rewrite px_mat by assumption. apply (Q y x Hy Hx), M. lia.
Qed.

(* ---- the Gaborish filter ---- *)
Lemma gab_ok fadd fmul base adj diag h w A y x : rect h w A -> (y < h)%nat -> (x < w)%nat -> Z.of_nat h < 2 ^ 31 -> Z.of_nat w < 2 ^ 31 ->
  gabPixel fadd fmul base adj diag A (Z.of_nat h) (Z.of_nat w) (Z.of_nat y) (Z.of_nat x) = Ok (gab3x3 fadd fmul base adj diag h w A y x).
Proof.
  intros R Hy Hx Bh Bw. unfold gabPixel. cbv zeta.
  set (nz := if Z.of_nat y =? 0 then 0 else _). set (sz := if i32 (Z.of_nat y + 1) =? _ then _ else _).
  set (wz := if Z.of_nat x =? 0 then 0 else _). set (ez := if i32 (Z.of_nat x + 1) =? _ then _ else _).
  assert (step : forall k n : nat, (k < n)%nat -> Z.of_nat n < 2 ^ 31 -> (if i32 (Z.of_nat k + 1) =? Z.of_nat n then i32 (Z.of_nat n - 1) else i32 (Z.of_nat k + 1)) = Z.of_nat (edge n (Z.of_nat k) 1)).
  { intros k n Hk Hn. unfold edge. destruct (Z.eq_dec (Z.of_nat k + 1) (2 ^ 31)); [lia|]. rewrite (i32_small (Z.of_nat k + 1)), (i32_small (Z.of_nat n - 1)) by lia.
    destruct (Z.eqb_spec (Z.of_nat k + 1) (Z.of_nat n)); lia. }
  assert (back : forall k n : nat, (k < n)%nat -> Z.of_nat n < 2 ^ 31 -> (if Z.of_nat k =? 0 then 0 else i32 (Z.of_nat k - 1)) = Z.of_nat (edge n (Z.of_nat k) (-1))).
  { intros k n Hk Hn. unfold edge. rewrite (i32_small (Z.of_nat k - 1)) by lia. destruct (Z.eqb_spec (Z.of_nat k) 0); lia. }
  assert (same : forall k n : nat, (k < n)%nat -> Z.of_nat k = Z.of_nat (edge n (Z.of_nat k) 0)) by (intros; unfold edge; lia).
  assert (bound : forall n k d, (0 < n)%nat -> (edge n k d < n)%nat) by (intros; unfold edge; lia).
  assert (En : nz = Z.of_nat (edge h (Z.of_nat y) (-1))) by (unfold nz; apply (back y h); assumption).
  assert (Es : sz = Z.of_nat (edge h (Z.of_nat y) 1)) by (unfold sz; apply step; assumption).
  assert (Ew : wz = Z.of_nat (edge w (Z.of_nat x) (-1))) by (unfold wz; apply (back x w); assumption).
  assert (Ee : ez = Z.of_nat (edge w (Z.of_nat x) 1)) by (unfold ez; apply step; assumption).
  clearbody nz sz wz ez. rewrite En, Es, Ew, Ee. rewrite (same y h Hy) at 1. rewrite (same x w Hx).
  assert (row : forall d, slice_get A (Z.of_nat (edge h (Z.of_nat y) d)) = Ok (nth (edge h (Z.of_nat y) d) A [])).
  { intros d. specialize (bound h (Z.of_nat y) d ltac:(lia)). rewrite (slice_get_ok A _ []) by (destruct R; lia). rewrite Nat2Z.id. reflexivity. }
  rewrite !row. cbn [obind].
  assert (cell : forall d e, slice_get (nth (edge h (Z.of_nat y) d) A []) (Z.of_nat (edge w (Z.of_nat x) e)) = Ok (px A (edge h (Z.of_nat y) d) (edge w (Z.of_nat x) e))).
  { intros d e. pose proof (bound h (Z.of_nat y) d ltac:(lia)). pose proof (bound w (Z.of_nat x) e ltac:(lia)).
    rewrite (slice_get_ok _ _ 0) by (rewrite (rect_row h w) by assumption; lia). rewrite Nat2Z.id. reflexivity. }
  assert (Ex : forall d, slice_get (nth (edge h (Z.of_nat y) d) A []) (Z.of_nat (edge w (Z.of_nat x) 0)) = Ok (px A (edge h (Z.of_nat y) d) (edge w (Z.of_nat x) 0))) by (intros; apply cell).
  unfold gab3x3. cbv zeta.
  assert (same' : edge w (Z.of_nat (edge w (Z.of_nat x) 0)) = edge w (Z.of_nat x)) by (rewrite <- same by assumption; reflexivity).
  rewrite ?same', ?cell. cbn [obind]. reflexivity.
Qed.
