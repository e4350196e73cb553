(* C25, C26: decision trees. *)
From Coq Require Import ZArith List Bool Lia ZifyBool ZifyNat.
From Verif Require Import GoBase GoLoop ModelBitReader ModelUtil ModelEntropy ModelMATree SpecMATree SpecToc ProofCodes ProofCluster ProofToc.
Import ListNotations.
Open Scope Z_scope.

(* ---- reading ---- *)
Definition inners (nodes : list Node) : Z := Z.of_nat (length nodes) - Z.of_nat (length (leaves nodes)).

Lemma leaves_app a b : leaves (a ++ b) = leaves a ++ leaves b.
Proof. unfold leaves. apply filter_app. Qed.
Lemma inner_before_app l r i : (i <= length l)%nat -> inner_before (l ++ r) i = inner_before l i.
Proof. revert i. induction l as [|n l IH]; intros i H; destruct i as [|i]; cbn in *; try lia; try reflexivity; [destruct r; reflexivity|]. rewrite IH by lia. reflexivity. Qed.
Lemma inner_before_len l : Z.of_nat (inner_before l (length l)) = inners l.
Proof.
  unfold inners, leaves. induction l as [|n l IH]; [reflexivity|]. cbn [length inner_before filter].
  destruct (n_property n <? 0); cbn [length]; lia.
Qed.
Lemma inner_before_mono l : forall i j, (i <= j <= length l)%nat -> (inner_before l i <= inner_before l j)%nat.
Proof.
  induction l as [|n l IH]; intros [|i] [|j] H; cbn in *; try lia. specialize (IH i j ltac:(lia)). lia.
Qed.
Lemma leaves_le l : (length (leaves l) <= length l)%nat.
Proof. unfold leaves. induction l as [|n l IH]; cbn; [lia|]. destruct (n_property n <? 0); cbn; lia. Qed.

(* Invariant of the loop: allocated = nodes + remaining = 1 + 2 * inner *)
Record tinv (nodes : list Node) (rem ctx : Z) : Prop := {
  ti_rem : 0 <= rem;
  ti_alloc : Z.of_nat (length nodes) + rem = 1 + 2 * inners nodes;
  ti_max : Z.of_nat (length nodes) <= 2 ^ 20 + 1;
  ti_ctx : ctx = Z.of_nat (length (leaves nodes));
  ti_leaf : map n_context (leaves nodes) = iota ctx;
  ti_child : forall i n, nth_error nodes i = Some n -> 0 <= n_property n ->
    n_left n = 1 + 2 * Z.of_nat (inner_before nodes i) /\ n_right n = n_left n + 1 /\
    Z.of_nat i < n_left n /\ n_right n < Z.of_nat (length nodes) + rem;
  ti_pred : Forall (fun n => n_property n < 0 -> n_predictor n <= 13) nodes
}.

Lemma iota_snoc k : 0 <= k -> iota (k + 1) = iota k ++ [k].
Proof.
  intros H. unfold iota. replace (Z.to_nat (k + 1)) with (Z.to_nat k + 1)%nat by lia. rewrite seq_app, map_app. cbn [seq map].
  repeat f_equal. lia.
Qed.

Lemma tinv_inner nodes rem ctx property value : tinv nodes rem ctx -> 0 < rem -> Z.of_nat (length nodes) <= 2 ^ 20 -> 0 <= property ->
  let left := Z.of_nat (length nodes) + (rem - 1) + 1 in
  tinv (nodes ++ [mkNode property 0 value (i32 left) (i32 (i32 left + 1)) (-1) 0 0]) (rem - 1 + 2) ctx.
Proof.
  intros [T1 T2 T3 T4 T5 T6 T7] Hr Hl Hp left. pose proof (leaves_le nodes) as LL.
  set (new := mkNode _ _ _ _ _ _ _ _).
  assert (Ln : leaves [new] = []) by (unfold leaves; cbn [filter new n_property]; destruct (Z.ltb_spec property 0); [lia|reflexivity]).
  assert (Bl : 0 <= left < 2 ^ 30) by (unfold left, inners in *; lia).
  assert (El : i32 left = left) by (apply i32_small; lia).
  constructor.
  - lia.
  - unfold inners in *. rewrite leaves_app, Ln, app_nil_r, app_length. cbn [length]. lia.
  - rewrite app_length. cbn [length]. lia.
  - rewrite leaves_app, Ln, app_nil_r. exact T4.
  - rewrite leaves_app, Ln, app_nil_r. exact T5.
  - intros i n Hn Hpr. rewrite app_length. cbn [length]. destruct (Nat.lt_ge_cases i (length nodes)) as [Hi|Hi].
    + rewrite nth_error_app1 in Hn by assumption. rewrite inner_before_app by lia. destruct (T6 i n Hn Hpr) as (A & B & C & D). lia.
    + rewrite nth_error_app2 in Hn by assumption. destruct (i - length nodes)%nat as [|k] eqn:Ek; [|destruct k; discriminate].
      injection Hn as <-. assert (i = length nodes) by lia. subst i. rewrite inner_before_app by lia. rewrite inner_before_len.
      cbn [n_left n_right new]. rewrite El. rewrite i32_small by lia. unfold left in *. lia.
  - apply Forall_app. split; [assumption|]. constructor; [|constructor]. cbn. lia.
Qed.

Lemma tinv_leaf nodes rem ctx predictor offset mul : tinv nodes rem ctx -> 0 < rem -> Z.of_nat (length nodes) <= 2 ^ 20 -> predictor <= 13 ->
  tinv (nodes ++ [mkNode (-1) ctx 0 0 0 predictor offset mul]) (rem - 1) (i32 (ctx + 1)).
Proof.
  intros [T1 T2 T3 T4 T5 T6 T7] Hr Hl Hp. pose proof (leaves_le nodes) as LL.
  set (new := mkNode _ _ _ _ _ _ _ _). assert (Ln : leaves [new] = [new]) by reflexivity.
  assert (Ec : i32 (ctx + 1) = ctx + 1) by (apply i32_small; lia). rewrite Ec.
  constructor.
  - lia.
  - unfold inners in *. rewrite leaves_app, Ln, !app_length. cbn [length]. lia.
  - rewrite app_length. cbn [length]. lia.
  - rewrite leaves_app, Ln, app_length. cbn [length]. lia.
  - rewrite leaves_app, Ln, map_app, T5. cbn [map new n_context]. symmetry. apply iota_snoc. lia.
  - intros i n Hn Hpr. rewrite app_length. cbn [length]. destruct (Nat.lt_ge_cases i (length nodes)) as [Hi|Hi].
    + rewrite nth_error_app1 in Hn by assumption. rewrite inner_before_app by lia. destruct (T6 i n Hn Hpr) as (A & B & C & D). lia.
    + rewrite nth_error_app2 in Hn by assumption. destruct (i - length nodes)%nat as [|k] eqn:Ek; [|destruct k; discriminate].
      injection Hn as <-. cbn in Hpr. lia.
  - apply Forall_app. split; [assumption|]. constructor; [|constructor]. cbn. lia.
Qed.

Lemma treeLoop_inv fuel : forall nodes rem ctx st out st', tinv nodes rem ctx -> treeLoop fuel nodes rem ctx st = (Ok out, st') ->
  exists ctx', tinv out 0 ctx'.
Proof.
  induction fuel as [|f IH]; intros nodes rem ctx st out st' T H; cbn [treeLoop] in H; [unfold epanic in H; discriminate|].
  destruct (Z.ltb_spec 0 rem) as [Hr|Hr].
  - destruct (Z.ltb_spec (2 ^ 20) (Z.of_nat (length nodes))); [unfold eerr in H; discriminate|].
    apply ebind_ok in H as (p & st1 & _ & H). cbv zeta in H. destruct (Z.leb_spec 0 (i32 (p - 1))) as [Hp|Hp].
    + apply ebind_ok in H as (v & st2 & _ & H). eapply IH; [|exact H]. apply tinv_inner; assumption.
    + apply ebind_ok in H as (pr & st2 & _ & H). destruct (Z.ltb_spec 13 pr); [unfold eerr in H; discriminate|].
      apply ebind_ok in H as (o & st3 & _ & H). apply ebind_ok in H as (ml & st4 & _ & H).
      destruct (Z.ltb_spec 30 ml); [unfold eerr in H; discriminate|]. apply ebind_ok in H as (mb & st5 & _ & H).
      destruct (_ <? 0); [unfold epanic in H; discriminate|]. destruct (_ <? mb); [unfold eerr in H; discriminate|].
      eapply IH; [|exact H]. apply tinv_leaf; assumption.
  - unfold eret in H. injection H as <- <-. exists ctx. replace rem with 0 in T by (destruct T; lia). exact T.
Qed.

Lemma tinv_start : tinv [] 1 0.
Proof. constructor; try (cbn; lia); try reflexivity; [intros [|i] n H; discriminate|constructor]. Qed.

Lemma tinv_proper nodes ctx : tinv nodes 0 ctx -> proper_tree nodes /\ map n_context (leaves nodes) = iota ctx /\
  ctx = Z.of_nat (length (leaves nodes)) /\ Z.of_nat (length nodes) = 2 * ctx - 1.
Proof.
  intros [T1 T2 T3 T4 T5 T6 T7]. unfold inners in T2. split; [|split; [assumption|split; [assumption|lia]]]. split.
  - intros ->. cbn in T2. lia.
  - intros i n Hn Hp. destruct (T6 i n Hn Hp) as (A & B & C & D). lia.
Qed.

Lemma link_ok nodes : proper_tree nodes -> linkNodes nodes = Ok tt.
Proof.
  intros [_ H]. unfold linkNodes.
  assert (G : forall l, (forall n, In n l -> In n nodes) -> fold_right (fun n r => if isLeaf n then r
     else obind (slice_get nodes (n_left n)) (fun _ => obind (slice_get nodes (n_right n)) (fun _ => r))) (Ok tt) l = Ok tt).
  { induction l as [|n l IH]; intros Hl; [reflexivity|]. cbn [fold_right]. rewrite IH by (intros; apply Hl; right; assumption).
    unfold isLeaf. destruct (Z.ltb_spec (n_property n) 0) as [|Hp]; [reflexivity|].
    destruct (In_nth_error nodes n (Hl n (or_introl eq_refl))) as (i & Hi). destruct (H i n Hi Hp) as (A & B & C & D).
    rewrite !(slice_get_ok nodes _ (mkNode 0 0 0 0 0 0 0 0)) by lia. reflexivity. }
  apply G. auto.
Qed.

(* ---- walking ---- *)
Lemma decides_det nodes prop i j : decides nodes prop i j -> forall j', decides nodes prop i j' -> j' = j.
Proof.
  induction 1 as [i n Hn Hp|i n j Hn Hp Hv Hd IH|i n j Hn Hp Hv Hd IH]; intros j' H'.
  - inversion H'; subst; [reflexivity|assert (n0 = n) by congruence; subst; lia|assert (n0 = n) by congruence; subst; lia].
  - inversion H' as [? m|? m|? m]; subst; assert (m = n) by congruence; subst; [lia|auto|lia].
  - inversion H' as [? m|? m|? m]; subst; assert (m = n) by congruence; subst; [lia|lia|auto].
Qed.

Lemma walk_ok nodes prop : proper_tree nodes -> forall fuel i, (i < length nodes)%nat -> (length nodes - i <= fuel)%nat ->
  exists j, walk fuel nodes (Z.of_nat i) (fun k => Ok (prop k)) = Ok (Z.of_nat j) /\ (j < length nodes)%nat /\ leaf_at nodes j /\ decides nodes prop i j.
Proof.
  intros [_ HT]. induction fuel as [|f IH]; intros i Hi Hf; [lia|]. cbn [walk].
  destruct (nth_error nodes i) as [n|] eqn:En; [|apply nth_error_None in En; lia].
  unfold slice_get. destruct (Z.ltb_spec (Z.of_nat i) 0); [lia|]. rewrite Nat2Z.id, En. cbn [obind]. unfold isLeaf.
  destruct (Z.ltb_spec (n_property n) 0) as [Hp|Hp].
  - exists i. split; [reflexivity|]. split; [assumption|]. split; [exists n; auto|]. econstructor; eassumption.
  - destruct (HT i n En Hp) as (A & B & C & D). cbn [obind].
    destruct (Z.ltb_spec (n_value n) (prop (n_property n))) as [Hv|Hv].
    + destruct (IH (Z.to_nat (n_left n)) ltac:(lia) ltac:(lia)) as (j & E & J1 & J2 & J3). replace (Z.of_nat (Z.to_nat (n_left n))) with (n_left n) in E by lia.
      exists j. split; [exact E|]. split; [assumption|]. split; [assumption|]. eapply dec_left; eassumption.
    + destruct (IH (Z.to_nat (n_right n)) ltac:(lia) ltac:(lia)) as (j & E & J1 & J2 & J3). replace (Z.of_nat (Z.to_nat (n_right n))) with (n_right n) in E by lia.
      exists j. split; [exact E|]. split; [assumption|]. split; [assumption|]. eapply dec_right; eassumption.
Qed.

(* any sufficient fuel gives the same walk *)
Lemma walk_fuel nodes prop : proper_tree nodes -> forall f1 f2 i, (i < length nodes)%nat -> (length nodes - i <= f1)%nat -> (length nodes - i <= f2)%nat ->
  walk f1 nodes (Z.of_nat i) prop = walk f2 nodes (Z.of_nat i) prop.
Proof.
  intros [HN HT]. induction f1 as [|f1 IH]; intros f2 i Hi H1 H2; [lia|]. destruct f2 as [|f2]; [lia|]. cbn [walk].
  destruct (nth_error nodes i) as [n|] eqn:En; [|apply nth_error_None in En; lia].
  unfold slice_get. destruct (Z.ltb_spec (Z.of_nat i) 0); [lia|]. rewrite Nat2Z.id, En. cbn [obind]. unfold isLeaf.
  destruct (Z.ltb_spec (n_property n) 0) as [Hp|Hp]; [reflexivity|]. destruct (HT i n En Hp) as (A & B & C & D).
  destruct (prop (n_property n)) as [v| |]; cbn [obind]; try reflexivity.
  destruct (n_value n <? v); [rewrite <- (Z2Nat.id (n_left n)) by lia|rewrite <- (Z2Nat.id (n_right n)) by lia]; apply IH; lia.
Qed.
Lemma walk_step nodes prop i n : proper_tree nodes -> nth_error nodes i = Some n -> 0 <= n_property n ->
  walk (length nodes) nodes (Z.of_nat i) prop =
  obind (prop (n_property n)) (fun v => walk (length nodes) nodes (if n_value n <? v then n_left n else n_right n) prop).
Proof.
  intros HP En Hp. assert (Hi : (i < length nodes)%nat) by (apply nth_error_Some; congruence).
  rewrite (walk_fuel nodes prop HP (length nodes) (S (length nodes)) i) by lia. cbn [walk].
  unfold slice_get. destruct (Z.ltb_spec (Z.of_nat i) 0); [lia|]. rewrite Nat2Z.id, En. cbn [obind]. unfold isLeaf.
  destruct (Z.ltb_spec (n_property n) 0); [lia|]. destruct (prop (n_property n)) as [v| |]; cbn [obind]; try reflexivity.
  destruct (n_value n <? v); reflexivity.
Qed.

(* ---- specialising ---- *)
Lemma compactify_ok nodes ch st : proper_tree nodes -> forall fuel i, (i < length nodes)%nat -> (length nodes - i <= fuel)%nat ->
  exists k, compactify fuel nodes (Z.of_nat i) ch st = Ok (Z.of_nat k) /\ (i <= k < length nodes)%nat /\
    (forall n, nth_error nodes k = Some n -> n_property n <> 0 /\ n_property n <> 1) /\
    forall prop, prop 0 = Ok ch -> prop 1 = Ok st -> walk (length nodes) nodes (Z.of_nat i) prop = walk (length nodes) nodes (Z.of_nat k) prop.
Proof.
  intros [HN HT]. induction fuel as [|f IH]; intros i Hi Hf; [lia|]. cbn [compactify].
  destruct (nth_error nodes i) as [n|] eqn:En; [|apply nth_error_None in En; lia].
  unfold slice_get. destruct (Z.ltb_spec (Z.of_nat i) 0); [lia|]. rewrite Nat2Z.id, En. cbn [obind]. cbv zeta.
  assert (step : forall q, 0 <= n_property n ->
    exists k, compactify f nodes (if n_value n <? q then n_left n else n_right n) ch st = Ok (Z.of_nat k) /\ (i <= k < length nodes)%nat /\
      (forall n, nth_error nodes k = Some n -> n_property n <> 0 /\ n_property n <> 1) /\
      forall prop, prop 0 = Ok ch -> prop 1 = Ok st -> prop (n_property n) = Ok q -> walk (length nodes) nodes (Z.of_nat i) prop = walk (length nodes) nodes (Z.of_nat k) prop).
  { intros q Hp. destruct (HT i n En Hp) as (A & B & C & D). destruct (Z.ltb_spec (n_value n) q) as [Hv|Hv].
    - destruct (IH (Z.to_nat (n_left n)) ltac:(lia) ltac:(lia)) as (k & E & K1 & K2 & K3). replace (Z.of_nat (Z.to_nat (n_left n))) with (n_left n) in E by lia.
      exists k. split; [exact E|]. split; [lia|]. split; [assumption|]. intros prop P0 P1 Pq.
      rewrite (walk_step nodes prop i n (conj HN HT) En Hp), Pq. cbn [obind]. destruct (Z.ltb_spec (n_value n) q); [|lia].
      rewrite <- K3 by assumption. f_equal. lia.
    - destruct (IH (Z.to_nat (n_right n)) ltac:(lia) ltac:(lia)) as (k & E & K1 & K2 & K3). replace (Z.of_nat (Z.to_nat (n_right n))) with (n_right n) in E by lia.
      exists k. split; [exact E|]. split; [lia|]. split; [assumption|]. intros prop P0 P1 Pq.
      rewrite (walk_step nodes prop i n (conj HN HT) En Hp), Pq. cbn [obind]. destruct (Z.ltb_spec (n_value n) q); [lia|].
      rewrite <- K3 by assumption. f_equal. lia. }
  destruct (Z.eqb_spec (n_property n) 0) as [E0|E0].
  - destruct (step ch ltac:(lia)) as (k & E & K1 & K2 & K3). exists k. split; [exact E|]. split; [lia|]. split; [assumption|].
    intros prop P0 P1. apply K3; auto. rewrite E0. exact P0.
  - destruct (Z.eqb_spec (n_property n) 1) as [E1|E1].
    + destruct (step st ltac:(lia)) as (k & E & K1 & K2 & K3). exists k. split; [exact E|]. split; [lia|]. split; [assumption|].
      intros prop P0 P1. apply K3; auto. rewrite E1. exact P1.
    + exists i. split; [reflexivity|]. split; [lia|]. split; [|auto]. intros m Hm. assert (m = n) by congruence. subst. auto.
Qed.

Lemma compactifyY_ok nodes ch st y : proper_tree nodes -> forall fuel i, (i < length nodes)%nat -> (length nodes - i <= fuel)%nat ->
  exists k, compactifyWithY fuel nodes (Z.of_nat i) ch st y = Ok (Z.of_nat k) /\ (i <= k < length nodes)%nat /\
    (forall n, nth_error nodes k = Some n -> n_property n <> 0 /\ n_property n <> 1 /\ n_property n <> 2) /\
    forall prop, prop 0 = Ok ch -> prop 1 = Ok st -> prop 2 = Ok y -> walk (length nodes) nodes (Z.of_nat i) prop = walk (length nodes) nodes (Z.of_nat k) prop.
Proof.
  intros [HN HT]. induction fuel as [|f IH]; intros i Hi Hf; [lia|]. cbn [compactifyWithY].
  destruct (nth_error nodes i) as [n|] eqn:En; [|apply nth_error_None in En; lia].
  unfold slice_get. destruct (Z.ltb_spec (Z.of_nat i) 0); [lia|]. rewrite Nat2Z.id, En. cbn [obind]. cbv zeta.
  assert (step : forall q, 0 <= n_property n ->
    exists k, compactifyWithY f nodes (if n_value n <? q then n_left n else n_right n) ch st y = Ok (Z.of_nat k) /\ (i <= k < length nodes)%nat /\
      (forall n, nth_error nodes k = Some n -> n_property n <> 0 /\ n_property n <> 1 /\ n_property n <> 2) /\
      forall prop, prop 0 = Ok ch -> prop 1 = Ok st -> prop 2 = Ok y -> prop (n_property n) = Ok q -> walk (length nodes) nodes (Z.of_nat i) prop = walk (length nodes) nodes (Z.of_nat k) prop).
  { intros q Hp. destruct (HT i n En Hp) as (A & B & C & D). destruct (Z.ltb_spec (n_value n) q) as [Hv|Hv].
    - destruct (IH (Z.to_nat (n_left n)) ltac:(lia) ltac:(lia)) as (k & E & K1 & K2 & K3). replace (Z.of_nat (Z.to_nat (n_left n))) with (n_left n) in E by lia.
      exists k. split; [exact E|]. split; [lia|]. split; [assumption|]. intros prop P0 P1 P2 Pq.
      rewrite (walk_step nodes prop i n (conj HN HT) En Hp), Pq. cbn [obind]. destruct (Z.ltb_spec (n_value n) q); [|lia].
      rewrite <- K3 by assumption. f_equal. lia.
    - destruct (IH (Z.to_nat (n_right n)) ltac:(lia) ltac:(lia)) as (k & E & K1 & K2 & K3). replace (Z.of_nat (Z.to_nat (n_right n))) with (n_right n) in E by lia.
      exists k. split; [exact E|]. split; [lia|]. split; [assumption|]. intros prop P0 P1 P2 Pq.
      rewrite (walk_step nodes prop i n (conj HN HT) En Hp), Pq. cbn [obind]. destruct (Z.ltb_spec (n_value n) q); [lia|].
      rewrite <- K3 by assumption. f_equal. lia. }
  destruct (Z.eqb_spec (n_property n) 0) as [E0|E0]; [|destruct (Z.eqb_spec (n_property n) 1) as [E1|E1]; [|destruct (Z.eqb_spec (n_property n) 2) as [E2|E2]]].
  - destruct (step ch ltac:(lia)) as (k & E & K1 & K2 & K3). exists k. split; [exact E|]. split; [lia|]. split; [assumption|].
    intros prop P0 P1 P2. apply K3; auto. rewrite E0. exact P0.
  - destruct (step st ltac:(lia)) as (k & E & K1 & K2 & K3). exists k. split; [exact E|]. split; [lia|]. split; [assumption|].
    intros prop P0 P1 P2. apply K3; auto. rewrite E1. exact P1.
  - destruct (step y ltac:(lia)) as (k & E & K1 & K2 & K3). exists k. split; [exact E|]. split; [lia|]. split; [assumption|].
    intros prop P0 P1 P2. apply K3; auto. rewrite E2. exact P2.
  - exists i. split; [reflexivity|]. split; [lia|]. split; [|auto]. intros m Hm. assert (m = n) by congruence. subst. auto.
Qed.

Lemma tree_read_ok fuel s nodes es s' : NewMATreeWithFuel fuel s = (Ok (nodes, es), s') ->
  proper_tree nodes /\ map n_context (leaves nodes) = iota (Z.of_nat (length (leaves nodes))) /\
  Z.of_nat (length nodes) = 2 * Z.of_nat (length (leaves nodes)) - 1 /\
  Forall (fun n => n_property n < 0 -> n_predictor n <= 13) nodes /\
  Z.of_nat (length (es_clusterMap es)) = Z.of_nat (length (leaves nodes)) + (if es_usesLZ77 es then 1 else 0) /\
  Forall (fun c => c < Z.of_nat (length (es_dists es))) (es_clusterMap es).
Proof.
  unfold NewMATreeWithFuel. intros H. apply rbind_ok in H as (st & s1 & _ & H).
  destruct (treeLoop fuel [] 1 0 (st, s1)) as [[nd| |] [es1 s2]] eqn:EL; try discriminate.
  destruct (treeLoop_inv _ _ _ _ _ _ _ tinv_start EL) as (ctx & T). destruct (tinv_proper nd ctx T) as (P1 & P2 & P3 & P4).
  destruct (negb (ValidateFinalState es1)); [discriminate|].
  apply rbind_ok in H as (st2 & s3 & E2 & H). apply rbind_ok in H as (u & s4 & E3 & H). unfold rret in H. injection H as <- <- <-.
  apply load_ok in E2 as (_ & L1 & L2 & _). rewrite P4 in L1.
  assert (EQ : Z.quot (2 * ctx - 1 + 1) 2 = ctx).
  { replace (2 * ctx - 1 + 1) with (ctx * 2) by lia. apply Z.quot_mul. lia. }
  rewrite EQ in L1. split; [assumption|]. rewrite <- P3. split; [assumption|]. split; [assumption|]. split; [destruct T; assumption|]. split; assumption.
Qed.

(* ---- the weighted predictor ---- *)
Lemma below_trans nodes i j k : below nodes i j -> below nodes j k -> below nodes i k.
Proof. intros H. induction 1 as [|a n Ha IH En Hp b Hb]; [exact H|]. eapply below_child; eassumption. Qed.
Lemma below_split nodes i n k : nth_error nodes i = Some n -> 0 <= n_property n -> below nodes i k ->
  k = i \/ below nodes (Z.to_nat (n_left n)) k \/ below nodes (Z.to_nat (n_right n)) k.
Proof.
  intros En Hp. induction 1 as [|a m Ha IH Em Hm b Hb]; [now left|]. right. destruct IH as [->|[IH|IH]].
  - assert (m = n) by congruence. subst m. destruct Hb as [Hb|Hb]; [left|right]; rewrite <- Hb, Nat2Z.id; constructor.
  - left. eapply below_child; eassumption.
  - right. eapply below_child; eassumption.
Qed.
Lemma below_leaf nodes i n k : nth_error nodes i = Some n -> n_property n < 0 -> below nodes i k -> k = i.
Proof. intros En Hp. induction 1 as [|a m Ha IH Em Hm b Hb]; [reflexivity|]. subst a. assert (m = n) by congruence. subst m. lia. Qed.
Lemma weighted_ok nodes : proper_tree nodes -> forall fuel i, (i < length nodes)%nat -> (length nodes - i <= fuel)%nat ->
  exists b, useWeightedPredictor fuel nodes (Z.of_nat i) = Ok b /\ (b = true <-> exists k n, below nodes i k /\ nth_error nodes k = Some n /\ weighted n).
Proof.
  intros [_ HT]. induction fuel as [|f IH]; intros i Hi Hf; [lia|]. cbn [useWeightedPredictor].
  destruct (nth_error nodes i) as [n|] eqn:En; [|apply nth_error_None in En; lia].
  unfold slice_get. destruct (Z.ltb_spec (Z.of_nat i) 0); [lia|]. rewrite Nat2Z.id, En. cbn [obind]. unfold isLeaf.
  destruct (Z.ltb_spec (n_property n) 0) as [Hp|Hp].
  - exists (n_predictor n =? 6). split; [reflexivity|]. split.
    + intros E. exists i, n. split; [constructor|]. split; [exact En|]. right. lia.
    + intros (k & m & Hb & Em & Hw). rewrite (below_leaf nodes i n k En Hp Hb) in Em. assert (m = n) by congruence. subst m. destruct Hw; lia.
  - destruct (Z.eqb_spec (n_property n) 15) as [E15|E15].
    + exists true. split; [reflexivity|]. split; [|reflexivity]. intros _. exists i, n. split; [constructor|]. split; [exact En|now left].
    + destruct (HT i n En Hp) as (A & B & C & D).
      destruct (IH (Z.to_nat (n_left n)) ltac:(lia) ltac:(lia)) as (b1 & E1 & H1). replace (Z.of_nat (Z.to_nat (n_left n))) with (n_left n) in E1 by lia.
      destruct (IH (Z.to_nat (n_right n)) ltac:(lia) ltac:(lia)) as (b2 & E2 & H2). replace (Z.of_nat (Z.to_nat (n_right n))) with (n_right n) in E2 by lia.
      exists (b1 || b2). split; [rewrite E1; cbn [obind]; destruct b1; [reflexivity|exact E2]|]. rewrite orb_true_iff, H1, H2. split.
      * intros [(k & m & Hb & Em & Hw)|(k & m & Hb & Em & Hw)]; exists k, m; (split; [|split; assumption]); (eapply below_trans; [|exact Hb]); (eapply below_child; [constructor|exact En|exact Hp|lia]).
      * intros (k & m & Hb & Em & Hw). destruct (below_split nodes i n k En Hp Hb) as [->|[Hk|Hk]]; [|left; exists k, m; auto|right; exists k, m; auto].
        assert (m = n) by congruence. subst m. destruct Hw; lia.
Qed.
(* a subtree without: other values of property 15 change no decision, and no
   decision is a leaf with the weighted predictor *)
Lemma unweighted_walk nodes prop prop' : proper_tree nodes -> (forall k, k <> 15 -> prop k = prop' k) -> forall i j, decides nodes prop i j ->
  (forall k n, below nodes i k -> nth_error nodes k = Some n -> ~ weighted n) ->
  decides nodes prop' i j /\ forall n, nth_error nodes j = Some n -> n_predictor n <> 6.
Proof.
  intros [_ HT] HP i j H. induction H as [i n En Hp|i n j En Hp Hv Hd IH|i n j En Hp Hv Hd IH]; intros HW.
  1: { split; [econstructor; eassumption|]. intros m Em. assert (m = n) by congruence. subst m. intros E. apply (HW i n); [constructor|exact En|right; auto]. }
  all: assert (N15 : n_property n <> 15) by (intros E; apply (HW i n); [constructor|exact En|now left]); destruct (HT i n En Hp) as (A & B & C & D).
  all: destruct IH as [IH1 IH2]; [intros k m Hb; apply HW; eapply below_trans; [|exact Hb]; eapply below_child; [constructor|exact En|exact Hp|lia]|].
  all: split; [|exact IH2]; rewrite HP in Hv by exact N15.
  - eapply dec_left; eassumption.
  - eapply dec_right; eassumption.
Qed.
