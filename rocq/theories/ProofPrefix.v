(* C66: prefix code descriptions. *)
From Coq Require Import ZArith List Bool Lia ZifyBool ZifyNat.
From Verif Require Import GoBase GoLoop Bits ModelBitReader ModelUtil ModelEntropy SpecBitReader SpecCodes SpecGrammar SpecEntropy SpecDist SpecPrefix.
From Verif Require Import ProofBitReader ProofBitReader2 ProofReads ProofCodes ProofUtil ProofGrammar ProofHybrid ProofVLC ProofAlias ProofDist.
Import ListNotations.
Open Scope Z_scope.

(* ---- counting ---- *)
Definition cnt (v : Z) (l : list Z) : nat := length (filter (fun x => x =? v) l).
Lemma cnt_app v a b : cnt v (a ++ b) = (cnt v a + cnt v b)%nat.
Proof. unfold cnt. rewrite filter_app, app_length. reflexivity. Qed.
Lemma cnt_cons v x l : cnt v (x :: l) = ((if (x =? v)%Z then 1 else 0) + cnt v l)%nat.
Proof. unfold cnt. cbn [filter]. destruct (x =? v); reflexivity. Qed.
Lemma cnt_repeat v x n : cnt v (repeat x n) = (if (x =? v)%Z then n else 0%nat).
Proof. induction n as [|n IH]; [cbn; destruct (x =? v); reflexivity|]. cbn [repeat]. rewrite cnt_cons, IH. destruct (x =? v); reflexivity. Qed.

(* indices from i on with value v *)
Definition idx (lens : list Z) (i : nat) (v : Z) : list nat := filter (fun s => nth s lens 0 =? v) (seq i (length lens - i)).
Lemma idx_step lens i v : (i < length lens)%nat ->
  idx lens i v = (if (nth i lens 0 =? v)%Z then [i] else []) ++ idx lens (S i) v.
Proof.
  intros H. unfold idx. replace (length lens - i)%nat with (S (length lens - S i)) by lia. cbn [seq filter].
  destruct (nth i lens 0 =? v); reflexivity.
Qed.
Lemma idx_end lens v : idx lens (length lens) v = [].
Proof. unfold idx. rewrite Nat.sub_diag. reflexivity. Qed.
Lemma skipn_step {A} (l : list A) i d : (i < length l)%nat -> skipn i l = nth i l d :: skipn (S i) l.
Proof. revert i. induction l as [|x l IH]; intros [|i] H; cbn in *; try lia; [reflexivity|]. apply IH. lia. Qed.
Lemma firstn_step {A} (l : list A) i d : (i < length l)%nat -> firstn (S i) l = firstn i l ++ [nth i l d].
Proof. revert i. induction l as [|x l IH]; intros [|i] H; cbn in *; try lia; [reflexivity|]. f_equal. apply IH. lia. Qed.
Lemma idx_count lens v : forall k, (k <= length lens)%nat -> length (idx lens (length lens - k) v) = cnt v (skipn (length lens - k) lens).
Proof.
  induction k as [|k IH]; intros H.
  - rewrite Nat.sub_0_r, idx_end, skipn_all. reflexivity.
  - rewrite idx_step by lia. rewrite (skipn_step lens _ 0) by lia. rewrite cnt_cons, app_length.
    replace (S (length lens - S k)) with (length lens - k)%nat by lia. rewrite IH by lia.
    destruct (nth _ lens 0 =? v); reflexivity.
Qed.
Lemma idx_count' lens v i : (i <= length lens)%nat -> length (idx lens i v) = cnt v (skipn i lens).
Proof. intros H. pose proof (idx_count lens v (length lens - i) ltac:(lia)) as E. now replace (length lens - (length lens - i))%nat with i in E by lia. Qed.

(* The buckets of the counting sort while the symbols from i on are placed *)
Definition bucket (lens : list Z) (i u : nat) : list (Z * Z) :=
  repeat (0, 0) (cnt (Z.of_nat u) (firstn i lens)) ++ map (fun s => (Z.of_nat u, Z.of_nat s)) (idx lens i (Z.of_nat u)).
Lemma bucket_length lens i u : (i <= length lens)%nat -> length (bucket lens i u) = cnt (Z.of_nat u) lens.
Proof.
  intros H. unfold bucket. rewrite app_length, repeat_length, map_length, idx_count' by assumption.
  rewrite <- cnt_app, firstn_skipn. reflexivity.
Qed.
Definition buckets (lens : list Z) (i K : nat) : list (Z * Z) := flat_map (bucket lens i) (seq 0 K).
Lemma flat_map_length_eq {A B} (f g : A -> list B) l : (forall x, length (f x) = length (g x)) -> length (flat_map f l) = length (flat_map g l).
Proof. intros H. induction l as [|x l IH]; [reflexivity|]. cbn. now rewrite !app_length, H, IH. Qed.
Lemma buckets_length lens i j K : (i <= length lens)%nat -> (j <= length lens)%nat -> length (buckets lens i K) = length (buckets lens j K).
Proof. intros H1 H2. apply flat_map_length_eq. intros u. now rewrite !bucket_length. Qed.
Lemma buckets_S lens i K : buckets lens i (S K) = buckets lens i K ++ bucket lens i K.
Proof. unfold buckets. rewrite seq_S, flat_map_app. cbn. now rewrite app_nil_r. Qed.
Lemma flat_map_ext_in' {A B} (f g : A -> list B) l : (forall x, In x l -> f x = g x) -> flat_map f l = flat_map g l.
Proof. induction l as [|x l IH]; intros H; [reflexivity|]. cbn. rewrite (H x) by (now left). rewrite IH; [reflexivity|]. intros y Hy. apply H. now right. Qed.

Lemma total_count lens K : Forall (fun x => 0 <= x < Z.of_nat K) lens -> length (buckets lens (length lens) K) = length lens.
Proof.
  intros H.
  assert (E : length (buckets lens (length lens) K) = fold_right (fun u a => (cnt (Z.of_nat u) lens + a)%nat) 0%nat (seq 0 K)).
  { unfold buckets. generalize (seq 0 K). induction l as [|u l IH]; [reflexivity|]. cbn [flat_map fold_right].
    rewrite app_length, bucket_length by lia. f_equal. exact IH. }
  rewrite E. clear E. induction lens as [|x l IH].
  - induction (seq 0 K) as [|u t IHt]; [reflexivity|]. cbn [fold_right]. rewrite IHt. reflexivity.
  - pose proof (Forall_inv H) as Hx. cbv beta in Hx. specialize (IH (Forall_inv_tail H)). cbn [length].
    assert (G : forall a n, fold_right (fun u a => (cnt (Z.of_nat u) (x :: l) + a)%nat) 0%nat (seq a n) =
      ((if ((Z.of_nat a <=? x) && (x <? Z.of_nat (a + n)))%Z then 1 else 0) + fold_right (fun u a => (cnt (Z.of_nat u) l + a)%nat) 0%nat (seq a n))%nat).
    { intros a n. revert a. induction n as [|n IHn]; intros a; cbn [seq fold_right].
      - destruct ((Z.of_nat a <=? x) && (x <? Z.of_nat (a + 0))) eqn:E; [|reflexivity]. apply andb_true_iff in E. lia.
      - rewrite IHn, cnt_cons.
        destruct (x =? Z.of_nat a) eqn:E1, ((Z.of_nat (S a) <=? x) && (x <? Z.of_nat (S a + n))) eqn:E2, ((Z.of_nat a <=? x) && (x <? Z.of_nat (a + S n))) eqn:E3; lia. }
    rewrite G, IH. replace ((Z.of_nat 0 <=? x) && (x <? Z.of_nat (0 + K))) with true by (symmetry; apply andb_true_iff; cbn [Nat.add]; lia). reflexivity.
Qed.

Lemma list_set_mid {A} (a b : list A) x y k : k = length a -> list_set (a ++ x :: b) k y = a ++ y :: b.
Proof. intros ->. induction a as [|z a IH]; cbn; [reflexivity|]. now rewrite IH. Qed.
Lemma list_set_map {A B} (f : A -> B) l k x : list_set (map f l) k (f x) = map f (list_set l k x).
Proof. revert k. induction l as [|y l IH]; intros [|k]; cbn; try reflexivity. now rewrite IH. Qed.

Lemma bucket_step lens i v : (i < length lens)%nat -> nth i lens 0 = Z.of_nat v ->
  exists a b, bucket lens (S i) v = a ++ (0, 0) :: b /\ length a = cnt (Z.of_nat v) (firstn i lens) /\
    bucket lens i v = a ++ (Z.of_nat v, Z.of_nat i) :: b.
Proof.
  intros Hi Hv. exists (repeat (0, 0) (cnt (Z.of_nat v) (firstn i lens))), (map (fun s => (Z.of_nat v, Z.of_nat s)) (idx lens (S i) (Z.of_nat v))).
  unfold bucket. rewrite repeat_length. split; [|split; [reflexivity|]].
  - rewrite (firstn_step lens i 0) by assumption. rewrite cnt_app, cnt_cons. cbn [cnt filter length]. rewrite Hv, Z.eqb_refl.
    rewrite Nat.add_0_r, repeat_app. cbn [repeat]. rewrite <- app_assoc. reflexivity.
  - rewrite (idx_step lens i) by assumption. rewrite Hv, Z.eqb_refl. cbn [app map]. reflexivity.
Qed.
Lemma bucket_other lens i u : (i < length lens)%nat -> nth i lens 0 <> Z.of_nat u -> bucket lens (S i) u = bucket lens i u.
Proof.
  intros Hi Hv. unfold bucket. rewrite (firstn_step lens i 0), cnt_app, cnt_cons by assumption. cbn [cnt filter length].
  rewrite (idx_step lens i) by assumption.
  destruct (Z.eqb_spec (nth i lens 0) (Z.of_nat u)); [contradiction|]. cbn [app]. now rewrite !Nat.add_0_r.
Qed.
Lemma buckets_step lens i K v : (i < length lens)%nat -> (v < K)%nat -> nth i lens 0 = Z.of_nat v ->
  list_set (buckets lens (S i) K) (length (buckets lens (S i) v) + cnt (Z.of_nat v) (firstn i lens)) (Z.of_nat v, Z.of_nat i) = buckets lens i K.
Proof.
  intros Hi HK Hv. unfold buckets. replace K with (v + S (K - S v))%nat by lia. rewrite !seq_app, !flat_map_app. cbn [seq flat_map Nat.add].
  destruct (bucket_step lens i v Hi Hv) as (a & b & E1 & E2 & E3). rewrite E1, E3.
  assert (H1 : flat_map (bucket lens (S i)) (seq 0 v) = flat_map (bucket lens i) (seq 0 v)).
  { apply flat_map_ext_in'. intros u Hu. apply in_seq in Hu. apply bucket_other; [assumption|]. rewrite Hv. lia. }
  assert (H2 : flat_map (bucket lens (S i)) (seq (S v) (K - S v)) = flat_map (bucket lens i) (seq (S v) (K - S v))).
  { apply flat_map_ext_in'. intros u Hu. apply in_seq in Hu. apply bucket_other; [assumption|]. rewrite Hv. lia. }
  rewrite H1, H2. rewrite <- !app_assoc. cbn [app].
  rewrite !(app_assoc (flat_map (bucket lens i) (seq 0 v)) a).
  apply list_set_mid. rewrite app_length. lia.
Qed.

(* The counters while the symbols from i on are placed *)
Definition counters (lens : list Z) (i K : nat) (c : list Z) : Prop :=
  length c = K /\ forall v, (v < K)%nat -> nth v c 0 = Z.of_nat (length (buckets lens i v) + cnt (Z.of_nat v) (firstn i lens)).
Lemma scramble_ok lens K : Forall (fun x => 0 <= x < Z.of_nat K) lens -> forall i c, (i <= length lens)%nat -> counters lens i K c ->
  exists c', scramble i lens (c, map fst (buckets lens i K), map snd (buckets lens i K)) =
    Ok (c', map fst (buckets lens 0 K), map snd (buckets lens 0 K)).
Proof.
  intros HK. induction i as [|i IH]; intros c Hi [Hc1 Hc2].
  - exists c. reflexivity.
  - cbn [scramble]. rewrite (slice_get_ok _ _ 0) by lia. cbn [obind]. rewrite Nat2Z.id.
    assert (Hl : 0 <= nth i lens 0 < Z.of_nat K) by (rewrite Forall_forall in HK; apply HK, nth_In; lia).
    set (l := nth i lens 0) in *. destruct (Z_of_nat_complete l ltac:(lia)) as (v & Ev).
    rewrite (slice_get_ok _ _ 0) by lia. cbn [obind]. rewrite Ev, Nat2Z.id. rewrite (Hc2 v) by lia.
    rewrite (firstn_step lens i 0), cnt_app, cnt_cons by lia. fold l. rewrite Ev, Z.eqb_refl. cbn [cnt filter length].
    set (pos := (length (buckets lens (S i) v) + cnt (Z.of_nat v) (firstn i lens))%nat).
    replace (Z.of_nat (length (buckets lens (S i) v) + (cnt (Z.of_nat v) (firstn i lens) + (1 + 0))) - 1) with (Z.of_nat pos) by (unfold pos; lia).
    assert (Hpos : (pos < length (buckets lens (S i) K))%nat).
    { unfold buckets. replace K with (v + S (K - S v))%nat by lia. rewrite seq_app, flat_map_app, app_length. cbn [seq flat_map Nat.add].
      rewrite app_length. fold (buckets lens (S i) v).
      destruct (bucket_step lens i v ltac:(lia) Ev) as (a & b & E1 & E2 & E3). rewrite E1, app_length. cbn [length]. unfold pos. lia. }
    repeat (rewrite slice_set_ok by (rewrite ?map_length; lia); cbn [obind]). rewrite !Nat2Z.id.
    pose proof (list_set_map fst (buckets lens (S i) K) pos (Z.of_nat v, Z.of_nat i)) as E1.
    pose proof (list_set_map snd (buckets lens (S i) K) pos (Z.of_nat v, Z.of_nat i)) as E2. cbn [fst snd] in E1, E2.
    rewrite E1, E2. unfold pos. rewrite (buckets_step lens i K v) by (assumption || lia). fold pos.
    apply IH; [lia|]. split; [now rewrite list_set_length|].
    intros u Hu. destruct (Nat.eq_dec u v) as [->|N].
    + rewrite nth_list_set_eq by lia. unfold pos. rewrite (buckets_length lens (S i) i) by lia. lia.
    + rewrite nth_list_set_neq by lia. rewrite (Hc2 u) by assumption. rewrite (buckets_length lens (S i) i) by lia.
      rewrite (firstn_step lens i 0), cnt_app, cnt_cons by lia. fold l. cbn [cnt filter length].
      destruct (Z.eqb_spec l (Z.of_nat u)); lia.
Qed.
Lemma sumsFrom_nth acc l : forall v, (v < length l)%nat -> nth v (sumsFrom acc l) 0 = acc + sumZ (firstn (S v) l).
Proof.
  revert acc. induction l as [|x l IH]; intros acc v H; [cbn in H; lia|]. cbn [sumsFrom length] in *.
  destruct v as [|v]; [cbn; lia|]. cbn [nth]. rewrite IH by lia. cbn [firstn sumZ fold_right]. fold (sumZ (firstn (S v) l)).
  change (match l with [] => [] | a :: l0 => a :: firstn v l0 end) with (firstn (S v) l). unfold sumZ. lia.
Qed.
Lemma sumsFrom_length acc l : length (sumsFrom acc l) = length l.
Proof. revert acc. induction l as [|x l IH]; intros acc; [reflexivity|]. cbn. now rewrite IH. Qed.
Lemma sums_buckets lens c K : length c = K -> (forall v, (v < K)%nat -> nth v c 0 = Z.of_nat (cnt (Z.of_nat v) lens)) ->
  forall v, (v <= K)%nat -> sumZ (firstn v c) = Z.of_nat (length (buckets lens (length lens) v)).
Proof.
  intros HK H. induction v as [|v IH]; intros Hv; [reflexivity|].
  rewrite (firstn_step c v 0) by lia. rewrite buckets_S, app_length, bucket_length by lia.
  rewrite sumZ_app, IH by lia. cbn [sumZ fold_right]. rewrite H by lia. lia.
Qed.
Lemma all_repeat {A} (x : A) l n : length l = n -> Forall (fun y => y = x) l -> l = repeat x n.
Proof. intros <- H. induction H as [|y l -> H IH]; [reflexivity|]. cbn. now f_equal. Qed.
Lemma map_rep {A B} (f : A -> B) x n : map f (repeat x n) = repeat (f x) n.
Proof. induction n as [|n IH]; [reflexivity|]. cbn. now rewrite IH. Qed.
Lemma sort_ok lens K c : Forall (fun x => 0 <= x < Z.of_nat K) lens -> length c = K ->
  (forall v, (v < K)%nat -> nth v c 0 = Z.of_nat (cnt (Z.of_nat v) lens)) ->
  exists c', scramble (length lens) lens (sumsFrom 0 c, repeat 0 (length lens), repeat 0 (length lens)) =
    Ok (c', map fst (buckets lens 0 K), map snd (buckets lens 0 K)).
Proof.
  intros HK Hc1 Hc2.
  assert (EZ : buckets lens (length lens) K = repeat (0, 0) (length lens)).
  { apply all_repeat. - now apply total_count.
    - unfold buckets. apply Forall_forall. intros x Hx. apply in_flat_map in Hx. destruct Hx as (u & _ & Hx).
      unfold bucket in Hx. rewrite idx_end in Hx. cbn [map] in Hx. rewrite app_nil_r in Hx. now apply repeat_spec in Hx. }
  assert (Hm : forall (f : Z * Z -> Z), f (0, 0) = 0 -> repeat 0 (length lens) = map f (buckets lens (length lens) K)).
  { intros f Hf. rewrite EZ, map_rep, Hf. reflexivity. }
  assert (Hcc : counters lens (length lens) K (sumsFrom 0 c)).
  { split; [rewrite sumsFrom_length; assumption|]. intros v Hv. rewrite sumsFrom_nth by lia.
    rewrite (sums_buckets lens c K Hc1 Hc2) by lia. rewrite buckets_S, app_length, bucket_length, firstn_all by lia. lia. }
  destruct (scramble_ok lens K HK (length lens) (sumsFrom 0 c) ltac:(lia) Hcc) as (c' & E).
  rewrite <- (Hm fst eq_refl), <- (Hm snd eq_refl) in E. exists c'. exact E.
Qed.

(* ---- from the sorted lists to the canonical code ---- *)
Lemma combine_map {A B} (L : list (A * B)) : combine (map fst L) (map snd L) = L.
Proof. induction L as [|[a b] L IH]; [reflexivity|]. cbn. now rewrite IH. Qed.
Lemma filter_flat_map {A B} (p : B -> bool) (f : A -> list B) l : filter p (flat_map f l) = flat_map (fun x => filter p (f x)) l.
Proof. induction l as [|x l IH]; [reflexivity|]. cbn. now rewrite filter_app, IH. Qed.
Lemma filter_all {A} (p : A -> bool) l : Forall (fun x => p x = true) l -> filter p l = l.
Proof. induction 1 as [|x l H _ IH]; [reflexivity|]. cbn. now rewrite H, IH. Qed.
Lemma filter_none {A} (p : A -> bool) l : Forall (fun x => p x = false) l -> filter p l = [].
Proof. induction 1 as [|x l H _ IH]; [reflexivity|]. cbn. now rewrite H. Qed.
Lemma flat_map_nil {A B} (f : A -> list B) l : (forall x, In x l -> f x = []) -> flat_map f l = [].
Proof. intros H. rewrite (flat_map_ext_in' f (fun _ => []) l H). induction l; [reflexivity|]. cbn. apply IHl. intros; apply H. now right. Qed.
Lemma seq_range {B} (f : nat -> list B) a b : (forall u, (a < u)%nat -> f u = []) -> (a <= b)%nat -> flat_map f (seq 1 b) = flat_map f (seq 1 a).
Proof.
  intros H Hab. replace b with (a + (b - a))%nat by lia. rewrite seq_app, flat_map_app. rewrite (flat_map_nil f (seq (1 + a) _)), app_nil_r; [reflexivity|].
  intros u Hu. apply in_seq in Hu. apply H. lia.
Qed.
Lemma seq_range_eq {B} (f : nat -> list B) a b : (forall u, (a < u)%nat \/ (b < u)%nat -> f u = []) -> flat_map f (seq 1 b) = flat_map f (seq 1 a).
Proof.
  intros H. destruct (le_lt_dec a b); [apply seq_range; auto|]. symmetry. apply seq_range; [auto|lia].
Qed.
Lemma bucket0 lens u : bucket lens 0 u = map (fun s => (Z.of_nat u, Z.of_nat s)) (filter (fun s => nth s lens 0 =? Z.of_nat u) (seq 0 (length lens))).
Proof. unfold bucket, idx. cbn [firstn cnt filter length repeat app]. now rewrite Nat.sub_0_r. Qed.
Lemma idx_none lens u : Forall (fun x => x <> Z.of_nat u) lens -> bucket lens 0 u = [].
Proof.
  intros H. rewrite bucket0, filter_none; [reflexivity|]. apply Forall_forall. intros s Hs. apply in_seq in Hs.
  rewrite Forall_forall in H. specialize (H (nth s lens 0) ltac:(apply nth_In; lia)). lia.
Qed.
Lemma coded_buckets lens K : Forall (fun x => 0 <= x < Z.of_nat K /\ x <= 15) lens ->
  coded (map fst (buckets lens 0 K)) (map snd (buckets lens 0 K)) = by_length lens.
Proof.
  intros H. unfold coded. rewrite combine_map. unfold buckets. rewrite filter_flat_map.
  destruct K as [|K].
  { cbn [seq flat_map]. destruct lens as [|x lens]; [reflexivity|]. pose proof (Forall_inv H) as Hx. cbv beta in Hx. lia. }
  cbn [seq flat_map]. rewrite (filter_none _ (bucket lens 0 0)).
  2:{ rewrite bucket0. apply Forall_forall. intros x Hx. apply in_map_iff in Hx. destruct Hx as (s & <- & _). reflexivity. }
  cbn [app].
  rewrite (flat_map_ext_in' _ (fun u => bucket lens 0 u)).
  2:{ intros u Hu. apply in_seq in Hu. rewrite bucket0. apply filter_all, Forall_forall. intros x Hx. apply in_map_iff in Hx.
      destruct Hx as (s & <- & _). cbn [fst]. lia. }
  unfold by_length. rewrite (flat_map_ext_in' _ (fun u => bucket lens 0 u) (seq 1 15)) by (intros; now rewrite bucket0).
  apply (seq_range_eq (fun u => bucket lens 0 u)). intros u Hu. apply idx_none. eapply Forall_impl; [|exact H]. cbv beta. lia.
Qed.
Lemma flat_nondec (f : nat -> list nat) n : forall a lo, lo <= Z.of_nat a ->
  nondecreasing lo (map fst (flat_map (fun l => map (fun s => (Z.of_nat l, Z.of_nat s)) (f l)) (seq a n))).
Proof.
  induction n as [|n IH]; intros a lo Hlo; [exact Logic.I|]. cbn [seq flat_map]. rewrite map_app.
  assert (G : forall (l : list nat) lo, lo <= Z.of_nat a ->
    nondecreasing lo (map fst (map (fun s => (Z.of_nat a, Z.of_nat s)) l) ++ map fst (flat_map (fun l0 => map (fun s => (Z.of_nat l0, Z.of_nat s)) (f l0)) (seq (S a) n)))).
  { intros l. induction l as [|s l IHl]; intros lo' H'; cbn [map app nondecreasing fst].
    - apply IH. lia.
    - split; [assumption|]. apply IHl. lia. }
  apply G. assumption.
Qed.
Lemma by_length_nondec lens : nondecreasing 0 (map fst (by_length lens)).
Proof. unfold by_length. apply flat_nondec. lia. Qed.

Lemma kraft_app b x y : kraft b (x ++ y) = kraft b x + kraft b y.
Proof. unfold kraft. induction x as [|a x IH]; cbn [app fold_right]; lia. Qed.
Lemma kraft_all_app b x y : kraft_all b (x ++ y) = kraft_all b x + kraft_all b y.
Proof. unfold kraft_all. now rewrite filter_app, kraft_app. Qed.
Lemma kraft_all_cons b x l : kraft_all b (x :: l) = (if 0 <? x then 2 ^ (b - x) else 0) + kraft_all b l.
Proof. unfold kraft_all. cbn [filter]. destruct (0 <? x); cbn [kraft fold_right]; reflexivity. Qed.
Lemma kraft_all_repeat b x n : kraft_all b (repeat x n) = (if 0 <? x then Z.of_nat n * 2 ^ (b - x) else 0).
Proof. induction n as [|n IH]; [cbn; destruct (0 <? x); reflexivity|]. cbn [repeat]. rewrite kraft_all_cons, IH. destruct (0 <? x); lia. Qed.
Lemma kraft_const b x n : kraft b (repeat x n) = Z.of_nat n * 2 ^ (b - x).
Proof. induction n as [|n IH]; [reflexivity|]. cbn [repeat kraft fold_right]. fold (kraft b (repeat x n)). rewrite IH. lia. Qed.
(* sums over the buckets *)
Lemma idx_cnt lens v : length (filter (fun s => nth s lens 0 =? v) (seq 0 (length lens))) = cnt v lens.
Proof. pose proof (idx_count' lens v 0 ltac:(lia)) as H. unfold idx in H. rewrite Nat.sub_0_r in H. exact H. Qed.
Lemma kraft_by_length_sum b lens n : forall a,
  kraft b (map fst (flat_map (fun l => map (fun s => (Z.of_nat l, Z.of_nat s)) (filter (fun s => nth s lens 0 =? Z.of_nat l) (seq 0 (length lens)))) (seq a n)))
  = fold_right (fun l z => Z.of_nat (cnt (Z.of_nat l) lens) * 2 ^ (b - Z.of_nat l) + z) 0 (seq a n).
Proof.
  induction n as [|n IH]; intros a; [reflexivity|]. cbn [seq flat_map fold_right]. rewrite map_app, kraft_app, IH. f_equal.
  rewrite map_map. cbn [fst]. rewrite <- (idx_cnt lens (Z.of_nat a)).
  generalize (filter (fun s => nth s lens 0 =? Z.of_nat a) (seq 0 (length lens))). intros l. replace (map (fun _ : nat => Z.of_nat a) l) with (repeat (Z.of_nat a) (length l)) by (induction l as [|? ? IHl]; [reflexivity|cbn; now rewrite IHl]). apply kraft_const.
Qed.
Lemma kraft_by_length b lens : Forall (fun x => 0 <= x <= 15) lens -> kraft b (map fst (by_length lens)) = kraft_all b lens.
Proof.
  intros H. unfold by_length. rewrite kraft_by_length_sum. induction lens as [|x l IH].
  - generalize (seq 1 15). intros t. induction t as [|u t IHt]; [reflexivity|]. cbn [fold_right]. rewrite IHt. reflexivity.
  - pose proof (Forall_inv H) as Hx. cbv beta in Hx. specialize (IH (Forall_inv_tail H)). rewrite kraft_all_cons, <- IH.
    assert (G : forall n a, fold_right (fun l0 z => Z.of_nat (cnt (Z.of_nat l0) (x :: l)) * 2 ^ (b - Z.of_nat l0) + z) 0 (seq a n) =
      (if (Z.of_nat a <=? x) && (x <? Z.of_nat (a + n)) then 2 ^ (b - x) else 0) +
      fold_right (fun l0 z => Z.of_nat (cnt (Z.of_nat l0) l) * 2 ^ (b - Z.of_nat l0) + z) 0 (seq a n)).
    { induction n as [|n IHn]; intros a; cbn [seq fold_right].
      - destruct ((Z.of_nat a <=? x) && (x <? Z.of_nat (a + 0))) eqn:E; lia.
      - rewrite IHn, cnt_cons. destruct (Z.eqb_spec x (Z.of_nat a)) as [->|N].
        + replace ((Z.of_nat (S a) <=? Z.of_nat a) && (Z.of_nat a <? Z.of_nat (S a + n))) with false by lia.
          replace ((Z.of_nat a <=? Z.of_nat a) && (Z.of_nat a <? Z.of_nat (a + S n))) with true by lia. lia.
        + replace ((Z.of_nat (S a) <=? x) && (x <? Z.of_nat (S a + n))) with ((Z.of_nat a <=? x) && (x <? Z.of_nat (a + S n))) by lia.
          cbn [Nat.add]. lia. }
    rewrite G. replace ((Z.of_nat 1 <=? x) && (x <? Z.of_nat (1 + 15))) with (0 <? x) by lia. reflexivity.
Qed.

Definition canon_code (lens : list Z) : code Z := fun c v => In (c, v) (canon lens).
Lemma nth_error_combine {A B} (a : list A) (b : list B) k x y : nth_error (combine a b) k = Some (x, y) <-> nth_error a k = Some x /\ nth_error b k = Some y.
Proof.
  revert b k. induction a as [|p a IH]; intros [|q b] [|k]; cbn; try (split; [congruence|intros [? ?]; congruence]).
  - split; [intros E; injection E as -> ->; auto|intros [E1 E2]; congruence].
  - apply IH.
Qed.
Lemma prefix_bits d p w n x : field_at d p n x -> prefix_of w (zbits n x) -> (length w <= n)%nat -> (p + n <= 8 * length d)%nat -> bits_at d p w.
Proof.
  intros [H1 H2] Hp Hl Hd. split; [lia|]. intros i Hi. unfold prefix_of in Hp. rewrite <- Hp.
  rewrite nth_firstn by assumption. rewrite nth_zbits by lia. symmetry. apply H2. lia.
Qed.
Lemma canon_exact B lens K : (B <= 31)%nat -> lens <> [] -> Forall (fun x => 0 <= x < Z.of_nat K /\ x <= 15 /\ x <= Z.of_nat B) lens ->
  kraft_all (Z.of_nat B) lens = 2 ^ Z.of_nat B ->
  exists t, NewVLCTableWithSymbols (Z.of_nat B) (map fst (buckets lens 0 K)) (map snd (buckets lens 0 K)) = Ok t /\
    exact_ahead B (GetVLC t) (canon_code lens).
Proof.
  intros HB Hne Hl Hk.
  assert (Hl' : Forall (fun x => 0 <= x < Z.of_nat K /\ x <= 15) lens) by (eapply Forall_impl; [|exact Hl]; cbv beta; lia).
  assert (HL : length (buckets lens 0 K) = length lens).
  { rewrite (buckets_length lens 0 (length lens)) by lia. apply total_count. eapply Forall_impl; [|exact Hl]; cbv beta; lia. }
  pose proof (coded_buckets lens K Hl') as Ec.
  destruct (vlc_decodes B (map fst (buckets lens 0 K)) (map snd (buckets lens 0 K)) HB) as (t & Ht & H1 & H2).
  - now rewrite !map_length.
  - intros E. apply (f_equal (@length Z)) in E. rewrite map_length, HL in E. destruct lens; [congruence|discriminate].
  - apply Forall_forall. intros x Hx. apply in_map_iff in Hx. destruct Hx as ([a s] & <- & Hx). cbn [fst].
    apply in_flat_map in Hx. destruct Hx as (u & _ & Hx). rewrite bucket0 in Hx. apply in_map_iff in Hx. destruct Hx as (s' & E & Hs).
    apply filter_In in Hs. destruct Hs as [Hs1 Hs2]. apply in_seq in Hs1. rewrite Forall_forall in Hl.
    specialize (Hl (nth s' lens 0) ltac:(apply nth_In; lia)). inversion E; subst. lia.
  - rewrite Ec. apply by_length_nondec.
  - rewrite Ec, kraft_by_length; [assumption|]. eapply Forall_impl; [|exact Hl]; cbv beta; lia.
  - rewrite Ec in *. exists t. split; [assumption|]. 
    assert (R : forall c v s d p, canon_code lens c v -> reader_at s d p -> bits_at d p c -> (p + B <= 8 * length d)%nat ->
       exists s', GetVLC t s = (Ok v, s') /\ reader_at s' d (p + length c)).
    { intros c v s d p Hc Hr Hb Hp. apply In_nth_error in Hc. destruct Hc as (k & Hc). unfold canon in Hc. apply nth_error_combine in Hc.
      destruct Hc as [Hc1 Hc2]. rewrite nth_error_map in Hc2. destruct (nth_error (by_length lens) k) as [[l sym]|] eqn:E; [|discriminate].
      cbn in Hc2. injection Hc2 as <-. destruct (H1 k c l sym Hc1 E) as [_ H]. now apply H. }
    assert (Len : forall k w, nth_error (codewords (map fst (by_length lens))) k = Some w -> (length w <= B)%nat /\ exists sym, canon_code lens w sym).
    { intros k w Hw. destruct (nth_error (by_length lens) k) as [[l sym]|] eqn:E.
      - destruct (H1 k w l sym Hw E) as [H _]. split.
        + apply nth_error_In in E. assert (l <= Z.of_nat B); [|lia]. unfold by_length in E. apply in_flat_map in E. destruct E as (u & _ & E).
          apply in_map_iff in E. destruct E as (s' & E & Hs). apply filter_In in Hs. destruct Hs as [Hs1 Hs2]. apply in_seq in Hs1.
          rewrite Forall_forall in Hl. specialize (Hl (nth s' lens 0) ltac:(apply nth_In; lia)). inversion E; subst. lia.
        + exists sym. unfold canon_code, canon. apply (nth_error_In _ k). apply nth_error_combine. split; [assumption|].
          rewrite nth_error_map, E. reflexivity.
      - apply nth_error_None in E. assert (Hn : nth_error (codewords (map fst (by_length lens))) k <> None) by congruence.
        apply nth_error_Some in Hn. unfold codewords in Hn. rewrite canonical_length, map_length in Hn. lia. }
    split.
    + intros c v Hc s d p Hr Hb Hp. apply (R c v); try assumption. lia.
    + intros s d p Hr. destruct (le_lt_dec (p + B) (8 * length d)) as [Hd|Hd].
      * destruct (showbits_field s d p B Hr ltac:(lia) Hd) as (x & _ & Hf).
        destruct (H2 (zbits B x) (zbits_length B x)) as (k & w & Hw & Hp & _).
        destruct (Len k w Hw) as [Hlw (sym & Hs)].
        pose proof (prefix_bits d p w B x Hf Hp Hlw Hd) as Hb.
        destruct (R w sym s d p Hs Hr Hb Hd) as (s' & -> & Hr'). exists w. auto.
      * assert (Et : vt_bits t = Z.of_nat B).
        { unfold NewVLCTableWithSymbols in Ht. destruct (vlcCodes _ _ _ _) as [[? ?]| |]; [|discriminate|discriminate]. cbn [obind] in Ht.
          destruct (negb _); [discriminate|]. destruct (vlcFillAll _ _ _); try discriminate. cbn [obind] in Ht. injection Ht as <-. reflexivity. }
        destruct t as [tb tt]. cbn [vt_bits] in Et. subst tb.
        destruct (lookup_short B tt d p s HB Hr Hd) as (s' & ->). exact Logic.I.
Qed.
Lemma kraft_all_scale b e lens : Forall (fun x => 0 <= x <= b) lens -> 0 <= e -> kraft_all (b + e) lens = kraft_all b lens * 2 ^ e.
Proof.
  intros H He. unfold kraft_all. apply kraft_scale; [|assumption]. apply Forall_forall. intros x Hx. apply filter_In in Hx.
  rewrite Forall_forall in H. specialize (H x (proj1 Hx)). cbv beta in H. lia.
Qed.
Lemma canon_incomplete B lens K : lens <> [] -> Forall (fun x => 0 <= x < Z.of_nat K /\ x <= 15) lens ->
  kraft_all 15 lens <> 2 ^ 15 ->
  NewVLCTableWithSymbols B (map fst (buckets lens 0 K)) (map snd (buckets lens 0 K)) = Err.
Proof.
  intros Hne Hl Hk.
  assert (HL : length (buckets lens 0 K) = length lens).
  { rewrite (buckets_length lens 0 (length lens)) by lia. apply total_count. eapply Forall_impl; [|exact Hl]; cbv beta; lia. }
  apply vlc_incomplete.
  - now rewrite !map_length.
  - intros E. apply (f_equal (@length Z)) in E. rewrite map_length, HL in E. destruct lens; [congruence|discriminate].
  - apply Forall_forall. intros x Hx. apply in_map_iff in Hx. destruct Hx as ([a s] & <- & Hx). cbn [fst].
    apply in_flat_map in Hx. destruct Hx as (u & _ & Hx). rewrite bucket0 in Hx. apply in_map_iff in Hx. destruct Hx as (s' & E & Hs).
    apply filter_In in Hs. destruct Hs as [Hs1 Hs2]. apply in_seq in Hs1. rewrite Forall_forall in Hl.
    specialize (Hl (nth s' lens 0) ltac:(apply nth_In; lia)). inversion E; subst. lia.
  - rewrite coded_buckets by assumption. rewrite kraft_by_length by (eapply Forall_impl; [|exact Hl]; cbv beta; lia).
    change 32 with (15 + 17). rewrite kraft_all_scale by (lia || (eapply Forall_impl; [|exact Hl]; cbv beta; lia)).
    replace (2 ^ (15 + 17)) with (2 ^ 15 * 2 ^ 17) by reflexivity. lia.
Qed.

(* ---- a complete code with n codewords has lengths below n ---- *)
Fixpoint pcp (p : positive) : nat := match p with xH => 1 | xO q => pcp q | xI q => S (pcp q) end.
Definition pc (z : Z) : nat := match z with Zpos p => pcp p | _ => 0%nat end.
Lemma pcp_succ p : (pcp (Pos.succ p) <= S (pcp p))%nat.
Proof. induction p; cbn; lia. Qed.
Lemma pcp_add p : forall q, (pcp (p + q) <= pcp p + pcp q)%nat /\ (pcp (Pos.add_carry p q) <= S (pcp p + pcp q))%nat.
Proof.
  induction p as [p IH|p IH|]; intros [q|q|]; cbn [Pos.add Pos.add_carry pcp].
  all: try destruct (IH q) as [I1 I2].
  all: try pose proof (pcp_succ p) as S1.
  all: try pose proof (pcp_succ q) as S2.
  all: try (split; lia).
  - split; [|apply le_n_S]; (eapply Nat.le_trans; [exact I2|lia]).
  - split; [|apply le_n_S]; (eapply Nat.le_trans; [exact I1|lia]).
Qed.
Lemma pc_add a b : 0 <= a -> 0 <= b -> (pc (a + b) <= pc a + pc b)%nat.
Proof.
  intros Ha Hb. destruct a as [|p|p], b as [|q|q]; cbn [Z.add pc]; try lia. apply pcp_add.
Qed.
Lemma upto (P : Z -> Prop) n : (forall k, (k < n)%nat -> P (Z.of_nat k)) -> forall x, 0 <= x < Z.of_nat n -> P x.
Proof. intros H x Hx. rewrite <- (Z2Nat.id x) by lia. apply H. lia. Qed.
Lemma kraft_pc l : Forall (fun x => 0 < x <= 15) l -> 0 <= kraft 15 l /\ (pc (kraft 15 l) <= length l)%nat.
Proof.
  induction 1 as [|x l Hx _ [IH1 IH2]]; [cbn; lia|]. cbn [kraft fold_right length]. fold (kraft 15 l).
  pose proof (pow2_pos (15 - x) ltac:(lia)). split; [lia|].
  assert (E : pc (2 ^ (15 - x)) = 1%nat).
  { assert (G : forall y, 0 <= y < Z.of_nat 15 -> (pc (2 ^ y) =? 1)%nat = true) by (apply (all_below (fun y => (pc (2 ^ y) =? 1)%nat)); reflexivity).
    specialize (G (15 - x) ltac:(lia)). now apply Nat.eqb_eq in G. }
  pose proof (pc_add (2 ^ (15 - x)) (kraft 15 l) ltac:(lia) IH1). lia.
Qed.
Lemma complete_short lens : Forall (fun x => 0 <= x <= 15) lens -> kraft_all 15 lens = 2 ^ 15 ->
  Forall (fun x => x < Z.of_nat (length lens)) lens.
Proof.
  intros H Hk. apply Forall_forall. intros x Hx. rewrite Forall_forall in H. specialize (H x Hx) as Hx'. cbv beta in Hx'.
  destruct (Z.eq_dec x 0) as [->|N]; [destruct lens; [contradiction|cbn [length]; lia]|].
  set (ls := filter (fun l => 0 <? l) lens).
  assert (Hin : In x ls) by (apply filter_In; split; [assumption|lia]).
  assert (Hall : Forall (fun x => 0 < x <= 15) ls).
  { apply Forall_forall. intros y Hy. apply filter_In in Hy. destruct Hy as [Hy1 Hy2]. specialize (H y Hy1). cbv beta in H. lia. }
  destruct (in_split x ls Hin) as (l1 & l2 & E).
  assert (Hlen : (length ls <= length lens)%nat) by (unfold ls; clear; induction lens as [|y l IH]; [cbn; lia|cbn [filter length]; destruct (0 <? y); cbn [length]; lia]).
  unfold kraft_all in Hk. fold ls in Hk. rewrite E in *. rewrite kraft_app in Hk. cbn [kraft fold_right] in Hk. fold (kraft 15 l2) in Hk.
  assert (Hall' : Forall (fun x => 0 < x <= 15) (l1 ++ l2)).
  { apply Forall_app in Hall. destruct Hall as [A1 A2]. apply Forall_app. split; [assumption|]. now apply Forall_inv_tail in A2. }
  destruct (kraft_pc (l1 ++ l2) Hall') as [_ Hpc]. rewrite kraft_app in Hpc.
  replace (kraft 15 l1 + kraft 15 l2) with (2 ^ 15 - 2 ^ (15 - x)) in Hpc by lia.
  assert (G : forall y, 0 <= y < Z.of_nat 15 -> (pc (2 ^ 15 - 2 ^ (15 - (y + 1))) =? Z.to_nat (y + 1))%nat = true).
  { apply (all_below (fun y => (pc (2 ^ 15 - 2 ^ (15 - (y + 1))) =? Z.to_nat (y + 1))%nat)). reflexivity. }
  specialize (G (x - 1) ltac:(lia)). apply Nat.eqb_eq in G. replace (x - 1 + 1) with x in G by lia.
  rewrite !app_length in *. cbn [length] in Hlen. lia.
Qed.

(* ---- readers that may also panic ---- *)
Definition semi {A} (k : nat) (m : RM A) (R : code A) : Prop :=
  (forall c v, R c v -> reads_ahead k m c v) /\
  (forall s d p v s', reader_at s d p -> m s = (Ok v, s') -> exists c, bits_at d p c /\ R c v /\ reader_at s' d (p + length c)).
Lemma semi_of {A} k (m : RM A) (R : code A) : exact_ahead k m R -> semi k m R.
Proof.
  intros [H1 H2]. split; [assumption|]. intros s d p v s' Hr E. specialize (H2 s d p Hr). rewrite E in H2. exact H2.
Qed.
Lemma semi_more {A} k k' (m : RM A) (R : code A) : (k <= k')%nat -> semi k m R -> semi k' m R.
Proof.
  intros Hk [H1 H2]. split; [|assumption]. intros c v Hc s d p Hr Hb Hp. apply (H1 c v Hc s d p Hr Hb). lia.
Qed.
Lemma semi_iff {A} k (m : RM A) (R S : code A) : (forall c v, R c v <-> S c v) -> semi k m R -> semi k m S.
Proof.
  intros H [H1 H2]. split.
  - intros c v Hc. apply H1, H, Hc.
  - intros s d p v s' Hr E. destruct (H2 s d p v s' Hr E) as (c & Hc1 & Hc2 & Hc3). exists c. split; [|split]; [assumption|now apply H|assumption].
Qed.
Lemma semi_eq {A} k (m m' : RM A) (R : code A) : (forall s, m s = m' s) -> semi k m R -> semi k m' R.
Proof.
  intros H [H1 H2]. split.
  - intros c v Hc s d p Hr Hb Hp. rewrite <- H. now apply (H1 c v Hc).
  - intros s d p v s' Hr E. rewrite <- H in E. now apply (H2 s d p v s').
Qed.
Lemma semi_bind {A B} k (m : RM A) (f : A -> RM B) (R : code A) (S : A -> code B) :
  semi k m R -> (forall x c, R c x -> semi k (f x) (S x)) -> semi k (rbind m f) (c_seq R S).
Proof.
  intros [H1 H2] H. split.
  - intros c v (c1 & c2 & x & -> & Hc1 & Hc2) s d p Hr Hb Hp. apply bits_at_app in Hb. destruct Hb as [Hb1 Hb2]. rewrite app_length in Hp.
    destruct (H1 c1 x Hc1 s d p Hr Hb1 ltac:(lia)) as (s1 & E1 & Hr1).
    destruct (proj1 (H x c1 Hc1) c2 v Hc2 s1 d (p + length c1)%nat Hr1 Hb2 ltac:(lia)) as (s2 & E2 & Hr2).
    exists s2. unfold rbind. rewrite E1, E2. split; [reflexivity|]. rewrite app_length, Nat.add_assoc. assumption.
  - intros s d p v s' Hr E. unfold rbind in E. destruct (m s) as [[x| |] s1] eqn:E1; try discriminate.
    destruct (H2 s d p x s1 Hr E1) as (c1 & Hb1 & Hc1 & Hr1).
    destruct (proj2 (H x c1 Hc1) s1 d _ v s' Hr1 E) as (c2 & Hb2 & Hc2 & Hr2).
    exists (c1 ++ c2). rewrite app_length, Nat.add_assoc. split; [apply bits_at_app; auto|]. split; [|assumption]. exists c1, c2, x. auto.
Qed.
Definition c_out {A} (o : Outcome A) : code A := fun c v => c = [] /\ o = Ok v.
Lemma semi_lift {A} k (o : Outcome A) : semi k (rlift o) (c_out o).
Proof.
  split.
  - intros c v [-> ->] s d p Hr Hb Hp. exists s. cbn [length]. rewrite Nat.add_0_r. split; [reflexivity|assumption].
  - intros s d p v s' Hr E. unfold rlift in E. destruct o; inversion E; subst. exists []. cbn [length]. rewrite Nat.add_0_r. split; [|split; [split; reflexivity|assumption]].
    split; cbn; [destruct Hr as (_ & _ & Hle & _); lia|intros i Hi; lia].
Qed.
Lemma semi_ret {A} k (v : A) : semi k (rret v) (c_ret v).
Proof. apply semi_of, ahead_ret. Qed.
Lemma semi_fail {A} k (m : RM A) (R : code A) : (forall c v, ~ R c v) -> (forall s v s', m s <> (Ok v, s')) -> semi k m R.
Proof. intros H1 H2. split; [intros c v H; now apply H1 in H|]. intros s d p v s' _ E. now apply H2 in E. Qed.

(* ---- the first level ---- *)
Lemma below16 (P : Z -> Prop) : P 0 -> P 1 -> P 2 -> P 3 -> P 4 -> P 5 -> P 6 -> P 7 -> P 8 -> P 9 -> P 10 -> P 11 -> P 12 -> P 13 -> P 14 -> P 15 ->
  forall x, 0 <= x < 16 -> P x.
Proof.
  intros. assert (x = 0 \/ x = 1 \/ x = 2 \/ x = 3 \/ x = 4 \/ x = 5 \/ x = 6 \/ x = 7 \/ x = 8 \/ x = 9 \/ x = 10 \/ x = 11 \/ x = 12 \/ x = 13 \/ x = 14 \/ x = 15) as C by lia.
  repeat (destruct C as [->|C]; [assumption|]). now subst.
Qed.
Ltac by16 := match goal with |- forall x, 0 <= x < 16 -> @?P x => apply (below16 P) end; cbv beta.
Lemma ahead_len0 : exact_ahead 4 (GetVLC level0Table) c_len0.
Proof.
  apply (ahead_vlc 4).
  - lia.
  - reflexivity.
  - intros c v H. unfold c_len0 in H. cbn [In] in H. change (2 ^ Z.of_nat 4) with 16.
    do 6 (destruct H as [H|H]; [injection H as <- <-; split; [cbn; lia|]; cbn [length]; intros x Hx; revert x Hx;
      (by16; intros E; cbn in E; (discriminate E || reflexivity))|]). contradiction.
  - change (2 ^ Z.of_nat 4) with 16. by16; cbn; (split; [lia|]); unfold c_len0; cbn [In]; tauto.
Qed.
Lemma len0_range c v : c_len0 c v -> 0 <= v <= 5.
Proof. intros H. unfold c_len0 in H. cbn [In] in H. repeat (destruct H as [H|H]; [injection H as <- <-; lia|]). contradiction. Qed.

Definition cnts (K : nat) (l : list Z) : list Z := map (fun v => Z.of_nat (cnt (Z.of_nat v) l)) (seq 0 K).
Lemma cnts_length K l : length (cnts K l) = K. Proof. unfold cnts. now rewrite map_length, seq_length. Qed.
Lemma cnts_nth K l v : (v < K)%nat -> nth v (cnts K l) 0 = Z.of_nat (cnt (Z.of_nat v) l).
Proof. intros H. unfold cnts. rewrite nth_map_seq by assumption. reflexivity. Qed.
Lemma cnts_bump K l v d (l' : list Z) : 0 <= v < Z.of_nat K -> (forall u, Z.of_nat (cnt u l') = Z.of_nat (cnt u l) + (if u =? v then d else 0)) ->
  list_set (cnts K l) (Z.to_nat v) (nth (Z.to_nat v) (cnts K l) 0 + d) = cnts K l'.
Proof.
  intros Hv H. apply (nth_ext _ _ 0 0); rewrite list_set_length, !cnts_length; [reflexivity|]. intros u Hu.
  rewrite (cnts_nth K l') by assumption. rewrite H. destruct (Nat.eq_dec u (Z.to_nat v)) as [->|N].
  - rewrite nth_list_set_eq by (now rewrite cnts_length). rewrite cnts_nth by lia. rewrite Z2Nat.id by lia. rewrite Z.eqb_refl. lia.
  - rewrite nth_list_set_neq by lia. rewrite cnts_nth by assumption. destruct (Z.eqb_spec (Z.of_nat u) v); lia.
Qed.
Definition nonzeros (l : list Z) : Z := Z.of_nat (length (filter (fun x => negb (x =? 0)) l)).
Definition st1 (h : nat) (vs : list Z) : L1 := mkL1 (lens1 h vs) (cnts 19 (repeat 0 h ++ vs)) (kraft_all 5 vs) (nonzeros vs).
Definition fin1 (h : nat) (vs : list Z) : L1 :=
  mkL1 (lens1 h vs) (cnts 19 (repeat 0 h ++ vs ++ repeat 0 (18 - h - length vs))) (kraft_all 5 vs) (nonzeros vs).

Lemma order_pos i s : 0 <= i < 18 -> 0 <= s < 18 -> (position s len_order = Z.to_nat i <-> s = nth (Z.to_nat i) codelenMap 0).
Proof.
  intros Hi Hs.
  assert (H : forall i, 0 <= i < Z.of_nat 18 -> forallb (fun k => Bool.eqb (position (Z.of_nat k) len_order =? Z.to_nat i)%nat (Z.of_nat k =? nth (Z.to_nat i) codelenMap 0)) (seq 0 18) = true).
  { apply (all_below (fun i => forallb (fun k => Bool.eqb (position (Z.of_nat k) len_order =? Z.to_nat i)%nat (Z.of_nat k =? nth (Z.to_nat i) codelenMap 0)) (seq 0 18))). reflexivity. }
  specialize (H i Hi). rewrite forallb_forall in H. specialize (H (Z.to_nat s) ltac:(apply in_seq; lia)). rewrite Z2Nat.id in H by lia.
  apply eqb_prop in H. destruct (Nat.eqb_spec (position s len_order) (Z.to_nat i)), (Z.eqb_spec s (nth (Z.to_nat i) codelenMap 0)); split; intros; congruence.
Qed.
Lemma order_range i : 0 <= i < 18 -> 0 <= nth (Z.to_nat i) codelenMap 0 < 18.
Proof.
  intros Hi. assert (H : forall i, 0 <= i < Z.of_nat 18 -> ((0 <=? nth (Z.to_nat i) codelenMap 0) && (nth (Z.to_nat i) codelenMap 0 <? 18)) = true).
  { apply (all_below (fun i => (0 <=? nth (Z.to_nat i) codelenMap 0) && (nth (Z.to_nat i) codelenMap 0 <? 18))). reflexivity. }
  specialize (H i Hi). lia.
Qed.
Lemma lens1_length h vs : length (lens1 h vs) = 18%nat. Proof. unfold lens1. now rewrite map_length, seq_length. Qed.
Lemma lens1_nth h vs s : (s < 18)%nat -> nth s (lens1 h vs) 0 = nth (position (Z.of_nat s) len_order) (repeat 0 h ++ vs) 0.
Proof. intros H. unfold lens1. rewrite nth_map_seq by assumption. reflexivity. Qed.
Lemma lens1_step h vs v : (h + length vs < 18)%nat ->
  list_set (lens1 h vs) (Z.to_nat (nth (h + length vs) codelenMap 0)) v = lens1 h (vs ++ [v]).
Proof.
  intros H. pose proof (order_range (Z.of_nat (h + length vs)) ltac:(lia)) as Hr. rewrite Nat2Z.id in Hr.
  apply (nth_ext _ _ 0 0); rewrite list_set_length, !lens1_length; [reflexivity|]. intros s Hs. rewrite lens1_nth by assumption.
  pose proof (order_pos (Z.of_nat (h + length vs)) (Z.of_nat s) ltac:(lia) ltac:(lia)) as Ho. rewrite Nat2Z.id in Ho.
  destruct (Nat.eq_dec (position (Z.of_nat s) len_order) (h + length vs)) as [E|E].
  - rewrite E. apply Ho in E. rewrite app_assoc, app_nth2 by (rewrite app_length, repeat_length; lia).
    replace (h + length vs - length (repeat 0%Z h ++ vs))%nat with 0%nat by (rewrite app_length, repeat_length; lia). cbn [nth].
    rewrite <- E, Nat2Z.id. rewrite nth_list_set_eq; [reflexivity|]. now rewrite lens1_length.
  - rewrite nth_list_set_neq by (intros E'; apply E, Ho; lia). rewrite lens1_nth by assumption.
    rewrite app_assoc. destruct (le_lt_dec (h + length vs) (position (Z.of_nat s) len_order)).
    + rewrite !nth_overflow; [reflexivity| |]; rewrite ?app_length, ?repeat_length; cbn [length]; lia.
    + rewrite (app_nth1 (repeat 0 h ++ vs) [v]) by (rewrite app_length, repeat_length; lia). reflexivity.
Qed.
Lemma lens1_loop h : forall n pre, (h + length pre + n = 18)%nat -> kraft_all 5 pre < 32 ->
  exact_ahead 4 (level1Loop n (Z.of_nat (h + length pre)) (st1 h pre)) (fun c st => exists r, c_lens1 n (kraft_all 5 pre) c r /\ st = fin1 h (pre ++ r)).
Proof.
  induction n as [|n IH]; intros pre Hn Hk; cbn [level1Loop].
  - apply (ahead_iff 4 (rret (st1 h pre)) (c_ret (st1 h pre))); [|apply ahead_ret]. intros c v. 
    assert (E : st1 h pre = fin1 h (pre ++ [])).
    { unfold st1, fin1. rewrite !app_nil_r. replace (18 - h - length pre)%nat with 0%nat by lia. cbn [repeat]. now rewrite !app_nil_r. }
    split.
    + intros [-> ->]. exists []. split; [constructor; auto|exact E].
    + intros (r & Hc & ->). inversion Hc; subst. split; [reflexivity|now rewrite E].
  - apply (ahead_iff 4 _ (c_seq c_len0 (fun v c st => exists r, c_lens1 n (kraft_all 5 pre + (if v =? 0 then 0 else 2 ^ (5 - v))) c r /\ st = fin1 h (pre ++ v :: r)))).
    { intros c st. split.
      - intros (c1 & c2 & v & -> & Hv & r & Hc & ->). exists (v :: r). split; [constructor; assumption|reflexivity].
      - intros (r & Hc & ->). inversion Hc as [? ? [?|?]|? ? c1 v c2 r' Hs Hv Hr]; subst; try lia; try discriminate. exists c1, c2, v. repeat split; try assumption. exists r'. auto. }
    apply ahead_bind; [apply ahead_len0|]. intros v [cv Hcv]. pose proof (len0_range _ _ Hcv) as Hv.
    pose proof (order_range (Z.of_nat (h + length pre)) ltac:(lia)) as Hr. rewrite Nat2Z.id in Hr.
    eapply ahead_lift_l; [apply (slice_get_ok _ _ 0); cbn [length codelenMap]; lia|]. rewrite Nat2Z.id.
    eapply ahead_lift_l; [apply slice_set_ok; cbn [l1_len st1]; rewrite lens1_length; lia|].
    cbn [l1_len l1_cnt l1_total l1_num st1]. rewrite lens1_step by lia.
    eapply ahead_lift_l; [apply (slice_get_ok _ _ 0); rewrite cnts_length; lia|].
    eapply ahead_lift_l; [apply slice_set_ok; rewrite cnts_length; lia|].
    rewrite (cnts_bump 19 (repeat 0 h ++ pre) v 1 (repeat 0 h ++ pre ++ [v])).
    2: lia.
    2:{ intros u. rewrite (app_assoc (repeat 0 h)), (cnt_app u (repeat 0 h ++ pre)), cnt_cons. cbn [cnt filter length]. destruct (Z.eqb_spec v u), (Z.eqb_spec u v); lia. }
    assert (Ek : (if v =? 0 then kraft_all 5 pre else kraft_all 5 pre + Z.shiftr 32 v) = kraft_all 5 (pre ++ [v])).
    { rewrite kraft_all_app, kraft_all_cons. change (kraft_all 5 []) with 0. assert (v = 0 \/ v = 1 \/ v = 2 \/ v = 3 \/ v = 4 \/ v = 5) as C by lia.
      repeat (destruct C as [->|C]; [cbn [Z.eqb Z.ltb Z.compare Pos.compare Pos.compare_cont Z.shiftr]; cbn; lia|]). subst v. cbn. lia. }
    rewrite Ek.
    assert (Ek' : kraft_all 5 pre + (if v =? 0 then 0 else 2 ^ (5 - v)) = kraft_all 5 (pre ++ [v])).
    { rewrite kraft_all_app, kraft_all_cons. change (kraft_all 5 []) with 0. destruct (Z.eqb_spec v 0), (Z.ltb_spec 0 v); lia. }
    rewrite Ek'.
    assert (En : (if v =? 0 then nonzeros pre else nonzeros pre + 1) = nonzeros (pre ++ [v])).
    { unfold nonzeros. rewrite filter_app, app_length. cbn [filter]. destruct (v =? 0); cbn [negb length]; lia. }
    rewrite En. destruct (Z.leb_spec 32 (kraft_all 5 (pre ++ [v]))) as [G|G].
    + eapply ahead_lift_l; [apply (slice_get_ok _ _ 0); rewrite cnts_length; lia|].
      eapply ahead_lift_l; [apply slice_set_ok; rewrite cnts_length; lia|].
      rewrite (cnts_bump 19 _ 0 (17 - Z.of_nat (h + length pre)) (repeat 0 h ++ (pre ++ [v]) ++ repeat 0 (18 - h - length (pre ++ [v])))).
      2: lia.
      2:{ intros u. rewrite (app_assoc (repeat 0 h)). rewrite (cnt_app u (repeat 0 h ++ pre ++ [v])), cnt_repeat, app_length. cbn [length].
          destruct (Z.eqb_spec 0 u), (Z.eqb_spec u 0); lia. }
      apply (ahead_iff 4 _ (c_ret (fin1 h (pre ++ [v])))); [|apply ahead_ret]. intros c st. split.
      * intros [-> ->]. exists []. split; [constructor; right; lia|reflexivity].
      * intros (r & Hc & ->). inversion Hc; subst; [|lia]. split; reflexivity.
    + specialize (IH (pre ++ [v]) ltac:(rewrite app_length; cbn [length]; lia) G).
      rewrite app_length in IH. cbn [length] in IH. replace (Z.of_nat (h + (length pre + 1))) with (Z.of_nat (h + length pre) + 1) in IH by lia.
      unfold st1 in IH. eapply ahead_iff; [|exact IH]. intros c st. split; intros (r & Hc & ->); exists r; (split; [assumption|]); now rewrite <- app_assoc.
Qed.

(* ---- facts about the first-level lengths ---- *)
Definition sumf (f : Z -> Z) (l : list Z) : Z := fold_right (fun x a => f x + a) 0 l.
Lemma sumf_app f a b : sumf f (a ++ b) = sumf f a + sumf f b.
Proof. unfold sumf. induction a as [|x a IH]; cbn [app fold_right]; lia. Qed.
Lemma cnt_sumf u l : Z.of_nat (cnt u l) = sumf (fun x => if x =? u then 1 else 0) l.
Proof. induction l as [|x l IH]; [reflexivity|]. rewrite cnt_cons. cbn [sumf fold_right]. fold (sumf (fun x => if x =? u then 1 else 0) l). destruct (x =? u); lia. Qed.
Lemma kraft_sumf b l : kraft_all b l = sumf (fun x => if 0 <? x then 2 ^ (b - x) else 0) l.
Proof. induction l as [|x l IH]; [reflexivity|]. rewrite kraft_all_cons, IH. reflexivity. Qed.
Lemma nonzeros_sumf l : nonzeros l = sumf (fun x => if x =? 0 then 0 else 1) l.
Proof. unfold nonzeros. induction l as [|x l IH]; [reflexivity|]. cbn [filter sumf fold_right]. fold (sumf (fun x => if x =? 0 then 0 else 1) l). destruct (x =? 0); cbn [negb length]; lia. Qed.
Definition padded (h : nat) (vs : list Z) : list Z := repeat 0 h ++ vs ++ repeat 0 (18 - h - length vs).
Lemma padded_length h vs : (h + length vs <= 18)%nat -> length (padded h vs) = 18%nat.
Proof. intros H. unfold padded. rewrite !app_length, !repeat_length. lia. Qed.
Lemma lens1_padded h vs : lens1 h vs = map (fun s => nth (position (Z.of_nat s) len_order) (padded h vs) 0) (seq 0 18).
Proof.
  unfold lens1. apply map_ext. intros s. unfold padded. rewrite app_assoc. generalize (repeat 0 h ++ vs). intros l. generalize (18 - h - length vs)%nat. intros n.
  generalize (position (Z.of_nat s) len_order). intros k. destruct (le_lt_dec (length l) k).
  - rewrite nth_overflow by assumption. rewrite app_nth2 by assumption. now rewrite nth_repeat0.
  - now rewrite app_nth1.
Qed.
Lemma lens1_sumf f h vs : (h + length vs <= 18)%nat -> sumf f (lens1 h vs) = sumf f (padded h vs).
Proof.
  intros H. rewrite lens1_padded. pose proof (padded_length h vs H) as E. revert E. generalize (padded h vs). intros l E.
  do 18 (destruct l as [|? l]; [discriminate E|]). destruct l; [|discriminate E]. clear E H. cbn. lia.
Qed.
Lemma padded_sumf f h vs : f 0 = 0 -> sumf f (padded h vs) = sumf f vs.
Proof.
  intros H. unfold padded. rewrite !sumf_app. assert (G : forall n, sumf f (repeat 0 n) = 0) by (induction n as [|n IH]; [reflexivity|cbn; rewrite H; unfold sumf in IH; lia]).
  rewrite !G. lia.
Qed.
Lemma lens1_cnt h vs u : (h + length vs <= 18)%nat -> cnt u (lens1 h vs) = cnt u (padded h vs).
Proof. intros H. apply Nat2Z.inj. rewrite !cnt_sumf. now apply lens1_sumf. Qed.
Lemma lens1_kraft b h vs : (h + length vs <= 18)%nat -> kraft_all b (lens1 h vs) = kraft_all b vs.
Proof. intros H. rewrite !kraft_sumf, lens1_sumf by assumption. now apply padded_sumf. Qed.
Lemma lens1_nonzeros h vs : (h + length vs <= 18)%nat -> nonzeros (lens1 h vs) = nonzeros vs.
Proof. intros H. rewrite !nonzeros_sumf, lens1_sumf by assumption. now apply padded_sumf. Qed.
Lemma lens1_range h vs : Forall (fun x => 0 <= x <= 5) vs -> Forall (fun x => 0 <= x <= 5) (lens1 h vs).
Proof.
  intros H. unfold lens1. apply Forall_forall. intros x Hx. apply in_map_iff in Hx. destruct Hx as (s & <- & _).
  assert (G : Forall (fun x => 0 <= x <= 5) (repeat 0 h ++ vs)).
  { apply Forall_app. split; [|assumption]. apply Forall_forall. intros y Hy. apply repeat_spec in Hy. lia. }
  destruct (nth_in_or_default (position (Z.of_nat s) len_order) (repeat 0 h ++ vs) 0) as [Hi| ->]; [|lia].
  rewrite Forall_forall in G. now apply G.
Qed.
Lemma c_lens1_facts n sum c vs : c_lens1 n sum c vs -> (length vs <= n)%nat /\ Forall (fun x => 0 <= x <= 5) vs.
Proof. induction 1 as [|n sum c1 v c2 r Hs Hv Hc [IH1 IH2]]; [cbn [length]; split; [lia|constructor]|]. cbn [length]. split; [lia|]. constructor; [now apply len0_range in Hv|assumption]. Qed.
Lemma idx_filter (p : Z -> bool) lens : length (filter (fun s => p (nth s lens 0)) (seq 0 (length lens))) = length (filter p lens).
Proof.
  induction lens as [|x l IH]; [reflexivity|]. cbn [length seq]. rewrite <- seq_shift.
  assert (E : forall t, length (filter (fun s => p (nth s (x :: l) 0)) (map S t)) = length (filter (fun s => p (nth s l 0)) t)).
  { induction t as [|s t IHt]; [reflexivity|]. cbn [map filter]. change (nth (S s) (x :: l) 0) with (nth s l 0). destruct (p (nth s l 0)); cbn [length]; now rewrite IHt. }
  cbn [filter]. change (nth 0 (x :: l) 0) with x. destruct (p x); cbn [length]; rewrite E, IH; reflexivity.
Qed.
Lemma ahead_more {A} k k' (m : RM A) (R : code A) : (k <= k')%nat -> exact_ahead k m R -> exact_ahead k' m R.
Proof. intros Hk [H1 H2]. split; [|assumption]. intros c v Hc s d p Hr Hb Hp. apply (H1 c v Hc s d p Hr Hb). lia. Qed.

Lemma items_of_eq lens : items_of lens = filter (fun s => negb (nth s lens 0 =? 0)) (seq 0 18).
Proof. reflexivity. Qed.
Lemma items_of_length h vs : (h + length vs <= 18)%nat -> Z.of_nat (length (items_of (lens1 h vs))) = nonzeros vs.
Proof.
  intros H. rewrite <- (lens1_nonzeros h) by assumption. rewrite items_of_eq. unfold nonzeros. f_equal.
  pose proof (idx_filter (fun x => negb (x =? 0)) (lens1 h vs)) as E. rewrite lens1_length in E. exact E.
Qed.
(* the table of the second-level items *)
Definition table1 (h : nat) (vs : list Z) : RM VLC :=
  sc <- rlift (scramble 18 (lens1 h vs) (sumsFrom 0 (cnts 19 (padded h vs)), repeat 0 18, repeat 0 18)) ;;
  let '(_, sl, ss) := sc in
  if nonzeros vs =? 1 then s17 <- rlift (slice_get ss 17) ;; rret (mkVLC 0 [(s17, 0)])
  else rlift (NewVLCTableWithSymbols 5 sl ss).
Lemma buckets_first lens K : buckets lens 0 (S K) = bucket lens 0 0 ++ flat_map (bucket lens 0) (seq 1 K).
Proof. reflexivity. Qed.
Lemma canon_range lens c v : In (c, v) (canon lens) -> 0 <= v < Z.of_nat (length lens).
Proof.
  intros Hi. unfold canon in Hi. apply in_combine_r in Hi. apply in_map_iff in Hi. destruct Hi as ([l s] & <- & Hi). cbn [snd].
  unfold by_length in Hi. apply in_flat_map in Hi. destruct Hi as (u & _ & Hi). apply in_map_iff in Hi. destruct Hi as (s' & E & Hi).
  apply filter_In in Hi. destruct Hi as [Hi _]. apply in_seq in Hi. inversion E; subst. lia.
Qed.
Lemma items_range lens c v : length lens = 18%nat -> items_code lens c v -> 0 <= v <= 17.
Proof.
  intros Hl H. unfold items_code in H.
  assert (G : forall s, In s (items_of lens) -> (s <= 17)%nat).
  { intros s Hs. rewrite items_of_eq in Hs. apply filter_In in Hs. destruct Hs as [Hs _]. apply in_seq in Hs. lia. }
  revert H G. generalize (items_of lens). intros used H G. pose proof (canon_range lens c v) as G2. rewrite Hl in G2.
  destruct used as [|s [|s' t]]; cbn [code_of] in H.
  - specialize (G2 (proj2 H)). lia.
  - destruct H as [_ ->]. specialize (G s (or_introl eq_refl)). lia.
  - specialize (G2 (proj2 H)). lia.
Qed.
Lemma table1_ok h vs : (h + length vs <= 18)%nat -> Forall (fun x => 0 <= x <= 5) vs -> (nonzeros vs = 1 \/ kraft_all 5 vs = 32) ->
  exists t, (forall s, table1 h vs s = (Ok t, s)) /\ exact_ahead 5 (GetVLC t) (items_code (lens1 h vs)).
Proof.
  intros Hn Hr Hk. pose proof (lens1_range h vs Hr) as Hl. pose proof (lens1_length h vs) as Hlen.
  destruct (sort_ok (lens1 h vs) 19 (cnts 19 (padded h vs))) as (c' & Es).
  { eapply Forall_impl; [|exact Hl]. cbv beta. lia. }
  { apply cnts_length. }
  { intros v Hv. rewrite cnts_nth by assumption. now rewrite lens1_cnt. }
  rewrite Hlen in Es. pose proof (items_of_length h vs Hn) as Ei. unfold table1. rewrite Es.
  unfold items_code.
  assert (HL : length (buckets (lens1 h vs) 0 19) = 18%nat).
  { rewrite (buckets_length (lens1 h vs) 0 18) by lia. rewrite <- Hlen at 1. rewrite <- Hlen. apply total_count. eapply Forall_impl; [|exact Hl]. cbv beta. lia. }
  destruct (Z.eqb_spec (nonzeros vs) 1) as [E1|E1].
  - assert (exists s, items_of (lens1 h vs) = [s]) as (s & Eit).
    { revert Ei. generalize (items_of (lens1 h vs)). intros [|s [|? ?]] Ei; cbn [length] in Ei; try lia. now exists s. }
    rewrite Eit.
    assert (Hs : exists v, nth_error (buckets (lens1 h vs) 0 19) 17 = Some (v, Z.of_nat s)).
    { assert (Hin : In s (items_of (lens1 h vs))) by (rewrite Eit; now left). rewrite items_of_eq in Hin. apply filter_In in Hin. destruct Hin as [Hs1 Hs2]. apply in_seq in Hs1.
      set (v := nth s (lens1 h vs) 0) in *.
      assert (Hv : 0 <= v <= 5) by (rewrite Forall_forall in Hl; apply Hl, nth_In; lia).
      exists v.
      (* the bucket of 0 holds 17 symbols *)
      assert (E0 : length (bucket (lens1 h vs) 0 0) = 17%nat).
      { rewrite bucket_length by lia. pose proof (lens1_nonzeros h vs Hn) as Hnz. rewrite E1 in Hnz. unfold nonzeros in Hnz.
        assert (Hsplit : forall l : list Z, (cnt (Z.of_nat 0) l + length (filter (fun x => negb (x =? 0)%Z) l) = length l)%nat).
        { clear. induction l as [|x l IH]; [reflexivity|]. rewrite cnt_cons. change (Z.of_nat 0) with 0%Z in *. cbn [filter length]. destruct (x =? 0); cbn [negb length]; lia. }
        specialize (Hsplit (lens1 h vs)). lia. }
      assert (Hin : In (v, Z.of_nat s) (buckets (lens1 h vs) 0 19)).
      { unfold buckets. apply in_flat_map. exists (Z.to_nat v). split; [apply in_seq; lia|]. rewrite bucket0. apply in_map_iff. exists s.
        split; [f_equal; lia|]. apply filter_In. split; [apply in_seq; lia|]. fold v. lia. }
      rewrite (buckets_first (lens1 h vs) 18) in Hin, HL |- *. rewrite app_length, E0 in HL. rename HL into HL'.
      rewrite nth_error_app2 by lia. rewrite E0. apply in_app_or in Hin. destruct Hin as [Hin|Hin].
      - rewrite bucket0 in Hin. apply in_map_iff in Hin. destruct Hin as (s' & E & _). inversion E. lia.
      - destruct (flat_map (bucket (lens1 h vs) 0) (seq 1 18)) as [|p [|? ?]]; cbn [length] in HL'; try lia. destruct Hin as [->|[]]. reflexivity. }
    destruct Hs as (v & Hs).
    assert (E17 : slice_get (map snd (buckets (lens1 h vs) 0 19)) 17 = Ok (Z.of_nat s)).
    { rewrite (slice_get_ok _ _ 0) by (rewrite map_length, HL; lia). f_equal. change 0 with (snd (0, 0)) at 1. rewrite map_nth.
      change (Z.to_nat 17) with 17%nat. rewrite (nth_error_nth _ _ _ Hs). reflexivity. }
    exists (mkVLC 0 [(Z.of_nat s, 0)]). split; [intros st; unfold rbind, rlift; cbn beta iota zeta; rewrite E17; reflexivity|].
    apply (ahead_more 0); [lia|]. apply (ahead_vlc 0 [(Z.of_nat s, 0)]).
    + lia.
    + reflexivity.
    + intros c w [-> ->]. split; [cbn; lia|]. intros x Hx _. change (2 ^ Z.of_nat 0) with 1 in Hx. replace x with 0 by lia. reflexivity.
    + intros x Hx. change (2 ^ Z.of_nat 0) with 1 in Hx. replace x with 0 by lia. cbn. split; [lia|]. split; reflexivity.
  - destruct Hk as [?|Hk]; [contradiction|].
    destruct (canon_exact 5 (lens1 h vs) 19) as (t & Et & Hx).
    + lia.
    + intros E. rewrite E in Hlen. discriminate.
    + eapply Forall_impl; [|exact Hl]. cbv beta. lia.
    + rewrite lens1_kraft by assumption. exact Hk.
    + exists t. split; [intros st; unfold rbind, rlift; cbn beta iota zeta; change 5 with (Z.of_nat 5); rewrite Et; reflexivity|].
      eapply ahead_iff; [|exact Hx]. intros c v. unfold canon_code.
      clear - Ei E1 Hk Hn. revert Ei. generalize (items_of (lens1 h vs)). intros [|s [|? ?]] Ei; cbn [length] in Ei; try lia; cbn [code_of]; rewrite lens1_kraft by assumption; tauto.
Qed.
