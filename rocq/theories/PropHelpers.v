(* C112: helpers of util. *)
From Coq Require Import ZArith List Bool Lia Arith.
From Verif Require Import GoBase ModelHelpers SpecHelpers.
Import ListNotations.
Open Scope Z_scope.

(* C112.  Max and Min of values without NaN *)
Theorem C112_extremes : forall T zero le lt gt nan (l : list T), ordered le lt gt -> Forall (fun a => nan a = false) l -> l <> [] ->
  let O := mkOps zero lt gt nan in greatest le l (Max O l) /\ greatest (fun a b => le b a) l (Min O l).
Proof.
  intros T zero le lt gt nan [|x l] (R & Tr & To & G & L) N NE O; [congruence|]. clear NE. inversion N as [|? ? Nx Nl]; subst. unfold Max, Min, O. cbn [ModelHelpers.nan]. rewrite Nx. clear N Nx.
  assert (A : forall (cmp : T -> T -> bool) (ord : T -> T -> Prop) (loop : T -> list T -> T), (forall a, ord a a) -> (forall a b c, ord a b -> ord b c -> ord a c) -> (forall a b, ord a b \/ ord b a) ->
    (forall a b, cmp a b = false <-> ord a b) -> (forall m, loop m [] = m) -> (forall m a r, nan a = false -> loop m (a :: r) = loop (if cmp a m then a else m) r) -> greatest ord (x :: l) (loop x l)).
  { clear G L R Tr To. intros cmp ord loop R Tr To C L0 L1. revert x. induction Nl as [|a r Na Nr IH]; intros x.
    - rewrite L0. split; [left; reflexivity|]. intros b [<-|[]]. apply R.
    - rewrite L1 by exact Na. destruct (cmp a x) eqn:E.
      + destruct (IH a) as (I & B). split; [right; exact I|]. intros b [<-|Hb]; [|apply B; exact Hb].
        apply (Tr _ a); [|apply B; left; reflexivity]. destruct (To x a) as [H|H]; [exact H|]. apply C in H. congruence.
      + destruct (IH x) as (I & B). apply C in E. split; [destruct I as [I|I]; [left; exact I|right; right; exact I]|]. intros b [<-|[<-|Hb]]; [apply B; left; reflexivity|apply (Tr _ x); [exact E|apply B; left; reflexivity]|apply B; right; exact Hb]. }
  split.
  - apply (A gt le (maxLoop O)); try assumption; [reflexivity|]. intros m a r Ha. cbn [maxLoop O ModelHelpers.nan]. rewrite Ha. reflexivity.
  - apply (A lt (fun a b => le b a) (minLoop O)); try assumption; [eauto|intros a b; apply To|reflexivity|]. intros m a r Ha. cbn [minLoop O ModelHelpers.nan]. rewrite Ha. reflexivity.
Qed.
Print Assumptions C112_extremes.
(* with NaN: the first NaN; of no values: zero *)
Theorem C112_nan : forall T (zero : T) lt gt nan l x r, Forall (fun a => nan a = false) l -> nan x = true ->
  let O := mkOps zero lt gt nan in Max O (l ++ x :: r) = x /\ Min O (l ++ x :: r) = x /\ Max O [] = zero /\ Min O [] = zero.
Proof.
  intros T zero lt gt nan l x r N X O.
  assert (A : forall m, maxLoop O m (l ++ x :: r) = x) by (induction N as [|a l Na Nl IH]; intros m; cbn [app maxLoop O ModelHelpers.nan]; [rewrite X; reflexivity|rewrite Na; apply IH]).
  assert (B : forall m, minLoop O m (l ++ x :: r) = x) by (clear A; induction N as [|a l Na Nl IH]; intros m; cbn [app minLoop O ModelHelpers.nan]; [rewrite X; reflexivity|rewrite Na; apply IH]).
  split; [|split; [|split; reflexivity]].
  - destruct l as [|a l]; cbn [app Max O ModelHelpers.nan]; [rewrite X; reflexivity|]. inversion N; subst. specialize (A a). cbn [app maxLoop O ModelHelpers.nan ModelHelpers.greater] in A. destruct (nan a); [congruence|]. destruct (gt a a); exact A.
  - destruct l as [|a l]; cbn [app Min O ModelHelpers.nan]; [rewrite X; reflexivity|]. inversion N; subst. specialize (B a). cbn [app minLoop O ModelHelpers.nan ModelHelpers.less] in B. destruct (nan a); [congruence|]. destruct (lt a a); exact B.
Qed.
Print Assumptions C112_nan.
(* Clamp3Float32 gives the value within the two bounds, in any order, that is nearest *)
Theorem C112_clamp : forall T zero le lt gt nan (v a b lo hi : T), ordered le lt gt -> (lo = a /\ hi = b \/ lo = b /\ hi = a) -> le lo hi ->
  let c := Clamp3Float32 (mkOps zero lt gt nan) v a b in
  (le lo v -> le v hi -> c = v) /\ (~ le lo v -> le c lo /\ le lo c) /\ (~ le v hi -> le c hi /\ le hi c).
Proof.
  intros T zero le lt gt nan v a b lo hi (R & Tr & To & G & L) C H. unfold Clamp3Float32. cbn [less greater].
  set (lower := if lt a b then a else b). set (upper := if lt a b then b else a). cbv zeta.
  assert (Q : le lower lo /\ le lo lower /\ le upper hi /\ le hi upper).
  { unfold lower, upper. destruct (lt a b) eqn:E.
    - assert (NE : ~ le b a) by (intros Q; apply L in Q; congruence). destruct C as [(-> & ->)|(-> & ->)]; [repeat split; apply R|contradiction].
    - apply L in E. destruct C as [(-> & ->)|(-> & ->)]; repeat split; assumption || apply R. }
  destruct Q as (Q1 & Q2 & Q3 & Q4). destruct (lt v lower) eqn:E1.
  - assert (N1 : ~ le lower v) by (intros Q; apply L in Q; congruence). split; [intros A; exfalso; eauto|]. split; [intros _; split; assumption|].
    intros N2. exfalso. destruct (To v lower) as [A|A]; [|contradiction]. apply N2. eauto.
  - apply L in E1. destruct (gt v upper) eqn:E2.
    + assert (N2 : ~ le v upper) by (intros Q; apply G in Q; congruence). split; [intros _ A; exfalso; eauto|]. split; [intros N; exfalso; eauto|]. intros _. split; assumption.
    + apply G in E2. split; [reflexivity|]. split; intros N; exfalso; eauto.
Qed.
Print Assumptions C112_clamp.

(* the points a loop over the iterator sees, until io.EOF *)
Fixpoint visited (fuel : nat) (r : Range) (s : Z * Z) : list (Z * Z) :=
  match fuel with
  | O => []
  | S fuel => match nextPoint r s with None => [] | Some (p, s) => p :: visited fuel r s end
  end.
Lemma small x : 0 <= x < 2 ^ 31 -> u32 x = x /\ i32 x = x.
Proof. unfold u32, i32. change (2 ^ 32) with 4294967296. change (2 ^ 31) with 2147483648. intros H. rewrite !Z.mod_small by lia. lia. Qed.
Lemma visit_row r y f : 0 <= startX r -> endX r < 2 ^ 31 - 1 -> 0 <= y <= endY r -> endY r < 2 ^ 31 - 1 -> forall k x, startX r <= x -> x + Z.of_nat k = endX r + 1 ->
  visited (k + f) r (x, y) = map (fun i => (x + 1 + Z.of_nat i, y)) (seq 0 k) ++ visited f r (endX r + 1, y).
Proof.
  intros X0 X1 Y0 Y1. induction k as [|k IH]; intros x Hx Hk; [cbn; replace x with (endX r + 1) by lia; reflexivity|].
  cbn [Nat.add visited nextPoint]. destruct (Z.gtb_spec x (endX r)); [lia|]. destruct (Z.gtb_spec y (endY r)); [lia|]. cbv zeta.
  destruct (small (x + 1)) as (U & I); [lia|]. destruct (small y) as (_ & Iy); [lia|]. rewrite U, I, Iy. cbn [seq map app]. rewrite Z.add_0_r. f_equal.
  rewrite IH by lia. rewrite <- seq_shift, map_map. f_equal. apply map_ext. intros i. f_equal. lia.
Qed.
Lemma visit_rows r c f : 0 <= startX r -> startX r + Z.of_nat c = endX r + 1 -> (1 <= c)%nat -> endX r < 2 ^ 31 - 1 -> endY r < 2 ^ 31 - 1 -> forall n y, -1 <= y -> y + Z.of_nat n = endY r ->
  visited (c * n + S f) r (endX r + 1, y) = points_of (startX r + 1) (y + 1) c n.
Proof.
  intros X0 X1 C1 X2 Y2. induction n as [|n IH]; intros y Hy Hn.
  - rewrite Nat.mul_0_r. cbn [Nat.add visited nextPoint]. destruct (Z.gtb_spec (endX r + 1) (endX r)); [|lia]. destruct (small (y + 1)) as (U & _); [lia|]. rewrite U. destruct (Z.gtb_spec (y + 1) (endY r)); [reflexivity|lia].
  - replace (c * S n + S f)%nat with (c + (c * n + S f))%nat by lia.
    assert (E : visited (c + (c * n + S f)) r (endX r + 1, y) = visited (c + (c * n + S f)) r (startX r, y + 1)).
    { destruct c as [|c]; [lia|]. cbn [Nat.add visited nextPoint]. destruct (Z.gtb_spec (endX r + 1) (endX r)); [|lia]. destruct (Z.gtb_spec (startX r) (endX r)); [lia|]. destruct (small (y + 1)) as (U & _); [lia|]. rewrite U. reflexivity. }
    rewrite E, visit_row by lia. rewrite IH by lia. unfold points_of. cbn [seq flat_map]. f_equal; [apply map_ext; intros i; f_equal; lia|].
    rewrite <- seq_shift, !flat_map_concat_map, map_map. f_equal. apply map_ext. intros j. apply map_ext. intros i. f_equal. lia.
Qed.
(* Finding: RangeIterator visits the points one to the right of those of the range. *)
Theorem C112_range_refuted : forall r columns rows f, 0 <= startX r -> 0 <= startY r -> endX r < 2 ^ 31 - 1 -> endY r < 2 ^ 31 - 1 ->
  startX r + Z.of_nat columns = endX r + 1 -> startY r + Z.of_nat rows = endY r + 1 -> (1 <= columns)%nat -> (1 <= rows)%nat ->
  visited (columns * rows + S f) r (RangeIterator r) = points_of (startX r + 1) (startY r) columns rows.
Proof.
  intros r c n f X0 Y0 X2 Y2 X1 Y1 C1 N1. unfold RangeIterator. pose proof (visit_rows r c f X0 X1 C1 X2 Y2 n (startY r - 1) ltac:(lia) ltac:(lia)) as E.
  replace (startY r - 1 + 1) with (startY r) in E by lia. rewrite <- E. destruct n as [|n]; [lia|]. destruct c as [|c]; [lia|].
  change (S c * S n + S f)%nat with (S (n + c * S n + S f)). cbn [visited nextPoint]. destruct (Z.gtb_spec (endX r + 1) (endX r)); [|lia]. destruct (Z.gtb_spec (startX r) (endX r)); [lia|].
  destruct (small (startY r)) as (U & _); [lia|]. replace (startY r - 1 + 1) with (startY r) by lia. rewrite U. reflexivity.
Qed.
Print Assumptions C112_range_refuted.

(* CompareMatrix3D tells whether the shapes agree and the elements are related. *)
Theorem C112_compare : forall T (compare : T -> T -> bool) a b, CompareMatrix3D compare a b = true <-> related (fun x y => compare x y = true) a b.
Proof.
  intros T compare.
  assert (G : forall (A : Type) (test : A -> A -> bool) (loop : list A -> list A -> bool) (R : A -> A -> Prop), (forall x y, test x y = true <-> R x y) ->
    (forall b, loop [] b = true) -> (forall x y a b, loop (x :: a) (y :: b) = if negb (test x y) then false else loop a b) ->
    forall a b, (length a =? length b)%nat && loop a b = true <-> Forall2 R a b).
  { intros A test loop R HT L0 L1. induction a as [|x a IH]; intros [|y b]; cbn [length Nat.eqb].
    - rewrite L0. split; [constructor|reflexivity].
    - split; [discriminate|intros H; inversion H].
    - split; [discriminate|intros H; inversion H].
    - rewrite L1. destruct (test x y) eqn:E; cbn [negb].
      + rewrite IH. apply HT in E. split; [intros H; constructor; assumption|intros H; inversion H; assumption].
      + rewrite andb_false_r. split; [discriminate|]. intros H. inversion H as [|? ? ? ? Q]. subst. apply HT in Q. congruence. }
  assert (R1 : forall x y, (length x =? length y)%nat && compareRow compare x y = true <-> Forall2 (fun x y => compare x y = true) x y) by (apply (G _ compare); reflexivity || (intros; reflexivity)).
  assert (R2 : forall x y, (length x =? length y)%nat && compareRows compare x y = true <-> Forall2 (Forall2 (fun x y => compare x y = true)) x y).
  { apply (G _ (fun x y => (length x =? length y)%nat && compareRow compare x y)); [exact R1|reflexivity|]. intros x y a b. cbn [compareRows]. destruct (length x =? length y)%nat; reflexivity. }
  assert (R3 : forall x y, (length x =? length y)%nat && compareMatrices compare x y = true <-> Forall2 (Forall2 (Forall2 (fun x y => compare x y = true))) x y).
  { apply (G _ (fun x y => (length x =? length y)%nat && compareRows compare x y)); [exact R2|reflexivity|]. intros x y a b. cbn [compareMatrices]. destruct (length x =? length y)%nat; reflexivity. }
  intros a b. unfold CompareMatrix3D, related. rewrite <- R3. destruct (length a =? length b)%nat; reflexivity.
Qed.
Print Assumptions C112_compare.
(* Matrix3Equal tells whether two arrays of the same shape are equal. *)
Theorem C112_equal_partial : forall T (compare : T -> T -> bool) a b, (forall x y, compare x y = true <-> x = y) -> same_shape a b ->
  exists e, Matrix3Equal compare a b = Ok e /\ (e = true <-> a = b).
Proof.
  intros T compare a b HC HS. unfold same_shape, related in HS.
  assert (R1 : forall x y, Forall2 (fun _ _ : T => True) x y -> exists e, equalRow compare x y = Ok e /\ (e = true <-> x = y)).
  { intros x y H. induction H as [|u v x y _ H (e & E & I)]; [exists true; split; [reflexivity|tauto]|]. cbn [equalRow]. destruct (compare u v) eqn:EC; cbn [negb].
    - apply HC in EC. subst v. exists e. split; [exact E|]. rewrite I. split; [congruence|intros Q; injection Q; auto].
    - exists false. split; [reflexivity|]. split; [discriminate|]. intros Q. injection Q as -> _. enough (compare v v = true) by congruence. apply HC. reflexivity. }
  assert (R2 : forall x y, Forall2 (Forall2 (fun _ _ : T => True)) x y -> exists e, equalRows compare x y = Ok e /\ (e = true <-> x = y)).
  { intros x y H. induction H as [|u v x y U H (e & E & I)]; [exists true; split; [reflexivity|tauto]|]. cbn [equalRows tl].
    destruct (R1 u v U) as (e1 & E1 & I1). replace (match u with [] => Ok true | _ :: _ => equalRow compare u v end) with (equalRow compare u v) by (destruct u; [inversion U; reflexivity|reflexivity]).
    rewrite E1. cbn [obind]. destruct e1; cbn [negb].
    - assert (u = v) by (apply I1; reflexivity). subst v. exists e. split; [exact E|]. rewrite I. split; [congruence|intros Q; injection Q; auto].
    - exists false. split; [reflexivity|]. split; [discriminate|]. intros Q. injection Q as Q _. apply I1 in Q. discriminate. }
  unfold Matrix3Equal. assert (LE : length a = length b) by (clear - HS; induction HS; cbn; congruence). rewrite LE, Nat.eqb_refl. clear LE. cbn [negb].
  induction HS as [|u v x y U H (e & E & I)]; [exists true; split; [reflexivity|tauto]|]. cbn [equalMatrices]. destruct (R2 u v U) as (e1 & E1 & I1). rewrite E1. cbn [obind]. destruct e1; cbn [negb].
  - assert (u = v) by (apply I1; reflexivity). subst v. exists e. split; [exact E|]. rewrite I. split; [congruence|intros Q; injection Q; auto].
  - exists false. split; [reflexivity|]. split; [discriminate|]. intros Q. injection Q as Q _. apply I1 in Q. discriminate.
Qed.
Print Assumptions C112_equal_partial.
(* Finding: arrays whose second one has more elements are equal; if it has fewer, the
   comparison panics. *)
Theorem C112_equal_refuted : forall T (compare : T -> T -> bool) x y, (forall x, compare x x = true) ->
  Matrix3Equal compare [[[x]]] [[[x; y]; [y]]] = Ok true /\ Matrix3Equal compare [[[x; y]]] [[[x]]] = Panic /\ Matrix3Equal compare [[[x]; [y]]] [[[x]]] = Panic.
Proof. intros T compare x y H. unfold Matrix3Equal. cbn. rewrite !H. cbn. auto. Qed.
Print Assumptions C112_equal_refuted.

Lemma skip_add {T} a n : forall d : list T, skipn (a + n) d = skipn n (skipn a d).
Proof. induction a as [|a IH]; intros [|x d]; try reflexivity; [cbn [Nat.add skipn]; rewrite skipn_nil; reflexivity|]. apply IH. Qed.
(* FillFloat32 sets the elements from one index up to another; a slice that is too short
   panics.  MakeSliceWithDefault makes a slice of the value. *)
Theorem C112_fill : forall T (a : list T) i j val, 0 <= i -> 0 <= j ->
  (j <= Z.of_nat (length a) -> i <= j -> FillFloat32 a i j val = Ok (firstn (Z.to_nat i) a ++ repeat val (Z.to_nat (j - i)) ++ skipn (Z.to_nat j) a)) /\
  (Z.of_nat (length a) < j -> i < j -> FillFloat32 a i j val = Panic) /\ (j <= i -> FillFloat32 a i j val = Ok a).
Proof.
  intros T a i j val Hi Hj. unfold FillFloat32.
  assert (P : forall n i (a : list T), (length a < i + n)%nat -> (1 <= n)%nat -> fillLoop n i val a = Panic).
  { induction n as [|n IH]; intros k b Hk Hn; [lia|]. cbn [fillLoop]. destruct (Nat.ltb_spec k (length b)); [|reflexivity]. apply IH; [rewrite app_length, firstn_length; cbn [length]; rewrite skipn_length; lia|lia]. }
  assert (F : forall n i (a : list T), (i + n <= length a)%nat -> fillLoop n i val a = Ok (firstn i a ++ repeat val n ++ skipn (i + n) a)).
  { induction n as [|n IH]; intros k b Hk; [cbn [fillLoop repeat app]; rewrite Nat.add_0_r, firstn_skipn; reflexivity|]. cbn [fillLoop]. destruct (Nat.ltb_spec k (length b)); [|lia].
    set (c := firstn k b ++ val :: skipn (S k) b). assert (LF : length (firstn k b) = k) by (rewrite firstn_length; lia).
    assert (LC : length c = length b) by (unfold c; rewrite app_length, LF; cbn [length]; rewrite skipn_length; lia).
    rewrite IH by lia. f_equal. assert (E1 : firstn (S k) c = firstn k b ++ [val]) by (unfold c; rewrite firstn_app, LF, firstn_firstn; replace (S k - k)%nat with 1%nat by lia; rewrite Nat.min_r by lia; reflexivity).
    assert (E2 : skipn (S k + n) c = skipn (k + S n) b).
    { unfold c. rewrite skipn_app, LF. rewrite skipn_all2 by lia. replace (S k + n - k)%nat with (S n) by lia. replace (k + S n)%nat with (S k + n)%nat by lia. rewrite skip_add. reflexivity. }
    rewrite E1, E2, <- app_assoc. reflexivity. }
  split; [|split].
  - intros H1 H2. rewrite F by lia. do 4 f_equal. lia.
  - intros H1 H2. apply P; lia.
  - intros H. replace (Z.to_nat (j - i)) with 0%nat by lia. reflexivity.
Qed.
Print Assumptions C112_fill.
Theorem C112_default : forall T (val : T) n, (0 <= n -> exists l, MakeSliceWithDefault n val = Some l /\ Z.of_nat (length l) = n /\ Forall (eq val) l) /\ (n < 0 -> MakeSliceWithDefault n val = None).
Proof.
  intros T val n. unfold MakeSliceWithDefault. split; intros H; destruct (Z.ltb_spec n 0); try lia; [|reflexivity]. exists (repeat val (Z.to_nat n)). rewrite repeat_length. split; [reflexivity|]. split; [lia|].
  apply Forall_forall. intros x Hx. apply repeat_spec in Hx. congruence.
Qed.
Print Assumptions C112_default.

Lemma Z_ordered : ordered Z.le Z.ltb Z.gtb.
Proof. unfold ordered. repeat split; intros; lia || (destruct (Z.gtb_spec a b); lia || discriminate || reflexivity) || (destruct (Z.ltb_spec a b); lia || discriminate || reflexivity). Qed.
Example C112_example :
  ordered Z.le Z.ltb Z.gtb /\ Max (mkOps 0 Z.ltb Z.gtb (fun _ => false)) [3; 9; 4] = 9 /\ Min (mkOps 0 Z.ltb Z.gtb (fun _ => false)) [3; 9; 2] = 2 /\ Clamp3Float32 (mkOps 0 Z.ltb Z.gtb (fun _ => false)) 7 5 3 = 5 /\
  visited 10 (mkRange 0 0 1 2) (RangeIterator (mkRange 0 0 1 2)) = [(1, 0); (2, 0); (1, 1); (2, 1); (1, 2); (2, 2)] /\
  points_of 0 0 2 3 = [(0, 0); (1, 0); (0, 1); (1, 1); (0, 2); (1, 2)] /\
  CompareMatrix3D Z.eqb [[[1; 2]; [3]]] [[[1; 2]; [3]]] = true /\ CompareMatrix3D Z.eqb [[[1; 2]; [3]]] [[[1; 2]; []]] = false /\
  Matrix3Equal Z.eqb [[[1; 2]; [3]]] [[[1; 2]; [4]]] = Ok false /\ FillFloat32 [1; 2; 3; 4] 1 3 9 = Ok [1; 9; 9; 4].
Proof. split; [exact Z_ordered|]. repeat split. Qed.
