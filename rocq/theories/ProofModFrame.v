(* C99: lemmas about the sections, groups and passes of modular frames. *)
From Coq Require Import ZArith List Bool Lia Arith ZifyBool ZifyNat.
From Verif Require Import GoBase GoLoop GoMatrix ModelBitReader ModelUtil ModelHeader ModelFrameHeader ModelEntropy ModelMATree ModelModular ModelModStream ModelModDecode.
From Verif Require Import ModelGroups ModelSections ModelImage ModelLF ModelModFrame SpecModStream SpecModFrame ProofCodes ProofModStream3 ProofModDecode.
Import ListNotations.
Open Scope Z_scope.

(* ---- lists ---- *)
Lemma list_set_self {A} (l : list A) n a : nth_error l n = Some a -> list_set l n a = l.
Proof. revert n. induction l as [|x l IH]; intros [|n] H; cbn in *; try congruence. f_equal. apply IH, H. Qed.
Lemma nth_error_list_set {A} (l : list A) n a j : j <> n -> nth_error (list_set l n a) j = nth_error l j.
Proof. revert n j. induction l as [|x l IH]; intros [|n] [|j] H; cbn; try reflexivity; try congruence. apply IH. lia. Qed.
Lemma list_set_app {A} (l : list A) a b t : list_set (l ++ a :: t) (length l) b = l ++ b :: t.
Proof. induction l as [|x l IH]; cbn; [reflexivity|]. f_equal. exact IH. Qed.
Lemma slice_get_err {A} (l : list A) i a : nth_error l i = Some a -> slice_get l (Z.of_nat i) = Ok a.
Proof. intros H. assert (i < length l)%nat by (apply nth_error_Some; congruence). rewrite (slice_get_ok l _ a) by lia. f_equal. apply nth_error_nth. rewrite Nat2Z.id. exact H. Qed.
Lemma modify_app {A} (pre : list A) a t f b : f a = Ok b -> modify (pre ++ a :: t) (Z.of_nat (length pre)) f = Ok (pre ++ b :: t).
Proof.
  intros H. unfold modify. rewrite (slice_get_err _ _ a) by (rewrite nth_error_app2, Nat.sub_diag by lia; reflexivity).
  cbn [obind]. rewrite H. cbn [obind]. rewrite slice_set_ok by (rewrite app_length; cbn; lia). rewrite Nat2Z.id, list_set_app. reflexivity.
Qed.

Lemma Forall2_imp {A B} (R S : A -> B -> Prop) l m : (forall a b, R a b -> S a b) -> Forall2 R l m -> Forall2 S l m.
Proof. intros H. induction 1; constructor; auto. Qed.

(* ---- origins ---- *)
Lemma lut_three q j : (Z.to_nat (nth j (nth q permutationLUT []) 0%Z) < 3)%nat.
Proof. do 6 (destruct q as [|q]; [do 3 (destruct j as [|j]; [vm_compute; lia|]); destruct j; cbn; lia|]). destruct q; destruct j; cbn; lia. Qed.
Section origins.
  Variable f : Plane -> Z * Z.
  Hypothesis Hneg : forall q, p_vs q < 0 -> f q = (0, 0).
  Hypothesis Hlay : forall p q, same_layout p q -> f p = f q.
  Lemma keep_origin depth behind default delta t sq s s' : transformed depth behind default delta t sq s s' -> keeps_place t ->
    metaOrigins t sq (map f (snd s)) = map f (snd s') /\ applyOrigins t sq (map f (snd s')) = map f (snd s).
  Proof.
    intros H K. unfold metaOrigins, applyOrigins, keeps_place in *.
    destruct H as [meta pre o post T B R L p ty a b c mk | sq s s' T | meta pre outs post idx pal T B N N' NE BP _ _ _ _ _ LP _ _ _ _ _ _ LO _]; cbn [snd]; rewrite T in *.
    - change (0 =? PALETTE) with false. change (0 =? SQUEEZE) with false. change (0 =? RCT) with true. cbv iota.
      assert (E : forall u, f (mk u) = f (o 0)) by (intros u; apply Hlay; repeat split; reflexivity).
      assert (E1 : f (o 1) = f (o 0)) by (apply Hlay; apply (L 1); lia). assert (E2 : f (o 2) = f (o 0)) by (apply Hlay; apply (L 2); lia).
      rewrite !map_app. cbn [map]. rewrite !E, E1, E2. split; [reflexivity|]. set (v := f (o 0)) in *.
      assert (SS : forall i, (i < 3)%nat -> list_set (map f pre ++ [v; v; v] ++ map f post) (Z.to_nat (ti_beginC t) + i) v = map f pre ++ [v; v; v] ++ map f post).
      { intros i Hi. apply list_set_self. rewrite B, Nat2Z.id. rewrite nth_error_app2 by (rewrite map_length; lia). rewrite map_length. replace (length pre + i - length pre)%nat with i by lia.
        destruct i as [|[|[|i]]]; [reflexivity..|lia]. }
      assert (G : forall i, (i < 3)%nat -> nth (Z.to_nat (ti_beginC t) + i) (map f pre ++ [v; v; v] ++ map f post) (0, 0) = v).
      { intros i Hi. rewrite B, Nat2Z.id. rewrite app_nth2 by (rewrite map_length; lia). rewrite map_length. replace (length pre + i - length pre)%nat with i by lia.
        destruct i as [|[|[|i]]]; [reflexivity..|lia]. }
      set (q := Z.to_nat (Z.quot (ti_rctType t) 7)). cbn [fold_left].
      assert (P : forall j, (Z.to_nat (nth j (nth q permutationLUT []) 0%Z) < 3)%nat).
      { intros j. apply lut_three. }
      assert (G0 : nth (Z.to_nat (ti_beginC t) + 0) (map f pre ++ [v; v; v] ++ map f post) (0, 0) = v) by (apply G; lia).
      rewrite !G by lia. rewrite (SS _ (P 0%nat)), (SS _ (P 1%nat)), (SS _ (P 2%nat)). reflexivity.
    - destruct K as [K|[K _]]; discriminate.
    - change (1 =? PALETTE) with true. change (1 =? SQUEEZE) with false. change (1 =? RCT) with false. cbv iota.
      destruct K as [K|[_ K]]; [discriminate|]. rewrite K in *. destruct outs as [|o [|? ?]]; [congruence| |cbn in N; lia]. inversion LO as [|? ? L0 _]. subst.
      cbn [map app]. rewrite !map_app. cbn [map app]. rewrite (Hneg pal) by (destruct LP as (_ & _ & E & _); rewrite E; cbn; lia). rewrite (Hlay _ _ L0).
      unfold removeFrom, insertInto. change (Z.to_nat (1 - 1)) with 0%nat. rewrite Nat.add_0_r. split; [f_equal; apply firstn_skipn|]. cbn [repeat app]. rewrite firstn_skipn. reflexivity.
  Qed.
  Lemma keep_origins depth behind default delta l s s' : encoded depth behind default delta l s s' -> Forall keeps_place (map fst l) ->
    originsAfter l (map f (snd s)) = map f (snd s).
  Proof.
    induction 1 as [s|t sq l s s' s'' G T E IH]; intros K; [reflexivity|]. cbn [map fst] in K. inversion K as [|? ? K1 K2]. subst.
    destruct (keep_origin _ _ _ _ _ _ _ _ T K1) as [H1 H2]. cbn [originsAfter]. rewrite H1, (IH K2), H2. reflexivity.
  Qed.
End origins.

(* ---- sections ---- *)
Lemma groups_ok {A} (f : nat -> list BR -> Outcome A * list BR) (R : nat -> A -> Prop) (idx : nat -> nat) rs0 l :
  (forall g rs, In g l -> length rs = length rs0 -> nth_error rs (idx g) = nth_error rs0 (idx g) ->
     exists v rs', f g rs = (Ok v, rs') /\ R g v /\ length rs' = length rs /\ forall j, j <> idx g -> nth_error rs' j = nth_error rs j) ->
  forall rs, NoDup (map idx l) -> length rs = length rs0 -> (forall g, In g l -> nth_error rs (idx g) = nth_error rs0 (idx g)) ->
  exists vs rs', forGroups f l rs = (map Ok vs, rs') /\ Forall2 R l vs /\ length rs' = length rs /\ forall j, ~ In j (map idx l) -> nth_error rs' j = nth_error rs j.
Proof.
  intros H. induction l as [|g t IH]; intros rs ND L N.
  - exists [], rs. split; [reflexivity|]. split; [constructor|]. split; reflexivity.
  - cbn [map] in ND. inversion ND as [|? ? N1 N2]. subst. destruct (H g rs (or_introl eq_refl) L (N g (or_introl eq_refl))) as (v & rs1 & E1 & R1 & L1 & J1).
    destruct (IH (fun g' rs' I => H g' rs' (or_intror I)) rs1 N2 ltac:(lia)) as (vs & rs2 & E2 & R2 & L2 & J2).
    { intros g' I. rewrite J1; [apply N; right; exact I|]. intros E. apply N1. rewrite <- E. apply in_map, I. }
    exists (v :: vs), rs2. cbn [forGroups]. rewrite E1, E2. split; [reflexivity|]. split; [constructor; assumption|]. split; [lia|].
    intros j Hj. cbn [map In] in Hj. rewrite J2 by tauto. apply J1. intros ->. tauto.
Qed.
Lemma keep_ok {A} (l : list A) : keepGroups (map Ok l) = Ok (map Some l).
Proof. induction l as [|a l IH]; [reflexivity|]. cbn [map keepGroups]. rewrite IH. reflexivity. Qed.
Lemma all_ok {A} (l : list A) : allGroups (map Ok l) = Ok l.
Proof. induction l as [|a l IH]; [reflexivity|]. cbn [map allGroups]. rewrite IH. reflexivity. Qed.

(* ---- passes ---- *)
Lemma indexOf_app l a v i : indexOf (l ++ [a]) v i = match indexOf l v i with Some n => Some n | None => if a =? v then Some (i + length l)%nat else None end.
Proof.
  revert i. induction l as [|b l IH]; intros i; cbn [app indexOf length]; [rewrite Nat.add_0_r; reflexivity|].
  destruct (b =? v); [reflexivity|]. rewrite IH. destruct (indexOf l v (S i)); [reflexivity|]. destruct (a =? v); [f_equal; lia|reflexivity].
Qed.
Lemma indexOf_find (ds : list (Z * Z)) v i : match indexOf (map snd ds) v i with
  | Some n => (i <= n)%nat /\ exists d, find (fun d => snd d =? v) ds = Some d /\ nth_error ds (n - i) = Some d
  | None => find (fun d => snd d =? v) ds = None end.
Proof.
  revert i. induction ds as [|d ds IH]; intros i; cbn [map indexOf find]; [reflexivity|]. destruct (snd d =? v).
  - split; [lia|]. exists d. split; [reflexivity|]. rewrite Nat.sub_diag. reflexivity.
  - specialize (IH (S i)). destruct (indexOf (map snd ds) v (S i)) as [n|]; [|exact IH]. destruct IH as (H & d' & F & N). split; [lia|]. exists d'. split; [exact F|].
    replace (n - i)%nat with (S (n - S i)) by lia. exact N.
Qed.
Lemma scale_log d : d = 1 \/ d = 2 \/ d = 4 \/ d = 8 -> u32 (CeilLog1p (u32 (d - 1))) = log2_scale d.
Proof. intros [->|[->|[->| ->]]]; vm_compute; reflexivity. Qed.
Lemma min_shift num shift ds p prev : scales_ok num ds -> (p < num)%nat ->
  minShiftOf (passes_of num shift ds) (Z.of_nat p) prev = Ok (match scale_after num ds p with Some d => log2_scale d | None => prev end).
Proof.
  intros [H1 H2] Hp. unfold minShiftOf, passes_of, scale_after. cbn [ps_last ps_down]. rewrite indexOf_app. pose proof (indexOf_find ds (Z.of_nat p) 0) as F.
  destruct (indexOf (map snd ds) (Z.of_nat p) 0) as [n|].
  - destruct F as (_ & d & F & N). rewrite Nat.sub_0_r in N. rewrite F. rewrite Forall_forall in H2. destruct (H2 d (nth_error_In _ _ N)) as [D1 D2]. apply find_some in F as [_ F].
    replace (S p =? num)%nat with false by lia. cbn [option_map].
    rewrite (slice_get_err _ n (fst d)).
    2: { rewrite nth_error_app1 by (rewrite map_length; apply nth_error_Some; congruence). apply map_nth_error, N. }
    cbn [obind]. rewrite scale_log; [reflexivity|exact D1].
  - rewrite F. replace (Z.of_nat num - 1 =? Z.of_nat p) with (S p =? num)%nat by lia. destruct (S p =? num)%nat; [|reflexivity].
    cbn [Nat.add]. rewrite map_length. rewrite (slice_get_err _ _ 1); [reflexivity|]. rewrite nth_error_app2 by (rewrite map_length; lia). rewrite map_length, Nat.sub_diag. reflexivity.
Qed.
Lemma level_last num ds : scales_ok num ds -> level num ds num = 0.
Proof.
  intros [H1 H2]. destruct num as [|n]; [lia|]. cbn [level]. unfold scale_after. rewrite Nat.eqb_refl. reflexivity.
Qed.
Lemma some_pass num ds q : scales_ok num ds -> 0 <= Z.min (p_hs q) (p_vs q) < 3 -> exists p, (p < num)%nat /\ in_pass num ds p q = true.
Proof.
  intros H Hm. assert (G : forall k, (k <= num)%nat -> level num ds k <= Z.min (p_hs q) (p_vs q) -> exists p, (p < k)%nat /\ in_pass num ds p q = true).
  { induction k as [|k IH]; intros Hk Hl; [cbn in Hl; lia|]. destruct (Z_lt_le_dec (Z.min (p_hs q) (p_vs q)) (level num ds k)) as [L|L].
    - exists k. split; [lia|]. unfold in_pass. lia.
    - destruct (IH ltac:(lia) L) as (p & Hp & E). exists p. split; [lia|exact E]. }
  destruct (G num (le_n _)) as (p & Hp & E); [rewrite level_last by exact H; lia|]. exists p. auto.
Qed.
Lemma chan_laid c q : laid c q -> Z.of_nat (p_h q) < 2 ^ 31 -> Z.of_nat (p_w q) < 2 ^ 31 -> exists c', chanFromChan c = Ok c' /\ laid c' q.
Proof.
  intros (L1 & L2 & L3 & L4 & L5 & L6 & L7) Hh Hw. unfold chanFromChan. rewrite L5. eexists. split; [reflexivity|]. unfold laid, newChan. cbn [c_height c_width c_vshift c_hshift c_buf c_decoded c_forceWP].
  rewrite L1, L2. rewrite !i32_small by lia. rewrite !u32_small by lia. repeat split; assumption || reflexivity.
Qed.
(* the channels of a pass next to the later ones *)
Definition chosen (ip : Plane -> bool) (o : option Chan) (q : Plane) : Prop := if ip q then exists c, o = Some c /\ laid c q else o = None.
Definition fine (q : Plane) : Prop := 0 <= p_vs q /\ 0 <= p_hs q /\ Z.min (p_hs q) (p_vs q) < 3 /\ good_plane q.
Lemma replaced_ok lo hi chs2 later : Forall2 laid chs2 later -> Forall fine later ->
  exists rl, replacedChannels lo hi chs2 = Ok rl /\ Forall2 (chosen (fun q => (lo <=? Z.min (p_hs q) (p_vs q)) && (Z.min (p_hs q) (p_vs q) <? hi))) rl later.
Proof.
  intros F. induction F as [|c q t u L F IH]; intros G; [exists []; split; [reflexivity|constructor]|].
  inversion G as [|? ? (V & S & M & _ & H1 & H2) G']. subst. destruct (IH G') as (rl & E & C). pose proof L as (_ & _ & L3 & L4 & _ & L6 & _).
  cbn [replacedChannels]. rewrite L3, L4, L6. rewrite u32_small by lia. cbn [negb andb]. rewrite E.
  destruct ((lo <=? Z.min (p_hs q) (p_vs q)) && (Z.min (p_hs q) (p_vs q) <? hi)) eqn:B.
  - destruct (chan_laid c q L ltac:(lia) ltac:(lia)) as (c' & E' & L'). rewrite E'. exists (Some c' :: rl). split; [reflexivity|]. constructor; [|exact C]. unfold chosen. rewrite B. exists c'. auto.
  - exists (None :: rl). split; [reflexivity|]. constructor; [|exact C]. unfold chosen. rewrite B. reflexivity.
Qed.
Lemma replaced_done lo hi chs1 chs2 rl : Forall (fun c => c_decoded c = true) chs1 -> replacedChannels lo hi chs2 = Ok rl ->
  replacedChannels lo hi (chs1 ++ chs2) = Ok (repeat None (length chs1) ++ rl).
Proof. intros F E. induction F as [|c t D F IH]; [exact E|]. cbn [app replacedChannels length repeat]. rewrite D. cbn [negb andb obind]. rewrite IH. reflexivity. Qed.
Lemma passes_ok num shift ds chs1 chs2 later : scales_ok num ds -> Forall (fun c => c_decoded c = true) chs1 -> Forall2 laid chs2 later -> Forall fine later ->
  forall k p prev, (p + k <= num)%nat -> ((0 < p)%nat -> prev = level num ds p) ->
  exists rls, decodePasses (passes_of num shift ds) (chs1 ++ chs2) (seq p k) prev = Ok (map (fun rl => repeat None (length chs1) ++ rl) rls) /\
    Forall2 (fun p rl => Forall2 (chosen (in_pass num ds p)) rl later) (seq p k) rls.
Proof.
  intros H D L F. induction k as [|k IH]; intros p prev Hk Hp; [exists []; split; [reflexivity|constructor]|].
  cbn [seq decodePasses]. set (hi := if (0 <? p)%nat then prev else 3).
  assert (Eh : hi = level num ds p) by (unfold hi; destruct (Nat.ltb_spec 0 p) as [P|P]; [auto|]; assert (p = 0%nat) as -> by lia; reflexivity).
  rewrite (min_shift num shift ds p hi H) by lia. cbn [obind]. rewrite Eh. fold (level num ds p). change (match scale_after num ds p with Some d => log2_scale d | None => level num ds p end) with (level num ds (S p)).
  destruct (replaced_ok (level num ds (S p)) (level num ds p) chs2 later L F) as (rl & E & C).
  rewrite (replaced_done _ _ _ _ _ D E). cbn [obind].
  destruct (IH (S p) (level num ds (S p)) ltac:(lia) (fun _ => eq_refl)) as (rls & E2 & C2). rewrite E2. cbn [obind].
  exists (rl :: rls). split; [reflexivity|]. constructor; [exact C|exact C2].
Qed.

(* ---- the channels of a group ---- *)
Definition place (dim cols g : nat) (q : Plane) : Z * Z :=
  if p_vs q <? 0 then (0, 0) else (Z.of_nat (g / cols * group_h dim q), Z.of_nat (g mod cols * group_w dim q)).
Definition tile_of (dim cols g : nat) (q : Plane) : Plane := tile dim (g / cols) (g mod cols) q.
Lemma shift_group dim s : 0 <= s -> Z.shiftr (Z.of_nat dim) s = Z.of_nat (dim / 2 ^ Z.to_nat s).
Proof.
  intros H. rewrite Z.shiftr_div_pow2 by lia. rewrite Nat2Z.inj_div, Nat2Z.inj_pow, Z2Nat.id by lia. reflexivity.
Qed.
Lemma group_bounds rows cols g : (g < rows * cols)%nat -> (g / cols < rows)%nat /\ (g mod cols < cols)%nat.
Proof. intros H. assert (cols <> 0)%nat by nia. split; [apply Nat.div_lt_upper_bound; lia|apply Nat.mod_upper_bound; assumption]. Qed.
Lemma at_most a n k m : (a < n -> (n - 1) * k <= m -> a * k <= m)%nat.
Proof. intros H1 H2. apply Nat.le_trans with ((n - 1) * k)%nat; [apply Nat.mul_le_mono_r; lia|exact H2]. Qed.
Lemma at_least a k n m : (1 <= k -> a < m -> m <= n * k -> a / k < n)%nat.
Proof. intros H1 H2 H3. apply Nat.div_lt_upper_bound; lia. Qed.
Lemma ceil_cols p gw cols : (1 <= gw -> (cols - 1) * gw < p <= cols * gw -> (p - 1) / gw = cols - 1)%nat.
Proof.
  intros H1 H2. destruct cols as [|c]; [lia|]. replace (S c - 1)%nat with c in * by lia. symmetry. apply Nat.div_unique with (p - 1 - gw * c)%nat; [cbn [Nat.mul] in H2; lia|].
  rewrite (Nat.mul_comm gw c). lia.
Qed.
Lemma group_channel dim rows cols g c q : laid c q -> spread dim rows cols q -> good_plane q -> (g < rows * cols)%nat -> Z.of_nat (rows * cols) < 2 ^ 31 ->
  exists c', groupChannel (Z.of_nat dim) (Z.of_nat g) c = Ok (place dim cols g q, c') /\ laid c' (tile_of dim cols g q).
Proof.
  intros (L1 & L2 & L3 & L4 & L5 & L6 & L7) (V & S & Gh & Gw & Bh & Bw) (_ & Hh & Hw) Hg Hn.
  destruct (group_bounds rows cols g Hg) as [Gy Gx]. unfold groupChannel. rewrite L1, L2, L3, L4, L5, L6, L7. rewrite !shift_group by assumption. fold (group_h dim q) (group_w dim q).
  set (gh := group_h dim q) in *. set (gw := group_w dim q) in *.
  assert (EC : CeilDiv (Z.of_nat (p_w q)) (Z.of_nat gw) = Ok (Z.of_nat cols)).
  { unfold CeilDiv. destruct (Z.eqb_spec (Z.of_nat gw) 0); [lia|]. rewrite (u32_small (_ - 1)) by lia.
    replace (Z.of_nat (p_w q) - 1) with (Z.of_nat (p_w q - 1)) by lia. rewrite <- Nat2Z.inj_div, (ceil_cols _ _ cols) by assumption.
    assert (Cb : (cols <= rows * cols)%nat) by (rewrite <- (Nat.mul_1_l cols) at 1; apply Nat.mul_le_mono_r; lia). rewrite u32_small by lia. f_equal. lia. }
  rewrite EC. cbn [obind]. destruct (Z.eqb_spec (Z.of_nat cols) 0); [lia|].
  rewrite (u32_small (Z.of_nat g)) by lia. rewrite <- Nat2Z.inj_div, <- Nat2Z.inj_mod, <- !Nat2Z.inj_mul.
  assert (Y : (g / cols * gh <= p_h q)%nat) by (apply (at_most _ rows); lia). assert (X : (g mod cols * gw <= (cols - 1) * gw)%nat) by (apply Nat.mul_le_mono_r; lia).
  unfold place, tile_of, tile. fold gh gw. replace (p_vs q <? 0) with false by lia.
  set (y0 := (g / cols * gh)%nat) in *. set (x0 := (g mod cols * gw)%nat) in *.
  rewrite (u32_small (Z.of_nat y0)), (u32_small (Z.of_nat x0)) by lia. rewrite (i32_small (Z.of_nat y0)), (i32_small (Z.of_nat x0)) by lia.
  rewrite (u32_small (Z.of_nat y0)), (u32_small (Z.of_nat x0)) by lia. rewrite (u32_small (Z.of_nat (p_h q) - _)), (u32_small (Z.of_nat (p_w q) - _)) by lia.
  eexists. split; [reflexivity|]. unfold laid. cbn [c_height c_width c_vshift c_hshift c_buf c_decoded c_forceWP p_h p_w p_vs p_hs].
  split; [lia|]. split; [lia|]. repeat split.
Qed.
Lemma group_channels dim rows cols g ip rl later : Forall2 (chosen ip) rl later -> Forall (spread dim rows cols) later -> Forall good_plane later -> (g < rows * cols)%nat -> Z.of_nat (rows * cols) < 2 ^ 31 ->
  exists chs, groupChannels (Z.of_nat dim) (Z.of_nat g) rl = Ok (combine (map (place dim cols g) (filter ip later)) chs) /\
    Forall2 laid chs (map (tile_of dim cols g) (filter ip later)).
Proof.
  intros F. induction F as [|o q t u C F IH]; intros S G Hg Hn; [exists []; split; [reflexivity|constructor]|].
  inversion S as [|? ? S1 S2]. inversion G as [|? ? G1 G2]. subst. destruct (IH S2 G2 Hg Hn) as (chs & E & L). unfold chosen in C. cbn [filter]. destruct (ip q).
  - destruct C as (c & -> & Lc). cbn [groupChannels].
    destruct (chan_laid c q Lc) as (c1 & E1 & L1); [destruct G1 as (_ & ? & ?); lia..|]. rewrite E1. cbn [obind].
    destruct (group_channel dim rows cols g c1 q L1 S1 G1 Hg Hn) as (c2 & E2 & L2). rewrite E2. cbn [obind]. rewrite E. cbn [obind].
    exists (c2 :: chs). split; [reflexivity|]. cbn [map]. constructor; assumption.
  - subst o. cbn [groupChannels]. exists chs. split; assumption.
Qed.
Lemma groupChannels_skip dim g n rl : groupChannels dim g (repeat None n ++ rl) = groupChannels dim g rl.
Proof. induction n as [|n IH]; [reflexivity|exact IH]. Qed.

(* ---- copying ---- *)
Lemma skipn_add' {A} a b (l : list A) : skipn a (skipn b l) = skipn (b + a) l.
Proof. revert l. induction b as [|b IH]; intros l; [reflexivity|]. destruct l; [destruct a; reflexivity|]. apply IH. Qed.
Lemma nth_skipn' {A} n (l : list A) i d : nth i (skipn n l) d = nth (n + i) l d.
Proof. revert l. induction n as [|n IH]; intros l; [reflexivity|]. destruct l; [destruct i; reflexivity|]. apply IH. Qed.
Lemma copy_row w row src x : length row = w -> (x + length src <= w)%nat ->
  length (firstn x row ++ copyRow (skipn x row) src) = w /\
  forall t, nth t (firstn x row ++ copyRow (skipn x row) src) 0 = if (x <=? t)%nat && (t <? x + length src)%nat then nth (t - x) src 0 else nth t row 0.
Proof.
  intros L H. unfold copyRow. rewrite skipn_length. rewrite (firstn_all2 src) by lia. rewrite skipn_add'. split.
  - rewrite !app_length, firstn_length, skipn_length. lia.
  - intros t. destruct (Nat.leb_spec x t) as [A|A]; cbn [andb].
    + rewrite app_nth2 by (rewrite firstn_length; lia). rewrite firstn_length. replace (t - Nat.min x (length row))%nat with (t - x)%nat by lia.
      destruct (Nat.ltb_spec t (x + length src)) as [B|B]; [apply app_nth1; lia|]. rewrite app_nth2 by lia. rewrite nth_skipn'. f_equal. lia.
    + rewrite app_nth1 by (rewrite firstn_length; lia). rewrite <- (firstn_skipn x row) at 2. rewrite app_nth1 by (rewrite firstn_length; lia). reflexivity.
Qed.
Lemma copy_group h w buf sh sw src y0 x0 : rect h w buf -> rect sh sw src -> (y0 + sh <= h)%nat -> (x0 + sw <= w)%nat ->
  exists b, copyGroup buf (Z.of_nat y0) (Z.of_nat x0) src = Ok b /\ rect h w b /\
    forall y x, px b y x = if ((y0 <=? y)%nat && (y <? y0 + sh)%nat) && ((x0 <=? x)%nat && (x <? x0 + sw)%nat) then px src (y - y0) (x - x0) else px buf y x.
Proof.
  intros Rb Rs Hh Hw. unfold copyGroup.
  set (Inv := fun n b => rect h w b /\ forall y x, px b y x = if ((y0 <=? y)%nat && (y <? y0 + n)%nat) && ((x0 <=? x)%nat && (x <? x0 + sw)%nat) then px src (y - y0) (x - x0) else px buf y x).
  assert (Ls : length src = sh) by apply Rs. rewrite Ls.
  destruct (oloop_inv Inv (fun y b => row <o- slice_get src (Z.of_nat y) ;; copyInto b (Z.of_nat y + Z.of_nat y0) (Z.of_nat x0) row) sh 0 buf) as (b & E & Hb & Hp).
  - split; [exact Rb|]. intros y x. replace ((y0 <=? y)%nat && (y <? y0 + 0)%nat) with false by lia. reflexivity.
  - intros k b Hk [Rk Pk]. rewrite (slice_get_ok src _ []) by lia. cbn [obind]. rewrite Nat2Z.id.
    set (row := nth k src []). assert (Lr : length row = sw) by (apply (rect_row sh); [exact Rs|lia]).
    unfold copyInto. rewrite (slice_get_ok b _ []) by (destruct Rk; lia). cbn [obind]. replace (Z.to_nat (Z.of_nat k + Z.of_nat y0)) with (y0 + k)%nat by lia.
    set (old := nth (y0 + k) b []). assert (Lo : length old = w) by (apply (rect_row h); [exact Rk|lia]).
    replace ((Z.of_nat x0 <? 0) || (Z.of_nat (length old) <? Z.of_nat x0)) with false by lia. rewrite Nat2Z.id.
    rewrite slice_set_ok by (destruct Rk; lia). replace (Z.to_nat (Z.of_nat k + Z.of_nat y0)) with (y0 + k)%nat by lia.
    destruct (copy_row w old row x0 Lo ltac:(lia)) as [Ln Nn]. set (new := _ ++ _) in *. eexists. split; [reflexivity|].
    destruct Rk as [R1 R2]. split.
    + split; [rewrite list_set_length; exact R1|]. apply Forall_forall. intros r Hr. apply list_set_In in Hr as [->|Hr]; [exact Ln|]. rewrite Forall_forall in R2. auto.
    + intros y x. unfold px at 1. rewrite nth_list_set by lia. destruct (Nat.eqb_spec y (y0 + k)) as [->|Ne].
      * rewrite Nn, Lr. replace ((y0 <=? y0 + k)%nat && (y0 + k <? y0 + S k)%nat) with true by lia. cbn [andb].
        destruct ((x0 <=? x)%nat && (x <? x0 + sw)%nat) eqn:B; [unfold px; fold row; replace (y0 + k - y0)%nat with k by lia; reflexivity|].
        change (nth x old 0) with (px b (y0 + k) x). rewrite Pk. rewrite B, andb_false_r. reflexivity.
      * fold (px b y x). rewrite Pk. replace ((y0 <=? y)%nat && (y <? y0 + S k)%nat) with ((y0 <=? y)%nat && (y <? y0 + k)%nat) by lia. reflexivity.
  - exists b. split; [exact E|]. split; [exact Hb|]. cbn [Nat.add] in Hp. exact Hp.
Qed.

Lemma inside_case y x a b gh gw h w : let h' := Nat.min gh (h - a) in let w' := Nat.min gw (w - b) in
  if ((a <=? y)%nat && (y <? a + h')%nat) && ((b <=? x)%nat && (x <? b + w')%nat)
  then (y - a < h')%nat /\ (x - b < w')%nat /\ (a + (y - a))%nat = y /\ (b + (x - b))%nat = x
  else (y < h)%nat -> (x < w)%nat -> (a <= y < a + gh)%nat /\ (b <= x < b + gw)%nat -> False.
Proof. cbv zeta. destruct (_ && _ && _) eqn:E; lia. Qed.
Lemma in_group y x gh gw cols k : (1 <= gh)%nat -> (1 <= gw)%nat -> (x / gw < cols)%nat -> (y / gh * cols + x / gw)%nat = k ->
  (k / cols * gh <= y < k / cols * gh + gh)%nat /\ (k mod cols * gw <= x < k mod cols * gw + gw)%nat.
Proof.
  intros H1 H2 H3 <-. assert (Hc : cols <> 0%nat) by (intros ->; exact (Nat.nlt_0_r _ H3)).
  rewrite Nat.div_add_l by exact Hc. rewrite (Nat.div_small (x / gw)) by exact H3. rewrite Nat.add_0_r. rewrite (Nat.add_comm (y / gh * cols)). rewrite Nat.mod_add by exact Hc. rewrite (Nat.mod_small (x / gw)) by exact H3.
  pose proof (Nat.div_mod y gh ltac:(lia)) as D1. pose proof (Nat.div_mod x gw ltac:(lia)) as D2. pose proof (Nat.mod_upper_bound y gh ltac:(lia)). pose proof (Nat.mod_upper_bound x gw ltac:(lia)).
  rewrite (Nat.mul_comm (y / gh)), (Nat.mul_comm (x / gw)). lia.
Qed.
Definition piece (dim cols g : nat) (q : Plane) (oc : (Z * Z) * Chan) : Prop := fst oc = place dim cols g q /\ shows (snd oc) (tile_of dim cols g q).
Definition sized (c : Chan) (q : Plane) : Prop := c_height c = Z.of_nat (p_h q) /\ c_width c = Z.of_nat (p_w q) /\ c_vshift c = p_vs q /\ c_hshift c = p_hs q.
Definition half (c : Chan) (q : Plane) : Prop := sized c q /\ (c_buf c = [] \/ c_buf c = p_px q).
Lemma copy_channel dim rows cols q c vs j : spread dim rows cols q -> good_plane q -> half c q ->
  Forall2 (fun g v => exists oc, nth_error v j = Some oc /\ piece dim cols g q oc) (seq 0 (rows * cols)) vs ->
  exists c', ofold (fun g c => match g with None => Panic | Some g => info <o- slice_get g (Z.of_nat j) ;;
       buf <o- copyGroup (c_buf c) (fst (fst info)) (snd (fst info)) (c_buf (snd info)) ;; Ok (set_buf c buf) end) (map Some vs) (allocate c) = Ok c' /\
    sized c' q /\ c_buf c' = p_px q.
Proof.
  intros (V & S & Gh & Gw & Bh & Bw) (R & _ & _) [Z0 B] F.
  set (h := p_h q) in *. set (w := p_w q) in *. set (gh := group_h dim q) in *. set (gw := group_w dim q) in *.
  assert (A : sized (allocate c) q /\ rect h w (c_buf (allocate c))).
  { destruct Z0 as (Z1 & Z2 & Z3 & Z4). fold h in Z1. fold w in Z2. assert (W1 : (0 < w)%nat) by (eapply Nat.le_lt_trans; [apply Nat.le_0_l|apply Bw]). unfold allocate. destruct (Nat.eqb_spec (length (c_buf c)) 0) as [E|E]; cbn [negb].
    - destruct ((c_height c =? 0) || (c_width c =? 0)) eqn:E0; cbn [set_buf].
      + split; [repeat split; assumption|]. cbn [set_buf c_buf]. assert (h = 0%nat) as -> by lia. split; [reflexivity|constructor].
      + split; [repeat split; assumption|]. cbn [set_buf c_buf]. rewrite Z1, Z2. pose proof (rect_zeros (Z.of_nat h) (Z.of_nat w)) as K. rewrite !Nat2Z.id in K. exact K.
    - split; [repeat split; assumption|]. destruct B as [B|B]; [rewrite B in E; cbn in E; lia|]. rewrite B. exact R. }
  assert (G : forall k gs0 c0, Forall2 (fun g v => exists oc, nth_error v j = Some oc /\ piece dim cols g q oc) (seq k (length gs0)) gs0 -> (k + length gs0 = rows * cols)%nat ->
    sized c0 q -> rect h w (c_buf c0) -> (forall y x, (y < h)%nat -> (x < w)%nat -> (y / gh * cols + x / gw < k)%nat -> px (c_buf c0) y x = px (p_px q) y x) ->
    exists c', ofold (fun g c => match g with None => Panic | Some g => info <o- slice_get g (Z.of_nat j) ;;
       buf <o- copyGroup (c_buf c) (fst (fst info)) (snd (fst info)) (c_buf (snd info)) ;; Ok (set_buf c buf) end) (map Some gs0) c0 = Ok c' /\ sized c' q /\ rect h w (c_buf c') /\
      forall y x, (y < h)%nat -> (x < w)%nat -> (y / gh * cols + x / gw < k + length gs0)%nat -> px (c_buf c') y x = px (p_px q) y x).
  { intros k gs0. revert k. induction gs0 as [|v t IH]; intros k c0 Fg Hk Sc Rc Pc.
    - exists c0. split; [reflexivity|]. split; [exact Sc|]. split; [exact Rc|]. cbn [length]. rewrite Nat.add_0_r. exact Pc.
    - cbn [length seq] in Fg. inversion Fg as [|? ? ? ? (oc & No & Po & Sh) Ft]. subst. cbn [length] in Hk.
      destruct (group_bounds rows cols k ltac:(lia)) as [Gy Gx]. cbn [map ofold]. rewrite (slice_get_err _ _ _ No). cbn [obind].
      rewrite Po. unfold place. replace (p_vs q <? 0) with false by lia. cbn [fst snd]. fold gh gw.
      set (gy := (k / cols)%nat) in *. set (gx := (k mod cols)%nat) in *.
      assert (Y : (gy * gh <= h)%nat) by (apply (at_most _ rows); lia). assert (X : (gx * gw <= (cols - 1) * gw)%nat) by (apply Nat.mul_le_mono_r; lia).
      assert (Eb : c_buf (snd oc) = p_px (tile_of dim cols k q)).
      { destruct Sh as (_ & _ & _ & _ & [E|[[E|E] E']]); [exact E| |].
        - rewrite E'. unfold tile_of, tile in E |- *. cbn [p_h p_px] in E |- *. rewrite E. reflexivity.
        - exfalso. unfold tile_of, tile in E. cbn [p_w] in E. fold gw gx w in E. lia. }
      rewrite Eb. unfold tile_of, tile. cbn [p_px]. fold gh gw gy gx h w.
      destruct (copy_group h w (c_buf c0) (Nat.min gh (h - gy * gh)) (Nat.min gw (w - gx * gw)) (mat (Nat.min gh (h - gy * gh)) (Nat.min gw (w - gx * gw)) (fun y x => px (p_px q) (gy * gh + y) (gx * gw + x)))
        (gy * gh) (gx * gw) Rc (rect_mat _ _ _) ltac:(lia) ltac:(lia)) as (b & E & Rb & Pb).
      rewrite E. cbn [obind].
      destruct (IH (Datatypes.S k) (set_buf c0 b) Ft ltac:(lia)) as (c' & E' & Sc' & Rc' & Pc').
      + destruct Sc as (S1 & S2 & S3 & S4). repeat split; assumption.
      + exact Rb.
      + intros y x Hy Hx Hl. cbn [set_buf c_buf]. rewrite Pb.
        assert (Cx : (x / gw < cols)%nat) by (apply (at_least _ _ _ w); [exact Gw|exact Hx|apply Bw]).
        assert (Ic := inside_case y x (gy * gh) (gx * gw) gh gw h w). cbv zeta in Ic.
        destruct ((gy * gh <=? y)%nat && (y <? gy * gh + Nat.min gh (h - gy * gh))%nat && ((gx * gw <=? x)%nat && (x <? gx * gw + Nat.min gw (w - gx * gw))%nat)) eqn:Bx.
        * destruct Ic as (I1 & I2 & I3 & I4). rewrite px_mat by assumption. rewrite I3, I4. reflexivity.
        * apply Pc; [assumption..|]. destruct (Nat.eq_dec (y / gh * cols + x / gw) k) as [Ek|Ek]; [exfalso|clear - Hl Ek; lia].
          apply Ic; [exact Hy|exact Hx|apply (in_group y x gh gw cols k); assumption].
      + exists c'. split; [exact E'|]. split; [exact Sc'|]. split; [exact Rc'|]. intros y x Hy Hx Hl. apply Pc'; [assumption..|]. cbn [length] in Hl. lia. }
  pose proof (Forall2_length _ _ _ F) as Lv. rewrite seq_length in Lv.
  destruct (G 0%nat vs (allocate c)) as (c' & E & Sc & Rc & Pc); [rewrite <- Lv; exact F|symmetry; exact Lv|apply A|apply A|intros y x _ _ K; destruct (Nat.nlt_0_r _ K)|].
  exists c'. split; [exact E|]. split; [exact Sc|]. apply (rect_ext h w); [exact Rc|exact R|]. intros y x Hy Hx. apply Pc; [assumption..|]. cbn [Nat.add]. rewrite <- Lv.
  assert (y / gh < rows)%nat by (apply (at_least _ _ _ h); lia). assert (x / gw < cols)%nat by (apply (at_least _ _ _ w); lia). apply Nat.lt_le_trans with (y / gh * cols + cols)%nat; [lia|]. rewrite <- Nat.mul_succ_l. apply Nat.mul_le_mono_r. lia.
Qed.

(* ---- all channels of a pass ---- *)
Lemma copyPass_skip n rl groups i j chs : copyPass (repeat None n ++ rl) groups i j chs = copyPass rl groups (n + i) j chs.
Proof. revert i. induction n as [|n IH]; intros i; [reflexivity|]. cbn [repeat app copyPass]. rewrite IH. f_equal. lia. Qed.
(* the pieces of the channels from number j on *)
Definition pieces (dim cols g : nat) (qs : list Plane) (v : list ((Z * Z) * Chan)) : Prop := Forall2 (fun q oc => piece dim cols g q oc) qs v.
Lemma skipn_cons {A} n (l : list A) a t : skipn n l = a :: t -> nth_error l n = Some a /\ skipn (S n) l = t.
Proof. revert l. induction n as [|n IH]; intros l H; [cbn in H; subst; split; reflexivity|]. destruct l as [|b l]; [discriminate|]. apply (IH l H). Qed.
Lemma copy_pass dim rows cols ip vs later : Forall (spread dim rows cols) later -> Forall good_plane later ->
  forall rl mid pre j, Forall2 (chosen ip) rl later -> Forall2 half mid later ->
  Forall2 (fun g v => pieces dim cols g (filter ip later) (skipn j v)) (seq 0 (rows * cols)) vs ->
  exists mid', copyPass rl (map Some vs) (length pre) j (pre ++ mid) = Ok (pre ++ mid') /\ Forall2 half mid' later /\
    (* the others stay *)
    length mid' = length mid /\ forall i q, nth_error later i = Some q -> if ip q then exists c, nth_error mid' i = Some c /\ c_buf c = p_px q else nth_error mid' i = nth_error mid i.
Proof.
  induction later as [|q later IH]; intros SP GP rl mid pre j CH HA PC.
  - inversion CH. inversion HA. subst. exists []. split; [reflexivity|]. split; [constructor|]. split; [reflexivity|]. intros [|i] q E; discriminate.
  - inversion CH as [|o ? rl' ? C1 CH']. inversion HA as [|c ? mid0 ? HAc HA']. inversion SP as [|? ? S1 SP']. inversion GP as [|? ? G1 GP']. subst. unfold chosen in C1. cbn [filter] in PC.
    destruct (ip q) eqn:I.
    + destruct C1 as (c0 & -> & _). cbn [copyPass].
      destruct (copy_channel dim rows cols q c vs j S1 G1 HAc) as (c' & E & Sc & Bc).
      { revert PC. apply Forall2_imp. intros g v P. inversion P as [|? oc ? t Po Pt Eq Ev]. symmetry in Ev. destruct (skipn_cons _ _ _ _ Ev) as [N _]. exists oc. auto. }
      rewrite (modify_app pre c mid0 _ c' E). cbn [obind].
      destruct (IH SP' GP' rl' mid0 (pre ++ [c']) (S j) CH' HA') as (mid' & E2 & HA2 & L2 & N2).
      { revert PC. apply Forall2_imp. intros g v P. inversion P as [|? oc ? t Po Pt Eq Ev]. symmetry in Ev. destruct (skipn_cons _ _ _ _ Ev) as [_ N]. rewrite N. exact Pt. }
      rewrite app_length in E2. cbn [length] in E2. rewrite Nat.add_1_r in E2. rewrite <- !app_assoc in E2. cbn [app] in E2.
      exists (c' :: mid'). split; [exact E2|]. split; [constructor; [split; [exact Sc|right; exact Bc]|exact HA2]|]. split; [cbn; lia|].
      intros [|i] q' Eq; cbn in Eq |- *; [injection Eq as <-; rewrite I; exists c'; auto|apply N2, Eq].
    + subst o. cbn [copyPass].
      destruct (IH SP' GP' rl' mid0 (pre ++ [c]) j CH' HA') as (mid' & E2 & HA2 & L2 & N2); [exact PC|].
      rewrite app_length in E2. cbn [length] in E2. rewrite Nat.add_1_r in E2. rewrite <- !app_assoc in E2. cbn [app] in E2.
      exists (c :: mid'). split; [exact E2|]. split; [constructor; assumption|]. split; [cbn; lia|].
      intros [|i] q' Eq; cbn in Eq |- *; [injection Eq as <-; rewrite I; reflexivity|apply N2, Eq].
Qed.
Lemma copy_passes dim rows cols num ds pre later : Forall (spread dim rows cols) later -> Forall good_plane later ->
  forall ps rls vss mid, Forall2 (fun p rl => Forall2 (chosen (in_pass num ds p)) rl later) ps rls ->
  Forall2 (fun p vs => Forall2 (fun g v => pieces dim cols g (filter (in_pass num ds p) later) v) (seq 0 (rows * cols)) vs) ps vss ->
  Forall2 half mid later ->
  exists mid', ofold (fun pg chs => copyPass (fst pg) (snd pg) 0 0 chs) (combine (map (fun rl => repeat None (length pre) ++ rl) rls) (map (map Some) vss)) (pre ++ mid) = Ok (pre ++ mid') /\
    Forall2 half mid' later /\ length mid' = length mid /\
    forall i q, nth_error later i = Some q -> (exists c, nth_error mid i = Some c /\ c_buf c = p_px q) \/ (exists p, In p ps /\ in_pass num ds p q = true) ->
      exists c, nth_error mid' i = Some c /\ c_buf c = p_px q.
Proof.
  intros SP GP. induction ps as [|p ps IH]; intros rls vss mid F1 F2 HA.
  - inversion F1. inversion F2. subst. exists mid. split; [reflexivity|]. split; [exact HA|]. split; [reflexivity|]. intros i q E [H|(p & [] & _)]. exact H.
  - inversion F1 as [|? rl ? rls' C1 F1']. inversion F2 as [|? vs ? vss' C2 F2']. subst. cbn [map combine ofold fst snd]. rewrite copyPass_skip, Nat.add_0_r.
    destruct (copy_pass dim rows cols (in_pass num ds p) vs later SP GP rl mid pre 0%nat C1 HA) as (mid1 & E1 & HA1 & L1 & N1); [exact C2|].
    rewrite E1. cbn [obind]. destruct (IH rls' vss' mid1 F1' F2' HA1) as (mid2 & E2 & HA2 & L2 & N2). exists mid2. split; [exact E2|]. split; [exact HA2|]. split; [lia|].
    intros i q Eq H. apply (N2 i q Eq). specialize (N1 i q Eq). destruct (in_pass num ds p q) eqn:I; [left; exact N1|].
    destruct H as [H|(p' & [<-|Ip] & Ep)]; [left; rewrite N1; exact H|congruence|right; exists p'; auto].
Qed.

(* ---- sections of groups ---- *)
Lemma section_at {A} index (m : RM A) rs i s v s' : getBitreader rs index = Ok (Z.of_nat i, s) -> nth_error rs i = Some s -> m s = (Ok v, s') -> 
  onSection index m rs = (Ok v, list_set rs i s').
Proof. intros H N E. unfold onSection. rewrite H, E, Nat2Z.id. reflexivity. Qed.
Lemma reader_many rs i s : (1 < length rs)%nat -> nth_error rs i = Some s -> Z.of_nat i < 2 ^ 32 -> getBitreader rs (Z.of_nat i) = Ok (Z.of_nat i, s).
Proof. intros L N B. unfold getBitreader. replace (length rs <=? 1)%nat with false by lia. rewrite u32_small by lia. rewrite (slice_get_err _ _ _ N). reflexivity. Qed.
Lemma section_none {A} index (m : RM A) rs v : (length rs = 1%nat \/ 0 <= index < 2 ^ 32 /\ index < Z.of_nat (length rs)) -> (forall s, m s = (Ok v, s)) -> onSection index m rs = (Ok v, rs).
Proof.
  intros H E. unfold onSection, getBitreader. destruct (Nat.leb_spec (length rs) 1) as [L|L].
  - destruct rs as [|r [|? ?]]; [cbn in H; lia| |cbn in L; lia]. cbn. rewrite E. reflexivity.
  - destruct H as [H|H]; [lia|]. rewrite u32_small by lia. assert (N : exists s, nth_error rs (Z.to_nat index) = Some s) by (destruct (nth_error rs (Z.to_nat index)) eqn:N; [eauto|apply nth_error_None in N; lia]).
    destruct N as [s N]. rewrite <- (Z2Nat.id index) at 1 by lia. rewrite (slice_get_err _ _ _ N). cbn [obind]. rewrite E. rewrite list_set_self by exact N. reflexivity.
Qed.
