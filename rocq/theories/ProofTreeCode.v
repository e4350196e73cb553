(* Reading decision trees. *)
From Coq Require Import ZArith List Bool Lia ZifyBool ZifyNat.
From Verif Require Import GoBase GoLoop Bits ModelBitReader ModelUtil ModelEntropy ModelMATree SpecCodes SpecToc SpecMATree SpecTreeCode.
From Verif Require Import ProofCodes ProofToc ProofMATree.
Import ListNotations.
Open Scope Z_scope.

Lemma unpack_small v : 0 <= v < 2 ^ 31 -> UnpackSigned (u32 v) = unzigzag v.
Proof.
  intros H. rewrite u32_small by lia. destruct (Z.even v) eqn:E; [apply UnpackSigned_even; [lia|exact E]|].
  rewrite UnpackSigned_odd by (try lia; exact E). replace (v <? 2 ^ 31) with true by lia. reflexivity.
Qed.
Lemma count_before nodes i : breadth_first nodes -> (i < length nodes)%nat -> Z.of_nat i <= 2 * Z.of_nat (inner_before nodes i).
Proof.
  intros ((_ & P) & O & _) Hi. destruct i as [|i]; [lia|]. destruct (O (S i) ltac:(lia)) as (j & n & E & Hn & C). destruct (P j n E Hn) as (L & R & B & _).
  assert (Lj : (j < S i)%nat) by lia. pose proof (inner_before_mono nodes (S j) (S i) ltac:(lia)) as M.
  assert (S1 : inner_before nodes (S j) = S (inner_before nodes j)).
  { clear - E Hn. revert j E. induction nodes as [|a t IH]; intros [|j] E; try discriminate.
    - injection E as ->. cbn [inner_before]. destruct (Z.ltb_spec (n_property n) 0); [lia|]. destruct t; reflexivity.
    - cbn [nth_error] in E. specialize (IH j E). cbn [inner_before] in *. lia. }
  lia.
Qed.
Lemma count_all nodes : breadth_first nodes -> Z.of_nat (length nodes) = 1 + 2 * inners nodes.
Proof.
  intros H. pose proof H as ((N & P) & _ & _).
  assert (Hl : (0 < length nodes)%nat) by (destruct nodes; [congruence|cbn; lia]).
  pose proof (count_before nodes (length nodes - 1) H ltac:(lia)) as C. pose proof (inner_before_len nodes) as IL.
  pose proof (inner_before_mono nodes (length nodes - 1) (length nodes) ltac:(lia)) as M.
  assert (U : Z.of_nat (length nodes) <= 1 + 2 * inners nodes) by lia.
  assert (Lw : 1 + 2 * inners nodes <= Z.of_nat (length nodes)); [|lia].
  (* the last inner node has its children inside *)
  destruct (Z.eq_dec (inners nodes) 0) as [Z0|Z0]; [lia|].
  assert (G : forall k, (k <= length nodes)%nat -> (0 < inner_before nodes k)%nat -> exists j n, nth_error nodes j = Some n /\ 0 <= n_property n /\ inner_before nodes k = S (inner_before nodes j)).
  { clear. induction nodes as [|a t IH]; intros [|k] Hk Hp; try (cbn in Hp; lia). cbn [inner_before length] in *.
    destruct (Nat.eq_dec (inner_before t k) 0) as [E|E].
    - exists 0%nat, a. destruct (Z.ltb_spec (n_property a) 0); [lia|]. split; [reflexivity|]. split; [lia|]. cbn [inner_before]. lia.
    - destruct (IH k ltac:(lia) ltac:(lia)) as (j & n & F1 & F2 & F3). exists (S j), n. split; [exact F1|]. split; [exact F2|]. cbn [inner_before]. lia. }
  destruct (G (length nodes) ltac:(lia)) as (j & n & F1 & F2 & F3); [unfold inners in *; pose proof (leaves_le nodes); lia|].
  destruct (P j n F1 F2) as (L & R & _ & B). lia.
Qed.

Definition gives (ss : nat -> ES * BR) (l : list (Z * Z)) : Prop :=
  forall k ctx v, nth_error l k = Some (ctx, v) -> ReadSymbol ctx (ss k) = (Ok v, ss (S k)).
Lemma gives_cons ss ctx v l : gives ss ((ctx, v) :: l) -> ReadSymbol ctx (ss 0%nat) = (Ok v, ss 1%nat) /\ gives (fun k => ss (S k)) l.
Proof. intros H. split; [exact (H 0%nat ctx v eq_refl)|]. intros k c w E. exact (H (S k) c w E). Qed.

Lemma tree_loop nodes : breadth_first nodes -> Z.of_nat (length nodes) <= 2 ^ 20 + 1 -> forall todo done fuel ls ss,
  nodes = done ++ todo -> Forall2 node_sends todo ls -> gives ss (concat ls) -> (length todo < fuel)%nat ->
  treeLoop fuel done (1 + 2 * inners done - Z.of_nat (length done)) (Z.of_nat (length (leaves done))) (ss 0%nat) = (Ok nodes, ss (length (concat ls))).
Proof.
  intros HB HL. pose proof HB as ((_ & P) & _ & CT). induction todo as [|n todo IH]; intros done fuel ls ss En Hs Hg Hf; (destruct fuel as [|fuel]; [cbn in Hf; lia|]).
  - inversion Hs. subst ls. rewrite app_nil_r in En. subst done. cbn [treeLoop]. rewrite (count_all nodes HB). replace (1 + 2 * inners nodes - (1 + 2 * inners nodes)) with 0 by lia.
    reflexivity.
  - inversion Hs as [|? l0 ? ls' Hn Hs']. subst. clear Hs. cbn [concat] in *. cbn [length] in Hf.
    set (nodes := done ++ n :: todo) in *.
    assert (Hi : (length done < length nodes)%nat) by (subst nodes; rewrite app_length; cbn; lia).
    pose proof (count_before nodes (length done) HB Hi) as CB. unfold nodes at 1 in CB. rewrite inner_before_app, inner_before_len in CB by lia.
    assert (Hn0 : nth_error nodes (length done) = Some n) by (subst nodes; rewrite nth_error_app2, Nat.sub_diag by lia; reflexivity).
    pose proof (leaves_le done) as LL. unfold inners in CB.
    assert (Hrest : forall m, m = n -> forall ss', gives ss' (concat ls') ->
      treeLoop fuel (done ++ [m]) (1 + 2 * inners (done ++ [m]) - Z.of_nat (length (done ++ [m]))) (Z.of_nat (length (leaves (done ++ [m])))) (ss' 0%nat) = (Ok nodes, ss' (length (concat ls')))).
    { intros m -> ss' Hg'. apply IH; [unfold nodes; now rewrite <- app_assoc|exact Hs'|exact Hg'|lia]. }
    assert (Ei : inners done = Z.of_nat (length done) - Z.of_nat (length (leaves done))) by reflexivity.
    assert (El : length nodes = (length done + S (length todo))%nat) by (unfold nodes; rewrite app_length; reflexivity).
    cbn [treeLoop]. replace (0 <? 1 + 2 * inners done - Z.of_nat (length done)) with true by lia.
    replace (2 ^ 20 <? Z.of_nat (length done)) with false by lia.
    destruct Hn as [(v & N1 & N2 & N3 & N4 & N5 & N6 & N7 & ->)|(o & k & b & N1 & N2 & N3 & N4 & N5 & N6 & N7 & N8 & N9 & N10 & ->)].
    + cbn [app] in Hg |- *. apply gives_cons in Hg. destruct Hg as [G1 Hg]. apply gives_cons in Hg. destruct Hg as [G2 Hg].
      unfold ebind at 1. rewrite G1. rewrite i32_small by lia. replace (n_property n + 1 - 1) with (n_property n) by lia. replace (0 <=? n_property n) with true by lia.
      unfold ebind at 1, TryReadSymbol. rewrite G2. rewrite unpack_small by lia.
      destruct (P _ _ Hn0 ltac:(lia)) as (L & R & _ & _). unfold nodes in L. rewrite inner_before_app, inner_before_len in L by lia.
      rewrite !i32_small by (rewrite ?i32_small; lia).
      set (m := mkNode _ _ _ _ _ _ _ _).
      assert (Em : m = n).
      { subst m. destruct n as [a1 a2 a3 a4 a5 a6 a7 a8]. cbn [n_property n_context n_value n_left n_right n_predictor n_offset n_multiplier] in *. f_equal; lia. }
      assert (Lv : leaves [m] = []) by (rewrite Em; unfold leaves; cbn [filter]; replace (n_property n <? 0) with false by lia; reflexivity).
      specialize (Hrest m Em (fun k => ss (S (S k))) Hg). rewrite leaves_app, Lv, app_nil_r in Hrest. cbn [length]. rewrite <- Hrest. f_equal.
      unfold inners. rewrite leaves_app, Lv, app_nil_r, app_length. cbn [length]. lia.
    + cbn [app] in Hg |- *. do 4 (apply gives_cons in Hg; let G := fresh "G" in destruct Hg as [G Hg]). apply gives_cons in Hg. destruct Hg as [G3 Hg].
      unfold ebind at 1. rewrite G. change (0 <=? i32 (0 - 1)) with false. cbv iota.
      unfold ebind at 1. rewrite G0. replace (13 <? n_predictor n) with false by lia.
      unfold ebind at 1, TryReadSymbol. rewrite G1. rewrite unpack_small by lia.
      unfold ebind at 1. rewrite G2. replace (30 <? k) with false by lia.
      unfold ebind at 1. rewrite G3. rewrite (i32_small (31 - k)) by lia. replace (31 - k <? 0) with false by lia.
      assert (P1 : 0 < 2 ^ k) by (apply Z.pow_pos_nonneg; lia). assert (P2 : 2 ^ (31 - k) * 2 ^ k = 2 ^ 31) by (rewrite <- Z.pow_add_r by lia; f_equal; lia).
      assert (P3 : 2 <= 2 ^ (31 - k) <= 2 ^ 31) by (split; [change 2 with (2 ^ 1) at 1; apply Z.pow_le_mono_r; lia|apply Z.pow_le_mono_r; lia]).
      assert (Sh : i32 (shl32 1 (31 - k) - 2) = 2 ^ (31 - k) - 2).
      { unfold shl32. replace (32 <=? 31 - k) with false by lia. rewrite Z.shiftl_mul_pow2, Z.mul_1_l by lia.
        destruct (Z.eq_dec k 0) as [->|K]; [reflexivity|]. assert (2 ^ (31 - k) <= 2 ^ 30) by (apply Z.pow_le_mono_r; lia). rewrite !i32_small; rewrite ?i32_small; lia. }
      rewrite Sh. replace (2 ^ (31 - k) - 2 <? b) with false by lia.
      assert (Hm : (b + 1) * 2 ^ k < 2 ^ 31) by (rewrite <- P2; apply Z.mul_lt_mono_pos_r; lia).
      assert (Eu : u64 k = k) by (unfold u64; apply Z.mod_small; lia).
      assert (Em2 : shl32 (i32 (b + 1)) (u64 k) = (b + 1) * 2 ^ k).
      { rewrite Eu. unfold shl32. replace (32 <=? k) with false by lia. rewrite (i32_small (b + 1)) by lia. rewrite Z.shiftl_mul_pow2 by lia. apply i32_small. nia. }
      rewrite Em2. set (m := mkNode _ _ _ _ _ _ _ _).
      assert (Hc : n_context n = Z.of_nat (length (leaves done))).
      { unfold nodes in CT. rewrite leaves_app in CT. unfold leaves at 2 4 in CT. cbn [filter] in CT. replace (n_property n <? 0) with true in CT by lia.
        fold (leaves todo) in CT. apply (f_equal (fun l => nth (length (leaves done)) l 0)) in CT. rewrite map_app, app_nth2 in CT by (rewrite map_length; lia).
        rewrite map_length, Nat.sub_diag in CT. cbn [map nth] in CT. rewrite CT. unfold iota. rewrite app_length. cbn [length].
        rewrite Nat2Z.id. rewrite (nth_indep _ 0 (Z.of_nat 0)) by (rewrite map_length, seq_length; lia). rewrite map_nth, seq_nth by lia. reflexivity. }
      assert (Em : m = n).
      { subst m. destruct n as [a1 a2 a3 a4 a5 a6 a7 a8]. cbn [n_property n_context n_value n_left n_right n_predictor n_offset n_multiplier] in *. f_equal; lia. }
      assert (Lv : leaves [m] = [m]) by (rewrite Em; unfold leaves; cbn [filter]; replace (n_property n <? 0) with true by lia; reflexivity).
      specialize (Hrest m Em (fun k => ss (S (S (S (S (S k)))))) Hg). rewrite leaves_app, Lv, app_length in Hrest. cbn [length] in Hrest |- *. rewrite <- Hrest. f_equal.
      * unfold inners. rewrite leaves_app, Lv, !app_length. cbn [length]. lia.
      * rewrite i32_small by lia. rewrite app_length. cbn [length]. lia.
Qed.
