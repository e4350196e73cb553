From Coq Require Import ZArith List Bool Lia Arith ZifyBool ZifyNat.
From Verif Require Import GoBase GoLoop GoMatrix ModelBitReader ModelUtil ModelEntropy ModelMATree ModelModular ModelModStream.
From Verif Require Import SpecModular SpecPalette SpecModStream ProofUtil ProofCodes ProofBitReader ProofSqueeze ProofModular ProofPalette.
Import ListNotations.
Open Scope Z_scope.

(* ---- lists ---- *)
Lemma insertAt_AddToSlice {A} pad (s : GoSlice A) p e : sl_ok s -> (p <= sl_len s)%nat ->
  exists s', AddToSlice pad s (Z.of_nat p) e = Ok s' /\ insertAt (contents s) (Z.of_nat p) e = Ok (contents s').
Proof.
  intros Hs Hp. destruct (AddToSlice_ok pad s p e Hs Hp) as (s' & E & _ & C). exists s'. split; [exact E|]. rewrite C.
  pose proof (contents_length s Hs) as CL. unfold insertAt. destruct (contents s) as [|a l] eqn:EC.
  - destruct p; reflexivity.
  - rewrite CL. replace (Z.of_nat p <? 0) with false by lia. replace (Z.of_nat (sl_len s) <? Z.of_nat p) with false by lia. cbn [orb]. rewrite Nat2Z.id. reflexivity.
Qed.
Lemma removeAt_ok {A} (a b : list A) x : removeAt (a ++ x :: b) (Z.of_nat (length a)) = Ok (a ++ b).
Proof.
  unfold removeAt. rewrite app_length. cbn [length]. replace (_ || _) with false by lia. rewrite Nat2Z.id, Nat.add_1_r.
  rewrite firstn_app, firstn_all, Nat.sub_diag, firstn_O, app_nil_r. rewrite skipn_app. rewrite skipn_all2 by lia. replace (S (length a) - length a)%nat with 1%nat by lia. reflexivity.
Qed.
Lemma removeMany_ok {A} (a b c : list A) n p : n = length b -> p = Z.of_nat (length a) -> oloop n 0 (fun _ l => removeAt l p) (a ++ b ++ c) = Ok (a ++ c).
Proof.
  intros -> ->. generalize 0%nat. induction b as [|x b IH]; intros i; [reflexivity|]. cbn [length oloop app]. rewrite removeAt_ok. cbn [obind]. apply IH.
Qed.
Lemma insertAt_ok {A} (a b : list A) x p : p = Z.of_nat (length a) -> insertAt (a ++ b) p x = Ok (a ++ x :: b).
Proof.
  intros ->. unfold insertAt. destruct (a ++ b) as [|y l] eqn:E; [destruct a, b; try discriminate; reflexivity|]. rewrite <- E.
  rewrite app_length. replace (_ || _) with false by lia. rewrite Nat2Z.id.
  rewrite firstn_app, firstn_all, Nat.sub_diag, firstn_O, app_nil_r. rewrite skipn_app, skipn_all, Nat.sub_diag. reflexivity.
Qed.
Lemma slice_get_mid {A} (a l b : list A) i p d : p = Z.of_nat (length a) + Z.of_nat i -> (i < length l)%nat -> slice_get (a ++ l ++ b) p = Ok (nth i l d).
Proof. intros -> H. rewrite (get_pre a l b (Z.of_nat i) d) by lia. rewrite Nat2Z.id. reflexivity. Qed.
Lemma slice_set_mid {A} (a l b : list A) i p v : p = Z.of_nat (length a) + Z.of_nat i -> (i < length l)%nat -> slice_set (a ++ l ++ b) p v = Ok (a ++ list_set l i v ++ b).
Proof. intros -> H. rewrite set_pre by lia. rewrite Nat2Z.id. reflexivity. Qed.
(* the first k elements replaced by those of another list *)
Definition upto {A} (k : nat) (new old : list A) : list A := firstn k new ++ skipn k old.
Lemma upto_length {A} k (new old : list A) : length new = length old -> length (upto k new old) = length old.
Proof. intros H. unfold upto. rewrite app_length, firstn_length, skipn_length. lia. Qed.
Lemma nth_upto {A} k (new old : list A) d : length new = length old -> (k < length old)%nat -> nth k (upto k new old) d = nth k old d.
Proof.
  intros E H. unfold upto. rewrite app_nth2 by (rewrite firstn_length; lia). rewrite firstn_length, Nat.min_l by lia. rewrite Nat.sub_diag.
  rewrite <- (firstn_skipn k old) at 2. rewrite app_nth2 by (rewrite firstn_length; lia). rewrite firstn_length, Nat.min_l by lia. rewrite Nat.sub_diag. reflexivity.
Qed.
Lemma upto_step {A} k (new old : list A) d : length new = length old -> (k < length old)%nat -> list_set (upto k new old) k (nth k new d) = upto (S k) new old.
Proof.
  unfold upto. revert new old. induction k as [|k IH]; intros [|x new] [|y old] E H; cbn in *; try lia; [reflexivity|]. f_equal. apply IH; lia.
Qed.
Lemma upto_all {A} (new old : list A) : length new = length old -> upto (length old) new old = new.
Proof. intros H. unfold upto. rewrite skipn_all, app_nil_r, <- H. apply firstn_all. Qed.
Lemma firstn_step {A} k (l : list A) d : (k < length l)%nat -> firstn (S k) l = firstn k l ++ [nth k l d].
Proof. revert l. induction k as [|k IH]; intros [|x l] H; cbn in *; try lia; [reflexivity|]. f_equal. apply IH. lia. Qed.

(* ---- forward: the layout of channels ---- *)
Definition lowc (hor : bool) (c : Chan) : Chan :=
  if hor then set_size c (c_height c) (u32 (c_width c + 1) / 2) (c_vshift c) (c_hshift c + 1)
  else set_size c (u32 (c_height c + 1) / 2) (c_width c) (c_vshift c + 1) (c_hshift c).
Definition highc (hor : bool) (c : Chan) : Chan :=
  let l := lowc hor c in
  mkChan (if hor then c_height c else c_height c / 2) (if hor then c_width c / 2 else c_width c) (c_vshift l) (c_hshift l) (c_forceWP c) [] (c_decoded c) [].
Definition small_chan (c : Chan) : Prop := c_buf c = [] /\ 0 <= c_height c < 2 ^ 31 - 1 /\ 0 <= c_width c < 2 ^ 31 - 1.
Lemma chan_half hor c : small_chan c ->
  exists r, chanFromChan (lowc hor c) = Ok r /\
   (if hor then set_size r (c_height r) (c_width c / 2) (c_vshift r) (c_hshift r) else set_size r (c_height c / 2) (c_width r) (c_vshift r) (c_hshift r)) = highc hor c.
Proof.
  intros (B & Hh & Hw). unfold chanFromChan.
  assert (EB : c_buf (lowc hor c) = []) by (destruct hor; exact B). rewrite EB. eexists. split; [reflexivity|].
  unfold highc, lowc, newChan, set_size.
  destruct hor; cbn [c_height c_width c_vshift c_hshift c_forceWP c_buf c_decoded c_pred]; rewrite !i32_small, !u32_small; try reflexivity; try lia.
Qed.

Lemma metaSqueezeStep_ok p meta pre mid post : sp_beginC p = Z.of_nat (length pre) -> sp_numC p = Z.of_nat (length mid) ->
  Forall small_chan mid ->
  ((length pre < meta)%nat -> sp_inPlace p = true /\ (length pre + length mid <= meta)%nat) ->
  metaSqueezeStep p (Z.of_nat meta, pre ++ mid ++ post) =
  Ok (Z.of_nat (if (length pre <? meta)%nat then meta + length mid else meta)%nat,
      pre ++ map (lowc (sp_horizontal p)) mid ++
      (if sp_inPlace p then map (highc (sp_horizontal p)) mid ++ post else post ++ map (highc (sp_horizontal p)) mid)).
Proof.
  intros Eb En F Hm. unfold metaSqueezeStep. rewrite Eb, En. set (hor := sp_horizontal p).
  match goal with |- obind ?m _ = _ => assert (EM : m = Ok (Z.of_nat (if (length pre <? meta)%nat then meta + length mid else meta)%nat)) end.
  { destruct (Nat.ltb_spec (length pre) meta) as [L|L].
    - replace (Z.of_nat (length pre) <? Z.of_nat meta) with true by lia. destruct (Hm L) as [-> L2]. cbn [negb].
      replace (Z.of_nat meta <=? Z.of_nat (length pre) + Z.of_nat (length mid) - 1) with false by lia. f_equal. lia.
    - replace (Z.of_nat (length pre) <? Z.of_nat meta) with false by lia. reflexivity. }
  rewrite EM. cbn [obind]. clear EM Hm.
  set (lows := map (lowc hor) mid). set (highs := map (highc hor) mid).
  assert (LL : length lows = length mid) by apply map_length. assert (LH : length highs = length mid) by apply map_length.
  set (tail := fun k => if sp_inPlace p then firstn k highs ++ post else post ++ firstn k highs).
  rewrite Nat2Z.id.
  match goal with |- obind (oloop _ _ ?f _) _ = _ =>
    destruct (oloop_inv (fun k l => (k <= length mid)%nat -> l = pre ++ upto k lows mid ++ tail k) f (length mid) 0 (pre ++ mid ++ post)) as (l & E & HL) end.
  - intros _. unfold upto, tail. cbn [firstn skipn app]. destruct (sp_inPlace p); [reflexivity|rewrite app_nil_r; reflexivity].
  - intros k l Hk Hl. cbn [Nat.add] in Hk. rewrite Hl by lia. clear Hl.
    pose proof (upto_length k lows mid LL) as UL.
    rewrite (slice_get_mid pre (upto k lows mid) (tail k) k _ (newChan 0 0 0 0 false)) by lia. cbn [obind]. rewrite nth_upto by lia.
    set (c := nth k mid _).
    assert (Sc : small_chan c) by (rewrite Forall_forall in F; apply F, nth_In; lia).
    destruct (chan_half hor c Sc) as (r & Er & Ehi).
    change (if hor then set_size c (c_height c) (u32 (c_width c + 1) / 2) (c_vshift c) (c_hshift c + 1) else set_size c (u32 (c_height c + 1) / 2) (c_width c) (c_vshift c + 1) (c_hshift c)) with (lowc hor c).
    rewrite Er. cbn [obind]. rewrite Ehi.
    rewrite (slice_set_mid pre (upto k lows mid) (tail k) k) by lia. cbn [obind].
    assert (EL : lowc hor c = nth k lows (lowc hor (newChan 0 0 0 0 false))) by (unfold lows; rewrite map_nth; reflexivity).
    assert (EH : highc hor c = nth k highs (highc hor (newChan 0 0 0 0 false))) by (unfold highs; rewrite map_nth; reflexivity).
    rewrite EL, upto_step by lia. unfold tail. destruct (sp_inPlace p).
    + eexists. split.
      * rewrite app_assoc, app_assoc. apply insertAt_ok. rewrite !app_length, (upto_length (S k) lows mid LL), firstn_length. lia.
      * intros _. rewrite EH. rewrite (firstn_step k highs (highc hor (newChan 0 0 0 0 false))) by lia. rewrite <- !app_assoc. reflexivity.
    + eexists. split.
      * rewrite <- (app_nil_r (pre ++ upto (S k) lows mid ++ post ++ firstn k highs)). apply insertAt_ok.
        rewrite !app_length, (upto_length (S k) lows mid LL), firstn_length. lia.
      * intros _. rewrite EH. rewrite (firstn_step k highs (highc hor (newChan 0 0 0 0 false))) by lia. rewrite <- !app_assoc. reflexivity.
  - cbn [Nat.add] in HL. match type of E with ?m = _ => match goal with |- obind ?m' _ = _ => change m' with m end end.
    rewrite E. cbn [obind]. rewrite HL by lia. rewrite upto_all by lia. unfold tail. rewrite <- LH, firstn_all. reflexivity.
Qed.
