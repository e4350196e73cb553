From Coq Require Import ZArith List Bool Lia Arith ZifyBool ZifyNat.
From Verif Require Import GoBase Bits ModelBitReader ModelBoxes SpecBitReader SpecBoxes ProofBitReader ProofBitReader2 ProofCodes.
Import ListNotations.
Open Scope Z_scope.

Definition al (s : BR) : Prop := good s /\ br_index s = 0.

Lemma be_bound l : Forall byte l -> 0 <= be l < 256 ^ Z.of_nat (length l).
Proof.
  induction 1 as [|b l Hb Hl IH]; [cbn; lia|]. cbn [be length].
  rewrite Nat2Z.inj_succ, Z.pow_succ_r by lia. unfold byte in Hb. nia.
Qed.

Lemma be_app a b : be (a ++ b) = be a * 256 ^ Z.of_nat (length b) + be b.
Proof.
  induction a as [|x a IH]; cbn [be app]; [lia|]. rewrite IH, app_length, Nat2Z.inj_add, Z.pow_add_r by lia. lia.
Qed.

Lemma makeTag_be l : Forall byte l -> (length l <= 8)%nat -> makeTag l = be l.
Proof.
  intros Hl. unfold makeTag. induction l as [|b l IH] using rev_ind; intros Hlen; [reflexivity|].
  rewrite app_length in Hlen. cbn [length] in Hlen.
  apply Forall_app in Hl. destruct Hl as [Hl Hb]. inversion Hb as [|? ? Hb1]; subst.
  rewrite fold_left_app. cbn [fold_left]. rewrite IH by (auto; lia).
  pose proof (be_bound l Hl) as Hbd.
  assert (256 ^ Z.of_nat (length l) <= 256 ^ 7) by (apply Z.pow_le_mono_r; lia).
  rewrite land255, Z.mod_small by (unfold byte in Hb1; lia).
  rewrite u64_small by (rewrite Z.shiftl_mul_pow2 by lia; lia).
  unfold byte in Hb1.
  rewrite Z.lor_comm, lor_shift_add by lia. rewrite be_app. cbn [be length]. lia.
Qed.

Lemma al_byte s : al s -> Forall byte (br_data s).
Proof. intros [[(H & _) _] _]. exact H. Qed.
Lemma al_pos s : al s -> (br_pos s <= length (br_data s))%nat.
Proof. intros [[(_ & _ & _ & H & _) _] _]. exact H. Qed.

Lemma al_intro s : Forall byte (br_data s) -> br_index s = 0 -> byte (br_cur s) ->
  (br_pos s <= length (br_data s))%nat -> 0 <= br_count s < 2 ^ 64 -> al s.
Proof.
  intros. split; auto. split; auto. apply wf_intro; auto; lia.
Qed.

Lemma al_parts s : al s -> Forall byte (br_data s) /\ br_index s = 0 /\ byte (br_cur s) /\
  (br_pos s <= length (br_data s))%nat /\ 0 <= br_count s < 2 ^ 64.
Proof. intros [[(? & ? & ? & ? & ?) ?] ?]. auto 10. Qed.

Lemma al_new d : Forall byte d -> al (NewBitStreamReader d).
Proof. intros. split; [now apply good_new|reflexivity]. Qed.

Lemma al_set_pos s p : al s -> (p <= length (br_data s))%nat -> al (set_pos p s).
Proof. intros H Hp. apply al_parts in H. apply al_intro; cbn; tauto. Qed.

(* reading k bytes *)
Lemma rb_ok s buf k : al s -> (k <= buf)%nat -> (1 <= k)%nat ->
  if (br_pos s + k <=? length (br_data s))%nat
  then ReadBytesToBuffer buf k s = (Ok (sub (br_data s) (br_pos s) k), set_pos (br_pos s + k) s)
  else exists s', ReadBytesToBuffer buf k s = (Err, s').
Proof.
  intros Ha Hk H1. pose proof (al_pos s Ha). destruct Ha as [_ Hi].
  unfold ReadBytesToBuffer. rewrite Hi. cbn [Z.eqb negb].
  destruct (Nat.ltb_spec buf k); [lia|]. unfold stream_read.
  destruct (Nat.leb_spec (br_pos s + k) (length (br_data s))).
  - destruct (Nat.leb_spec (length (br_data s)) (br_pos s)); [lia|].
    assert (El : length (firstn k (skipn (br_pos s) (br_data s))) = k)
      by (rewrite firstn_length, skipn_length; lia).
    cbv zeta. rewrite El, Nat.eqb_refl. reflexivity.
  - destruct (Nat.leb_spec (length (br_data s)) (br_pos s)); [eauto|].
    cbv zeta. rewrite firstn_length, skipn_length.
    destruct (Nat.eqb_spec (Nat.min k (length (br_data s) - br_pos s)) k); [lia|]. eauto.
Qed.

Lemma sub_byte d o n : Forall byte d -> Forall byte (sub d o n).
Proof.
  intros H. unfold sub. apply Forall_forall. intros x Hx. rewrite Forall_forall in H. apply H.
  rewrite <- (firstn_skipn o d). apply in_or_app. right.
  rewrite <- (firstn_skipn n (skipn o d)). apply in_or_app. left. auto.
Qed.

Lemma sub_length d o n : (o + n <= length d)%nat -> length (sub d o n) = n.
Proof. intros. unfold sub. rewrite firstn_length, skipn_length. lia. Qed.

(* skipping k bytes *)
Definition skipped (k : Z) (s s' : BR) : Prop :=
  al s' /\ br_data s' = br_data s /\
  Z.of_nat (br_pos s') = Z.min (Z.of_nat (length (br_data s))) (Z.of_nat (br_pos s) + k mod 2 ^ 29).

Lemma skip_ok s k : al s -> 0 <= k < 2 ^ 32 ->
  if (k mod 2 ^ 29 =? 0) || (br_pos s <? length (br_data s))%nat
  then exists s', Skip k s = (Ok k, s') /\ skipped k s s'
  else exists s', Skip k s = (Err, s').
Proof.
  intros Ha Hk. pose proof (al_parts s Ha) as (Hd & Hi & Hc & Hp & Hcnt).
  assert (Eb : u32 (Z.shiftl k 3) = 8 * (k mod 2 ^ 29)).
  { rewrite Z.shiftl_mul_pow2 by lia. unfold u32.
    replace (k * 2 ^ 3) with (2 ^ 3 * k) by lia. change (2 ^ 32) with (2 ^ 3 * 2 ^ 29).
    rewrite Z.mul_mod_distr_l by lia. reflexivity. }
  set (m := k mod 2 ^ 29) in *. assert (Hm : 0 <= m < 2 ^ 29) by (apply Z.mod_pos_bound; lia).
  unfold Skip, rbind. rewrite Eb. unfold SkipBits.
  assert (Ed : 8 * m / 8 = m) by (rewrite Z.mul_comm; apply Z.div_mul; lia). rewrite Ed.
  assert (Et : 8 * m - u32 (m * 8) = 0).
  { rewrite u32_small by lia. lia. }
  rewrite Et. destruct (Z.eqb_spec m 0) as [E0|E0].
  - cbn [orb]. destruct (Z.ltb_spec 0 m); [lia|]. cbn [Z.to_nat skipTail rret]. exists s. split; auto.
    split; auto. split; auto. fold m. lia.
  - cbn [orb]. destruct (Z.ltb_spec 0 m); [|lia]. unfold stream_read.
    destruct (Nat.ltb_spec (br_pos s) (length (br_data s))).
    + destruct (Nat.leb_spec (length (br_data s)) (br_pos s)); [lia|].
      cbv zeta. cbn [Z.to_nat skipTail rret]. eexists. split; [reflexivity|].
      set (got := firstn (Z.to_nat m) (skipn (br_pos s) (br_data s))).
      assert (El : length got = Nat.min (Z.to_nat m) (length (br_data s) - br_pos s)).
      { unfold got. now rewrite firstn_length, skipn_length. }
      split.
      * apply al_intro; cbn [set_cur br_data br_pos br_index br_cur br_count]; auto; [|lia].
        destruct (le_lt_dec (length got) (Z.to_nat (m - 1))).
        { rewrite nth_overflow by auto. unfold byte. lia. }
        pose proof (sub_byte (br_data s) (br_pos s) (Z.to_nat m) Hd) as Hb.
        fold got in Hb. unfold sub in Hb. fold got in Hb. rewrite Forall_forall in Hb. apply Hb. now apply nth_In.
      * cbn [set_cur br_data br_pos]. split; auto. fold m. lia.
    + destruct (Nat.leb_spec (length (br_data s)) (br_pos s)); [|lia]. eauto.
Qed.

Lemma skipFully_ok s i : al s ->
  (exists s', SkipFully i s = (Ok (i64 (i - u32 i)), s') /\ skipped (u32 i) s s') \/
  (exists s', SkipFully i s = (Err, s')).
Proof.
  intros Ha. pose proof (Z.mod_pos_bound i (2 ^ 32) ltac:(lia)) as Hu. fold (u32 i) in Hu.
  pose proof (skip_ok s (u32 i) Ha Hu) as H. unfold SkipFully, rbind.
  destruct (_ || _); destruct H as (s' & H).
  - destruct H as [-> H]. left. eexists. split; [reflexivity|auto].
  - rewrite H. right. eauto.
Qed.

(* aligned byte read *)
Lemma rbyte_ok s : al s ->
  match nth_error (br_data s) (br_pos s) with
  | Some b => exists s', ReadByte s = (Ok b, s') /\ al s' /\ br_data s' = br_data s /\ br_pos s' = S (br_pos s)
  | None => exists s', ReadByte s = (Err, s')
  end.
Proof.
  intros Ha. pose proof (al_parts s Ha) as (Hd & Hi & Hc & Hp & Hcnt).
  unfold ReadByte, rbind, ReadBits. cbn [Z.eqb Z.ltb Z.compare Pos.compare Pos.compare_cont].
  unfold drainCur. rewrite Hi. cbn [Z.eqb]. cbn [readFull]. change (8 - 0 <? 8) with false. cbv iota.
  unfold stream_read1. destruct (nth_error (br_data s) (br_pos s)) as [b|] eqn:E.
  - change (8 - (0 + 8) <? 8) with true. cbv iota. unfold readTail. change (0 <? 8 - (0 + 8)) with false. cbv iota.
    assert (Hb : byte b). { rewrite Forall_forall in Hd. apply Hd. eapply nth_error_In; eauto. }
    rewrite Z.shiftl_0_r, Z.lor_0_l. unfold byte in Hb. rewrite u64_small by lia.
    eexists. split; [unfold rret; rewrite u8_small by lia; reflexivity|].
    split.
    + apply al_intro; cbn [add_count br_data br_pos br_index br_cur br_count]; auto.
      * apply nth_some_lt in E. lia.
      * apply u64_range.
    + split; reflexivity.
  - eauto.
Qed.

Lemma tag_eq l t : Forall byte l -> length l = 4%nat -> Forall byte t -> length t = 4%nat ->
  be l = be t -> l = t.
Proof.
  intros Hl Ll Ht Lt.
  destruct l as [|a0 [|a1 [|a2 [|a3 [|]]]]]; try discriminate.
  destruct t as [|b0 [|b1 [|b2 [|b3 [|]]]]]; try discriminate.
  intros E. cbn [be length Z.of_nat Pos.of_succ_nat Pos.succ] in E.
  change (256 ^ 3) with 16777216 in E. change (256 ^ 2) with 65536 in E. change (256 ^ 1) with 256 in E.
  change (256 ^ 0) with 1 in E.
  repeat match goal with H : Forall _ (_ :: _) |- _ => inversion H; clear H; subst end.
  unfold byte in *. assert (a0 = b0) by lia. subst. assert (a1 = b1) by lia. subst.
  assert (a2 = b2) by lia. subst. assert (a3 = b3) by lia. now subst.
Qed.

Lemma byte_t : Forall byte t_jxlc /\ Forall byte t_jxlp /\ Forall byte t_jxll.
Proof. unfold t_jxlc, t_jxlp, t_jxll, byte. repeat split; repeat constructor; lia. Qed.

Definition level_ok (l : Z) : Prop := l = 5 \/ l = 10.

(* one box *)
Definition body_post (d : list Z) (h : nat) (level : Z) (acc : list BoxHeader)
  (r : Z * list BoxHeader) (s' : BR) : Prop :=
  al s' /\ br_data s' = d /\ (h + 8 <= br_pos s')%nat /\ (level_ok level -> level_ok (fst r)) /\
  (snd r = acc \/ exists b, snd r = acc ++ [b] /\ declared d h b /\ bh_offset b <= Z.of_nat (br_pos s')).

Lemma be4_tag d o tg : Forall byte d -> (o + 4 <= length d)%nat -> Forall byte tg -> length tg = 4%nat ->
  (be (sub d o 4) =? be tg) = true -> sub d o 4 = tg.
Proof.
  intros Hd Ho Ht Hl E. apply Z.eqb_eq in E. apply tag_eq; auto.
  - now apply sub_byte.
  - now apply sub_length.
Qed.

Lemma boxTail_ok d h hd bs level acc s :
  al s -> br_data s = d -> (h + hd = br_pos s)%nat -> (4 <= hd)%nat ->
  (forall sz, (h + hd + 4 <= length d)%nat -> sub d (h + hd) 4 = t_jxlc -> sz = (if 0 <? bs then u64 (bs - 8) else bs) ->
     declared d h (mkBox (be t_jxlc) sz false (Z.of_nat (h + hd + 4)))) ->
  (forall sz, (h + hd + 8 <= length d)%nat -> sub d (h + hd) 4 = t_jxlp ->
     sz = u64 ((if 0 <? bs then u64 (bs - 8) else bs) - 4) ->
     declared d h (mkBox (be t_jxlp) sz false (Z.of_nat (h + hd + 8)))) ->
  let m :=
    let boxSize := if 0 <? bs then u64 (bs - 8) else bs in
    boxTag <- ReadBytesToBuffer 4 4 ;;
    let tag := makeTag boxTag in
    if tag =? JXLP then
      _ <- ReadBytesToBuffer 4 4 ;;
      let boxSize := u64 (boxSize - 4) in
      pos <- tell ;;
      _ <- SkipFully (i64 boxSize) ;;
      rret (level, acc ++ [mkBox tag boxSize false pos])
    else if tag =? JXLL then
      if negb (boxSize =? 1) then rerr
      else l <- ReadByte ;;
           if negb (l =? 5) && negb (l =? 10) then rerr else rret (l, acc)
    else if tag =? JXLC then
      pos <- tell ;;
      _ <- SkipFully (i64 boxSize) ;;
      rret (level, acc ++ [mkBox tag boxSize false pos])
    else if 0 <? boxSize then
      s <- SkipFully (i64 boxSize) ;;
      if negb (s =? 0) then rerr else rret (level, acc)
    else rpanic in
  match m s with
  | (Ok r, s') => body_post d h level acc r s'
  | _ => True
  end.
Proof.
  intros Ha Ed Eh Hhd Hc Hp. cbv zeta.
  set (sz := if 0 <? bs then u64 (bs - 8) else bs) in *.
  pose proof (rb_ok s 4 4 Ha (le_n _) ltac:(lia)) as R.
  unfold rbind at 1. destruct (Nat.leb_spec (br_pos s + 4) (length (br_data s))) as [Hl|Hl].
  2:{ destruct R as (s' & ->). exact I. }
  rewrite R. clear R. rewrite Ed in *. rewrite <- Eh in *.
  assert (Hd : Forall byte d) by (rewrite <- Ed; now apply al_byte).
  assert (Ha1 : al (set_pos (h + hd + 4) s)) by (apply al_set_pos; auto; rewrite Ed; lia).
  rewrite makeTag_be; [|now apply sub_byte|rewrite sub_length; lia].
  destruct byte_t as (Bc & Bp & Bl).
  change JXLP with (be t_jxlp). change JXLL with (be t_jxll). change JXLC with (be t_jxlc).
  destruct (be (sub d (h + hd) 4) =? be t_jxlp) eqn:Ep.
  - (* jxlp *)
    apply be4_tag in Ep; auto.
    pose proof (rb_ok _ 4 4 Ha1 (le_n _) ltac:(lia)) as R2. unfold rbind at 1.
    cbn [set_pos br_pos br_data] in R2. rewrite Ed in R2.
    destruct (Nat.leb_spec (h + hd + 4 + 4) (length d)) as [Hl2|Hl2].
    2:{ destruct R2 as (s' & ->). exact I. }
    rewrite R2. clear R2. cbv zeta. unfold rbind at 1. unfold tell. cbn [set_pos br_pos].
    assert (Ha2 : al (set_pos (h + hd + 4 + 4) (set_pos (h + hd + 4) s))) by (apply al_set_pos; auto; cbn; rewrite Ed; lia).
    unfold rbind. destruct (skipFully_ok _ (i64 (u64 (sz - 4))) Ha2) as [(s' & -> & Hs)|(s' & ->)]; [|exact I].
    destruct Hs as (Ha3 & Hd3 & Hp3). cbn [rret]. cbn [set_pos br_data br_pos] in Hd3, Hp3.
    unfold body_post. cbn [fst snd]. split; auto. split; [congruence|].
    pose proof (Z.mod_pos_bound (u32 (i64 (u64 (sz - 4)))) (2 ^ 29) ltac:(lia)) as Hmod.
    rewrite Ed in Hp3.
    split; [lia|]. split; auto. right. eexists. split; [reflexivity|].
    replace (h + hd + 4 + 4)%nat with (h + hd + 8)%nat in * by lia. rewrite Ep.
    split; [apply Hp; auto; lia|]. cbn [bh_offset]. lia.
  - destruct (be (sub d (h + hd) 4) =? be t_jxll) eqn:El.
    + (* jxll *)
      destruct (negb (sz =? 1)); [exact I|]. unfold rbind.
      pose proof (rbyte_ok _ Ha1) as R2. destruct (nth_error _ _) as [b|].
      2:{ destruct R2 as (s' & ->). exact I. }
      destruct R2 as (s' & -> & Ha2 & Hd2 & Hp2). cbn [set_pos br_data br_pos] in Hd2, Hp2.
      destruct (negb (b =? 5) && negb (b =? 10)) eqn:Eb; [exact I|]. cbn [rret].
      unfold body_post. cbn [fst snd]. split; auto. split; [congruence|]. split; [lia|].
      split; [intros _; unfold level_ok; lia|auto].
    + destruct (be (sub d (h + hd) 4) =? be t_jxlc) eqn:Ec.
      * (* jxlc *)
        apply be4_tag in Ec; auto. unfold rbind at 1. unfold tell. cbn [set_pos br_pos]. unfold rbind.
        destruct (skipFully_ok _ (i64 sz) Ha1) as [(s' & -> & Hs)|(s' & ->)]; [|exact I].
        destruct Hs as (Ha3 & Hd3 & Hp3). cbn [rret]. cbn [set_pos br_data br_pos] in Hd3, Hp3.
        unfold body_post. cbn [fst snd]. split; auto. split; [congruence|].
        pose proof (Z.mod_pos_bound (u32 (i64 sz)) (2 ^ 29) ltac:(lia)) as Hmod.
        rewrite Ed in Hp3.
        split; [lia|]. split; auto. right. eexists. split; [reflexivity|]. rewrite Ec.
        split; [apply Hc; auto; lia|]. cbn [bh_offset]. lia.
      * (* other *)
        destruct (0 <? sz); [|exact I]. unfold rbind.
        destruct (skipFully_ok _ (i64 sz) Ha1) as [(s' & -> & Hs)|(s' & ->)]; [|exact I].
        destruct Hs as (Ha3 & Hd3 & Hp3). cbn [set_pos br_data br_pos] in Hd3, Hp3.
        destruct (negb _); [exact I|]. cbn [rret].
        pose proof (Z.mod_pos_bound (u32 (i64 sz)) (2 ^ 29) ltac:(lia)) as Hmod. rewrite Ed in Hp3.
        unfold body_post. cbn [fst snd]. split; auto. split; [congruence|]. split; [lia|]. auto.
Qed.

Lemma body_size_eq n : 0 <= n < 2 ^ 64 -> (if 0 <? n then u64 (n - 8) else n) = body_size n.
Proof. intros. unfold body_size. destruct (Z.ltb_spec 0 n), (Z.eqb_spec n 0); try lia; reflexivity. Qed.

Lemma body_size_range n : 0 <= n -> 0 <= body_size n < 2 ^ 64.
Proof. intros. unfold body_size. destruct (n =? 0); [lia|]. apply Z.mod_pos_bound; lia. Qed.

Lemma boxBody_ok d h level acc s :
  al s -> br_data s = d -> (h + 4 = br_pos s)%nat ->
  match boxBody (sub d h 4) level acc s with
  | (Ok r, s') => body_post d h level acc r s'
  | _ => True
  end.
Proof.
  intros Ha Ed Eh. assert (Hd : Forall byte d) by (rewrite <- Ed; now apply al_byte).
  pose proof (al_pos s Ha) as Hpos. rewrite Ed in Hpos.
  unfold boxBody. cbv zeta. rewrite makeTag_be; [|now apply sub_byte|rewrite sub_length; lia].
  pose proof (be_bound (sub d h 4) (sub_byte d h 4 Hd)) as Hb.
  rewrite sub_length in Hb by lia. change (256 ^ Z.of_nat 4) with (2 ^ 32) in Hb.
  destruct (Z.eqb_spec (be (sub d h 4)) 1) as [E1|E1].
  - (* 64-bit size *)
    unfold rbind at 1. unfold rbind at 1.
    pose proof (rb_ok s 8 8 Ha (le_n _) ltac:(lia)) as R. rewrite Ed, <- Eh in R.
    destruct (Nat.leb_spec (h + 4 + 8) (length d)) as [Hl|Hl].
    2:{ destruct R as (s' & ->). exact I. }
    rewrite R. cbn [rret].
    assert (Ha1 : al (set_pos (h + 4 + 8) s)) by (apply al_set_pos; auto; rewrite Ed; lia).
    rewrite makeTag_be; [|now apply sub_byte|rewrite sub_length; lia].
    pose proof (be_bound (sub d (h + 4) 8) (sub_byte d _ 8 Hd)) as Hb8.
    rewrite sub_length in Hb8 by lia. change (256 ^ Z.of_nat 8) with (2 ^ 64) in Hb8.
    apply (boxTail_ok d h 12); auto; try lia.
    + cbn [set_pos br_pos]. lia.
    + intros sz Hlen Ht ->. rewrite !body_size_eq by (try rewrite body_size_eq by lia; try apply body_size_range; lia).
      replace (h + 12 + 4)%nat with (h + 16)%nat by lia. eapply dc_c8; auto. lia.
    + intros sz Hlen Ht ->. rewrite !body_size_eq by (try rewrite body_size_eq by lia; try apply body_size_range; lia).
      replace (h + 12 + 8)%nat with (h + 20)%nat by lia. eapply dc_p8; auto. lia.
  - unfold rbind at 1. cbn [rret].
    apply (boxTail_ok d h 4); auto; try lia.
    + intros sz Hlen Ht ->. rewrite !body_size_eq by lia.
      replace (h + 4 + 4)%nat with (h + 8)%nat by lia. eapply dc_c; auto. lia.
    + intros sz Hlen Ht ->. rewrite !body_size_eq by lia.
      replace (h + 4 + 8)%nat with (h + 12)%nat by lia. eapply dc_p; auto. lia.
Qed.

Lemma scan_order_snoc d : forall l o b p, scan_order d o l -> declared d p b -> (o <= p)%nat ->
  (Forall (fun b => bh_offset b <= Z.of_nat p) l) -> scan_order d o (l ++ [b]).
Proof.
  induction l as [|c l IH]; intros o b p Hs Hd Ho Hf; cbn [app scan_order].
  - exists p. auto.
  - destruct Hs as (h & H1 & H2 & H3). inversion Hf; subst. exists h. split; auto. split; auto.
    eapply IH; eauto. destruct H2; cbn [bh_offset] in *; lia.
Qed.

Lemma boxLoop_ok d : forall fuel level acc s,
  al s -> br_data s = d -> (length d < br_pos s + fuel)%nat -> level_ok level ->
  scan_order d 12 acc -> (12 <= br_pos s)%nat -> Forall (fun b => bh_offset b <= Z.of_nat (br_pos s)) acc ->
  exists o s', boxLoop fuel level acc s = Some (o, s') /\
    match o with
    | Ok (lv, boxes) => level_ok lv /\ scan_order d 12 boxes /\ al s' /\ br_data s' = d /\
        exists l, boxes = acc ++ l
    | _ => True
    end.
Proof.
  induction fuel as [|f IH]; intros level acc s Ha Ed Hf Hlv Hs H12 Hof.
  - pose proof (al_pos s Ha). rewrite Ed in *. lia.
  - cbn [boxLoop]. pose proof (proj2 Ha) as Hi. rewrite Hi. cbn [Z.eqb andb]. rewrite Ed.
    destruct (Nat.leb_spec (length d) (br_pos s)) as [Hend|Hend].
    + eexists; eexists; split; [reflexivity|]. cbn. split; auto. split; auto. split; auto. split; auto.
      exists []. now rewrite app_nil_r.
    + pose proof (rb_ok s 8 4 Ha ltac:(lia) ltac:(lia)) as R. rewrite Ed in R.
      destruct (Nat.leb_spec (br_pos s + 4) (length d)) as [Hl|Hl].
      2:{ destruct R as (s' & ->). eexists; eexists; split; [reflexivity|]. exact I. }
      rewrite R.
      assert (Ha1 : al (set_pos (br_pos s + 4) s)) by (apply al_set_pos; auto; rewrite Ed; lia).
      pose proof (boxBody_ok d (br_pos s) level acc _ Ha1 Ed eq_refl) as B.
      destruct (boxBody _ _ _ _) as [[r| |] s2].
      2,3: eexists; eexists; split; [reflexivity|]; exact I.
      destruct r as [lv' acc']. destruct B as (Ha2 & Ed2 & Hp2 & Hlv2 & Hacc). cbn [fst snd] in *.
      assert (Hgood : scan_order d 12 acc' /\ Forall (fun b => bh_offset b <= Z.of_nat (br_pos s2)) acc' /\ exists l, acc' = acc ++ l).
      { destruct Hacc as [->|(b & -> & Hdb & Hob)].
        - split; auto. split. { eapply Forall_impl; [|exact Hof]. cbn. intros. lia. }
          exists []. now rewrite app_nil_r.
        - split; [eapply scan_order_snoc; eauto|]. split; [|eauto].
          apply Forall_app. split; [eapply Forall_impl; [|exact Hof]; cbn; intros; lia|]. auto. }
      destruct Hgood as (G1 & G2 & l1 & El1).
      destruct (IH lv' acc' s2 Ha2 Ed2 ltac:(lia) (Hlv2 Hlv) G1 ltac:(lia) G2) as (o & s' & E & HE).
      exists o, s'. split; auto. destruct o as [[lv boxes]| |]; auto.
      destruct HE as (? & ? & ? & ? & l & ->). split; auto. split; auto. split; auto. split; auto.
      exists (l1 ++ l). rewrite El1. now rewrite app_assoc.
Qed.

Lemma sub_at d h k n r l : skipn h d = r -> l = firstn n (skipn k r) -> sub d (h + k) n = l.
Proof.
  intros <- ->. unfold sub. f_equal. revert d. induction h; intros d; [reflexivity|].
  destruct d; cbn [skipn Nat.add]; [now rewrite skipn_nil|apply IHh].
Qed.

Lemma be_be4 n : 0 <= n < 2 ^ 32 -> be (be4 n) = n.
Proof.
  intros. unfold be4. cbn [be length Z.of_nat Pos.of_succ_nat Pos.succ].
  change (256 ^ 3) with 16777216. change (256 ^ 2) with 65536. change (256 ^ 1) with 256.
  change (256 ^ 0) with 1. change (2 ^ 24) with 16777216. change (2 ^ 16) with 65536. change (2 ^ 8) with 256.
  change (2 ^ 32) with 4294967296 in *.
  Z.div_mod_to_equations. lia.
Qed.

Lemma skipFully_exact s n : al s -> (br_pos s + n <= length (br_data s))%nat -> Z.of_nat n < 2 ^ 29 ->
  exists s', SkipFully (i64 (Z.of_nat n)) s = (Ok 0, s') /\ al s' /\ br_data s' = br_data s /\
    br_pos s' = (br_pos s + n)%nat.
Proof.
  intros Ha Hl Hn. rewrite i64_small by lia. unfold SkipFully, rbind. rewrite u32_small by lia.
  pose proof (skip_ok s (Z.of_nat n) Ha ltac:(lia)) as H. rewrite Z.mod_small in H by lia.
  assert (E : ((Z.of_nat n =? 0) || (br_pos s <? length (br_data s))%nat) = true) by lia.
  rewrite E in H. destruct H as (s' & -> & Ha' & Hd' & Hp'). exists s'.
  cbn [rret]. rewrite Z.sub_diag. split; [reflexivity|]. split; auto. split; auto.
  rewrite Z.mod_small in Hp' by lia. lia.
Qed.

Definition code_of (o : nat) (b : box) : list BoxHeader :=
  match b with
  | BCode p => [mkBox (be t_jxlc) (Z.of_nat (length p)) false (Z.of_nat (o + 8))]
  | BPart _ p => [mkBox (be t_jxlp) (Z.of_nat (length p)) false (Z.of_nat (o + 12))]
  | _ => []
  end.
Definition level_of (lv : Z) (b : box) : Z := match b with BLevel v => v | _ => lv end.

Lemma enc_box_length b : wf_box b -> length (enc_box b) = (8 + length (snd (enc_body b)))%nat.
Proof.
  intros (_ & _ & H). unfold enc_box. destruct b; cbn [enc_body snd]; rewrite !app_length; cbn; try lia.
Qed.

Lemma boxBody_wf d h b r lv acc s : al s -> br_data s = d -> br_pos s = (h + 4)%nat -> wf_box b ->
  skipn h d = enc_box b ++ r ->
  exists s', boxBody (sub d h 4) lv acc s = (Ok (level_of lv b, acc ++ code_of h b), s') /\
    al s' /\ br_data s' = d /\ br_pos s' = (h + length (enc_box b))%nat.
Proof.
  intros Ha Ed Eh Hw Hs. pose proof (enc_box_length b Hw) as Hlen.
  assert (Hd : Forall byte d) by (rewrite <- Ed; now apply al_byte).
  destruct Hw as (_ & Hmax & Hw).
  assert (Htot : (h + length (enc_box b) <= length d)%nat).
  { apply (f_equal (@length Z)) in Hs. rewrite skipn_length, app_length in Hs. lia. }
  remember (enc_body b) as tp eqn:Etp. destruct tp as [t p]. cbn [snd] in Hlen.
  assert (Henc : enc_box b = be4 (8 + Z.of_nat (length p)) ++ t ++ p) by (unfold enc_box; now rewrite <- Etp).
  assert (Ht4 : length t = 4%nat) by (destruct b; cbn in Etp; injection Etp as -> ->; cbn in *; tauto).
  assert (E4 : sub d h 4 = be4 (8 + Z.of_nat (length p))).
  { replace h with (h + 0)%nat by lia. eapply sub_at; [exact Hs|]. rewrite Henc. reflexivity. }
  assert (Et : sub d (h + 4) 4 = t).
  { eapply sub_at; [exact Hs|]. rewrite Henc, <- !app_assoc. unfold be4. cbn [app skipn].
    rewrite firstn_app, Ht4, Nat.sub_diag, firstn_O, app_nil_r, firstn_all2; auto. lia. }
  assert (Hb4 : Forall byte (sub d h 4)) by now apply sub_byte.
  assert (Hbt : Forall byte t) by (rewrite <- Et; now apply sub_byte).
  unfold boxBody. cbv zeta. rewrite makeTag_be; [|auto|rewrite E4; cbn; lia].
  rewrite E4, be_be4 by lia.
  destruct (Z.eqb_spec (8 + Z.of_nat (length p)) 1); [lia|].
  unfold rbind at 1. cbn [rret].
  destruct (Z.ltb_spec 0 (8 + Z.of_nat (length p))); [|lia].
  replace (8 + Z.of_nat (length p) - 8) with (Z.of_nat (length p)) by lia.
  rewrite (u64_small (Z.of_nat (length p))) by lia.
  pose proof (rb_ok s 4 4 Ha (le_n _) ltac:(lia)) as R. rewrite Ed, Eh in R.
  destruct (Nat.leb_spec (h + 4 + 4) (length d)); [|lia].
  unfold rbind at 1. rewrite R, Et. clear R.
  assert (Ha1 : al (set_pos (h + 4 + 4) s)) by (apply al_set_pos; auto; rewrite Ed; lia).
  rewrite makeTag_be; [|auto|lia].
  change JXLP with (be t_jxlp). change JXLL with (be t_jxll). change JXLC with (be t_jxlc).
  rewrite Hlen in *.
  destruct b; cbn [enc_body] in Etp; injection Etp as -> ->; cbn [level_of code_of].
  - (* jxlc *)
    change (be t_jxlc =? be t_jxlp) with false. change (be t_jxlc =? be t_jxll) with false.
    change (be t_jxlc =? be t_jxlc) with true. cbv iota.
    unfold rbind at 1. unfold tell. cbn [set_pos br_pos]. unfold rbind.
    destruct (skipFully_exact _ (length payload) Ha1) as (s' & -> & Ha' & Hd' & Hp').
    { cbn [set_pos br_pos br_data]. rewrite Ed. lia. } { lia. }
    cbn [rret]. cbn [set_pos br_pos br_data] in *. exists s'.
    replace (h + 4 + 4)%nat with (h + 8)%nat by lia. split; [reflexivity|]. split; auto. split; [congruence|lia].
  - (* jxlp *)
    change (be t_jxlp =? be t_jxlp) with true. cbv iota.
    pose proof (rb_ok _ 4 4 Ha1 (le_n _) ltac:(lia)) as R. cbn [set_pos br_data br_pos] in R. rewrite Ed in R.
    rewrite app_length, Hw in *.
    destruct (Nat.leb_spec (h + 4 + 4 + 4) (length d)); [|lia].
    unfold rbind at 1. rewrite R.
    assert (Ha2 : al (set_pos (h + 4 + 4 + 4) (set_pos (h + 4 + 4) s))) by (apply al_set_pos; auto; cbn; rewrite Ed; lia).
    replace (Z.of_nat (4 + length payload) - 4) with (Z.of_nat (length payload)) by lia.
    rewrite u64_small by lia.
    unfold rbind at 1. unfold tell. cbn [set_pos br_pos]. unfold rbind.
    destruct (skipFully_exact _ (length payload) Ha2) as (s' & E & Ha' & Hd' & Hp').
    { cbn [set_pos br_pos br_data]. rewrite Ed. lia. } { lia. }
    cbn [set_pos br_pos br_data] in E. unfold set_pos in E. cbn [br_data br_pos br_index br_cur br_count] in E.
    unfold set_pos. cbn [br_data br_pos br_index br_cur br_count]. rewrite E.
    cbn [rret]. cbn [set_pos br_pos br_data] in *. exists s'.
    replace (h + 4 + 4 + 4)%nat with (h + 12)%nat by lia. split; [reflexivity|]. split; auto. split; [congruence|lia].
  - (* jxll *)
    change (be t_jxll =? be t_jxlp) with false. change (be t_jxll =? be t_jxll) with true. cbv iota.
    change (length [l]) with 1%nat in *. change (Z.of_nat 1 =? 1) with true. cbn [negb].
    pose proof (rbyte_ok _ Ha1) as R2. cbn [set_pos br_data br_pos] in R2.
    assert (En : nth_error (br_data s) (h + 4 + 4) = Some l).
    { rewrite Ed. replace (h + 4 + 4)%nat with (h + 8)%nat by lia.
      assert (S1 : sub d (h + 8) 1 = [l]).
      { eapply sub_at; [exact Hs|]. rewrite Henc. reflexivity. }
      unfold sub in S1. clear - S1. revert S1. generalize (h + 8)%nat as k. induction d as [|x d IH]; intros k S1.
      - rewrite skipn_nil in S1. discriminate.
      - destruct k; cbn in *; [congruence|now apply IH]. }
    rewrite En in R2. destruct R2 as (s' & E & Ha2 & Hd2 & Hp2). unfold rbind. rewrite E.
    assert (El : (negb (l =? 5) && negb (l =? 10)) = false) by lia. rewrite El. cbn [rret].
    exists s'. rewrite app_nil_r. split; [reflexivity|]. split; auto. split; [congruence|]. lia.
  - (* other *)
    destruct Hw as (_ & Hp0 & N1 & N2 & N3).
    destruct byte_t as (Bc & Bp & Bl).
    assert (Hpp : (1 <= length payload)%nat) by (destruct payload; [congruence|cbn; lia]).
    destruct (Z.eqb_spec (be tag) (be t_jxlp)) as [E|_]; [exfalso; apply N2; apply tag_eq; auto|].
    destruct (Z.eqb_spec (be tag) (be t_jxll)) as [E|_]; [exfalso; apply N3; apply tag_eq; auto|].
    destruct (Z.eqb_spec (be tag) (be t_jxlc)) as [E|_]; [exfalso; apply N1; apply tag_eq; auto|].
    destruct (Z.ltb_spec 0 (Z.of_nat (length payload))); [|lia]. unfold rbind.
    destruct (skipFully_exact _ (length payload) Ha1) as (s' & -> & Ha' & Hd' & Hp').
    { cbn [set_pos br_pos br_data]. rewrite Ed. lia. } { lia. }
    cbn [Z.eqb negb rret]. cbn [set_pos br_pos br_data] in *. exists s'. rewrite app_nil_r.
    split; [reflexivity|]. split; auto. split; [congruence|lia].
Qed.

Lemma skipn_app_at (d a r : list Z) h : skipn h d = a ++ r -> skipn (h + length a) d = r.
Proof.
  intros H. transitivity (skipn (length a) (skipn h d)).
  - clear H. revert d. induction h; intros d; [reflexivity|]. destruct d; cbn [skipn Nat.add]; [now rewrite skipn_nil|apply IHh].
  - rewrite H, skipn_app, skipn_all, Nat.sub_diag. reflexivity.
Qed.

Lemma boxLoop_wf d : forall bs fuel lv acc s, al s -> br_data s = d -> Forall wf_box bs ->
  skipn (br_pos s) d = concat (map enc_box bs) -> (length bs < fuel)%nat ->
  exists s', boxLoop fuel lv acc s = Some (Ok (last_level lv bs, acc ++ code_boxes (br_pos s) bs), s') /\
    al s' /\ br_data s' = d.
Proof.
  induction bs as [|b bs IH]; intros fuel lv acc s Ha Ed Hw Hs Hf; (destruct fuel as [|f]; [lia|]); cbn [boxLoop].
  - pose proof (proj2 Ha) as ->. cbn [Z.eqb andb]. rewrite Ed.
    cbn [map concat] in Hs. apply (f_equal (@length Z)) in Hs. rewrite skipn_length in Hs. cbn in Hs.
    destruct (Nat.leb_spec (length d) (br_pos s)); [|lia]. cbn. rewrite app_nil_r. eauto.
  - inversion Hw as [|? ? Hb Hbs]; subst x l. cbn [map concat] in Hs.
    pose proof (proj2 Ha) as ->. cbn [Z.eqb andb]. rewrite Ed.
    pose proof (enc_box_length b Hb) as Hl.
    assert (Hlen : (br_pos s + length (enc_box b) <= length d)%nat).
    { apply (f_equal (@length Z)) in Hs. rewrite skipn_length, app_length in Hs. lia. }
    destruct (Nat.leb_spec (length d) (br_pos s)); [lia|].
    pose proof (rb_ok s 8 4 Ha ltac:(lia) ltac:(lia)) as R. rewrite Ed in R.
    destruct (Nat.leb_spec (br_pos s + 4) (length d)); [|lia]. rewrite R.
    assert (Ha1 : al (set_pos (br_pos s + 4) s)) by (apply al_set_pos; auto; rewrite Ed; lia).
    destruct (boxBody_wf d (br_pos s) b _ lv acc _ Ha1 Ed eq_refl Hb Hs) as (s2 & -> & Ha2 & Ed2 & Hp2).
    cbn [length] in Hf.
    apply skipn_app_at in Hs. rewrite <- Hp2 in Hs.
    destruct (IH f (level_of lv b) (acc ++ code_of (br_pos s) b) s2 Ha2 Ed2 Hbs Hs ltac:(lia)) as (s' & -> & Ha3 & Ed3).
    exists s'. split; auto. rewrite Hp2, <- app_assoc. destruct b; reflexivity.
Qed.

(* ReadBoxHeader *)
Lemma bytes_eqb_eq : forall a b, bytes_eqb a b = true <-> a = b.
Proof.
  induction a as [|x a IH]; intros [|y b]; cbn [bytes_eqb]; split; intros H; try reflexivity; try discriminate.
  - apply andb_prop in H as [H1 H2]. apply IH in H2. apply Z.eqb_eq in H1. congruence.
  - injection H as -> ->. rewrite Z.eqb_refl. now apply IH.
Qed.

Lemma starts_sub d p : starts_with d p <-> sub d 0 (length p) = p.
Proof.
  unfold starts_with, sub. cbn [skipn]. split.
  - intros [r ->]. rewrite firstn_app, Nat.sub_diag, firstn_O, app_nil_r, firstn_all. reflexivity.
  - intros H. exists (skipn (length p) d). rewrite <- H at 1. now rewrite firstn_skipn.
Qed.

Lemma header_ok d fuel : Forall byte d ->
  ReadBoxHeader fuel (NewBitStreamReader d) =
    if (length d <? 12)%nat then ReadBoxHeader fuel (NewBitStreamReader d)
    else if bytes_eqb (sub d 0 12) JPEGXL_CONTAINER_HEADER
         then boxLoop fuel 5 [] (mkBR d 12 0 0 0)
         else Some (Ok (5, [mkBox JXLC 0 true 0]), mkBR d 12 0 0 0).
Proof.
  intros Hd. destruct (Nat.ltb_spec (length d) 12); [reflexivity|]. unfold ReadBoxHeader.
  pose proof (rb_ok _ 12 12 (al_new d Hd) (le_n _) ltac:(lia)) as R. cbn [NewBitStreamReader br_pos br_data] in R.
  destruct (Nat.leb_spec (0 + 12) (length d)); [|lia].
  unfold NewBitStreamReader, set_pos in *. cbn [br_data br_index br_cur br_count br_pos] in *. rewrite R. reflexivity.
Qed.

Lemma header_short d fuel : Forall byte d -> (length d < 12)%nat ->
  exists s, ReadBoxHeader fuel (NewBitStreamReader d) = Some (Err, s).
Proof.
  intros Hd Hl. unfold ReadBoxHeader. change (set_pos 0 (NewBitStreamReader d)) with (NewBitStreamReader d).
  pose proof (rb_ok _ 12 12 (al_new d Hd) (le_n _) ltac:(lia)) as R. cbn [NewBitStreamReader br_pos br_data] in R.
  destruct (Nat.leb_spec (0 + 12) (length d)); [lia|]. destruct R as (s & E).
  rewrite E. eauto.
Qed.

Lemma al_12 d : Forall byte d -> (12 <= length d)%nat -> al (mkBR d 12 0 0 0).
Proof. intros. apply al_intro; cbn; auto; unfold byte; lia. Qed.

Lemma scan_total d : Forall byte d ->
  exists o s, ReadBoxHeader (S (length d)) (NewBitStreamReader d) = Some (o, s) /\
    match o with
    | Ok (lv, boxes) => level_ok lv /\ al s /\ br_data s = d /\ (12 <= length d)%nat /\
        ((sub d 0 12 = signature /\ scan_order d 12 boxes) \/
         (sub d 0 12 <> signature /\ lv = 5 /\ boxes = [mkBox (be t_jxlc) 0 true 0]))
    | _ => True
    end.
Proof.
  intros Hd. destruct (Nat.ltb_spec (length d) 12) as [Hl|Hl].
  - destruct (header_short d (S (length d)) Hd Hl) as (s & ->). exists Err, s. auto.
  - rewrite (header_ok d _ Hd). destruct (Nat.ltb_spec (length d) 12); [lia|].
    pose proof (al_12 d Hd Hl) as Ha.
    destruct (bytes_eqb (sub d 0 12) JPEGXL_CONTAINER_HEADER) eqn:E.
    + apply bytes_eqb_eq in E.
      destruct (boxLoop_ok d (S (length d)) 5 [] _ Ha eq_refl) as (o & s & Eb & Ho); cbn [br_pos]; auto; try lia.
      { left; auto. } { exact I. }
      exists o, s. split; auto. destruct o as [[lv boxes]| |]; auto.
      destruct Ho as (? & ? & ? & ? & _). split; auto. split; auto.
    + eexists; eexists; split; [reflexivity|]. split; [left; auto|]. split; auto. split; [reflexivity|]. split; auto.
      right. split; auto. intros H1. change signature with JPEGXL_CONTAINER_HEADER in H1.
      apply bytes_eqb_eq in H1. congruence.
Qed.

Lemma al_reader s d : al s -> br_data s = d -> reader_at s d (8 * br_pos s).
Proof.
  intros Ha <-. pose proof (al_parts s Ha) as (Hd & Hi & Hc & Hp & Hcnt).
  unfold reader_at. split; [exact Hd|]. split; auto. split; [lia|].
  assert (E : ((8 * br_pos s) mod 8 = 0)%nat) by (rewrite Nat.mul_comm; apply Nat.mod_mul; lia).
  split. { rewrite (Nat.mul_comm 8), Nat.div_add_l by lia. cbn. lia. }
  rewrite E. split; [exact Hi|]. split; [exact Hc|]. split; [congruence|]. lia.
Qed.

(* the entry of the decoder *)
Definition entry_of (d : list Z) (level : Z) (box : BoxHeader) (s : BR) : option (Outcome Entry) :=
  let s1 := set_pos (Z.to_nat (bh_offset box)) s in
  match AtEnd s1 with
  | (true, _) => Some (Ok EntryNil)
  | (false, s2) =>
      match ReadBits 16 s2 with
      | (Ok h, s3) => if u32 h =? 0x0AFF then Some (Ok (EntryCodestream (bh_offset box) level s3)) else Some Err
      | (Err, _) => Some Err
      | (Panic, _) => Some Panic
      end
  end.

Lemma read16_aligned s : al s -> (br_pos s + 2 <= length (br_data s))%nat ->
  exists s', ReadBits 16 s = (Ok (nth (br_pos s) (br_data s) 0 + 256 * nth (S (br_pos s)) (br_data s) 0), s') /\
    al s' /\ br_data s' = br_data s /\ br_pos s' = (br_pos s + 2)%nat.
Proof.
  intros Ha Hl. pose proof (al_parts s Ha) as (Hd & Hi & Hc & Hp & Hcnt).
  assert (E0 : nth_error (br_data s) (br_pos s) = Some (nth (br_pos s) (br_data s) 0)) by (apply nth_error_nth'; lia).
  assert (E1 : nth_error (br_data s) (S (br_pos s)) = Some (nth (S (br_pos s)) (br_data s) 0)) by (apply nth_error_nth'; lia).
  assert (B0 : byte (nth (br_pos s) (br_data s) 0)) by (rewrite Forall_forall in Hd; apply Hd, nth_In; lia).
  assert (B1 : byte (nth (S (br_pos s)) (br_data s) 0)) by (rewrite Forall_forall in Hd; apply Hd, nth_In; lia).
  set (b0 := nth (br_pos s) (br_data s) 0) in *. set (b1 := nth (S (br_pos s)) (br_data s) 0) in *.
  unfold ReadBits. cbn [Z.eqb Z.ltb Z.compare Pos.compare Pos.compare_cont].
  unfold drainCur. rewrite Hi. cbn [Z.eqb]. cbn [readFull]. change (16 - 0 <? 8) with false. cbv iota.
  unfold stream_read1 at 1. rewrite E0. change (16 - (0 + 8) <? 8) with false. cbv iota.
  unfold stream_read1 at 1. cbn [add_count br_data br_pos]. rewrite E1.
  change (16 - (0 + 8 + 8) <? 8) with true. cbv iota. unfold readTail. change (0 <? 16 - (0 + 8 + 8)) with false. cbv iota.
  unfold byte in *. rewrite Z.shiftl_0_r, Z.lor_0_l, (u64_small b0) by lia.
  rewrite u64_small by (rewrite Z.shiftl_mul_pow2 by lia; lia).
  change (0 + 8) with 8. rewrite lor_shift_add by lia.
  change 256 with (2 ^ 8) at 1.
  eexists. split; [reflexivity|]. split.
  - apply al_intro; cbn [add_count br_data br_pos br_index br_cur br_count]; auto; [lia|apply u64_range].
  - cbn. split; [reflexivity|lia].
Qed.

Lemma read16_short s : al s -> (length (br_data s) < br_pos s + 2)%nat ->
  exists s', ReadBits 16 s = (Err, s').
Proof.
  intros Ha Hl. pose proof (al_parts s Ha) as (Hd & Hi & Hc & Hp & Hcnt).
  unfold ReadBits. cbn [Z.eqb Z.ltb Z.compare Pos.compare Pos.compare_cont].
  unfold drainCur. rewrite Hi. cbn [Z.eqb]. cbn [readFull]. change (16 - 0 <? 8) with false. cbv iota.
  unfold stream_read1 at 1. destruct (nth_error (br_data s) (br_pos s)) as [b|] eqn:E; [|eauto].
  change (16 - (0 + 8) <? 8) with false. cbv iota.
  unfold stream_read1 at 1. cbn [add_count br_data br_pos].
  assert (E1 : nth_error (br_data s) (S (br_pos s)) = None) by (apply nth_error_None; lia).
  rewrite E1. eauto.
Qed.

Lemma entry_ok d level box s : al s -> br_data s = d -> (Z.to_nat (bh_offset box) <= length d)%nat ->
  let o := Z.to_nat (bh_offset box) in
  if (o =? length d)%nat then entry_of d level box s = Some (Ok EntryNil)
  else if bytes_eqb (sub d o 2) [255; 10]
       then exists s', entry_of d level box s = Some (Ok (EntryCodestream (bh_offset box) level s')) /\
              al s' /\ br_data s' = d /\ br_pos s' = (o + 2)%nat
       else entry_of d level box s = Some Err.
Proof.
  intros Ha Ed Ho o. unfold entry_of. fold o.
  assert (Ha1 : al (set_pos o s)) by (apply al_set_pos; [exact Ha|rewrite Ed; exact Ho]). set (s1 := set_pos o s) in *.
  pose proof (al_byte s Ha) as Hd. rewrite Ed in Hd.
  rewrite AtEnd_spec by apply Ha1.
  assert (Hleft : bits_left s1 = bytes_bits (skipn o d)).
  { unfold bits_left. unfold s1. cbn [set_pos br_index br_data br_pos]. rewrite (proj2 Ha), Ed. reflexivity. }
  rewrite Hleft. destruct (Nat.eqb_spec o (length d)) as [E|E].
  - rewrite skipn_all2 by lia. reflexivity.
  - assert (Hne : exists b t, bytes_bits (skipn o d) = b :: t).
    { destruct (skipn o d) eqn:Es.
      - apply (f_equal (@length Z)) in Es. rewrite skipn_length in Es. cbn in Es. lia.
      - unfold bytes_bits. cbn. eauto. }
    destruct Hne as (b & t & ->).
    destruct (le_lt_dec (o + 2) (length d)) as [Hl|Hl].
    + assert (Es : sub d o 2 = [nth o d 0; nth (S o) d 0]).
      { unfold sub. clear - Hl. clearbody o. revert o Hl. induction d as [|x d IH]; intros o Hl; [cbn in Hl; lia|].
        destruct o; [|apply (IH o); cbn in Hl; lia]. destruct d; [cbn in Hl; lia|reflexivity]. }
      destruct (read16_aligned s1 Ha1) as (s' & E2 & Ha' & Hd' & Hp').
      { unfold s1. cbn [set_pos br_pos br_data]. rewrite Ed. lia. }
      unfold s1 in E2, Hd', Hp'. cbn [set_pos br_pos br_data] in E2, Hd', Hp'. rewrite Ed in E2.
      fold s1 in E2. unfold s1. unfold s1 in E2. rewrite E2, Es. cbn [bytes_eqb].
      assert (B0 : byte (nth o d 0)) by (rewrite Forall_forall in Hd; apply Hd, nth_In; lia).
      assert (B1 : byte (nth (S o) d 0)) by (rewrite Forall_forall in Hd; apply Hd, nth_In; lia).
      unfold byte in *. rewrite u32_small by lia.
      destruct (Z.eqb_spec (nth o d 0 + 256 * nth (S o) d 0) 0x0AFF) as [Ev|Ev].
      * assert (E0 : nth o d 0 = 255) by lia. assert (E1 : nth (S o) d 0 = 10) by lia. rewrite E0, E1.
        cbn [Z.eqb Pos.eqb andb]. exists s'. split; auto. split; auto. split; [congruence|lia].
      * destruct (Z.eqb_spec (nth o d 0) 255); [destruct (Z.eqb_spec (nth (S o) d 0) 10); [lia|]|]; reflexivity.
    + destruct (read16_short s1 Ha1) as (s' & E2).
      { unfold s1. cbn [set_pos br_pos br_data]. rewrite Ed. lia. }
      rewrite E2. destruct (bytes_eqb (sub d o 2) [255; 10]) eqn:Eb; [|reflexivity].
      apply bytes_eqb_eq in Eb. apply (f_equal (@length Z)) in Eb. unfold sub in Eb.
      rewrite firstn_length, skipn_length in Eb. change (length [255; 10]) with 2%nat in Eb. lia.
Qed.

Lemma decodeEntry_unfold d : decodeEntry d =
  match ReadBoxHeader (S (length d)) (NewBitStreamReader d) with
  | None => None
  | Some (Ok (level, boxes), s) => match boxes with [] => Some Panic | box :: _ => entry_of d level box s end
  | Some (Err, _) => Some Err
  | Some (Panic, _) => Some Panic
  end.
Proof. reflexivity. Qed.

Lemma declared_offset d h b : declared d h b -> Z.of_nat h + 8 <= bh_offset b <= Z.of_nat (length d).
Proof. destruct 1; cbn [bh_offset]; lia. Qed.

Lemma classify d : Forall byte d ->
  ((length d < 12)%nat -> decodeEntry d = Some Err) /\
  ((12 <= length d)%nat -> ~ starts_with d signature -> starts_with d [255; 10] ->
     exists s, decodeEntry d = Some (Ok (EntryCodestream 0 5 s)) /\ reader_at s d 16) /\
  ((12 <= length d)%nat -> ~ starts_with d signature -> ~ starts_with d [255; 10] ->
     decodeEntry d = Some Err) /\
  (starts_with d signature -> forall off lv s, decodeEntry d = Some (Ok (EntryCodestream off lv s)) ->
     20 <= off /\ sub d (Z.to_nat off) 2 = [255; 10] /\ reader_at s d (8 * Z.to_nat off + 16)).
Proof.
  intros Hd. rewrite !(starts_sub d). cbn [length signature].
  assert (Hbare : (12 <= length d)%nat -> sub d 0 12 <> signature ->
    decodeEntry d = entry_of d 5 (mkBox JXLC 0 true 0) (mkBR d 12 0 0 0)).
  { intros Hl Hn. rewrite decodeEntry_unfold, (header_ok d _ Hd). destruct (Nat.ltb_spec (length d) 12); [lia|].
    destruct (bytes_eqb (sub d 0 12) JPEGXL_CONTAINER_HEADER) eqn:E; [|reflexivity].
    apply bytes_eqb_eq in E. contradiction. }
  split; [|split; [|split]].
  - intros Hl. rewrite decodeEntry_unfold. destruct (header_short d (S (length d)) Hd Hl) as (s & ->). reflexivity.
  - intros Hl Hn H2. rewrite Hbare by auto.
    pose proof (entry_ok d 5 (mkBox JXLC 0 true 0) _ (al_12 d Hd Hl) eq_refl ltac:(cbn; lia)) as H.
    cbv zeta in H. cbn [bh_offset] in H. change (Z.to_nat 0) with 0%nat in H.
    destruct (Nat.eqb_spec 0 (length d)); [lia|].
    assert (E : bytes_eqb (sub d 0 2) [255; 10] = true) by (now apply bytes_eqb_eq). rewrite E in H.
    destruct H as (s' & -> & Ha & Hd' & Hp). exists s'. split; auto.
    pose proof (al_reader s' d Ha Hd') as Hr. rewrite Hp in Hr. exact Hr.
  - intros Hl Hn H2. rewrite Hbare by auto.
    pose proof (entry_ok d 5 (mkBox JXLC 0 true 0) _ (al_12 d Hd Hl) eq_refl ltac:(cbn; lia)) as H.
    cbv zeta in H. cbn [bh_offset] in H. change (Z.to_nat 0) with 0%nat in H.
    destruct (Nat.eqb_spec 0 (length d)); [lia|].
    destruct (bytes_eqb (sub d 0 2) [255; 10]) eqn:E; [|auto]. apply bytes_eqb_eq in E. contradiction.
  - intros H1 off lv s. rewrite decodeEntry_unfold.
    destruct (scan_total d Hd) as (o & s0 & -> & Ho). destruct o as [[l boxes]| |]; try discriminate.
    destruct Ho as (_ & Ha & Ed & Hl & [(_ & Hs)|(Hc & _)]); [|contradiction].
    destruct boxes as [|b t]; [discriminate|]. destruct Hs as (h & Hh & Hdc & _).
    pose proof (declared_offset _ _ _ Hdc) as Hb.
    pose proof (entry_ok d l b _ Ha Ed ltac:(lia)) as H. cbv zeta in H.
    destruct (Nat.eqb_spec (Z.to_nat (bh_offset b)) (length d)) as [E|E]; [rewrite H; discriminate|].
    destruct (bytes_eqb _ _) eqn:E2; [|rewrite H; discriminate].
    destruct H as (s' & -> & Ha' & Hd' & Hp). intros EE. injection EE as <- <- <-.
    split; [lia|]. split; [now apply bytes_eqb_eq|].
    pose proof (al_reader s' d Ha' Hd') as Hr. rewrite Hp in Hr.
    replace (8 * (Z.to_nat (bh_offset b) + 2))%nat with (8 * Z.to_nat (bh_offset b) + 16)%nat in Hr by lia. exact Hr.
Qed.

(* a size-0 codestream box at the end *)
Lemma boxLoop_prefix d : forall bs f lv acc s r, al s -> br_data s = d -> Forall wf_box bs ->
  skipn (br_pos s) d = concat (map enc_box bs) ++ r ->
  exists s', boxLoop (length bs + f) lv acc s = boxLoop f (last_level lv bs) (acc ++ code_boxes (br_pos s) bs) s' /\
    al s' /\ br_data s' = d /\ br_pos s' = (br_pos s + length (concat (map enc_box bs)))%nat /\
    skipn (br_pos s') d = r.
Proof.
  induction bs as [|b bs IH]; intros f lv acc s r Ha Ed Hw Hs; cbn [length Nat.add].
  - exists s. cbn in *. rewrite app_nil_r, Nat.add_0_r. auto.
  - inversion Hw as [|? ? Hb Hbs]; subst x l. cbn [map concat] in Hs. rewrite <- app_assoc in Hs.
    cbn [boxLoop]. pose proof (proj2 Ha) as ->. cbn [Z.eqb andb]. rewrite Ed.
    pose proof (enc_box_length b Hb) as Hl.
    assert (Hlen : (br_pos s + length (enc_box b) <= length d)%nat).
    { apply (f_equal (@length Z)) in Hs. rewrite skipn_length, app_length in Hs. lia. }
    destruct (Nat.leb_spec (length d) (br_pos s)); [lia|].
    pose proof (rb_ok s 8 4 Ha ltac:(lia) ltac:(lia)) as R. rewrite Ed in R.
    destruct (Nat.leb_spec (br_pos s + 4) (length d)); [|lia]. rewrite R.
    assert (Ha1 : al (set_pos (br_pos s + 4) s)) by (apply al_set_pos; auto; rewrite Ed; lia).
    destruct (boxBody_wf d (br_pos s) b _ lv acc _ Ha1 Ed eq_refl Hb Hs) as (s2 & -> & Ha2 & Ed2 & Hp2).
    apply skipn_app_at in Hs. rewrite <- Hp2 in Hs.
    destruct (IH f (level_of lv b) (acc ++ code_of (br_pos s) b) s2 r Ha2 Ed2 Hbs Hs) as (s' & -> & Ha3 & Ed3 & Hp3 & Hr).
    exists s'. split; [rewrite Hp2, <- app_assoc; destruct b; reflexivity|]. split; auto. split; auto.
    split; auto. rewrite Hp3, Hp2. cbn [map concat]. rewrite app_length. lia.
Qed.

Lemma zero_box d f lv acc s p : al s -> br_data s = d ->
  skipn (br_pos s) d = [0; 0; 0; 0] ++ t_jxlc ++ p ->
  exists s', boxLoop (S f) lv acc s =
      boxLoop f lv (acc ++ [mkBox (be t_jxlc) 0 false (Z.of_nat (br_pos s + 8))]) s' /\
    al s' /\ br_data s' = d /\ br_pos s' = (br_pos s + 8)%nat.
Proof.
  intros Ha Ed Hs. assert (Hd : Forall byte d) by (rewrite <- Ed; now apply al_byte).
  assert (Hl : (br_pos s + 8 <= length d)%nat).
  { apply (f_equal (@length Z)) in Hs. rewrite skipn_length in Hs. cbn in Hs. lia. }
  assert (E4 : sub d (br_pos s) 4 = [0; 0; 0; 0]).
  { replace (br_pos s) with (br_pos s + 0)%nat by lia. eapply sub_at; [exact Hs|reflexivity]. }
  assert (Et : sub d (br_pos s + 4) 4 = t_jxlc) by (eapply sub_at; [exact Hs|reflexivity]).
  cbn [boxLoop]. pose proof (proj2 Ha) as Hi. rewrite Hi. cbn [Z.eqb andb]. rewrite Ed.
  destruct (Nat.leb_spec (length d) (br_pos s)); [lia|].
  pose proof (rb_ok s 8 4 Ha ltac:(lia) ltac:(lia)) as R. rewrite Ed in R.
  destruct (Nat.leb_spec (br_pos s + 4) (length d)); [|lia]. rewrite R, E4.
  assert (Ha1 : al (set_pos (br_pos s + 4) s)) by (apply al_set_pos; auto; rewrite Ed; lia).
  unfold boxBody. change (makeTag [0; 0; 0; 0]) with 0. cbn [Z.eqb Z.ltb Z.compare]. unfold rbind at 1. cbn [rret].
  change (0 <? 0) with false. cbv iota.
  pose proof (rb_ok _ 4 4 Ha1 (le_n _) ltac:(lia)) as R2. cbn [set_pos br_data br_pos] in R2. rewrite Ed in R2.
  destruct (Nat.leb_spec (br_pos s + 4 + 4) (length d)); [|lia].
  unfold rbind at 1. rewrite R2, Et.
  change (makeTag t_jxlc) with JXLC. change (JXLC =? JXLP) with false. change (JXLC =? JXLL) with false.
  rewrite Z.eqb_refl. cbv iota.
  assert (Ha2 : al (set_pos (br_pos s + 4 + 4) (set_pos (br_pos s + 4) s))) by (apply al_set_pos; auto; cbn; rewrite Ed; lia).
  unfold rbind at 1. unfold tell. cbn [set_pos br_pos]. unfold rbind.
  destruct (skipFully_exact _ 0 Ha2) as (s' & E & Ha' & Hd' & Hp').
  { cbn [set_pos br_pos br_data]. rewrite Ed. lia. } { lia. }
  cbn [Z.of_nat] in E. unfold set_pos in E. cbn [br_data br_pos br_index br_cur br_count] in E.
  unfold set_pos. cbn [br_data br_pos br_index br_cur br_count]. rewrite E. cbn [rret].
  exists s'. split. { do 4 f_equal. lia. }
  split; auto. split; [cbn [set_pos br_data] in Hd'; congruence|]. cbn [set_pos br_pos] in Hp'. lia.
Qed.

Lemma zero_tail d f lv acc s p a b c e tg :
  al s -> br_data s = d -> skipn (br_pos s) d = [a; b; c; e] ++ tg ++ p -> p <> [] ->
  length tg = 4%nat -> tg <> t_jxlc -> tg <> t_jxlp -> tg <> t_jxll ->
  a = 255 -> b = 10 -> Z.of_nat (length d) < 2 ^ 28 ->
  exists s', boxLoop (S (S f)) lv acc s = Some (Ok (lv, acc), s').
Proof.
  intros Ha Ed Hs Hp0 Ht4 N1 N2 N3 -> -> Hmax.
  assert (Hd : Forall byte d) by (rewrite <- Ed; now apply al_byte).
  assert (Hpp : (1 <= length p)%nat) by (destruct p; [congruence|cbn; lia]).
  assert (Hl : (br_pos s + 9 <= length d)%nat).
  { apply (f_equal (@length Z)) in Hs. rewrite skipn_length, !app_length in Hs. cbn in Hs. lia. }
  assert (E4 : sub d (br_pos s) 4 = [255; 10; c; e]).
  { replace (br_pos s) with (br_pos s + 0)%nat by lia. eapply sub_at; [exact Hs|reflexivity]. }
  assert (Et : sub d (br_pos s + 4) 4 = tg).
  { eapply sub_at; [exact Hs|]. cbn [app skipn].
    rewrite firstn_app, Ht4, Nat.sub_diag, firstn_O, app_nil_r, firstn_all2; auto. lia. }
  assert (B4 : Forall byte [255; 10; c; e]) by (rewrite <- E4; now apply sub_byte).
  assert (Hbt : Forall byte tg) by (rewrite <- Et; now apply sub_byte).
  destruct byte_t as (Bc & Bp & Bl).
  cbn [boxLoop]. pose proof (proj2 Ha) as Hi. rewrite Hi. cbn [Z.eqb andb]. rewrite Ed.
  destruct (Nat.leb_spec (length d) (br_pos s)); [lia|].
  pose proof (rb_ok s 8 4 Ha ltac:(lia) ltac:(lia)) as R. rewrite Ed in R.
  destruct (Nat.leb_spec (br_pos s + 4) (length d)); [|lia]. rewrite R, E4.
  assert (Ha1 : al (set_pos (br_pos s + 4) s)) by (apply al_set_pos; auto; rewrite Ed; lia).
  unfold boxBody. cbv zeta. rewrite makeTag_be; [|auto|cbn; lia].
  assert (Hn : 4278845440 <= be [255; 10; c; e] < 4278845440 + 65536).
  { inversion B4 as [|? ? _ B3]; inversion B3 as [|? ? _ B2]; inversion B2 as [|? ? Hcb B1]; inversion B1 as [|? ? Heb _]; subst.
    unfold byte in *. cbn [be length Z.of_nat Pos.of_succ_nat Pos.succ].
    change (256 ^ 3) with 16777216. change (256 ^ 2) with 65536. change (256 ^ 1) with 256. change (256 ^ 0) with 1. lia. }
  set (n := be [255; 10; c; e]) in *.
  destruct (Z.eqb_spec n 1); [lia|]. unfold rbind at 1. cbn [rret].
  destruct (Z.ltb_spec 0 n); [|lia].
  rewrite (u64_small (n - 8)) by lia.
  pose proof (rb_ok _ 4 4 Ha1 (le_n _) ltac:(lia)) as R2. cbn [set_pos br_data br_pos] in R2. rewrite Ed in R2.
  destruct (Nat.leb_spec (br_pos s + 4 + 4) (length d)); [|lia].
  unfold rbind at 1. rewrite R2, Et. rewrite makeTag_be; [|auto|lia].
  change JXLP with (be t_jxlp). change JXLL with (be t_jxll). change JXLC with (be t_jxlc).
  destruct (Z.eqb_spec (be tg) (be t_jxlp)) as [E|_]; [exfalso; apply N2; apply tag_eq; auto|].
  destruct (Z.eqb_spec (be tg) (be t_jxll)) as [E|_]; [exfalso; apply N3; apply tag_eq; auto|].
  destruct (Z.eqb_spec (be tg) (be t_jxlc)) as [E|_]; [exfalso; apply N1; apply tag_eq; auto|].
  destruct (Z.ltb_spec 0 (n - 8)); [|lia].
  set (s1 := set_pos (br_pos s + 4 + 4) (set_pos (br_pos s + 4) s)).
  assert (Ha2 : al s1) by (apply al_set_pos; auto; cbn; rewrite Ed; lia).
  unfold rbind. unfold SkipFully, rbind. rewrite i64_small, u32_small by lia.
  pose proof (skip_ok s1 (n - 8) Ha2 ltac:(lia)) as K.
  assert (E1 : (((n - 8) mod 2 ^ 29 =? 0) || (br_pos s1 <? length (br_data s1))%nat) = true).
  { unfold s1. cbn [set_pos br_pos br_data]. rewrite Ed. lia. }
  rewrite E1 in K. destruct K as (s' & E & Ha' & Hd' & Hp'). rewrite E. cbn [rret].
  rewrite Z.sub_diag. change (i64 0) with 0. cbn [Z.eqb negb rret].
  unfold s1 in Hp', Hd'. cbn [set_pos br_pos br_data] in Hp', Hd'. rewrite Ed in *.
  assert (Hm : (n - 8) mod 2 ^ 29 >= 2 ^ 28).
  { rewrite (Z.mod_eq (n - 8) (2 ^ 29)) by lia.
    assert ((n - 8) / 2 ^ 29 = 7) by (symmetry; apply (Z.div_unique _ _ _ (n - 8 - 7 * 2 ^ 29)); lia). lia. }
  exists s'. rewrite (proj2 Ha'). cbn [Z.eqb andb]. rewrite Hd'.
  destruct (Nat.leb_spec (length d) (br_pos s')); [reflexivity|lia].
Qed.

Lemma empty_other d f lv acc s t r : al s -> br_data s = d ->
  skipn (br_pos s) d = [0; 0; 0; 8] ++ t ++ r -> length t = 4%nat ->
  t <> t_jxlc -> t <> t_jxlp -> t <> t_jxll ->
  exists s', boxLoop (S f) lv acc s = Some (Panic, s').
Proof.
  intros Ha Ed Hs Ht N1 N2 N3. assert (Hd : Forall byte d) by (rewrite <- Ed; now apply al_byte).
  assert (Hl : (br_pos s + 8 <= length d)%nat).
  { apply (f_equal (@length Z)) in Hs. rewrite skipn_length, !app_length in Hs. cbn in Hs. lia. }
  assert (E4 : sub d (br_pos s) 4 = [0; 0; 0; 8]).
  { replace (br_pos s) with (br_pos s + 0)%nat by lia. eapply sub_at; [exact Hs|reflexivity]. }
  assert (Et : sub d (br_pos s + 4) 4 = t).
  { eapply sub_at; [exact Hs|]. cbn [app skipn].
    rewrite firstn_app, Ht, Nat.sub_diag, firstn_O, app_nil_r, firstn_all2; auto. lia. }
  assert (Hbt : Forall byte t) by (rewrite <- Et; now apply sub_byte).
  destruct byte_t as (Bc & Bp & Bl).
  cbn [boxLoop]. pose proof (proj2 Ha) as Hi. rewrite Hi. cbn [Z.eqb andb]. rewrite Ed.
  destruct (Nat.leb_spec (length d) (br_pos s)); [lia|].
  pose proof (rb_ok s 8 4 Ha ltac:(lia) ltac:(lia)) as R. rewrite Ed in R.
  destruct (Nat.leb_spec (br_pos s + 4) (length d)); [|lia]. rewrite R, E4.
  assert (Ha1 : al (set_pos (br_pos s + 4) s)) by (apply al_set_pos; auto; rewrite Ed; lia).
  unfold boxBody. change (makeTag [0; 0; 0; 8]) with 8. change (8 =? 1) with false. cbv iota.
  unfold rbind at 1. cbn [rret]. change (0 <? 8) with true. cbv iota. change (u64 (8 - 8)) with 0.
  pose proof (rb_ok _ 4 4 Ha1 (le_n _) ltac:(lia)) as R2. cbn [set_pos br_data br_pos] in R2. rewrite Ed in R2.
  destruct (Nat.leb_spec (br_pos s + 4 + 4) (length d)); [|lia].
  unfold rbind at 1. rewrite R2, Et. rewrite makeTag_be; [|auto|lia].
  change JXLP with (be t_jxlp). change JXLL with (be t_jxll). change JXLC with (be t_jxlc).
  destruct (Z.eqb_spec (be t) (be t_jxlp)) as [E|_]; [exfalso; apply N2; apply tag_eq; auto|].
  destruct (Z.eqb_spec (be t) (be t_jxll)) as [E|_]; [exfalso; apply N3; apply tag_eq; auto|].
  destruct (Z.eqb_spec (be t) (be t_jxlc)) as [E|_]; [exfalso; apply N1; apply tag_eq; auto|].
  change (0 <? 0) with false. cbv iota. unfold rpanic. eauto.
Qed.
