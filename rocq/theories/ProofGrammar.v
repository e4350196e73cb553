From Coq Require Import ZArith List Bool Lia Arith ZifyBool ZifyNat.
From Verif Require Import GoBase Bits ModelBitReader SpecBitReader SpecCodes SpecGrammar
  ProofBitReader ProofBitReader2 ProofReads ProofCodes.
Import ListNotations.
Open Scope Z_scope.

Definition parses {A} (m : RM A) (R : code A) : Prop :=
  forall s d p, reader_at s d p ->
     match m s with
     | (Ok v, s') => exists c, bits_at d p c /\ R c v /\ reader_at s' d (p + length c)
     | (Err, _) => True
     | (Panic, _) => False
     end.

Lemma parses_ret {A} (v : A) : parses (rret v) (c_ret v).
Proof.
  intros s d p Hr. cbn. exists []. split.
  - split; cbn [length]; [destruct Hr as (_ & _ & H & _); lia|lia].
  - split; [split; reflexivity|]. cbn [length]. now rewrite Nat.add_0_r.
Qed.
Lemma parses_err {A} (R : code A) : parses rerr R. Proof. intros s d p Hr. exact I. Qed.

Lemma exact_ret {A} (v : A) : exact (rret v) (c_ret v).
Proof. split; [|apply parses_ret]. intros c w [-> ->]. apply reads_ret. Qed.

Lemma exact_err {A} (R : code A) : (forall c v, ~ R c v) -> exact rerr R.
Proof. intros H. split; [|apply parses_err]. intros c v Hc. destruct (H c v Hc). Qed.

Lemma exact_bind {A B} (m : RM A) (f : A -> RM B) R S :
  exact m R -> (forall v, (exists c, R c v) -> exact (f v) (S v)) -> exact (rbind m f) (c_seq R S).
Proof.
  intros [Hm1 Hm2] Hf. split.
  - intros c w (c1 & c2 & v & -> & H1 & H2). eapply reads_bind; [exact (Hm1 _ _ H1)|].
    apply Hf; eauto.
  - intros s d p Hr. specialize (Hm2 s d p Hr). unfold rbind. destruct (m s) as [[v| |] s1]; auto.
    destruct Hm2 as (c1 & Hb1 & Hc1 & Hr1).
    destruct (Hf v (ex_intro _ c1 Hc1)) as [_ Hf2]. specialize (Hf2 s1 d _ Hr1).
    destruct (f v s1) as [[w| |] s2]; auto. destruct Hf2 as (c2 & Hb2 & Hc2 & Hr2).
    exists (c1 ++ c2). split; [now apply bits_at_app|]. split; [unfold c_seq; eauto 10|].
    rewrite app_length, Nat.add_assoc. auto.
Qed.

Lemma exact_iff {A} (m : RM A) R S : (forall c v, R c v <-> S c v) -> exact m R -> exact m S.
Proof.
  intros H [H1 H2]. split.
  - intros c v Hc. apply H1. now apply H.
  - intros s d p Hr. specialize (H2 s d p Hr). destruct (m s) as [[v| |] s']; auto.
    destruct H2 as (c & ? & ? & ?). exists c. split; auto. split; auto. now apply H.
Qed.

Lemma exact_eq {A} (m m' : RM A) R : (forall s, m s = m' s) -> exact m R -> exact m' R.
Proof.
  intros E [H1 H2]. split.
  - intros c v Hc s d p Hr Hb. rewrite <- E. now apply (H1 c v Hc).
  - intros s d p Hr. rewrite <- E. now apply H2.
Qed.

Lemma exact_guard {A} (b : bool) (P : Prop) (m : RM A) R : (b = false <-> P) -> (P -> exact m R) ->
  exact (if b then rerr else m) (c_guard P R).
Proof.
  intros Hb Hm. destruct b.
  - apply exact_err. intros c v [H _]. apply Hb in H. discriminate.
  - assert (HP : P) by now apply Hb. eapply exact_iff; [|apply Hm, HP].
    intros c v. unfold c_guard. tauto.
Qed.

Lemma exact_weaken {A} (m : RM A) R : exact m R -> (forall c v, R c v -> reads m c v).
Proof. intros [H _]. exact H. Qed.
Lemma exact_yields {A} (m : RM A) R (P : A -> Prop) : exact m R -> (forall c v, R c v -> P v) -> yields m P.
Proof.
  intros [_ H] HP s d p Hr. specialize (H s d p Hr). destruct (m s) as [[v| |] s']; auto.
  destruct H as (c & Hb & Hc & Hr'). split; [eauto|]. exists (p + length c)%nat. split; auto. lia.
Qed.

Lemma exact_bool : exact ReadBool c_bool.
Proof.
  split.
  - intros c b ->. apply reads_bool.
  - intros s d p Hr. destruct (le_lt_dec (8 * length d) p).
    + destruct (reader_at_good _ _ _ Hr) as (Hg & Hd & El).
      assert (E : bits_left s = []).
      { rewrite El. apply skipn_all2. rewrite bytes_bits_length. lia. }
      unfold ReadBool, rbind. rewrite (readBit_err s Hg E). exact I.
    + destruct (readBit_field s d p Hr l) as (s' & H & Hr' & _).
      unfold ReadBool, rbind. rewrite H. cbn [rret]. exists [stream_bit d p].
      split; [|split].
      * split; cbn [length]; [lia|]. intros i Hi. assert (i = 0)%nat by lia. subst i. now rewrite Nat.add_0_r.
      * unfold c_bool. destruct (stream_bit d p); reflexivity.
      * exact Hr'.
Qed.

Lemma exact_bits n k : k = Z.of_nat n -> (n <= 64)%nat -> exact (ReadBits k) (c_fixed n).
Proof.
  intros -> Hn. split.
  - intros c v [-> Hv]. apply reads_zbits; auto; lia.
  - intros s d p Hr. destruct (le_lt_dec (p + n) (8 * length d)).
    + destruct (readbits_field s d p n Hr Hn l) as (v & s' & -> & Hf & Hr' & _).
      exists (zbits n v). split; [now apply field_bits_at|]. split; [split; [reflexivity|apply Hf]|].
      now rewrite zbits_length.
    + destruct (readbits_short s d p n Hr Hn l) as (s' & ->). exact I.
Qed.

Lemma u32_fits (k x : Z) (n : nat) : 0 <= k -> 0 <= x < 2 ^ Z.of_nat n -> k + 2 ^ Z.of_nat n <= 2 ^ 32 -> u32 (u32 k + u32 x) = k + x.
Proof. intros. rewrite u32_mod_add. apply u32_small. lia. Qed.

Lemma exact_u32 c0 n0 c1 n1 c2 n2 c3 n3 :
  (forall i, (i < 4)%nat -> 0 <= nth i [c0; c1; c2; c3] 0 /\
     nth i [c0; c1; c2; c3] 0 + 2 ^ Z.of_nat (nth i [n0; n1; n2; n3] O) <= 2 ^ 32 /\ (nth i [n0; n1; n2; n3] O <= 32)%nat) ->
  exact (ReadU32 c0 (Z.of_nat n0) c1 (Z.of_nat n1) c2 (Z.of_nat n2) c3 (Z.of_nat n3)) (c_u32 c0 n0 c1 n1 c2 n2 c3 n3).
Proof.
  intros H. unfold ReadU32.
  apply (exact_iff _ (c_seq (c_fixed 2) (fun i => c_seq (c_fixed (nth (Z.to_nat i) [n0; n1; n2; n3] O))
           (fun x => c_ret (nth (Z.to_nat i) [c0; c1; c2; c3] 0 + x))))).
  - intros c v. split.
    + intros (a & b & i & -> & [-> Hi] & b1 & b2 & x & -> & [-> Hx] & [-> ->]).
      exists (Z.to_nat i), x. rewrite Z2Nat.id by lia. rewrite app_nil_r. change (2 ^ Z.of_nat 2) with 4 in Hi.
      split; [lia|]. cbv zeta. auto.
    + intros (i & x & Hi & Hx & -> & ->). exists (zbits 2 (Z.of_nat i)), (zbits (nth i [n0; n1; n2; n3] O) x), (Z.of_nat i).
      split; auto. split; [split; auto; change (2 ^ Z.of_nat 2) with 4; lia|].
      rewrite Nat2Z.id. exists (zbits (nth i [n0; n1; n2; n3] O) x), [], x. rewrite app_nil_r. split; auto. split; [split; auto|].
      split; reflexivity.
  - apply exact_bind; [now apply exact_bits; [|lia]|]. intros i [ci [_ Hi]]. change (2 ^ Z.of_nat 2) with 4 in Hi.
    destruct (H (Z.to_nat i) ltac:(lia)) as (Hk & Hs & Hn). cbv zeta.
    assert (En : u32 (nth (Z.to_nat i) [Z.of_nat n0; Z.of_nat n1; Z.of_nat n2; Z.of_nat n3] 0) =
                 Z.of_nat (nth (Z.to_nat i) [n0; n1; n2; n3] O)).
    { assert (E : nth (Z.to_nat i) [Z.of_nat n0; Z.of_nat n1; Z.of_nat n2; Z.of_nat n3] 0 =
                  Z.of_nat (nth (Z.to_nat i) [n0; n1; n2; n3] O)).
      { change [Z.of_nat n0; Z.of_nat n1; Z.of_nat n2; Z.of_nat n3] with (map Z.of_nat [n0; n1; n2; n3]).
        change 0 with (Z.of_nat 0). now rewrite map_nth. }
      rewrite E. apply u32_small. lia. }
    rewrite En. apply exact_bind; [apply exact_bits; auto; lia|].
    intros x [cx [_ Hx]]. rewrite (u32_fits _ _ _ Hk Hx Hs). apply exact_ret.
Qed.

Ltac u32_side := let i := fresh in intros i ?; do 4 (destruct i as [|i]; [cbn [nth]; split; [lia|split; [vm_compute; discriminate|lia]]|]); lia.

Lemma exact_enum : exact ReadEnum c_enum.
Proof.
  unfold ReadEnum.
  apply (exact_iff _ (c_seq (c_u32 0 0 1 0 2 4 18 6) (fun v => c_guard (v <= 63) (c_ret v)))).
  - intros c v. split.
    + intros (a & b & x & -> & H & Hg & -> & ->). rewrite app_nil_r. split; auto.
    + intros [H Hv]. exists c, [], v. rewrite app_nil_r. split; auto. split; auto. split; auto. split; reflexivity.
  - apply exact_bind; [apply (exact_u32 0 0 1 0 2 4 18 6); u32_side|].
    intros v [c Hc]. apply exact_guard; [lia|]. intros Hv.
    assert (0 <= v) by (destruct Hc as (i & x & Hi & Hx & _ & ->);
      do 4 (destruct i as [|i]; [cbn [nth] in *; lia|]); lia).
    rewrite i32_small by lia. apply exact_ret.
Qed.

Lemma exact_u64Loop : forall fuel sh a, sh_ok sh -> 0 <= a < 2 ^ Z.of_nat sh -> (68 <= 8 * fuel + sh)%nat ->
  parses (u64Loop fuel (Z.of_nat sh) a) (fun c v => exists x, u64_tail sh c x /\ v = a + x).
Proof.
  induction fuel as [|f IH]; intros sh a Hsh Ha Hf.
  - destruct Hsh as [k Hk]; lia.
  - intros s d p Hr. cbn [u64Loop].
    pose proof (proj2 exact_bool s d p Hr) as Hb. unfold rbind at 1.
    destruct (ReadBool s) as [[b| |] s1]; auto. destruct Hb as (c & Hc & -> & Hr1).
    destruct b; cbn [negb].
    + destruct (Z.eqb_spec (Z.of_nat sh) 60) as [E|E].
      * pose proof (proj2 (exact_bits 4 4 eq_refl ltac:(lia)) s1 d _ Hr1) as H4. unfold rbind.
        destruct (ReadBits 4 s1) as [[x| |] s2]; auto. destruct H4 as (c4 & Hc4 & [-> Hx] & Hr2). cbn [rret].
        assert (sh = 60)%nat by lia. subst sh.
        exists ([true] ++ zbits 4 x). split; [now apply bits_at_app|]. split.
        { exists (x * 2 ^ 60). split; [apply (u64t_last x); lia|].
          change (Z.of_nat 60) with 60 in *. change (2 ^ Z.of_nat 4) with 16 in Hx.
          apply lor_u64_add; lia. }
        rewrite app_length, Nat.add_assoc. exact Hr2.
      * pose proof (proj2 (exact_bits 8 8 eq_refl ltac:(lia)) s1 d _ Hr1) as H8. unfold rbind.
        destruct (ReadBits 8 s1) as [[x| |] s2]; auto. destruct H8 as (c8 & Hc8 & [-> Hx] & Hr2).
        change (2 ^ Z.of_nat 8) with 256 in Hx.
        assert (Hsh' : (sh <= 52)%nat /\ sh_ok (sh + 8)).
        { destruct Hsh as [k Hk]. split; [lia|]. exists (S k). lia. }
        assert (Hpow : 2 ^ Z.of_nat (sh + 8) = 256 * 2 ^ Z.of_nat sh).
        { rewrite Nat2Z.inj_add, Z.pow_add_r by lia. change (2 ^ Z.of_nat 8) with 256. lia. }
        assert (Hsm : 2 ^ Z.of_nat (sh + 8) <= 2 ^ 60) by (apply Z.pow_le_mono_r; lia).
        rewrite lor_u64_add by nia.
        replace (Z.of_nat sh + 8) with (Z.of_nat (sh + 8)) by lia.
        assert (Ha' : 0 <= a + x * 2 ^ Z.of_nat sh < 2 ^ Z.of_nat (sh + 8)) by nia.
        assert (Hf' : (68 <= 8 * f + (sh + 8))%nat) by lia.
        pose proof (IH (sh + 8)%nat _ (proj2 Hsh') Ha' Hf' s2 d _ Hr2) as H.
        destruct (u64Loop f _ _ s2) as [[v| |] s3]; auto.
        destruct H as (c2 & Hc2 & (y & Hy & ->) & Hr3).
        exists ([true] ++ zbits 8 x ++ c2).
        split; [apply bits_at_app; split; auto; apply bits_at_app; split; auto|]. split.
        { exists (x * 2 ^ Z.of_nat sh + y). split; [|lia]. cbn [app]. apply u64t_more; auto; lia. }
        rewrite !app_length, !Nat.add_assoc. exact Hr3.
    + cbn [rret]. exists [false]. split; auto. split; auto. exists 0. split; [constructor|lia].
Qed.

Lemma exact_u64 : exact ReadU64 u64_code.
Proof.
  split; [exact ReadU64_reads|]. intros s d p Hr. unfold ReadU64.
  pose proof (proj2 (exact_bits 2 2 eq_refl ltac:(lia)) s d p Hr) as H. unfold rbind at 1.
  destruct (ReadBits 2 s) as [[i| |] s1]; auto. destruct H as (ci & Hci & [-> Hi] & Hr1).
  change (2 ^ Z.of_nat 2) with 4 in Hi.
  assert (i = 0 \/ i = 1 \/ i = 2 \/ i = 3) as [->|[->|[->| ->]]] by lia; cbn [Z.eqb Pos.eqb].
  - cbn [rret]. exists (zbits 2 0). split; auto. split; auto. constructor.
  - pose proof (proj2 (exact_bits 4 4 eq_refl ltac:(lia)) s1 d _ Hr1) as H. unfold rbind.
    destruct (ReadBits 4 s1) as [[x| |] s2]; auto. destruct H as (cx & Hcx & [-> Hx] & Hr2). cbn [rret].
    change (2 ^ Z.of_nat 4) with 16 in Hx.
    exists (zbits 2 1 ++ zbits 4 x). split; [now apply bits_at_app|]. split.
    { rewrite u64_small by lia. constructor. lia. } rewrite app_length, Nat.add_assoc. exact Hr2.
  - pose proof (proj2 (exact_bits 8 8 eq_refl ltac:(lia)) s1 d _ Hr1) as H. unfold rbind.
    destruct (ReadBits 8 s1) as [[x| |] s2]; auto. destruct H as (cx & Hcx & [-> Hx] & Hr2). cbn [rret].
    change (2 ^ Z.of_nat 8) with 256 in Hx.
    exists (zbits 2 2 ++ zbits 8 x). split; [now apply bits_at_app|]. split.
    { rewrite u64_small by lia. constructor. lia. } rewrite app_length, Nat.add_assoc. exact Hr2.
  - pose proof (proj2 (exact_bits 12 12 eq_refl ltac:(lia)) s1 d _ Hr1) as H. unfold rbind.
    destruct (ReadBits 12 s1) as [[x| |] s2]; auto. destruct H as (cx & Hcx & [-> Hx] & Hr2).
    pose proof (exact_u64Loop 7 12 x sh_ok_12 Hx ltac:(lia) s2 d _ Hr2) as H.
    change (Z.of_nat 12) with 12 in *.
    destruct (u64Loop 7 12 x s2) as [[v| |] s3]; auto.
    destruct H as (c2 & Hc2 & (y & Hy & ->) & Hr3).
    exists (zbits 2 3 ++ zbits 12 x ++ c2).
    split; [apply bits_at_app; split; auto; apply bits_at_app; split; auto|]. split.
    { constructor; auto. }
    rewrite !app_length, !Nat.add_assoc. exact Hr3.
Qed.

Lemma exact_list {A} (rd : nat -> RM (list A)) (m : RM A) R :
  rd O = rret [] -> (forall n, rd (S n) = (f <- m ;; t <- rd n ;; rret (f :: t))) ->
  exact m R -> forall n, exact (rd n) (c_list n R).
Proof.
  intros H0 HS Hm. induction n as [|n IH]; [rewrite H0; apply exact_ret|].
  rewrite HS. cbn [c_list]. apply exact_bind; auto. intros a _. apply exact_bind; auto. intros t _. apply exact_ret.
Qed.

Lemma exact_opt {A} (b : bool) (m : RM A) R : exact m R ->
  exact (if b then v <- m ;; rret (Some v) else rret None) (c_opt b R).
Proof.
  intros H. destruct b; cbn [c_opt].
  - apply exact_bind; auto. intros v _. apply exact_ret.
  - apply exact_ret.
Qed.

(* ---- half floats ---- *)
Lemma exact_f16 : exact ReadF16 c_f16.
Proof.
  split.
  - intros c f (h & -> & Hh & He & ->). change (2 ^ 16) with (2 ^ Z.of_nat 16) in Hh.
    destruct (ReadF16_reads (zbits 16 h)) as (r & Hr & _ & _ & E).
    + apply zbits_length.
    + rewrite bz_zbits_small by auto. exact He.
    + rewrite bz_zbits_small in E by auto. unfold f32_of_half. rewrite <- E. exact Hr.
  - intros s d p Hr. destruct (le_lt_dec (p + 16) (8 * length d)) as [Hl|Hl].
    + destruct (readbits_field s d p 16 Hr ltac:(lia) Hl) as (h & s' & _ & Hf & _).
      pose proof (proj1 Hf) as Hh. pose proof (field_bits_at d p 16 h Hl Hf) as Hb.
      destruct (Z.eq_dec (half_exp_field h) 31) as [He|He].
      * assert (He' : half_exp_field (bz (zbits 16 h)) = 31) by now rewrite bz_zbits_small.
        destruct (reads_err_bits16 (zbits 16 h) (zbits_length 16 h) He' s d p Hr Hb) as (s2 & ->). exact I.
      * destruct (ReadF16_reads (zbits 16 h)) as (r & Hrd & _ & _ & E).
        { apply zbits_length. } { now rewrite bz_zbits_small. }
        rewrite bz_zbits_small in E by auto.
        destruct (Hrd s d p Hr Hb) as (s2 & -> & Hr2). exists (zbits 16 h). split; auto. split; auto.
        exists h. split; auto.
    + destruct (readbits_short s d p 16 Hr ltac:(lia) Hl) as (s' & E). unfold ReadF16, rbind.
      change (Z.of_nat 16) with 16 in E. rewrite E. exact I.
Qed.
