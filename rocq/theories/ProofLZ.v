(* C22: the ring buffer implements the reference history. *)
From Coq Require Import ZArith List Bool Lia ZifyBool ZifyNat.
From Verif Require Import GoBase GoLoop Bits ModelBitReader ModelUtil ModelEntropy SpecBitReader SpecLZ.
From Verif Require Import ProofBitReader ProofBitReader2 ProofReads ProofCodes ProofHybrid ProofANS.
Import ListNotations.
Open Scope Z_scope.

Definition W : Z := 1048576.
Lemma land_w a : Z.land a 1048575 = a mod W.
Proof. apply (land_ones_mod a 20). lia. Qed.

(* e represents r *)
Record repr (e0 e : ES) (r : lz) : Prop := {
  rp_cm : es_clusterMap e = es_clusterMap e0;
  rp_ds : es_dists e = es_dists e0;
  rp_lc : es_lzLengthConfig e = es_lzLengthConfig e0;
  rp_ms : es_lz77MinSymbol e = es_lz77MinSymbol e0;
  rp_ml : es_lz77MinLength e = es_lz77MinLength e0;
  rp_lz : es_usesLZ77 e = true;
  rp_nd : es_numDecoded77 e = Z.of_nat (length (lz_h r));
  rp_w : forall j, 0 <= j < W -> es_window e ((Z.of_nat (length (lz_h r)) - j) mod W) = nth (Z.to_nat j) (lz_h r) 0;
  rp_nn : 0 <= lz_n r;
  rp_n : es_numToCopy77 e = lz_n r;
  rp_cp : 0 < lz_n r -> es_copyPos77 e = Z.of_nat (length (lz_h r)) - lz_d r;
  rp_d : 0 < lz_n r -> 0 <= lz_d r <= W /\ lz_d r <= Z.of_nat (length (lz_h r)) /\
         (lz_d r = 0 -> Forall (fun v => v = 0) (lz_h r))
}.

Lemma mod_W_eq a b : (a - b) mod W = 0 -> a mod W = b mod W.
Proof.
  intros H. apply Z.mod_divide in H; [|unfold W; lia]. destruct H as [k H].
  replace a with (b + k * W) by lia. apply Z_mod_plus_full.
Qed.

Lemma record_repr e h v : forall (Hw : forall j, 0 <= j < W -> es_window e ((Z.of_nat (length h) - j) mod W) = nth (Z.to_nat j) h 0),
  es_numDecoded77 e = Z.of_nat (length h) -> Z.of_nat (length h) < 2 ^ 31 - 1 ->
  es_numDecoded77 (record v e) = Z.of_nat (length (v :: h)) /\
  forall j, 0 <= j < W -> es_window (record v e) ((Z.of_nat (length (v :: h)) - j) mod W) = nth (Z.to_nat j) (v :: h) 0.
Proof.
  intros Hw Hn Hl. unfold record. cbn [es_numDecoded77 es_window]. rewrite Hn, i32_small by lia.
  split; [cbn [length]; lia|]. intros j Hj. rewrite land_w. unfold winUpd. cbn [length].
  replace (Z.of_nat (length h) + 1) with (Z.of_nat (S (length h))) by lia.
  destruct (Z.eq_dec j 0) as [->|Hj0].
  - rewrite Z.sub_0_r, Z.eqb_refl. reflexivity.
  - destruct (Z.eqb_spec ((Z.of_nat (S (length h)) - j) mod W) (Z.of_nat (S (length h)) mod W)) as [E|E].
    + exfalso. set (N := Z.of_nat (S (length h))) in *. clearbody N. clear - E Hj Hj0.
      assert (E2 : (j - 0) mod W = 0).
      { rewrite Z.sub_0_r. replace j with (N - (N - j)) by lia. rewrite Zminus_mod, E, Z.sub_diag. reflexivity. }
      rewrite Z.sub_0_r, Z.mod_small in E2 by assumption. lia.
    + replace (Z.of_nat (S (length h)) - j) with (Z.of_nat (length h) - (j - 1)) by lia. rewrite Hw by lia.
      replace (Z.to_nat j) with (S (Z.to_nat (j - 1))) by (clear - Hj Hj0; lia). reflexivity.
Qed.

Lemma copy_ok e0 e r s : repr e0 e r -> 0 < lz_n r < 2 ^ 31 -> Z.of_nat (length (lz_h r)) < 2 ^ 31 - 1 ->
  exists e', copyOne (e, s) = (Ok (fst (copy_step r)), (e', s)) /\ repr e0 e' (snd (copy_step r)) /\ es_ans e' = es_ans e.
Proof.
  intros H Hn Hl. destruct (rp_d _ _ _ H ltac:(lia)) as (Hd1 & Hd2 & Hd3). pose proof (rp_cp _ _ _ H ltac:(lia)) as Hcp.
  unfold copyOne, ebind, eget, emod, eret. rewrite Hcp, i32_small by (unfold W in *; lia).
  rewrite land_w.
  assert (Ev : es_window e ((Z.of_nat (length (lz_h r)) - lz_d r + 1) mod W) = copied (lz_h r) (lz_d r)).
  { unfold copied. destruct (Z.eqb_spec (lz_d r) 0) as [E|E].
    - rewrite E, Z.sub_0_r.
      replace ((Z.of_nat (length (lz_h r)) + 1) mod W) with ((Z.of_nat (length (lz_h r)) - (W - 1)) mod W).
      + rewrite (rp_w _ _ _ H) by (unfold W; lia). specialize (Hd3 E). rewrite Forall_forall in Hd3.
        destruct (Nat.lt_ge_cases (Z.to_nat (W - 1)) (length (lz_h r))) as [L|L].
        * apply Hd3. apply nth_In. exact L.
        * apply nth_overflow. exact L.
      + apply mod_W_eq. replace (_ - _) with ((-1) * W) by (unfold W; lia). apply Z_mod_mult.
    - replace (Z.of_nat (length (lz_h r)) - lz_d r + 1) with (Z.of_nat (length (lz_h r)) - (lz_d r - 1)) by lia.
      apply (rp_w _ _ _ H). lia. }
  rewrite Ev. set (v := copied (lz_h r) (lz_d r)).
  set (e1 := set_copy (i32 (es_numToCopy77 e - 1)) (Z.of_nat (length (lz_h r)) - lz_d r + 1) e).
  exists (record v e1). unfold copy_step. fold v. cbn [fst snd]. split; [reflexivity|]. split; [|reflexivity].
  destruct (record_repr e1 (lz_h r) v) as [R1 R2].
  { exact (rp_w _ _ _ H). } { exact (rp_nd _ _ _ H). } { assumption. }
  destruct H. constructor; cbn [lz_h lz_n lz_d]; try assumption.
  - lia.
  - cbn [record e1 set_copy es_numToCopy77]. rewrite rp_n0. apply i32_small. lia.
  - intros Hn1. cbn [record e1 set_copy es_copyPos77 length]. lia.
  - intros Hn1. split; [assumption|]. split; [cbn [length]; lia|]. intros E. constructor; [|apply Hd3, E].
    unfold v, copied. rewrite E. reflexivity.
Qed.

(* multipliers for which all special distances are positive *)
Definition mult_ok (m : Z) : Prop := m = 0 \/ 8 <= m <= 2 ^ 24.
Lemma special_range : Forall (fun p => (-7 <= fst p <= 8) /\ 0 <= snd p <= 7 /\ (snd p = 0 -> 1 <= fst p)) SPECIAL_DISTANCES.
Proof. unfold SPECIAL_DISTANCES. repeat (constructor; [cbn [fst snd]; lia|]). constructor. Qed.

Lemma lzDistance_ok m n : mult_ok m -> 0 <= n <= 2147483646 ->
  lzDistance m n = Ok (spec_distance m n) /\ 1 <= spec_distance m n < 2 ^ 31.
Proof.
  intros Hm Hn. unfold lzDistance, spec_distance. destruct (Z.eqb_spec m 0) as [->|E].
  - rewrite i32_small by lia. split; [reflexivity|lia].
  - destruct Hm as [Hm|Hm]; [lia|]. destruct (Z.ltb_spec n 120) as [L|L].
    + rewrite (slice_get_ok _ _ (0, 0)) by (cbn; lia). cbn [obind].
      pose proof special_range as HS. rewrite Forall_forall in HS.
      specialize (HS (nth (Z.to_nat n) SPECIAL_DISTANCES (0, 0))).
      destruct (nth (Z.to_nat n) SPECIAL_DISTANCES (0, 0)) as [a b] eqn:En. cbn [fst snd] in HS.
      assert (HI : In (a, b) SPECIAL_DISTANCES) by (rewrite <- En; apply nth_In; cbn; lia). specialize (HS HI).
      assert (0 <= m * b <= 7 * 2 ^ 24) by nia. assert (1 <= a + m * b) by nia.
      rewrite (i32_small (m * b)) by lia. rewrite i32_small by lia. split; [f_equal; lia|lia].
    + rewrite i32_small by lia. split; [reflexivity|lia].
Qed.

(* the whole read_event corresponds to the code after the copy check *)
Definition es_sane (e : ES) : Prop :=
  0 <= es_lz77MinSymbol e < 2 ^ 31 /\ 1 <= es_lz77MinLength e < 2 ^ 31.

Lemma get_some {A} (o : Outcome A * BR) a s : get o = Some (a, s) -> o = (Ok a, s).
Proof. destruct o as [[x| |] t]; cbn; congruence. Qed.

Lemma nth_error_slice {A} (l : list A) i x : 0 <= i -> nth_error l (Z.to_nat i) = Some x -> slice_get l i = Ok x /\ i < Z.of_nat (length l).
Proof.
  intros Hi E. assert (L : (Z.to_nat i < length l)%nat) by (apply nth_error_Some; congruence).
  rewrite (slice_get_ok l i x) by lia. rewrite (nth_error_nth l (Z.to_nat i) x E). split; [reflexivity|lia].
Qed.

Lemma repr_set_ans e0 e r a : repr e0 e r -> repr e0 (set_ans a e) r.
Proof. intros []. constructor; assumption. Qed.

Lemma readSym_ok e0 fuel c m e r s v r' a' s' : es_sane e0 -> mult_ok m -> (2 <= fuel)%nat ->
  repr e0 e r -> lz_n r < 2 ^ 31 -> Z.of_nat (length (lz_h r)) < 2 ^ 31 - 1 ->
  (forall d cfg cl t a1 s1, nth_error (es_clusterMap e0) (Z.to_nat c) = Some cl -> nth_error (es_dists e0) (Z.to_nat cl) = Some (d, cfg) ->
     distReadSymbol d (es_ans e) s = (Ok (t, a1), s1) -> - 2 ^ 31 <= t < 2 ^ 31) ->
  ref_read e0 c m r (es_ans e, s) = Some (v, r', (a', s')) ->
  exists e', readSymbolFuel fuel c m (e, s) = (Ok v, (e', s')) /\ repr e0 e' r' /\ es_ans e' = a'.
Proof.
  intros Hsane Hm Hfuel H Hn Hl Htok Hr. destruct fuel as [|fuel]; [lia|]. cbn [readSymbolFuel]. unfold ref_read in Hr.
  unfold ebind at 1, eget at 1. rewrite (rp_n _ _ _ H).
  destruct (Z.ltb_spec 0 (lz_n r)) as [Hp|Hp].
  - destruct (copy_ok e0 e r s H ltac:(lia) Hl) as (e' & E1 & E2 & E3).
    assert (copy_step r = (v, r')) by congruence. assert (a' = es_ans e) by congruence. assert (s' = s) by congruence.
    subst a' s'. rewrite H0 in *. exists e'. auto.
  - destruct (read_event e0 c m (es_ans e, s)) as [[ev [a2 s2]]|] eqn:Eev; [|discriminate].
    unfold read_event in Eev.
    destruct (nth_error (es_clusterMap e0) (Z.to_nat c)) as [cl|] eqn:Ec; [|discriminate].
    destruct (nth_error (es_clusterMap e0) (length (es_clusterMap e0) - 1)) as [cl'|] eqn:Ec'; [|discriminate].
    destruct ((c <? 0) || (cl <? 0) || (cl' <? 0)) eqn:Eneg; [discriminate|].
    destruct (nth_error (es_dists e0) (Z.to_nat cl)) as [[d cfg]|] eqn:Ed; [|discriminate].
    destruct (nth_error (es_dists e0) (Z.to_nat cl')) as [[d' cfg']|] eqn:Ed'; [|discriminate].
    destruct (get (distReadSymbol d (es_ans e) s)) as [[[token a3] s3]|] eqn:Et; [|discriminate].
    apply get_some in Et.
    destruct (nth_error_slice _ c _ ltac:(lia) Ec) as [Sc Lc].
    destruct (nth_error_slice _ cl _ ltac:(lia) Ed) as [Sd Ld].
    destruct (nth_error_slice _ cl' _ ltac:(lia) Ed') as [Sd' Ld'].
    assert (Sc' : slice_get (es_clusterMap e0) (Z.of_nat (length (es_clusterMap e0)) - 1) = Ok cl').
    { replace (length (es_clusterMap e0) - 1)%nat with (Z.to_nat (Z.of_nat (length (es_clusterMap e0)) - 1)) in Ec' by lia.
      refine (proj1 (nth_error_slice _ _ _ _ Ec')). lia. }
    pose proof (Htok d cfg cl _ _ _ eq_refl Ed Et) as Ht1.
    unfold ebind at 1, eget at 1. unfold ebind at 1, eget at 1. rewrite (rp_cm _ _ _ H), (rp_ds _ _ _ H).
    destruct (Z.leb_spec (Z.of_nat (length (es_clusterMap e0))) c); [lia|].
    unfold ebind at 1. unfold rd at 1. unfold rlift at 1. rewrite Sc.
    destruct (Z.leb_spec (Z.of_nat (length (es_dists e0))) cl); [lia|].
    unfold ebind at 1. unfold rd at 1. unfold rlift at 1. rewrite Sd. cbn [fst snd].
    unfold ebind at 1. unfold distRead at 1. unfold ebind at 1, eget at 1. unfold ebind at 1, rd at 1. rewrite Et.
    unfold ebind at 1, emod at 1. cbn [fst snd]. unfold eret at 1.
    unfold ebind at 1, eget at 1. cbn [es_usesLZ77 set_ans]. rewrite (rp_lz _ _ _ H).
    unfold ebind at 1, eget at 1. cbn [es_lz77MinSymbol set_ans]. rewrite (rp_ms _ _ _ H). cbn [andb].
    pose proof (repr_set_ans e0 e r a3 H) as H3.
    destruct (Z.ltb_spec token (es_lz77MinSymbol e0)) as [Hlit|Hcopy].
    + destruct (Z.leb_spec (es_lz77MinSymbol e0) token); [lia|].
      destruct (get (ReadHybridInteger cfg token s3)) as [[v4 s4]|] eqn:Eh; [|discriminate]. apply get_some in Eh.
      assert (ev = Lit v4) by congruence. assert (a2 = a3) by congruence. assert (s2 = s4) by congruence. subst ev a2 s2. clear Eev.
      assert (v = v4) by congruence. assert (r' = LZ (v4 :: lz_h r) 0 (lz_d r)) by congruence.
      assert (a' = a3) by congruence. assert (s' = s4) by congruence. subst v r' a' s'.
      unfold ebind at 1, rd at 1. rewrite Eh. unfold ebind, emod, eret.
      exists (record v4 (set_ans a3 e)). split; [reflexivity|]. split; [|reflexivity].
      destruct (record_repr (set_ans a3 e) (lz_h r) v4 (rp_w _ _ _ H3) (rp_nd _ _ _ H3) Hl) as [R1 R2].
      pose proof (rp_n _ _ _ H3) as Hn3. pose proof (rp_nn _ _ _ H3) as Hnn3.
      destruct H3. constructor; cbn [lz_h lz_n lz_d]; try assumption; try lia.
      cbn [record es_numToCopy77]. lia.
    + destruct (Z.leb_spec (es_lz77MinSymbol e0) token); [|lia].
      destruct (get (ReadHybridInteger (es_lzLengthConfig e0) (token - es_lz77MinSymbol e0) s3)) as [[hi s4]|] eqn:Eh; [|discriminate].
      apply get_some in Eh.
      destruct (get (distReadSymbol d' a3 s4)) as [[[token' a5] s5]|] eqn:Et'; [|discriminate]. apply get_some in Et'.
      destruct (get (ReadHybridInteger cfg' token' s5)) as [[n s6]|] eqn:Eh'; [|discriminate]. apply get_some in Eh'.
      destruct ((hi <? 0) || (2147483647 <? es_lz77MinLength e0 + hi) || (n <? 0) || (2147483646 <? n)) eqn:Erng; [discriminate|].
      set (len := es_lz77MinLength e0 + hi) in *.
      assert (ev = Copy len (spec_distance m n)) by congruence. assert (a2 = a5) by congruence. assert (s2 = s6) by congruence.
      subst ev a2 s2. clear Eev. set (r1 := LZ (lz_h r) len (limit (lz_h r) (spec_distance m n))) in *.
      assert (Hstep : copy_step r1 = (v, r')) by congruence.
      assert (a' = a5) by congruence. assert (s' = s6) by congruence. subst a' s'. clear Hr.
      destruct Hsane as [Hms Hml]. destruct (lzDistance_ok m n Hm ltac:(lia)) as [Edist Hdist].
      unfold ebind at 1, rd at 1, rlift at 1. rewrite Sc'.
      unfold ebind at 1, rd at 1, rlift at 1. rewrite Sd'. cbn [fst snd].
      unfold ebind at 1, eget at 1. cbn [es_lzLengthConfig set_ans]. rewrite (rp_lc _ _ _ H).
      unfold ebind at 1, rd at 1. rewrite i32_small by lia. rewrite Eh.
      unfold ebind at 1, eget at 1. cbn [es_lz77MinLength set_ans]. rewrite (rp_ml _ _ _ H). fold len.
      unfold ebind at 1, emod at 1. rewrite (i32_small len) by lia.
      unfold ebind at 1, distRead at 1. unfold ebind at 1, eget at 1. cbn [es_ans set_ans set_copy].
      unfold ebind at 1, rd at 1. rewrite Et'. unfold ebind at 1, emod at 1. cbn [fst snd]. unfold eret at 1.
      unfold ebind at 1, rd at 1. rewrite Eh'.
      unfold ebind at 1, rd at 1, rlift at 1. rewrite Edist.
      unfold ebind at 1, eget at 1. cbn [es_numDecoded77 set_ans set_copy]. rewrite (rp_nd _ _ _ H).
      unfold ebind at 1, emod at 1.
      match goal with |- context [i32 (_ - ?dd)] => replace dd with (limit (lz_h r) (spec_distance m n)) end.
      2: { unfold limit. destruct (Z.ltb_spec 1048576 (spec_distance m n));
           match goal with |- context [?a <? ?b] => destruct (Z.ltb_spec a b) end; lia. }
      assert (Hlim : 0 <= limit (lz_h r) (spec_distance m n) <= Z.of_nat (length (lz_h r)) /\ limit (lz_h r) (spec_distance m n) <= W /\
                     (limit (lz_h r) (spec_distance m n) = 0 -> lz_h r = [])).
      { unfold limit, W. split; [lia|]. split; [lia|]. intros E. destruct (lz_h r); [reflexivity|]. cbn [length] in *. lia. }
      rewrite i32_small by lia.
      set (e1 := set_copy _ _ _).
      assert (HR : repr e0 e1 r1).
      { destruct H. constructor; cbn [r1 lz_h lz_n lz_d]; try assumption; try lia; try reflexivity.
        intros _. split; [lia|]. split; [lia|]. intros E. rewrite (proj2 (proj2 Hlim) E). constructor. }
      destruct fuel as [|fuel]; [lia|]. cbn [readSymbolFuel]. unfold ebind at 1, eget at 1. rewrite (rp_n _ _ _ HR).
      change (lz_n r1) with len. destruct (Z.ltb_spec 0 len); [|lia].
      destruct (copy_ok e0 e1 r1 s6 HR) as (e' & E1 & E2 & E3); [change (lz_n r1) with len; lia|exact Hl|].
      rewrite Hstep in E1, E2. cbn [fst snd] in E1, E2. exists e'. split; [exact E1|]. split; [exact E2|]. rewrite E3. reflexivity.
Qed.

(* sequences of calls *)
Fixpoint readCalls (calls : list (Z * Z)) : EM (list Z) :=
  match calls with
  | [] => eret []
  | (c, m) :: t => v <e- ReadSymbolWithMultiplier c m ;; vs <e- readCalls t ;; eret (v :: vs)
  end.

Lemma ref_read_bounds e0 c m r st v r' st' : es_sane e0 -> ref_read e0 c m r st = Some (v, r', st') -> lz_n r < 2 ^ 31 ->
  lz_n r' < 2 ^ 31 /\ length (lz_h r') = S (length (lz_h r)) /\ lz_h r' = v :: lz_h r.
Proof.
  intros Hs Hr Hn. unfold ref_read in Hr. destruct (Z.ltb_spec 0 (lz_n r)).
  - unfold copy_step in Hr. injection Hr as <- <- <-. cbn [lz_n lz_h length]. repeat split; lia.
  - destruct (read_event e0 c m st) as [[[w|len d] st2]|] eqn:E; [| |discriminate].
    + injection Hr as <- <- <-. cbn [lz_n lz_h length]. repeat split; lia.
    + unfold copy_step in Hr. injection Hr as <- <- <-. cbn [lz_n lz_h length].
      assert (len <= 2147483647); [|repeat split; lia].
      unfold read_event in E. destruct st as [a s].
      repeat match type of E with
      | (match ?x with _ => _ end) = _ => destruct x eqn:?; try discriminate
      end.
      all: try (injection E as <- _ _; lia).
Qed.

Lemma ref_run_ok e0 calls : es_sane e0 -> Forall (fun p => mult_ok (snd p)) calls ->
  (forall d cfg a s t a1 s1, In (d, cfg) (es_dists e0) -> distReadSymbol d a s = (Ok (t, a1), s1) -> - 2 ^ 31 <= t < 2 ^ 31) ->
  forall e r s vs r' a' s', repr e0 e r -> lz_n r < 2 ^ 31 ->
  Z.of_nat (length (lz_h r)) + Z.of_nat (length calls) < 2 ^ 31 ->
  ref_run e0 calls r (es_ans e, s) = Some (vs, r', (a', s')) ->
  exists e', readCalls calls (e, s) = (Ok vs, (e', s')) /\ repr e0 e' r' /\ es_ans e' = a' /\ lz_h r' = rev vs ++ lz_h r.
Proof.
  intros Hs HF Htok. induction HF as [|[c m] calls Hm HF IH]; intros e r s vs r' a' s' H Hn Hl Hr.
  - cbn in Hr. injection Hr as <- <- <- <-. exists e. cbn. auto.
  - cbn [ref_run] in Hr. cbn [snd] in Hm. destruct (ref_read e0 c m r (es_ans e, s)) as [[[v r1] [a1 s1]]|] eqn:E1; [|discriminate].
    destruct (ref_run e0 calls r1 (a1, s1)) as [[[vs2 r2] [a2 s2]]|] eqn:E2; [|discriminate]. injection Hr as <- <- <- <-.
    cbn [length] in Hl. destruct (ref_read_bounds _ _ _ _ _ _ _ _ Hs E1 Hn) as (B1 & B2 & B3).
    destruct (readSym_ok e0 (S (S (8 * length (br_data s)))) c m e r s v r1 a1 s1 Hs Hm ltac:(lia) H Hn ltac:(lia) (fun d cfg cl t a1 s1 _ D => Htok d cfg _ _ _ _ _ (nth_error_In _ _ D)) E1) as (e1 & R1 & R2 & R3).
    rewrite <- R3 in E2. destruct (IH e1 r1 s1 vs2 r2 a2 s2 R2 B1 ltac:(lia) E2) as (e2 & T1 & T2 & T3 & T4).
    exists e2. cbn [readCalls]. unfold ebind at 1. unfold ReadSymbolWithMultiplier at 1. cbn [snd]. rewrite R1.
    unfold ebind at 1. rewrite T1. split; [reflexivity|]. split; [assumption|]. split; [assumption|].
    rewrite T4, B3. cbn [rev]. rewrite <- app_assoc. reflexivity.
Qed.

(* a fresh stream *)
Lemma fresh_repr e : es_usesLZ77 e = true -> es_numDecoded77 e = 0 -> es_numToCopy77 e = 0 -> (forall k, es_window e k = 0) -> repr e e lz0.
Proof.
  intros H1 H2 H3 H4. constructor; cbn [lz0 lz_h lz_n lz_d length]; auto; try lia.
  intros j Hj. rewrite H4. destruct (Z.to_nat j); reflexivity.
Qed.

(* Copies in closed form: symbol i of a copy repeats the last d symbols. *)
Lemma copy_n_S n d : forall h, copy_n (S n) d h = copied (copy_n n d h) d :: copy_n n d h.
Proof. induction n as [|n IH]; intros h; [reflexivity|]. exact (IH (copied h d :: h)). Qed.

Lemma copy_n_closed n d h : 1 <= d <= Z.of_nat (length h) ->
  copy_n n d h = rev (map (fun i => nth (Z.to_nat d - 1 - i mod Z.to_nat d) h 0) (seq 0 n)) ++ h.
Proof.
  intros Hd. induction n as [|n IH]; [reflexivity|]. rewrite copy_n_S, IH, seq_S, map_app, rev_app_distr. cbn [map rev app plus].
  f_equal. set (f := fun i => nth (Z.to_nat d - 1 - i mod Z.to_nat d) h 0). unfold copied.
  destruct (Z.eqb_spec d 0); [lia|]. set (D := Z.to_nat d) in *. replace (Z.to_nat (d - 1)) with (D - 1)%nat by lia.
  assert (HD : (1 <= D)%nat) by lia. clearbody D. clear - HD.
  destruct (Nat.lt_ge_cases (D - 1) n) as [L|L].
  - rewrite app_nth1 by (rewrite rev_length, map_length, seq_length; lia).
    rewrite rev_nth by (rewrite map_length, seq_length; lia). rewrite map_length, seq_length.
    replace (n - S (D - 1))%nat with (n - D)%nat by lia.
    rewrite (nth_indep _ 0 (f 0%nat)) by (rewrite map_length, seq_length; lia). rewrite map_nth, seq_nth by lia. cbn [plus].
    unfold f. replace (n mod D)%nat with ((n - D) mod D)%nat; [reflexivity|].
    replace n with ((n - D) + 1 * D)%nat at 2 by lia. rewrite Nat.mod_add by lia. reflexivity.
  - rewrite app_nth2 by (rewrite rev_length, map_length, seq_length; lia). rewrite rev_length, map_length, seq_length.
    unfold f. rewrite Nat.mod_small by lia. reflexivity.
Qed.
Lemma copy_n_zero n : forall h, copy_n n 0 h = repeat 0 n ++ h.
Proof.
  induction n as [|n IH]; intros h; [reflexivity|]. cbn [copy_n]. unfold copied at 1. cbn [Z.eqb]. rewrite IH.
  change (0 :: h) with ([0] ++ h). rewrite app_assoc, <- repeat_cons. reflexivity.
Qed.

(* The reference decoder replays events: reading with no copy pending and
   running until the copy is over appends the event. *)
Lemma ref_copies e0 st : forall n h d calls, length calls = n -> 
  ref_run e0 calls (LZ h (Z.of_nat n) d) st =
  Some (rev (firstn n (copy_n n d h)), LZ (copy_n n d h) 0 d, st).
Proof.
  induction n as [|n IH]; intros h d calls Hc; destruct calls as [|[c m] calls]; try discriminate; [reflexivity|].
  cbn [ref_run]. unfold ref_read. cbn [lz_n]. destruct (Z.ltb_spec 0 (Z.of_nat (S n))); [|lia].
  unfold copy_step. cbn [lz_h lz_d lz_n]. replace (Z.of_nat (S n) - 1) with (Z.of_nat n) by lia.
  rewrite IH by (cbn in Hc; lia). cbn [copy_n]. f_equal. f_equal. f_equal.
  set (v := copied h d).
  assert (E : exists p, length p = n /\ copy_n n d (v :: h) = p ++ v :: h).
  { clear. generalize (v :: h) as g. induction n as [|n IH]; intros g; [exists []; auto|].
    destruct (IH (copied g d :: g)) as (p & L & E). exists (p ++ [copied g d]). cbn [copy_n]. rewrite E, app_length, <- app_assoc. cbn. split; [lia|reflexivity]. }
  destruct E as (p & L & ->). subst n.
  assert (F1 : firstn (length p) (p ++ v :: h) = p) by (rewrite firstn_app, Nat.sub_diag, firstn_all; apply app_nil_r).
  assert (F2 : firstn (S (length p)) (p ++ v :: h) = p ++ [v]).
  { replace (S (length p)) with (length p + 1)%nat by lia. rewrite firstn_app_2. reflexivity. }
  rewrite F1. change (firstn _ _) with (firstn (S (length p)) (p ++ v :: h)). rewrite F2, rev_app_distr. reflexivity.
Qed.
Lemma ref_event e0 c m cs h d0 st ev st' : read_event e0 c m st = Some (ev, st') ->
  length cs = match ev with Lit _ => 0%nat | Copy len _ => (Z.to_nat len - 1)%nat end ->
  (match ev with Lit _ => True | Copy len _ => 1 <= len end) ->
  exists d1, ref_run e0 ((c, m) :: cs) (LZ h 0 d0) st =
  Some (rev (firstn (S (length cs)) (apply_event h ev)), LZ (apply_event h ev) 0 d1, st').
Proof.
  intros E Hc Hl. cbn [ref_run]. unfold ref_read. cbn [lz_n]. rewrite E. cbn [Z.ltb Z.compare].
  destruct ev as [v|len d].
  - destruct cs; [|discriminate]. exists d0. reflexivity.
  - exists (limit h d). cbn [lz_h lz_d lz_n]. pose proof (ref_copies e0 st' (Z.to_nat len) h (limit h d) ((c, m) :: cs)) as H.
    cbn [length] in H. specialize (H ltac:(lia)). rewrite Z2Nat.id in H by lia. cbn [ref_run] in H. unfold ref_read in H. cbn [lz_n] in H.
    destruct (Z.ltb_spec 0 len); [|lia]. cbn [apply_event]. rewrite Hc. replace (S (Z.to_nat len - 1)) with (Z.to_nat len) by lia.
    exact H.
Qed.
