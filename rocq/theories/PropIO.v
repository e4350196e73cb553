(* C111: reading and skipping bytes of a reader (jxlio/IOHelper.go). *)
From Coq Require Import ZArith List Bool Lia Arith.
From Verif Require Import GoBase ModelIO SpecIO.
Import ListNotations.
Open Scope Z_scope.

Section Lemmas.
  Variable pieces : nat -> nat -> nat.
  (* a read gives k bytes, 1 <= k <= n *)
  Lemma read_some n s : (1 <= n)%nat -> (src_pos s < length (src_data s))%nat ->
    exists k, (1 <= k <= n)%nat /\ (src_pos s + k <= length (src_data s))%nat /\ (whole_reads pieces -> k = Nat.min n (length (src_data s) - src_pos s)) /\
      Read pieces n s = Ok (bytes_from (src_data s) (src_pos s) k, mkSource (src_data s) (src_pos s + k) (S (src_calls s))).
  Proof.
    intros Hn Hp. unfold Read. rewrite skipn_length. set (m := (length (src_data s) - src_pos s)%nat). destruct (Nat.eqb_spec m 0); [unfold m in *; lia|].
    exists (Nat.max 1 (Nat.min (pieces (src_calls s) (Nat.min n m)) (Nat.min n m))). split; [lia|]. split; [unfold m in *; lia|]. split; [|reflexivity].
    intros W. specialize (W (src_calls s) (Nat.min n m)). lia.
  Qed.
  Lemma read_end n s : (length (src_data s) <= src_pos s)%nat -> Read pieces n s = Err.
  Proof. intros H. unfold Read. rewrite skipn_length. replace (_ - _)%nat with 0%nat by lia. reflexivity. Qed.
  Lemma bytes_length d a n : (a + n <= length d)%nat -> length (bytes_from d a n) = n.
  Proof. intros H. unfold bytes_from. rewrite firstn_length, skipn_length. lia. Qed.
  Lemma skip_twice a n : forall d : list Z, skipn (a + n) d = skipn n (skipn a d).
  Proof. induction a as [|a IH]; intros [|x d]; try reflexivity; [cbn [Nat.add skipn]; rewrite skipn_nil; reflexivity|]. apply IH. Qed.
  Lemma bytes_app d a n m : bytes_from d a n ++ bytes_from d (a + n) m = bytes_from d a (n + m).
  Proof.
    unfold bytes_from. rewrite skip_twice. generalize (skipn a d). clear. intros l. revert n. induction l as [|x l IH]; intros n; [rewrite skipn_nil, !firstn_nil; reflexivity|].
    destruct n; [reflexivity|]. cbn [firstn skipn Nat.add app]. f_equal. apply IH.
  Qed.

  (* the loop of ReadFullyWithOffset, and the first loop of SkipFully: all the bytes are
     there *)
  Lemma loop_all n : (1 <= n)%nat -> forall fuel r a acc s, (r <= fuel)%nat -> (r <= n)%nat -> (src_pos s + r <= length (src_data s))%nat ->
    acc = bytes_from (src_data s) a (src_pos s - a) -> (a <= src_pos s)%nat ->
    exists e calls, readLoop pieces fuel n (Z.of_nat r) acc s = Ok (- Z.of_nat e, bytes_from (src_data s) a (src_pos s + r + e - a), mkSource (src_data s) (src_pos s + r + e) calls) /\
      (e <= n)%nat /\ (whole_reads pieces -> (r = n \/ r = 0)%nat -> e = 0%nat).
  Proof.
    intros Hn. induction fuel as [|fuel IH]; intros r a acc s Hr Hrn Hp Ha Hap.
    - replace r with 0%nat by lia. exists 0%nat, (src_calls s). cbn. rewrite !Nat.add_0_r, Ha. destruct s; repeat split; lia || reflexivity.
    - cbn [readLoop]. destruct (Z.gtb_spec (Z.of_nat r) 0) as [P|P].
      + destruct (read_some n s Hn) as (k & K1 & K2 & K3 & E); [lia|]. rewrite E. cbn [obind fst snd]. rewrite bytes_length by exact K2.
        destruct (Nat.le_gt_cases k r) as [L|L].
        * replace (Z.of_nat r - Z.of_nat k) with (Z.of_nat (r - k)) by lia.
          destruct (IH (r - k)%nat a (acc ++ bytes_from (src_data s) (src_pos s) k) (mkSource (src_data s) (src_pos s + k) (S (src_calls s)))) as (e & calls & E2 & E3 & E4); cbn [src_pos src_data]; try lia.
          { rewrite Ha. replace (src_pos s + k - a)%nat with (src_pos s - a + k)%nat by lia. rewrite <- bytes_app. do 2 f_equal. lia. }
          rewrite E2. cbn [src_pos src_data]. exists e, calls. replace (src_pos s + k + (r - k) + e)%nat with (src_pos s + r + e)%nat by lia. split; [reflexivity|]. split; [exact E3|].
          intros W [->| ->]; [|lia]. apply E4; [exact W|right]. rewrite (K3 W). lia.
        * exists (k - r)%nat, (S (src_calls s)). destruct fuel; cbn [readLoop]; (destruct (Z.gtb_spec (Z.of_nat r - Z.of_nat k) 0); [lia|]).
          all: replace (Z.of_nat r - Z.of_nat k) with (- Z.of_nat (k - r)) by lia; rewrite Ha; replace (src_pos s + r + (k - r))%nat with (src_pos s + k)%nat by lia; (split; [|split; [lia|intros W [->| ->]; lia]]).
          all: do 3 f_equal; replace (src_pos s + k - a)%nat with (src_pos s - a + k)%nat by lia; rewrite <- bytes_app; do 2 f_equal; lia.
      + replace r with 0%nat by lia. exists 0%nat, (src_calls s). cbn. rewrite !Nat.add_0_r, Ha. destruct s; repeat split; lia || reflexivity.
  Qed.
  (* bytes are missing *)
  Lemma loop_short n : (1 <= n)%nat -> forall fuel r acc s, (length (src_data s) < src_pos s + r)%nat ->
    readLoop pieces fuel n (Z.of_nat r) acc s = Err \/ (length (src_data s) < src_pos s)%nat /\ r = 0%nat.
  Proof.
    intros Hn. induction fuel as [|fuel IH]; intros r acc s Hp; cbn [readLoop]; (destruct (Z.gtb_spec (Z.of_nat r) 0) as [P|P]; [|right; lia]); left; [reflexivity|].
    destruct (Nat.le_gt_cases (length (src_data s)) (src_pos s)) as [L|L]; [rewrite read_end by exact L; reflexivity|].
    destruct (read_some n s Hn L) as (k & K1 & K2 & K3 & E). rewrite E. cbn [obind fst snd]. rewrite bytes_length by exact K2.
    replace (Z.of_nat r - Z.of_nat k) with (Z.of_nat (r - k)) by lia.
    destruct (IH (r - k)%nat (acc ++ bytes_from (src_data s) (src_pos s) k) (mkSource (src_data s) (src_pos s + k) (S (src_calls s)))) as [->|(A & B)]; cbn [src_pos src_data] in *; [lia|reflexivity|lia].
  Qed.
End Lemmas.

(* C111.  ReadFullyWithOffset fills the buffer with the bytes at the offset, whatever the
   pieces in which the reader gives them.  Nothing remains, and the reader stands behind
   the bytes, if the reader gives all that is wanted. *)
Theorem C111_read_partial : forall pieces buffer a n s, Z.of_nat n <= 2 ^ 31 -> (a + n <= length (src_data s))%nat ->
  exists e calls, ReadFullyWithOffset pieces buffer (Z.of_nat a) (Z.of_nat n) s =
      Ok (- Z.of_nat e, filled buffer (bytes_from (src_data s) a n), mkSource (src_data s) (a + n + e) calls) /\
    (whole_reads pieces -> e = 0%nat).
Proof.
  intros pieces buffer a n s Hn Ha. unfold ReadFullyWithOffset, Seek. destruct (Z.ltb_spec (Z.of_nat a) 0); [lia|]. cbn [obind]. change (2 * 1024 * 1024 * 1024) with (2 ^ 31).
  destruct (Z.gtb_spec (Z.of_nat n) (2 ^ 31)); [lia|]. destruct (Z.ltb_spec (Z.of_nat n) 0); [lia|]. rewrite !Nat2Z.id.
  assert (R : exists e calls, readLoop pieces n n (Z.of_nat n) [] (mkSource (src_data s) a (src_calls s)) = Ok (- Z.of_nat e, bytes_from (src_data s) a (n + e), mkSource (src_data s) (a + n + e) calls) /\ (whole_reads pieces -> e = 0%nat)).
  { destruct n as [|n].
    - exists 0%nat, (src_calls s). cbn. rewrite !Nat.add_0_r. split; reflexivity.
    - destruct (loop_all pieces (S n) ltac:(lia) (S n) (S n) a [] (mkSource (src_data s) a (src_calls s))) as (e & calls & E & _ & W); cbn [src_pos src_data]; try lia; [rewrite Nat.sub_diag; reflexivity|].
      rewrite E. cbn [src_pos src_data]. exists e, calls. replace (a + S n + e - a)%nat with (S n + e)%nat by lia. split; [reflexivity|]. intros Hw. apply W; [exact Hw|left; reflexivity]. }
  destruct R as (e & calls & E & W). rewrite E. cbn [obind]. exists e, calls. split; [|exact W]. do 3 f_equal.
  assert (F : firstn n (bytes_from (src_data s) a (n + e)) = bytes_from (src_data s) a n) by (unfold bytes_from; rewrite firstn_firstn, Nat.min_l by lia; reflexivity). rewrite F.
  pose proof (bytes_length (src_data s) a n Ha) as L. unfold filled. destruct (Nat.le_gt_cases (length buffer) n) as [C|C].
  - rewrite Nat.min_l by lia. rewrite !skipn_all2 by lia. reflexivity.
  - rewrite Nat.min_r by lia. rewrite L, !firstn_all2 by lia. reflexivity.
Qed.
Print Assumptions C111_read_partial.
(* Finding: if bytes are missing there is an error, not the number of bytes that were not
   read, and nothing is copied. *)
Theorem C111_missing_refuted : forall pieces buffer a n s, (1 <= n)%nat -> (length (src_data s) < a + n)%nat ->
  ReadFullyWithOffset pieces buffer (Z.of_nat a) (Z.of_nat n) s = Err.
Proof.
  intros pieces buffer a n s Hn Ha. unfold ReadFullyWithOffset, Seek. destruct (Z.ltb_spec (Z.of_nat a) 0); [lia|]. cbn [obind].
  destruct (Z.of_nat n >? 2 * 1024 * 1024 * 1024); [reflexivity|]. destruct (Z.ltb_spec (Z.of_nat n) 0); [lia|]. rewrite !Nat2Z.id.
  destruct (loop_short pieces n Hn n n [] (mkSource (src_data s) a (src_calls s))) as [->|(_ & A)]; [exact Ha|reflexivity|lia].
Qed.
Print Assumptions C111_missing_refuted.
(* Finding: of a reader that gives its bytes in pieces more bytes are taken than wanted,
   and the number that remains is negative. *)
Theorem C111_pieces_refuted : forall pieces buffer a k n s, (1 <= k < n)%nat -> Z.of_nat n <= 2 ^ 31 -> (a + k + n <= length (src_data s))%nat ->
  (forall i, pieces i n = if (i =? src_calls s)%nat then k else n) ->
  exists calls, ReadFullyWithOffset pieces buffer (Z.of_nat a) (Z.of_nat n) s =
    Ok (- Z.of_nat k, filled buffer (bytes_from (src_data s) a n), mkSource (src_data s) (a + n + k) calls).
Proof.
  intros pieces buffer a k n s Hk Hn Ha HP. destruct (C111_read_partial pieces buffer a n s Hn ltac:(lia)) as (e & calls & E & _).
  enough (e = k) by (subst e; exists calls; exact E).
  revert E. unfold ReadFullyWithOffset, Seek. destruct (Z.ltb_spec (Z.of_nat a) 0); [lia|]. cbn [obind]. change (2 * 1024 * 1024 * 1024) with (2 ^ 31).
  destruct (Z.gtb_spec (Z.of_nat n) (2 ^ 31)); [lia|]. destruct (Z.ltb_spec (Z.of_nat n) 0); [lia|]. rewrite !Nat2Z.id.
  destruct n as [|[|n]]; [lia|lia|]. set (N := S (S n)) in *. change (readLoop pieces N N) with (readLoop pieces (S (S n)) N). cbn [readLoop].
  destruct (Z.gtb_spec (Z.of_nat N) 0); [|lia]. unfold Read at 1. cbn [src_data src_pos src_calls]. rewrite skipn_length.
  rewrite (Nat.min_l N) by lia. destruct (Nat.eqb_spec (length (src_data s) - a) 0); [lia|]. rewrite HP, Nat.eqb_refl. rewrite (Nat.min_l k N), Nat.max_r by lia. cbn [obind fst snd].
  rewrite firstn_length, skipn_length, Nat.min_l by lia. destruct (Z.gtb_spec (Z.of_nat N - Z.of_nat k) 0); [|lia].
  unfold Read at 1. cbn [src_data src_pos src_calls]. rewrite skipn_length, (Nat.min_l N) by lia. destruct (Nat.eqb_spec (length (src_data s) - (a + k)) 0); [lia|].
  rewrite HP. replace (S (src_calls s) =? src_calls s)%nat with false by (symmetry; apply Nat.eqb_neq; lia). rewrite Nat.min_id, Nat.max_r by lia. cbn [obind fst snd].
  rewrite firstn_length, skipn_length, Nat.min_l by lia.
  assert (R : forall acc t, readLoop pieces n N (Z.of_nat N - Z.of_nat k - Z.of_nat N) acc t = Ok (Z.of_nat N - Z.of_nat k - Z.of_nat N, acc, t)) by (intros acc t; destruct n; cbn [readLoop]; (destruct (Z.gtb_spec (Z.of_nat N - Z.of_nat k - Z.of_nat N) 0); [lia|reflexivity])).
  rewrite R. cbn [obind]. intros E. injection E. lia.
Qed.
Print Assumptions C111_pieces_refuted.
(* Finding: ReadFully reads from the start of the data, wherever the reader stands. *)
Theorem C111_position_refuted : forall pieces buffer s p, ReadFully pieces buffer (mkSource (src_data s) p (src_calls s)) = ReadFully pieces buffer s.
Proof. reflexivity. Qed.
Print Assumptions C111_position_refuted.

(* Negative offsets and lengths above 2^31 are errors, whatever the reader; a negative
   length panics. *)
Theorem C111_rejects : forall pieces buffer offset len s,
  (offset < 0 \/ 2 ^ 31 < len -> ReadFullyWithOffset pieces buffer offset len s = Err) /\
  (0 <= offset -> len < 0 -> ReadFullyWithOffset pieces buffer offset len s = Panic).
Proof.
  intros pieces buffer offset len s. unfold ReadFullyWithOffset, Seek. change (2 * 1024 * 1024 * 1024) with (2 ^ 31).
  destruct (Z.ltb_spec offset 0) as [N|N]; cbn [obind].
  - split; [reflexivity|]. intros; lia.
  - destruct (Z.gtb_spec len (2 ^ 31)) as [B|B].
    + split; [reflexivity|]. intros. change (2 ^ 31) with 2147483648 in B. lia.
    + split; [intros [A|A]; lia|]. intros _ L. destruct (Z.ltb_spec len 0); [reflexivity|lia].
Qed.
Print Assumptions C111_rejects.
Example C111_rejects_example : ReadFullyWithOffset (fun _ n => n) [0; 0] (-1) 1 (mkSource [11; 12] 0 0) = Err /\ ReadFullyWithOffset (fun _ n => n) [0; 0] 0 (-1) (mkSource [11; 12] 0 0) = Panic.
Proof. split; reflexivity. Qed.

(* what the first loop of SkipFully takes: whole pieces of sz bytes, or all there is *)
Lemma skip_loop pieces sz : whole_reads pieces -> (1 <= sz)%nat -> forall fuel r s, (1 <= r <= fuel)%nat -> (src_pos s + r <= length (src_data s))%nat ->
  exists m calls, (sz * m < r <= sz * S m)%nat /\
    let t := Nat.min (sz * S m) (length (src_data s) - src_pos s) in
    skipLoop pieces fuel sz (Z.of_nat r) s = Ok (Z.of_nat r - Z.of_nat t, mkSource (src_data s) (src_pos s + t) calls).
Proof.
  intros W Hs. induction fuel as [|fuel IH]; intros r s Hr Hp; [lia|]. cbn [skipLoop]. destruct (Z.gtb_spec (Z.of_nat r) 0); [|lia].
  destruct (read_some pieces sz s Hs) as (k & K1 & K2 & K3 & E); [lia|]. rewrite E. cbn [obind fst snd]. rewrite bytes_length by exact K2. specialize (K3 W).
  destruct (Nat.le_gt_cases r k) as [L|L].
  - exists 0%nat, (S (src_calls s)). split; [lia|]. cbv zeta. rewrite Nat.mul_1_r, <- K3. destruct fuel; cbn [skipLoop]; (destruct (Z.gtb_spec (Z.of_nat r - Z.of_nat k) 0); [lia|reflexivity]).
  - assert (KS : k = sz) by lia. clear K3. subst k. replace (Z.of_nat r - Z.of_nat sz) with (Z.of_nat (r - sz)) by lia.
    destruct (IH (r - sz)%nat (mkSource (src_data s) (src_pos s + sz) (S (src_calls s)))) as (m & calls & M & E2); cbn [src_pos src_data]; try lia.
    cbv zeta in E2. rewrite E2. cbn [src_pos src_data]. exists (S m), calls. split; [lia|]. cbv zeta.
    set (t := Nat.min (sz * S m) (length (src_data s) - (src_pos s + sz))). replace (Nat.min (sz * S (S m)) (length (src_data s) - src_pos s)) with (sz + t)%nat by (unfold t; lia).
    replace (Z.of_nat (r - sz) - Z.of_nat t) with (Z.of_nat r - Z.of_nat (sz + t)) by lia. rewrite Nat.add_assoc. reflexivity.
Qed.
Lemma one_piece sz n m : 1 <= sz -> sz * Z.of_nat m < n <= sz * (Z.of_nat m + 1) -> sz = n -> n = sz * (Z.of_nat m + 1).
Proof. intros H1 H2 ->. assert (Z.of_nat m = 0) as -> by (destruct m; [reflexivity|exfalso; nia]). lia. Qed.
(* SkipFully skips n bytes of a reader that gives all that is wanted if n is at most 10000,
   a multiple of 10000, or the number of bytes that are left. *)
Theorem C111_skip_partial : forall pieces n s, whole_reads pieces -> (src_pos s + n <= length (src_data s))%nat ->
  Z.of_nat n <= 10000 \/ Z.of_nat n mod 10000 = 0 \/ (src_pos s + n)%nat = length (src_data s) ->
  exists calls, SkipFully pieces (Z.of_nat n) s = Ok (0, mkSource (src_data s) (src_pos s + n) calls).
Proof.
  intros pieces n s W Hp Hn. unfold SkipFully. cbv zeta. set (sz := if Z.of_nat n <? 10000 then Z.of_nat n else 10000).
  destruct n as [|n']; [exists (src_calls s); cbn; rewrite Nat.add_0_r; destruct s; reflexivity|]. set (n := S n') in *.
  assert (S1 : 1 <= sz <= 10000 /\ (sz = 10000 \/ sz = Z.of_nat n)) by (unfold sz; destruct (Z.ltb_spec (Z.of_nat n) 10000); lia).
  destruct (Z.ltb_spec sz 0); [lia|]. rewrite Nat2Z.id.
  destruct (skip_loop pieces (Z.to_nat sz) W ltac:(lia) n n s ltac:(lia) Hp) as (m & calls & M & E). cbv zeta in E. rewrite E. cbn [obind].
  assert (T : Nat.min (Z.to_nat sz * S m) (length (src_data s) - src_pos s) = n).
  { assert (MZ : sz * Z.of_nat m < Z.of_nat n <= sz * (Z.of_nat m + 1)) by (rewrite <- (Z2Nat.id sz) by lia; clear - M; nia).
    enough (Q : Z.of_nat n = sz * (Z.of_nat m + 1) \/ n = (length (src_data s) - src_pos s)%nat) by (destruct Q as [Q|Q]; [assert (n = Z.to_nat sz * S m)%nat by (rewrite <- (Z2Nat.id sz) in Q by lia; clear - Q; nia)|]; lia).
    destruct Hn as [Hn|[Hn|Hn]]; [left|left|right; lia].
    - assert (SN : sz = Z.of_nat n) by (unfold sz; destruct (Z.ltb_spec (Z.of_nat n) 10000); lia). apply (one_piece sz); [lia|exact MZ|exact SN].
    - apply Z.mod_divide in Hn; [|lia]. destruct Hn as (q & Hq). destruct S1 as (S1 & [S2|S2]); [rewrite S2 in *; clear - Hq MZ; nia|apply (one_piece sz); [lia|exact MZ|exact S2]]. }
  rewrite T. rewrite Z.sub_diag. exists calls. reflexivity.
Qed.
Print Assumptions C111_skip_partial.
(* Finding: it panics for every other number of bytes that are there. *)
Theorem C111_skip_panic_refuted : forall pieces n s, whole_reads pieces -> (src_pos s + n < length (src_data s))%nat -> 10000 < Z.of_nat n -> Z.of_nat n mod 10000 <> 0 ->
  SkipFully pieces (Z.of_nat n) s = Panic.
Proof.
  intros pieces n s W Hp Hn Hm. unfold SkipFully. cbv zeta. destruct (Z.ltb_spec (Z.of_nat n) 10000); [lia|]. destruct (Z.ltb_spec 10000 0); [lia|]. rewrite Nat2Z.id.
  destruct (skip_loop pieces (Z.to_nat 10000) W ltac:(lia) n n s ltac:(lia) ltac:(lia)) as (m & calls & M & E). cbv zeta in E. rewrite E. cbn [obind]. clear E.
  set (t := Nat.min (Z.to_nat 10000 * S m) (length (src_data s) - src_pos s)).
  assert (T : (n < t)%nat).
  { assert (Z.of_nat n <> 10000 * (Z.of_nat m + 1)) by (intros Q; apply Hm; rewrite Q, Z.mul_comm; apply Z.mod_mul; lia).
    assert (n <> Z.to_nat 10000 * S m)%nat by (intros Q; apply H1; rewrite Q, Nat2Z.inj_mul, Z2Nat.id by lia; lia). unfold t. lia. }
  destruct (Z.eqb_spec (Z.of_nat n - Z.of_nat t) 0); [lia|]. replace (Z.to_nat (Z.of_nat n - Z.of_nat t)) with 0%nat by lia. cbn [skipMore]. rewrite repeat_length.
  destruct (Z.gtb_spec (Z.of_nat n - Z.of_nat t) (Z.of_nat 4096)); [lia|]. cbn [obind]. unfold ReadFullyWithOffset, Seek. cbn [Z.ltb Z.compare obind].
  destruct (Z.gtb_spec (Z.of_nat n - Z.of_nat t) (2 * 1024 * 1024 * 1024)); [lia|]. destruct (Z.ltb_spec (Z.of_nat n - Z.of_nat t) 0); [reflexivity|lia].
Qed.
Print Assumptions C111_skip_panic_refuted.
(* Finding: if bytes are missing there is an error, not the number of bytes missing. *)
Theorem C111_skip_missing_refuted : forall pieces n s, (length (src_data s) < src_pos s + n)%nat -> (1 <= n)%nat -> SkipFully pieces (Z.of_nat n) s = Err.
Proof.
  intros pieces n s Hp Hn. unfold SkipFully. cbv zeta. set (sz := if Z.of_nat n <? 10000 then Z.of_nat n else 10000).
  assert (S1 : 1 <= sz) by (unfold sz; destruct (Z.ltb_spec (Z.of_nat n) 10000); lia). destruct (Z.ltb_spec sz 0); [lia|]. rewrite Nat2Z.id.
  assert (R : forall fuel r s, (1 <= r)%nat -> (length (src_data s) < src_pos s + r)%nat -> skipLoop pieces fuel (Z.to_nat sz) (Z.of_nat r) s = Err).
  { clear - S1. induction fuel as [|fuel IH]; intros r s Hr Hp; cbn [skipLoop]; (destruct (Z.gtb_spec (Z.of_nat r) 0); [|lia]); [reflexivity|].
    destruct (Nat.le_gt_cases (length (src_data s)) (src_pos s)) as [L|L]; [rewrite read_end by exact L; reflexivity|].
    destruct (read_some pieces (Z.to_nat sz) s) as (k & K1 & K2 & K3 & E); [lia|exact L|]. rewrite E. cbn [obind fst snd]. rewrite bytes_length by exact K2.
    replace (Z.of_nat r - Z.of_nat k) with (Z.of_nat (r - k)) by lia. apply IH; cbn [src_pos src_data]; lia. }
  rewrite R by assumption. reflexivity.
Qed.
Print Assumptions C111_skip_missing_refuted.

(* Three bytes at offset 1; of a reader that gives two bytes first two bytes too many are
   taken.  Of five bytes three are skipped. *)
Definition ex_source := mkSource [11; 12; 13; 14; 15; 16] 4 0.
Definition ex_pieces (i n : nat) : nat := if (i =? 0)%nat then 2%nat else n.
Example C111_example :
  ReadFullyWithOffset (fun _ n => n) [0; 0; 0; 0] 1 3 ex_source = Ok (0, [12; 13; 14; 0], mkSource [11; 12; 13; 14; 15; 16] 4 1) /\
  ReadFullyWithOffset ex_pieces [0; 0; 0; 0] 1 3 ex_source = Ok (-2, [12; 13; 14; 0], mkSource [11; 12; 13; 14; 15; 16] 6 2) /\
  ReadFullyWithOffset ex_pieces [0; 0; 0; 0] 4 3 ex_source = Err /\
  ReadFully ex_pieces [0; 0] ex_source = Ok (0, [11; 12], mkSource [11; 12; 13; 14; 15; 16] 2 1) /\
  SkipFully (fun _ n => n) 3 (mkSource [11; 12; 13; 14; 15] 1 0) = Ok (0, mkSource [11; 12; 13; 14; 15] 4 1) /\
  SkipFully ex_pieces 3 (mkSource [11; 12; 13; 14; 15; 16] 0 0) = Panic /\
  whole_reads (fun _ n => n).
Proof. repeat split; try (vm_compute; reflexivity). Qed.
Example C111_skip_example : exists n s, whole_reads (fun _ n => n) /\ (src_pos s + n < length (src_data s))%nat /\ 10000 < Z.of_nat n /\ Z.of_nat n mod 10000 <> 0.
Proof.
  exists (Z.to_nat 10001), (mkSource (repeat 7 (Z.to_nat 20000)) 0 0). cbn [src_pos src_data]. rewrite repeat_length, Z2Nat.id by lia. split; [intros i n; apply le_n|]. split; [lia|]. split; [lia|discriminate].
Qed.
