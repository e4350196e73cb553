(* Property theorems C37-C40: mirroring, integer helpers, slice insertion,
   deque. *)
From Coq Require Import ZArith List Bool Lia.
From Verif Require Import GoBase ModelUtil SpecUtil ProofUtil.
Import ListNotations.
Open Scope Z_scope.

(* C37.  Sizes below 2^30 (the accepted image dimensions are at most 2^30). *)
Theorem C37_mirror :
  forall n c, 1 <= n < 2 ^ 30 -> int32 c -> exists r, MirrorCoordinate c n = Ok r /\ is_mirror n c r.
Proof. exact MirrorCoordinate_ok. Qed.
Print Assumptions C37_mirror.

Theorem C37_mirror_laws :
  forall n c, 1 <= n < 2 ^ 30 -> int32 c ->
  (0 <= c < n -> MirrorCoordinate c n = Ok c) /\
  MirrorCoordinate (-1 - c) n = MirrorCoordinate c n /\
  (int32 (2 * n - 1 - c) -> MirrorCoordinate (2 * n - 1 - c) n = MirrorCoordinate c n) /\
  (int32 (c + 2 * n) -> MirrorCoordinate (c + 2 * n) n = MirrorCoordinate c n).
Proof.
  intros n c Hn Hc. destruct (MirrorCoordinate_ok n c Hn Hc) as (r & E & M).
  assert (K : forall c', int32 c' -> is_mirror n c' r -> MirrorCoordinate c' n = MirrorCoordinate c n).
  { intros c' Hc' M'. destruct (MirrorCoordinate_ok n c' Hn Hc') as (r' & E' & M'').
    rewrite E, E'. f_equal. eapply is_mirror_unique; eauto. }
  split; [|split; [|split]].
  - intros H. rewrite E. f_equal. eapply is_mirror_unique; eauto. split; [lia|]. exists 0. lia.
  - apply K; [unfold int32 in *; lia|]. now apply is_mirror_neg.
  - intros H. apply K; auto. replace (2 * n - 1 - c) with ((-1 - c) + 2 * n * 1) by lia.
    now apply is_mirror_shift, is_mirror_neg.
  - intros H. apply K; auto. replace (c + 2 * n) with (c + 2 * n * 1) by lia. now apply is_mirror_shift.
Qed.
Print Assumptions C37_mirror_laws.

Example C37_example :
  map (fun c => MirrorCoordinate c 3) [-7; -4; -3; -1; 0; 2; 3; 5; 6; 17] =
  map (@Ok Z) [0; 2; 2; 0; 0; 2; 2; 0; 0; 0] /\ is_mirror 3 (-7) 0.
Proof. split; [reflexivity|]. split; [lia|]. exists (-1). lia. Qed.

(* C38: logarithms and clamps for every argument. *)
Theorem C38_logs :
  (forall x, 0 <= x < 2 ^ 64 -> is_ceil_log2 (x + 1) (CeilLog1p x)) /\
  (forall x, 0 <= x < 2 ^ 64 -> is_floor_log2 (x + 1) (FloorLog1pUint64 x)) /\
  (forall x, 0 <= x < 2 ^ 63 -> is_floor_log2 (x + 1) (FloorLog1p_i64 x)) /\
  (forall x, 1 <= x < 2 ^ 32 -> is_ceil_log2 x (CeilLog2_u32 x)) /\
  (forall x, 1 <= x < 2 ^ 63 -> is_ceil_log2 x (CeilLog2_i64 x)).
Proof.
  exact (conj CeilLog1p_ok (conj FloorLog1pUint64_ok (conj FloorLog1p_i64_ok
          (conj CeilLog2_u32_ok CeilLog2_i64_ok)))).
Qed.
Print Assumptions C38_logs.

Theorem C38_clamps :
  (forall v a b, Clamp3 v a b = Z.max (Z.min a b) (Z.min (Z.max a b) v)) /\
  (forall v a b c, Clamp v a b c = Z.max (Z.min (Z.min a b) c) (Z.min (Z.max (Z.max a b) c) v)).
Proof. split; [exact Clamp3_ok|exact Clamp_ok]. Qed.
Print Assumptions C38_clamps.

(* Missing from the full claim: numerator 0 (refuted below). *)
Theorem C38_ceil_div_partial :
  forall n d, 1 <= n < 2 ^ 32 -> 1 <= d < 2 ^ 32 ->
  exists q, CeilDiv n d = Ok q /\ is_ceil_div n d q /\ 1 <= q <= n.
Proof. exact CeilDiv_ok. Qed.
Print Assumptions C38_ceil_div_partial.

(* Finding: the ceiling of 0/128 is returned as 2^25. *)
Theorem C38_ceil_div_refuted :
  exists d q, 1 <= d < 2 ^ 32 /\ CeilDiv 0 d = Ok q /\ ~ is_ceil_div 0 d q.
Proof. exists 128, (2 ^ 25). split; [lia|]. split; [reflexivity|]. unfold is_ceil_div. lia. Qed.
Print Assumptions C38_ceil_div_refuted.

Example C38_example :
  CeilLog1p 8 = 4 /\ FloorLog1pUint64 7 = 3 /\ FloorLog1p_i64 8 = 3 /\ CeilLog2_u32 9 = 4 /\
  CeilDiv 257 128 = Ok 3 /\ Clamp3 (-7) 5 (-3) = -3 /\ Clamp 100 1 (-5) 9 = 9.
Proof. repeat split. Qed.

(* C39.  AddToSlice, whatever the spare capacity of the backing array. *)
Theorem C39_insert_partial :
  forall (A : Type) pad (s : GoSlice A) p item, (sl_off s + sl_len s <= length (sl_arr s))%nat ->
  (p <= length (contents s))%nat ->
  exists s', AddToSlice pad s (Z.of_nat p) item = Ok s' /\
    contents s' = firstn p (contents s) ++ item :: skipn p (contents s).
Proof.
  intros A pad s p item Hs Hp. rewrite (contents_length s Hs) in Hp.
  destruct (AddToSlice_ok pad s p item Hs Hp) as (s' & H & _ & E). eauto.
Qed.
Print Assumptions C39_insert_partial.

(* Finding: the generic Add, used when inserting palette channels, loses the
   element at the insertion point unless it inserts at the end. *)
Theorem C39_add_refuted :
  forall (A : Type) pad1 pad2 (s : GoSlice A) p item,
  (sl_off s + sl_len s <= length (sl_arr s))%nat -> (p < length (contents s))%nat ->
  exists s', Add pad1 pad2 s p item = Ok s' /\
    contents s' = firstn p (contents s) ++ item :: item :: skipn (S p) (contents s).
Proof.
  intros A pad1 pad2 s p item Hs Hp. rewrite (contents_length s Hs) in Hp.
  destruct (Add_ok pad1 pad2 s p item Hs ltac:(lia)) as (s' & H & E). exists s'. split; auto.
  rewrite E. destruct (Nat.eqb_spec p (sl_len s)); [lia|reflexivity].
Qed.
Print Assumptions C39_add_refuted.

Theorem C39_add_at_end_partial :
  forall (A : Type) pad1 pad2 (s : GoSlice A) item,
  (sl_off s + sl_len s <= length (sl_arr s))%nat ->
  exists s', Add pad1 pad2 s (sl_len s) item = Ok s' /\ contents s' = contents s ++ [item].
Proof.
  intros A pad1 pad2 s item Hs.
  destruct (Add_ok pad1 pad2 s (sl_len s) item Hs ltac:(lia)) as (s' & H & E). exists s'. split; auto.
  rewrite E, Nat.eqb_refl. now rewrite <- (contents_length s Hs), firstn_all.
Qed.
Print Assumptions C39_add_at_end_partial.

Example C39_example :
  let s := mkSlice [7; 1; 2; 3; 9] 1 3 in contents s = [1; 2; 3] /\
  omap contents (AddToSlice [] s 1 5) = Ok [1; 5; 2; 3] /\
  omap contents (Add [] [] s 1 5) = Ok [1; 5; 5; 3].
Proof. repeat split. Qed.

(* C40: every history of the deque is a history of the reference queue. *)
Theorem C40_deque :
  forall (A : Type) pads (os : list (dq_op A)), dq_run pads 0 NewDeque os = dq_spec_run [] os.
Proof. intros A pads os. exact (dq_run_ok pads os 0 NewDeque (le_n 0)). Qed.
Print Assumptions C40_deque.

Example C40_example :
  dq_run (fun n => repeat 0 n) 0 NewDeque
    [PushBack 1; PushFront 2; PushBack 3; PopFront; PopBack; TestEmpty; PopBack; PopFront; TestEmpty] =
  [ONone; ONone; ONone; OPop (Some 2); OPop (Some 3); OEmpty false; OPop (Some 1); OPop None; OEmpty true].
Proof. reflexivity. Qed.
