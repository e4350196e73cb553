(* Transcription of the parallel parts of frame/Frame.go: splitting rows among
   workers, the queue of pass groups, groups limited by a semaphore, and what
   decodePassGroupsConcurrent returns.

   A float32 is represented by its bit pattern, a Z; the float operations are
   parameters, so nothing is assumed about them.  Goroutines are modelled as
   sequences of atomic steps that may be interleaved in any way. *)
From Coq Require Import ZArith List Bool.
From Verif Require Import GoBase GoLoop GoMatrix.
Import ListNotations.
Open Scope Z_scope.

(* ---- rows per worker ---- *)
(* frame/Frame.go:1048-1068 and 1365-1385: the ranges [startY, endY) given to
   workers 0, 1, ...; int32 arithmetic.  The loop stops at the first range
   that starts behind the last row. *)
Fixpoint ranges32 (n : nat) (w rows height : Z) : list (Z * Z) :=
  match n with
  | O => []
  | S n' =>
      let startY := i32 (i32 w * rows) in
      let endY := i32 (startY + rows) in
      let endY := if height <? endY then height else endY in
      if height <=? startY then [] else (startY, endY) :: ranges32 n' (w + 1) rows height
  end.
Definition splitRows (maxGoroutines height : Z) : Outcome (list (Z * Z)) :=
  let numWorkers := if maxGoroutines <? 1 then 1 else maxGoroutines in
  if i32 numWorkers =? 0 then Panic   (* division by zero *)
  else
    let rowsPerWorker := i32 (Z.quot (i32 (height + i32 numWorkers - 1)) (i32 numWorkers)) in
    Ok (ranges32 (Z.to_nat numWorkers) 0 rowsPerWorker height).
(* frame/Frame.go:1496-1516: the same in upsampling, int arithmetic *)
Fixpoint ranges64 (n : nat) (w rows height : Z) : list (Z * Z) :=
  match n with
  | O => []
  | S n' =>
      let start := i64 (w * rows) in
      let end_ := i64 (start + rows) in
      if height <=? start then []
      else (start, if height <? end_ then height else end_) :: ranges64 n' (w + 1) rows height
  end.
Definition splitRowsUp (maxGoroutines rows : Z) : list (Z * Z) :=
  let n := if maxGoroutines <? 1 then 1 else maxGoroutines in
  ranges64 (Z.to_nat n) 0 (Z.quot (i64 (rows + n - 1)) n) rows.

(* ---- one worker ---- *)
(* The atomic steps of a worker on rows [startY, endY): the cells it writes,
   in order (frame/Frame.go:1008-1045 and 1168-1361). *)
Definition zseq (a b : Z) : list Z := map (fun i => a + Z.of_nat i) (seq 0 (Z.to_nat (b - a))).
Definition worker (width : Z) (r : Z * Z) : list (Z * Z) :=
  flat_map (fun y => map (fun x => (y, x)) (zseq 0 width)) (zseq (fst r) (snd r)).
(* Executing steps: cell (y, x) gets the value computed from the read-only
   input. *)
Fixpoint execSteps (val : Z -> Z -> Outcome Z) (steps : list (Z * Z)) (out : list (list Z)) : Outcome (list (list Z)) :=
  match steps with
  | [] => Ok out
  | (y, x) :: t => obind (val y x) (fun v => obind (set2 out y x v) (fun out => execSteps val t out))
  end.

(* frame/Frame.go:1010-1043, one pixel of the Gaborish filter; in is buffC *)
Local Notation "x <o- m ;; k" := (obind m (fun x => k)) (at level 61, m at next level, right associativity).
Section gab.
  Context {F : Type} (fadd fmul : F -> F -> F) (base adj diag : F).
  Definition gabPixel (inp : list (list F)) (height width y x : Z) : Outcome F :=
    let north := if y =? 0 then 0 else i32 (y - 1) in
    let south := if i32 (y + 1) =? height then i32 (height - 1) else i32 (y + 1) in
    buffR <o- slice_get inp y ;; buffN <o- slice_get inp north ;; buffS <o- slice_get inp south ;;
    let west := if x =? 0 then 0 else i32 (x - 1) in
    let east := if i32 (x + 1) =? width then i32 (width - 1) else i32 (x + 1) in
    rw <o- slice_get buffR west ;; re <o- slice_get buffR east ;; n <o- slice_get buffN x ;; s <o- slice_get buffS x ;;
    nw <o- slice_get buffN west ;; ne <o- slice_get buffN east ;; sw <o- slice_get buffS west ;; se <o- slice_get buffS east ;;
    c <o- slice_get buffR x ;;
    let a := fadd (fadd (fadd rw re) n) s in
    let d := fadd (fadd (fadd nw ne) sw) se in
    Ok (fadd (fadd (fmul base c) (fmul adj a)) (fmul diag d)).
End gab.

(* ---- the queue of pass groups ---- *)
(* frame/Frame.go:732-762 with startWorker (:681-688): a buffered channel is
   filled with all (pass, group) pairs and closed; each worker takes items
   until the channel is empty. *)
Definition workItems (numPasses numGroups : nat) : list (nat * nat) :=
  flat_map (fun p => map (fun g => (p, g)) (seq 0 numGroups)) (seq 0 numPasses).
Inductive WState := Idle | Busy (item : nat * nat) | Exited.
Record QState := mkQ { q_queue : list (nat * nat); q_workers : list WState; q_handled : list (nat * nat) }.
Definition q_init (numPasses numGroups workers : nat) : QState :=
  mkQ (workItems numPasses numGroups) (repeat Idle workers) [].
(* a step of worker i *)
Inductive qstep : QState -> QState -> Prop :=
| q_take i a q ws h : nth_error ws i = Some Idle -> qstep (mkQ (a :: q) ws h) (mkQ q (list_set ws i (Busy a)) h)
| q_finish i a q ws h : nth_error ws i = Some (Busy a) -> qstep (mkQ q ws h) (mkQ q (list_set ws i Idle) (h ++ [a]))
| q_exit i ws h : nth_error ws i = Some Idle -> qstep (mkQ [] ws h) (mkQ [] (list_set ws i Exited) h).

(* ---- groups limited by a semaphore ---- *)
(* frame/Frame.go:578-634 (decodeLFGroups: the main loop takes the semaphore
   before it starts a goroutine) and :799-827 (invertVarDCT: every goroutine
   takes it).  fails says which groups return an error.  errChan has capacity
   numGroups: a send on a full channel blocks. *)
Inductive GState := Waiting | Running | Finished.
Record SState := mkS { s_spawned : nat; s_groups : list GState; s_sem : nat; s_errs : list nat }.
Section semaphore.
  Context (inMain : bool) (fails : nat -> bool) (n cap : nat).
  Definition s_init : SState := mkS 0 [] 0 [].
  Inductive sstep : SState -> SState -> Prop :=
  | s_spawn_main k gs m es : inMain = true -> (k < n)%nat -> (m < cap)%nat ->
      sstep (mkS k gs m es) (mkS (S k) (gs ++ [Running]) (S m) es)
  | s_spawn k gs m es : inMain = false -> (k < n)%nat ->
      sstep (mkS k gs m es) (mkS (S k) (gs ++ [Waiting]) m es)
  | s_acquire i k gs m es : nth_error gs i = Some Waiting -> (m < cap)%nat ->
      sstep (mkS k gs m es) (mkS k (list_set gs i Running) (S m) es)
  | s_ok i k gs m es : nth_error gs i = Some Running -> fails i = false ->
      sstep (mkS k gs m es) (mkS k (list_set gs i Finished) (pred m) es)
  | s_err i k gs m es : nth_error gs i = Some Running -> fails i = true -> (length es < n)%nat ->
      sstep (mkS k gs m es) (mkS k (list_set gs i Finished) (pred m) (es ++ [i])).
  (* wg.Wait() returns *)
  Definition s_done (s : SState) : Prop := s_spawned s = n /\ Forall (fun g => g = Finished) (s_groups s).
  (* :631-634 and :823-826: what is returned after the wait *)
  Definition s_result (s : SState) : Outcome unit := match s_errs s with [] => Ok tt | _ => Err end.
End semaphore.

(* ---- decodePassGroupsConcurrent, frame/Frame.go:727-838 ---- *)
(* proc p g is the outcome of doProcessing, replaced p the number of replaced
   channels of pass p, inverse p g the outcome of invertVarDCT on a decoded
   group.  A group whose doProcessing failed keeps the zero PassGroup: using
   its modularStream or frame is a nil dereference.  invertVarDCT panics when
   there is a previous pass (PassGroup.go:111-113). *)
Definition allOk {A} (f : A -> Outcome unit) (l : list A) : Outcome unit :=
  fold_right (fun a r => obind (f a) (fun _ => r)) (Ok tt) l.
Definition anyPanic (l : list (Outcome unit)) : bool := existsb (fun o => match o with Panic => true | _ => false end) l.
Definition anyErr (l : list (Outcome unit)) : bool := existsb (fun o => match o with Err => true | _ => false end) l.
Section passGroups.
  Context (vardct : bool) (numPasses numGroups : nat) (replaced : nat -> nat) (proc inverse : nat -> nat -> Outcome unit).
  Definition nilUse (p g : nat) : Outcome unit := match proc p g with Ok _ => Ok tt | _ => Panic end.
  Definition copyReplaced : Outcome unit :=
    allOk (fun p => allOk (fun _ => allOk (fun g => nilUse p g) (seq 0 numGroups)) (seq 0 (replaced p))) (seq 0 numPasses).
  Definition invertOne (p g : nat) : Outcome unit :=
    match proc p g with Ok _ => if (0 <? p)%nat then Panic else inverse p g | _ => Panic end.
  Definition invertPass (p : nat) : Outcome unit :=
    let r := map (invertOne p) (seq 0 numGroups) in
    if anyPanic r then Panic else if anyErr r then Err else Ok tt.
  Definition decodePassGroups : Outcome unit :=
    if anyPanic (map (fun i => proc (fst i) (snd i)) (workItems numPasses numGroups)) then Panic
    else obind copyReplaced (fun _ =>
         if vardct then allOk invertPass (seq 0 numPasses) else Ok tt).
End passGroups.
