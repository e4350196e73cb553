(* Transcription of NewHFPassWithReader, frame/HFPass.go:87-141.  Definitions
   only. *)
From Coq Require Import ZArith List Bool.
From Verif Require Import GoBase GoLoop ModelBitReader ModelUtil ModelEntropy ModelToc ModelHF ModelHFCoeff ModelHFGroup.
Import ListNotations.
Open Scope Z_scope.

Local Notation "x <o- m ;; k" := (obind m (fun x => k)) (at level 61, m at next level, right associativity).
(* :116-128, one channel of one order *)
Definition readOrder (usedOrders b : Z) (natural : list (Z * Z)) : EM (list (Z * Z)) :=
  if negb (Z.land usedOrders (Z.shiftl 1 b) =? 0) then
    perm <e- readPermutation (Z.of_nat (length natural)) (Z.of_nat (length natural) / 64) ;;
    hlift (applyPerm natural perm)
  else eret natural.
(* :108-130.  The natural order is kept in the pass (:143-146), which gives
   the same list again. *)
Fixpoint readOrders (sort : (Z * Z -> Z * Z -> Z) -> list (Z * Z) -> list (Z * Z)) (usedOrders : Z) (bs : list Z) : EM (list (list (list (Z * Z)))) :=
  match bs with
  | [] => eret []
  | b :: bs =>
      n <e- hlift (getNaturalOrder sort b) ;;
      o0 <e- readOrder usedOrders b n ;; o1 <e- readOrder usedOrders b n ;; o2 <e- readOrder usedOrders b n ;;
      r <e- readOrders sort usedOrders bs ;; eret ([o0; o1; o2] :: r)
  end.
(* the same without a stream, usedOrders = 0 *)
Fixpoint plainOrders (sort : (Z * Z -> Z * Z -> Z) -> list (Z * Z) -> list (Z * Z)) (bs : list Z) : Outcome (list (list (list (Z * Z)))) :=
  match bs with
  | [] => Ok []
  | b :: bs => n <o- getNaturalOrder sort b ;; r <o- plainOrders sort bs ;; Ok ([n; n; n] :: r)
  end.
Definition orderIDs : list Z := [0; 1; 2; 3; 4; 5; 6; 7; 8; 9; 10; 11; 12].
(* :87-141 *)
Definition NewHFPass (sort : (Z * Z -> Z * Z -> Z) -> list (Z * Z) -> list (Z * Z)) (hc : HFBlockContext) (numHFPresets : Z)
    : RM (list (list (list (Z * Z))) * ES) :=
  usedOrders <- ReadU32 95 0 19 0 0 0 0 13 ;;
  order <- (if negb (usedOrders =? 0) then
              stream <- NewEntropyStreamWithReaderAndNumDists 8 ;;
              fun s =>
                match readOrders sort usedOrders orderIDs (stream, s) with
                | (Ok o, (e, s')) => if negb (ValidateFinalState e) then (Err, s') else (Ok o, s')
                | (Err, (_, s')) => (Err, s')
                | (Panic, (_, s')) => (Panic, s')
                end
            else rlift (plainOrders sort orderIDs)) ;;
  contextStream <- NewEntropyStreamWithReaderAndNumDists (numContexts hc numHFPresets) ;;
  rret (order, contextStream).
