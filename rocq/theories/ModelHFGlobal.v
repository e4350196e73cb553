(* Parameters of the HF weights: frame/HFGlobal.go:221-254 and 300-441,
   frame/transformtype.go:149-164.

   The modular stream of raw tables (ModelModStream.v) and the check of the
   generated weights (generateWeights of ModelHFWeights.v) are arguments.
   Raw samples are kept as matrices; their copy
   into one row per channel is left out.  Products with 64 are exact for
   half-precision numbers. *)
From Coq Require Import ZArith List Bool.
From Verif Require Import GoBase GoLoop ModelUtil ModelBitReader ModelHeader ModelEntropy.
Import ListNotations.
Open Scope Z_scope.

Definition times64 (f : F32) : F32 := mkF32 (f_neg f) (f_mant f) (f_exp f + 6).
(* the parameters of a table: the library's, given ones (mode, dctParam,
   param, params4x4), or raw ones (denominator, samples of three channels) *)
Inductive TableParams :=
| PLibrary
| PGiven (mode : Z) (dctParam param params4x4 : list (list F32))
| PRaw (denominator : F32) (samples : list (list (list Z))).

(* transformtype.go:149-164 *)
Definition validateIndex (index mode : Z) : bool :=
  if (mode <? 0) || (7 <? mode) then false
  else if (mode =? 0) || (mode =? 6) || (mode =? 7) then true
  else ((0 <=? index) && (index <=? 3)) || (index =? 9) || (index =? 10).
(* HFGlobal.go:434-438: the first value of a channel is multiplied *)
Definition scaleFirst (l : list F32) : list F32 := match l with [] => [] | f :: r => times64 f :: r end.
(* :420-441 *)
Definition readDCTParams : RM (list (list F32)) :=
  n <- ReadBits 4 ;;
  rrepeat 3 (l <- readF16List (Z.to_nat (n + 1)) ;; rret (scaleFirst l)).
(* :314-322, a matrix of three rows with all values multiplied *)
Definition readScaled (n : nat) : RM (list (list F32)) := rrepeat 3 (l <- readF16List n ;; rret (map times64 l)).
(* :392-404, the first six *)
Definition scaleSix (l : list F32) : list F32 := map times64 (firstn 6 l) ++ skipn 6 l.
(* :300-418 *)
Definition setupDCTParam (raw : Z -> RM (list (list (list Z)))) (index : Z) : RM TableParams :=
  mode <- ReadBits 3 ;;
  if negb (validateIndex index (i32 mode)) then rerr
  else match mode with
  | 0 => rret PLibrary
  | 1 => m <- readScaled 3 ;; rret (PGiven 1 [] m [])
  | 2 => m <- readScaled 6 ;; rret (PGiven 2 [] m [])
  | 3 => m <- readScaled 2 ;; d <- readDCTParams ;; rret (PGiven 3 d m [])
  | 6 => d <- readDCTParams ;; rret (PGiven 6 d [] [])
  | 7 => den <- ReadF16 ;; s <- raw index ;; rret (PRaw den s)
  | 5 => m <- rrepeat 3 (l <- readF16List 9 ;; rret (scaleSix l)) ;; d <- readDCTParams ;; f <- readDCTParams ;; rret (PGiven 5 d m f)
  | _ => rerr
  end.
(* :227-235: the tables from index i on *)
Fixpoint setupAll (raw : Z -> RM (list (list (list Z)))) (n : nat) (i : Z) : RM (list TableParams) :=
  match n with O => rret [] | S n' => a <- setupDCTParam raw i ;; r <- setupAll raw n' (i + 1) ;; rret (a :: r) end.
(* :221-254 *)
Definition readHFGlobal (raw : Z -> RM (list (list (list Z)))) (weightsOk : list TableParams -> bool) (numGroups : Z) : RM (list TableParams * Z) :=
  quantAllDefault <- ReadBool ;;
  ps <- (if quantAllDefault : bool then rret (repeat PLibrary 17) else setupAll raw 17 0) ;;
  if negb (weightsOk ps) then rerr
  else
    n <- ReadBits (u32 (CeilLog1p (u32 (numGroups - 1)))) ;;
    rret (ps, i32 (1 + i32 n)).
