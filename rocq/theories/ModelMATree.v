(* Transcription of frame/MATree.go.  Nodes are kept in the order of the
   slice `nodes`; child pointers are the indices the code stores in
   leftChildIndex and rightChildIndex before it links the nodes (:113-121). *)
From Coq Require Import ZArith List Bool.
From Verif Require Import GoBase ModelBitReader ModelUtil ModelEntropy.
Import ListNotations.
Open Scope Z_scope.

(* frame/MATree.go:10-23.  parent and stream (the same for all nodes) are not
   fields here. *)
Record Node := mkNode {
  n_property : Z; n_context : Z; n_value : Z; n_left : Z; n_right : Z;
  n_predictor : Z; n_offset : Z; n_multiplier : Z }.

(* :125-127 *)
Definition isLeaf (n : Node) : bool := n_property n <? 0.

(* :38-103, the loop reading the nodes.  The fuel is never exhausted: the
   code stops with an error at more than 2^20 nodes. *)
Fixpoint treeLoop (fuel : nat) (nodes : list Node) (nodesRemaining contextId : Z) : EM (list Node) :=
  match fuel with
  | O => epanic
  | S f =>
      if 0 <? nodesRemaining then
        let nodesRemaining := nodesRemaining - 1 in
        if 2 ^ 20 <? Z.of_nat (length nodes) then eerr
        else
          p <e- ReadSymbol 1 ;;
          let property := i32 (p - 1) in
          if 0 <=? property then
            v <e- TryReadSymbol 0 ;;
            let leftChild := Z.of_nat (length nodes) + nodesRemaining + 1 in
            treeLoop f (nodes ++ [mkNode property 0 (UnpackSigned (u32 v)) (i32 leftChild) (i32 (i32 leftChild + 1)) (-1) 0 0])
                     (nodesRemaining + 2) contextId
          else
            predictor <e- ReadSymbol 2 ;;
            if 13 <? predictor then eerr
            else
              o <e- TryReadSymbol 3 ;;
              mulLog <e- ReadSymbol 4 ;;
              if 30 <? mulLog then eerr
              else
                mulBits <e- ReadSymbol 5 ;;
                (* the shift count is an int32: a negative one panics *)
                if i32 (31 - mulLog) <? 0 then epanic
                else if i32 (shl32 1 (i32 (31 - mulLog)) - 2) <? mulBits then eerr
                else
                  treeLoop f (nodes ++ [mkNode (-1) contextId 0 0 0 predictor (UnpackSigned (u32 o)) (shl32 (i32 (mulBits + 1)) (u64 mulLog))])
                           nodesRemaining (i32 (contextId + 1))
      else eret nodes
  end.

(* :113-121: linking indexes the slice for the children of inner nodes *)
Definition linkNodes (nodes : list Node) : Outcome unit :=
  fold_right (fun n r => if isLeaf n then r
                         else obind (slice_get nodes (n_left n)) (fun _ => obind (slice_get nodes (n_right n)) (fun _ => r)))
             (Ok tt) nodes.

(* :25-123, NewMATreeWithReader: the nodes, the root first, and the stream of
   the tree *)
Definition treeFuel : nat := Z.to_nat (2 ^ 20 + 3).
Definition NewMATreeWithFuel (fuel : nat) : RM (list Node * ES) :=
  stream <- NewEntropyStreamWithReaderAndNumDists 6 ;;
  fun s =>
    match treeLoop fuel [] 1 0 (stream, s) with
    | (Ok nodes, (es, s1)) =>
        if negb (ValidateFinalState es) then (Err, s1)
        else (stream <- NewEntropyStreamWithReader (Z.quot (Z.of_nat (length nodes) + 1) 2) false ;;
              _ <- rlift (linkNodes nodes) ;;
              rret (nodes, stream)) s1
    | (Err, (_, s1)) => (Err, s1)
    | (Panic, (_, s1)) => (Panic, s1)
    end.
Definition NewMATreeWithReader : RM (list Node * ES) := NewMATreeWithFuel treeFuel.

(* :182-197, walk; prop is the walker function.  The result is the index of
   the node found. *)
Fixpoint walk (fuel : nat) (nodes : list Node) (t : Z) (prop : Z -> Outcome Z) : Outcome Z :=
  match fuel with
  | O => Panic
  | S f =>
      obind (slice_get nodes t) (fun n =>
      if isLeaf n then Ok t
      else obind (prop (n_property n)) (fun value =>
           if n_value n <? value then walk f nodes (n_left n) prop
           else walk f nodes (n_right n) prop))
  end.

(* :151-170, compactify *)
Fixpoint compactify (fuel : nat) (nodes : list Node) (t channelIndex streamIndex : Z) : Outcome Z :=
  match fuel with
  | O => Panic
  | S f =>
      obind (slice_get nodes t) (fun n =>
      let next prop := compactify f nodes (if n_value n <? prop then n_left n else n_right n) channelIndex streamIndex in
      if n_property n =? 0 then next channelIndex
      else if n_property n =? 1 then next streamIndex
      else Ok t)
  end.

(* :129-149, compactifyWithY *)
Fixpoint compactifyWithY (fuel : nat) (nodes : list Node) (t channelIndex streamIndex y : Z) : Outcome Z :=
  match fuel with
  | O => Panic
  | S f =>
      obind (slice_get nodes t) (fun n =>
      let next prop := compactifyWithY f nodes (if n_value n <? prop then n_left n else n_right n) channelIndex streamIndex y in
      if n_property n =? 0 then next channelIndex
      else if n_property n =? 1 then next streamIndex
      else if n_property n =? 2 then next y
      else Ok t)
  end.

(* :172-180, useWeightedPredictor *)
Fixpoint useWeightedPredictor (fuel : nat) (nodes : list Node) (t : Z) : Outcome bool :=
  match fuel with
  | O => Panic
  | S f =>
      obind (slice_get nodes t) (fun n =>
      if isLeaf n then Ok (n_predictor n =? 6)
      else if n_property n =? 15 then Ok true
      else obind (useWeightedPredictor f nodes (n_left n)) (fun b =>
           if b : bool then Ok true else useWeightedPredictor f nodes (n_right n)))
  end.
