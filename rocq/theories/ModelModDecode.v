(* Transcription of the construction and decoding of whole modular streams:
   frame/ModularStream.go.  Definitions only. *)
From Coq Require Import ZArith List Bool.
From Verif Require Import GoBase GoLoop GoMatrix ModelBitReader ModelEntropy ModelMATree ModelModular ModelModStream.
Import ListNotations.
Open Scope Z_scope.

(* :161-178.  The map from transforms to their squeezes is paired with the
   list of transforms; the tree is its nodes; frame and streamIndex are
   parameters.  A stream without channels has no entropy stream. *)
Record MStream := mkMS {
  ms_wp : WPParams; ms_transforms : list (TransformInfo * list SqueezeParam); ms_nbMeta : Z; ms_channels : list Chan;
  ms_tree : list Node; ms_stream : option ES; ms_distMultiplier : Z }.

(* :353-359 *)
Definition maxWidth (chs : list Chan) : Z := fold_left (fun m c => if m <? c_width c then c_width c else m) chs 0.
(* :188-361.  channels are those given, or those of :221-231; global is the
   tree of the frame with its stream, None if it is nil *)
Definition NewModularStream (global : option (list Node * ES)) (channels : list Chan) : RM MStream :=
  match channels with
  | [] => rret (mkMS (mkWP 0 0 0 0 0 0 0 []) [] 0 [] [] None 1)
  | _ =>
      hd <- readModularHeader ;;
      let '(useGlobalTree, wp, l) := hd in
      m <- rlift (metaTransforms l (0, channels)) ;;
      let '((nbMeta, chs), sq) := m in
      t <- (if useGlobalTree : bool then match global with Some t => rret t | None => rpanic end else NewMATreeWithReader) ;;
      rret (mkMS wp (combine l sq) nbMeta chs (fst t) (Some (NewEntropyStreamWithStream (snd t))) (i32 (maxWidth chs)))
  end.

(* :371-382; done are the channels before todo *)
Fixpoint decodeLoop (wp : WPParams) (nodes : list Node) (partial : bool) (groupDim nbMeta streamIndex dm : Z) (done todo : list Chan) : EM (list Chan) :=
  match todo with
  | [] => eret done
  | c :: t =>
      let i := Z.of_nat (length done) in
      if partial && (nbMeta <=? i) && ((groupDim <? c_width c) || (groupDim <? c_height c)) then eret (done ++ todo)
      else c' <e- decode wp nodes c (rev done) (i32 i) (i32 streamIndex) dm ;;
           decodeLoop wp nodes partial groupDim nbMeta streamIndex dm (done ++ [c']) t
  end.
(* :369-395; the channels afterwards.  Without an entropy stream there are no
   channels and no transforms. *)
Definition decodeChannels (bitDepth groupDim streamIndex : Z) (partial : bool) (ms : MStream) : RM (list Chan) := fun s =>
  match ms_stream ms with
  | None => (Ok (ms_channels ms), s)
  | Some e =>
      let '(r, (e', s')) := decodeLoop (ms_wp ms) (ms_tree ms) partial (u32 groupDim) (ms_nbMeta ms) streamIndex (ms_distMultiplier ms) [] (ms_channels ms) (e, s) in
      match r with
      | Ok chs =>
          if negb (ValidateFinalState e') then (Err, s')
          else if partial then (Ok chs, s') else (applyTransforms bitDepth (ms_transforms ms) chs, s')
      | Err => (Err, s')
      | Panic => (Panic, s')
      end
  end.
(* As in LFGroup.go:43-49, PassGroup.go:92-98, hfmetadata.go:40-44 and
   lfcoefficients.go:66-71: all of a stream *)
Definition decodeModular (global : option (list Node * ES)) (bitDepth groupDim streamIndex : Z) (channels : list Chan) : RM (list Chan) :=
  ms <- NewModularStream global channels ;; decodeChannels bitDepth groupDim streamIndex false ms.
