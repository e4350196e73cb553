(* Transcription of the decoding of a modular frame up to its integer samples:
   frame/LFGlobal.go, LFGroup.go, Pass.go, PassGroup.go and Frame.go:324-460
   with Encoding == MODULAR and without XYB.

   Simplifications:
   - the goroutines of the groups are run one after the other: they use
     different readers if there are several sections, and there is one group
     and one pass if there is only one (see C36 to C38);
   - the padding of buffers for subsampled colour (jpegUpsampling) is 0. *)
From Coq Require Import ZArith List Bool.
From Verif Require Import GoBase GoLoop GoMatrix ModelBitReader ModelUtil ModelHeader ModelFrameHeader ModelEntropy ModelMATree ModelModular ModelModStream ModelModDecode.
From Verif Require Import ModelGroups ModelSections ModelImage ModelHF ModelLF.
Import ListNotations.
Open Scope Z_scope.


(* What the frame takes from the image and frame headers *)
Record MF := mkMF {
  mf_geo : Geo; mf_flags : Z; mf_depth : Z; mf_passes : Passes; mf_ycbcr : bool; mf_gray : bool;
  mf_dimShifts : list Z;     (* DimShift of the extra channels *)
  mf_floats : list bool }.   (* per buffer: ExpBits != 0 *)

(* ---- sections ---- *)
(* Frame.go:304-314 *)
Definition getBitreader (rs : list BR) (index : Z) : Outcome (Z * BR) :=
  let i := if (length rs <=? 1)%nat then 0 else u32 index in
  s <o- slice_get rs i ;; Ok (i, s).
Definition onSection {A} (index : Z) (m : RM A) (rs : list BR) : Outcome A * list BR :=
  match getBitreader rs index with
  | Ok (i, s) => let '(r, s') := m s in (r, list_set rs (Z.to_nat i) s')
  | _ => (Panic, rs)
  end.
(* all groups, each with its outcome *)
Fixpoint forGroups {A} (f : nat -> list BR -> Outcome A * list BR) (l : list nat) (rs : list BR) : list (Outcome A) * list BR :=
  match l with
  | [] => ([], rs)
  | g :: t => let '(r, rs) := f g rs in let '(l, rs) := forGroups f t rs in (r :: l, rs)
  end.
(* Frame.go:638-641: a panic ends the program, an error the decoding *)
Fixpoint allGroups {A} (l : list (Outcome A)) : Outcome (list A) :=
  match l with
  | [] => Ok []
  | r :: t =>
      match r, allGroups t with
      | Panic, _ | _, Panic => Panic
      | Err, _ | _, Err => Err
      | Ok a, Ok l => Ok (a :: l)
      end
  end.

(* ---- origins ---- *)
(* The field origin (Y, X) of the channels, next to the lists of channels of
   ModelModStream.v; channels made by NewModularChannelWithAllParams have the
   origin (0, 0).  Indices that are out of range panic there. *)
Definition removeFrom {A} (l : list A) (pos n : nat) : list A := firstn pos l ++ skipn (pos + n) l.
Definition insertInto {A} (l : list A) (pos : nat) (items : list A) : list A := firstn pos l ++ items ++ skipn pos l.
(* ModularStream.go:247-258, 296-331 *)
Definition metaOrigins (t : TransformInfo) (sq : list SqueezeParam) (os : list (Z * Z)) : list (Z * Z) :=
  if ti_tr t =? PALETTE then (0, 0) :: removeFrom os (Z.to_nat (ti_beginC t + 1)) (Z.to_nat (ti_numC t - 1))
  else if ti_tr t =? SQUEEZE then
    fold_left (fun os p =>
      insertInto os (if sp_inPlace p then Z.to_nat (sp_beginC p + sp_numC p) else length os) (repeat (0, 0) (Z.to_nat (sp_numC p)))) sq os
  else os.
(* ModularStream.go:405-441, 449-451 with 512-514, 520-529 with 575 *)
Definition applyOrigins (t : TransformInfo) (sq : list SqueezeParam) (os : list (Z * Z)) : list (Z * Z) :=
  if ti_tr t =? SQUEEZE then
    fold_right (fun p os =>
      let n := Z.to_nat (sp_numC p) in
      let offset := if sp_inPlace p then Z.to_nat (sp_beginC p + sp_numC p) else (length os - n)%nat in
      let os := firstn (Z.to_nat (sp_beginC p)) os ++ repeat (0, 0) n ++ skipn (Z.to_nat (sp_beginC p) + n) os in
      removeFrom os offset n) os sq
  else if ti_tr t =? RCT then
    let start := Z.to_nat (ti_beginC t) in
    let lut := nth (Z.to_nat (Z.quot (ti_rctType t) 7)) permutationLUT [] in
    fold_left (fun l j => list_set l (start + Z.to_nat (nth j lut 0)) (nth (start + j) os (0, 0))) [0%nat; 1%nat; 2%nat] os
  else if ti_tr t =? PALETTE then skipn 1 (insertInto os (Z.to_nat (ti_beginC t + 2)) (repeat (0, 0) (Z.to_nat (ti_numC t - 1))))
  else os.
Fixpoint originsAfter (l : list (TransformInfo * list SqueezeParam)) (os : list (Z * Z)) : list (Z * Z) :=
  match l with [] => os | (t, sq) :: l' => applyOrigins t sq (originsAfter l' (metaOrigins t sq os)) end.

(* A stream of channels with origins: LFGroup.go:43-49 and PassGroup.go:92-100 *)
Definition groupStream (global : option (list Node * ES)) (f : MF) (streamIndex : Z) (replaced : list ((Z * Z) * Chan)) : RM (list ((Z * Z) * Chan)) :=
  ms <- NewModularStream global (map snd replaced) ;;
  chs <- decodeChannels (mf_depth f) (g_dim (mf_geo f)) streamIndex false ms ;;
  rret (combine (originsAfter (ms_transforms ms) (map fst replaced)) chs).

(* ---- LF global: LFGlobal.go:43-168 ---- *)
(* :143-154 *)
Definition ecStartOf (f : MF) : Z := if negb (mf_ycbcr f) && mf_gray f then 1 else 3.
(* ModularStream.go:221-231 *)
Fixpoint initialChannels (height width ecStart : Z) (dimShifts : list Z) (l : list nat) : Outcome (list Chan) :=
  match l with
  | [] => Ok []
  | i :: t => c <o- initialChannel height width ecStart dimShifts (Z.of_nat i) ;; r <o- initialChannels height width ecStart dimShifts t ;; Ok (c :: r)
  end.
Definition newLFGlobal (f : MF) : RM (option (list Node * ES) * MStream * list Chan) :=
  lg <- readLFGlobal (NewHFBlockContextWith ReadClusterMap) (mf_flags f) false ;;
  global <- (if lg_hasGlobalTree lg then t <- NewMATreeWithReader ;; rret (Some t) else rret None) ;;
  chs <- rlift (initialChannels (g_height (mf_geo f)) (g_width (mf_geo f)) (ecStartOf f) (mf_dimShifts f)
                  (seq 0 (length (mf_dimShifts f) + Z.to_nat (ecStartOf f)))) ;;
  ms <- NewModularStream global chs ;;
  chs <- decodeChannels (mf_depth f) (g_dim (mf_geo f)) globalStream true ms ;;
  rret (global, ms, chs).

(* ---- LF groups: Frame.go:540-661 ---- *)
(* :545-555 *)
Definition lfTemplates (lfDim : Z) (chs : list Chan) : list (nat * Chan) :=
  flat_map (fun ic => let '(i, ch) := ic in
    if negb (c_decoded ch) && ((3 <=? c_hshift ch) && (3 <=? c_vshift ch))
    then [(i, newChan (i32 (Z.shiftr lfDim (c_vshift ch))) (i32 (Z.shiftr lfDim (c_hshift ch))) (c_vshift ch) (c_hshift ch) false)]
    else []) (combine (seq 0 (length chs)) chs).
(* :568-575, 607-624 *)
Definition lfReplaced (frameH frameW : Z) (pos : Z * Z) (r : Chan) : (Z * Z) * Chan :=
  let y := i32 (fst pos * i32 (c_height r)) in
  let x := i32 (snd pos * i32 (c_width r)) in
  let h := Z.min (c_height r) (u32 (Z.shiftr frameH (c_vshift r) - u32 y)) in
  let w := Z.min (c_width r) (u32 (Z.shiftr frameW (c_hshift r) - u32 x)) in
  ((y, x), mkChan h w (c_vshift r) (c_hshift r) false [] (c_decoded r) []).
(* :594-633 with LFGroup.go:19-64 *)
Definition lfGroup (global : option (list Node * ES)) (f : MF) (numLF : Z) (templates : list (nat * Chan)) (id : nat) (rs : list BR) :
    Outcome (list ((Z * Z) * Chan)) * list BR :=
  match (pos <o- getLFGroupLocation (mf_geo f) (Z.of_nat id) ;;
         frameH <o- paddedHeight (mf_geo f) ;; frameW <o- paddedWidth (mf_geo f) ;;
         size <o- getLFGroupSize (mf_geo f) (Z.of_nat id) ;;
         Ok (map (fun r => lfReplaced frameH frameW pos (snd r)) templates)) with
  | Ok replaced => onSection (lfGroupEntry (Z.of_nat id)) (groupStream global f (lfModularStream numLF (Z.of_nat id)) replaced) rs
  | Err => (Err, rs)
  | Panic => (Panic, rs)
  end.
(* copy(buf[y][x:], src) *)
Definition copyInto (buf : list (list Z)) (y x : Z) (src : list Z) : Outcome (list (list Z)) :=
  row <o- slice_get buf y ;;
  if (x <? 0) || (Z.of_nat (length row) <? x) then Panic
  else slice_set buf y (firstn (Z.to_nat x) row ++ copyRow (skipn (Z.to_nat x) row) src).
(* :652-658 and :773-781, one channel of one group; x0 is 0 or origin.X *)
Definition copyGroup (buf : list (list Z)) (y0 x0 : Z) (src : list (list Z)) : Outcome (list (list Z)) :=
  oloop (length src) 0 (fun y b => row <o- slice_get src (Z.of_nat y) ;; copyInto b (Z.of_nat y + y0) x0 row) buf.
Definition modify {A} (l : list A) (i : Z) (f : A -> Outcome A) : Outcome (list A) :=
  a <o- slice_get l i ;; a <o- f a ;; slice_set l i a.
Fixpoint ofold {A S} (f : A -> S -> Outcome S) (l : list A) (s : S) : Outcome S :=
  match l with [] => Ok s | a :: t => s <o- f a s ;; ofold f t s end.
Definition decodeLFGroups (global : option (list Node * ES)) (f : MF) (chs : list Chan) (rs : list BR) : Outcome (list Chan) * list BR :=
  match (frameH <o- paddedHeight (mf_geo f) ;; frameW <o- paddedWidth (mf_geo f) ;; numLFGroups (mf_geo f)) with
  | Ok numLF =>
      let templates := lfTemplates (lfGroupDim (mf_geo f)) chs in
      let '(l, rs) := forGroups (lfGroup global f numLF templates) (seq 0 (Z.to_nat numLF)) rs in
      (groups <o- allGroups l ;;
       chs <o- ofold (fun t chs => modify chs (Z.of_nat (fst t)) (fun c => Ok (allocate c))) templates chs ;;
       ofold (fun g chs =>
         ofold (fun t chs =>
           let index := Z.of_nat (fst t) in
           info <o- slice_get g index ;;
           modify chs index (fun c => buf <o- copyGroup (c_buf c) (fst (fst info)) 0 (c_buf (snd info)) ;; Ok (set_buf c buf))) templates chs) groups chs,
       rs)
  | Err => (Err, rs)
  | Panic => (Panic, rs)
  end.

(* ---- passes: Pass.go:21-68, Frame.go:663-679 ---- *)
Fixpoint indexOf (l : list Z) (v : Z) (i : nat) : option nat :=
  match l with [] => None | a :: t => if a =? v then Some i else indexOf t v (S i) end.
(* :30-42; the shifts are uint32 *)
Definition minShiftOf (ps : Passes) (pass maxShift : Z) : Outcome Z :=
  match indexOf (ps_last ps) pass 0 with
  | Some n => d <o- slice_get (ps_down ps) (Z.of_nat n) ;; Ok (u32 (CeilLog1p (u32 (d - 1))))
  | None => Ok maxShift
  end.
(* :45-55 *)
Fixpoint replacedChannels (minShift maxShift : Z) (chs : list Chan) : Outcome (list (option Chan)) :=
  match chs with
  | [] => Ok []
  | ch :: t =>
      let m := u32 (Z.min (c_hshift ch) (c_vshift ch)) in
      r <o- (if negb (c_decoded ch) && ((minShift <=? m) && (m <? maxShift)) then c <o- chanFromChan ch ;; Ok (Some c) else Ok None) ;;
      l <o- replacedChannels minShift maxShift t ;; Ok (r :: l)
  end.
(* the replaced channels of all passes *)
Fixpoint decodePasses (ps : Passes) (chs : list Chan) (l : list nat) (prevMinShift : Z) : Outcome (list (list (option Chan))) :=
  match l with
  | [] => Ok []
  | p :: t =>
      let maxShift := if (0 <? p)%nat then prevMinShift else 3 in
      minShift <o- minShiftOf ps (Z.of_nat p) maxShift ;;
      r <o- replacedChannels minShift maxShift chs ;;
      rest <o- decodePasses ps chs t minShift ;; Ok (r :: rest)
  end.

(* ---- pass groups: Frame.go:690-725 and 727-785 ---- *)
(* :705-716; a division by 0 panics *)
Definition groupChannel (dim iGroup : Z) (info : Chan) : Outcome ((Z * Z) * Chan) :=
  let groupHeight := Z.shiftr dim (c_vshift info) in
  let groupWidth := Z.shiftr dim (c_hshift info) in
  rowStride <o- CeilDiv (c_width info) groupWidth ;;
  if rowStride =? 0 then Panic
  else
    let y := i32 (u32 (u32 iGroup / rowStride * groupHeight)) in
    let x := i32 (u32 (u32 iGroup mod rowStride * groupWidth)) in
    Ok ((y, x), mkChan (Z.min (u32 (c_height info - u32 y)) groupHeight) (Z.min (u32 (c_width info - u32 x)) groupWidth)
                  (c_vshift info) (c_hshift info) (c_forceWP info) (c_buf info) (c_decoded info) (c_pred info)).
Fixpoint groupChannels (dim iGroup : Z) (l : list (option Chan)) : Outcome (list ((Z * Z) * Chan)) :=
  match l with
  | [] => Ok []
  | None :: t => groupChannels dim iGroup t
  | Some r :: t => c <o- chanFromChan r ;; i <o- groupChannel dim iGroup c ;; l <o- groupChannels dim iGroup t ;; Ok (i :: l)
  end.
(* :690-725 with PassGroup.go:73-106 *)
Definition doProcessing (global : option (list Node * ES)) (f : MF) (numLF numG : Z) (replaced : list (option Chan)) (iPass iGroup : nat) (rs : list BR) :
    Outcome (list ((Z * Z) * Chan)) * list BR :=
  match groupChannels (g_dim (mf_geo f)) (Z.of_nat iGroup) replaced with
  | Ok chs =>
      onSection (passGroupEntry numLF numG (Z.of_nat iPass) (Z.of_nat iGroup))
        (groupStream global f (passStream numLF numG (Z.of_nat iPass) (Z.of_nat iGroup)) chs) rs
  | Err => (Err, rs)
  | Panic => (Panic, rs)
  end.
(* :681-688: errors are logged, and the group stays a zero PassGroup *)
Fixpoint keepGroups {A} (l : list (Outcome A)) : Outcome (list (option A)) :=
  match l with
  | [] => Ok []
  | r :: t => l <o- keepGroups t ;; match r with Ok a => Ok (Some a :: l) | Err => Ok (None :: l) | Panic => Panic end
  end.
Fixpoint processPasses (global : option (list Node * ES)) (f : MF) (numLF numG : Z) (passes : list (list (option Chan))) (p : nat) (rs : list BR) :
    list (Outcome (list (option (list ((Z * Z) * Chan))))) * list BR :=
  match passes with
  | [] => ([], rs)
  | r :: t =>
      let '(l, rs) := forGroups (fun g => doProcessing global f numLF numG r p g) (seq 0 (Z.to_nat numG)) rs in
      let '(rest, rs) := processPasses global f numLF numG t (S p) rs in (keepGroups l :: rest, rs)
  end.
(* :764-785: i is the number of the channel, j that among the replaced ones *)
Fixpoint copyPass (replaced : list (option Chan)) (groups : list (option (list ((Z * Z) * Chan)))) (i j : nat) (chs : list Chan) : Outcome (list Chan) :=
  match replaced with
  | [] => Ok chs
  | None :: t => copyPass t groups (S i) j chs
  | Some _ :: t =>
      chs <o- modify chs (Z.of_nat i) (fun c =>
        ofold (fun g c =>
          match g with
          | None => Panic
          | Some g => info <o- slice_get g (Z.of_nat j) ;;
                      buf <o- copyGroup (c_buf c) (fst (fst info)) (snd (fst info)) (c_buf (snd info)) ;; Ok (set_buf c buf)
          end) groups (allocate c)) ;;
      copyPass t groups (S i) (S j) chs
  end.
Definition decodePassGroupsModular (global : option (list Node * ES)) (f : MF) (numLF numG : Z) (passes : list (list (option Chan))) (chs : list Chan) (rs : list BR) :
    Outcome (list Chan) * list BR :=
  let '(l, rs) := processPasses global f numLF numG passes 0 rs in
  (groups <o- allGroups l ;; ofold (fun pg chs => copyPass (fst pg) (snd pg) 0 0 chs) (combine passes groups) chs, rs).

(* ---- Frame.go:324-460 ---- *)
(* :500-506 with bundle/image_header.go: GetColourChannelCount *)
Definition colourCount (f : MF) : Z := if mf_gray f then 1 else 3.
(* :351-377, the buffers; :410-460, the samples *)
Fixpoint toBuffers (f : MF) (offset : Z) (c : nat) (m : list Chan) (bufs : list (bool * list (list Z))) : Outcome (list (bool * list (list Z))) :=
  match m with
  | [] => Ok bufs
  | ch :: t =>
      let h := g_height (mf_geo f) in let w := g_width (mf_geo f) in
      bufs <o- modify bufs (Z.of_nat c + offset) (fun b =>
        r <o- (if fst b : bool then modularToFloat h w (c_buf ch) (snd b) else modularToInt h w (c_buf ch) (snd b)) ;; Ok (fst b, r)) ;;
      toBuffers f offset (S c) t bufs
  end.
Definition decodeModularFrame (f : MF) (rs : list BR) : Outcome (list (bool * list (list Z))) * list BR :=
  match onSection lfGlobalEntry (newLFGlobal f) rs with
  | (Ok (global, ms, chs), rs) =>
      match (ph <o- paddedHeight (mf_geo f) ;; pw <o- paddedWidth (mf_geo f) ;;
             numLF <o- numLFGroups (mf_geo f) ;; numG <o- numGroups (mf_geo f) ;; Ok (ph, pw, numLF, numG)) with
      | Ok (ph, pw, numLF, numG) =>
          let bufs := map (fun fl => (fl, zeros2 (i32 ph) (i32 pw))) (mf_floats f) in
          match decodeLFGroups global f chs rs with
          | (Ok chs, rs) =>
              match decodePasses (mf_passes f) chs (seq 0 (Z.to_nat (ps_num (mf_passes f)))) 0 with
              | Ok passes =>
                  let '(r, rs) := decodePassGroupsModular global f numLF numG passes chs rs in
                  (chs <o- r ;; m <o- applyTransforms (mf_depth f) (ms_transforms ms) chs ;;
                   toBuffers f (Z.of_nat (length bufs) - Z.of_nat (length m)) 0 m bufs, rs)
              | Err => (Err, rs)
              | Panic => (Panic, rs)
              end
          | (Err, rs) => (Err, rs)
          | (Panic, rs) => (Panic, rs)
          end
      | Err => (Err, rs)
      | Panic => (Panic, rs)
      end
  | (Err, rs) => (Err, rs)
  | (Panic, rs) => (Panic, rs)
  end.
