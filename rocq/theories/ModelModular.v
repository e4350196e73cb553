(* Transcription of the modular decoder: frame/WPParams.go,
   frame/ModularChannel.go and frame/ModularStream.go. *)
From Coq Require Import ZArith List Bool.
From Verif Require Import GoBase GoLoop GoMatrix ModelBitReader ModelUtil ModelEntropy ModelMATree.
Import ListNotations.
Open Scope Z_scope.

(* ---- frame/WPParams.go ---- *)
(* :5-14 *)
Record WPParams := mkWP { wp_1 : Z; wp_2 : Z; wp_3a : Z; wp_3b : Z; wp_3c : Z; wp_3d : Z; wp_3e : Z; wp_weight : list Z }.
(* :16-97 *)
Definition NewWPParams : RM WPParams :=
  defaultParams <- ReadBool ;;
  if defaultParams : bool then rret (mkWP 16 10 7 7 7 0 0 [13; 12; 12; 12])
  else
    p1 <- ReadBits 5 ;; p2 <- ReadBits 5 ;; a <- ReadBits 5 ;; b <- ReadBits 5 ;; c <- ReadBits 5 ;; d <- ReadBits 5 ;; e <- ReadBits 5 ;;
    w0 <- ReadBits 4 ;; w1 <- ReadBits 4 ;; w2 <- ReadBits 4 ;; w3 <- ReadBits 4 ;;
    rret (mkWP p1 p2 (i32 a) (i32 b) (i32 c) (i32 d) (i32 e) [w0; w1; w2; w3]).

(* ---- frame/ModularChannel.go: neighbours ---- *)
(* buf is mc.buffer, width is int32(mc.size.Width); x and y are int32 *)
(* :204-212 *)
Definition west (buf : list (list Z)) (x y : Z) : Outcome Z :=
  if 0 <? x then get2 buf y (x - 1) else if 0 <? y then get2 buf (y - 1) x else Ok 0.
(* :214-222 *)
Definition north (buf : list (list Z)) (x y : Z) : Outcome Z :=
  if 0 <? y then get2 buf (y - 1) x else if 0 <? x then get2 buf y (x - 1) else Ok 0.
(* :224-238 *)
Definition northWest (buf : list (list Z)) (x y : Z) : Outcome Z :=
  if x <=? 0 then (if 0 <? y then get2 buf (y - 1) x else Ok 0)
  else if 0 <? y then get2 buf (y - 1) (x - 1) else get2 buf y (x - 1).
(* :240-245 *)
Definition northEast (width : Z) (buf : list (list Z)) (x y : Z) : Outcome Z :=
  if (0 <? y) && (i32 (x + 1) <? width) then get2 buf (y - 1) (i32 (x + 1)) else north buf x y.
(* :247-252 *)
Definition northNorth (buf : list (list Z)) (x y : Z) : Outcome Z :=
  if 1 <? y then get2 buf (y - 2) x else north buf x y.
(* :254-259 *)
Definition northEastEast (width : Z) (buf : list (list Z)) (x y : Z) : Outcome Z :=
  if (i32 (x + 2) <? width) && (0 <? y) then get2 buf (y - 1) (i32 (x + 2)) else northEast width buf x y.
(* :261-266 *)
Definition westWest (buf : list (list Z)) (x y : Z) : Outcome Z :=
  if 1 <? x then get2 buf y (x - 2) else west buf x y.

Notation "x <o- m ;; k" := (obind m (fun x => k)) (at level 61, m at next level, right associativity).

(* :89-133, prediction.  Sums of int32 values wrap; wrapping once at the end
   of a sum is the same. *)
Definition prediction (width : Z) (buf pred : list (list Z)) (y x k : Z) : Outcome Z :=
  match k with
  | 0 => Ok 0
  | 1 => west buf x y
  | 2 => north buf x y
  | 3 => w <o- west buf x y ;; n <o- north buf x y ;; Ok (Z.quot (i32 (w + n)) 2)
  | 4 => w <o- west buf x y ;; n <o- north buf x y ;; nw <o- northWest buf x y ;;
         Ok (if Abs_i32 (i32 (n - nw)) <? Abs_i32 (i32 (w - nw)) then w else n)
  | 5 => w <o- west buf x y ;; n <o- north buf x y ;; nw <o- northWest buf x y ;; Ok (Clamp3 (i32 (w + n - nw)) n w)
  | 6 => p <o- get2 pred y x ;; Ok (Z.shiftr (i32 (p + 3)) 3)
  | 7 => northEast width buf x y
  | 8 => northWest buf x y
  | 9 => westWest buf x y
  | 10 => w <o- west buf x y ;; nw <o- northWest buf x y ;; Ok (Z.quot (i32 (w + nw)) 2)
  | 11 => n <o- north buf x y ;; nw <o- northWest buf x y ;; Ok (Z.quot (i32 (n + nw)) 2)
  | 12 => n <o- north buf x y ;; ne <o- northEast width buf x y ;; Ok (Z.quot (i32 (n + ne)) 2)
  | 13 => n <o- north buf x y ;; nn <o- northNorth buf x y ;; w <o- west buf x y ;; ww <o- westWest buf x y ;;
          nee <o- northEastEast width buf x y ;; ne <o- northEast width buf x y ;;
          Ok (Z.quot (i32 (6 * n - 2 * nn + 7 * w + ww + nee + 3 * ne + 8)) 16)
  | _ => Err
  end.

(* ---- the self-correcting predictor ---- *)
(* :26-28 and 45-49 *)
Definition oneL24OverKP1 : list Z := map (fun i => 2 ^ 24 / (Z.of_nat i + 1)) (seq 0 64).

(* err is mc.err[e] *)
(* :268-306 *)
Definition errorNorth (err : list (list Z)) (x y : Z) : Outcome Z := if y <=? 0 then Ok 0 else get2 err (y - 1) x.
Definition errorWest (err : list (list Z)) (x y : Z) : Outcome Z := if x <=? 0 then Ok 0 else get2 err y (x - 1).
Definition errorWestWest (err : list (list Z)) (x y : Z) : Outcome Z := if x <=? 1 then Ok 0 else get2 err y (x - 2).
Definition errorNorthWest (err : list (list Z)) (x y : Z) : Outcome Z :=
  if (0 <? x) && (0 <? y) then get2 err (y - 1) (x - 1) else errorNorth err x y.
Definition errorNorthEast (width : Z) (err : list (list Z)) (x y : Z) : Outcome Z :=
  if (i32 (x + 1) <? width) && (0 <? y) then get2 err (y - 1) (i32 (x + 1)) else errorNorth err x y.

(* :156-168, the weight of sub-predictor e *)
Definition errorSum (width : Z) (err : list (list Z)) (x y : Z) : Outcome Z :=
  n <o- errorNorth err x y ;; w <o- errorWest err x y ;; nw <o- errorNorthWest err x y ;;
  ww <o- errorWestWest err x y ;; ne <o- errorNorthEast width err x y ;;
  let eSum := i32 (n + w + nw + ww + ne) in
  if i32 (x + 1) =? width then w <o- errorWest err x y ;; Ok (i32 (eSum + w)) else Ok eSum.
Definition wpWeight (weight eSum : Z) : Outcome Z :=
  let shift := FloorLog1pUint64 (u64 eSum) - 5 in
  let shift := if shift <? 0 then 0 else shift in
  t <o- slice_get oneL24OverKP1 (Z.shiftr eSum shift) ;;
  Ok (i32 (i64 (4 + Z.shiftr (i64 (weight * t)) shift))).

(* :135-201, prePredictWP.  errs are the five matrices mc.err.  The result
   is maxError, the four sub-predictions and the value stored in pred[y][x]. *)
Definition prePredictWP (wp : WPParams) (width : Z) (buf : list (list Z)) (errs : list (list (list Z))) (x y : Z)
  : Outcome (Z * list Z * Z) :=
  n <o- north buf x y ;; nw <o- northWest buf x y ;; ne <o- northEast width buf x y ;; w <o- west buf x y ;; nn <o- northNorth buf x y ;;
  let n3 := i32 (Z.shiftl n 3) in let nw3 := i32 (Z.shiftl nw 3) in let ne3 := i32 (Z.shiftl ne 3) in
  let w3 := i32 (Z.shiftl w 3) in let nn3 := i32 (Z.shiftl nn 3) in
  e4 <o- slice_get errs 4 ;;
  tN <o- errorNorth e4 x y ;; tW <o- errorWest e4 x y ;; tNE <o- errorNorthEast width e4 x y ;; tNW <o- errorNorthWest e4 x y ;;
  let s0 := i32 (w3 + ne3 - n3) in
  let s1 := i32 (n3 - Z.shiftr (i32 ((tW + tN + tNE) * i32 (wp_1 wp))) 5) in
  let s2 := i32 (w3 - Z.shiftr (i32 ((tW + tN + tNW) * i32 (wp_2 wp))) 5) in
  let s3 := i32 (n3 - Z.shiftr (i32 (tNW * wp_3a wp + tN * wp_3b wp + tNE * wp_3c wp + (nn3 - n3) * wp_3d wp + (nw3 - w3) * wp_3e wp)) 5) in
  let weightOf e := er <o- slice_get errs e ;; s <o- errorSum width er x y ;; wt <o- slice_get (wp_weight wp) e ;; wpWeight wt s in
  w0 <o- weightOf 0 ;; w1 <o- weightOf 1 ;; w2 <o- weightOf 2 ;; wg3 <o- weightOf 3 ;;
  let wSum := i32 (w0 + w1 + w2 + wg3) in
  let logWeight := FloorLog1p_i64 (wSum - 1) - 4 in
  if logWeight <? 0 then Panic
  else
    let v0 := Z.shiftr w0 logWeight in let v1 := Z.shiftr w1 logWeight in
    let v2 := Z.shiftr w2 logWeight in let v3 := Z.shiftr wg3 logWeight in
    let wSum := i32 (v0 + v1 + v2 + v3) in
    let s := i32 (s0 * v0 + s1 * v1 + s2 * v2 + s3 * v3 + (Z.shiftr wSum 1 - 1)) in
    t <o- slice_get oneL24OverKP1 (i32 (wSum - 1)) ;;
    let p := i32 (Z.shiftr (i64 (s * t)) 24) in
    let p := if Z.lor (Z.lxor tN tW) (Z.lxor tN tNW) <=? 0 then Clamp p w3 n3 ne3 else p in
    let '(m, a) := (tW, Abs_i32 tW) in
    let '(m, a) := if a <? Abs_i32 tN then (tN, Abs_i32 tN) else (m, a) in
    let '(m, a) := if a <? Abs_i32 tNW then (tNW, Abs_i32 tNW) else (m, a) in
    let m := if a <? Abs_i32 tNE then tNE else m in
    Ok (m, [s0; s1; s2; s3], p).

(* ---- channels ---- *)
(* :30-43; err, subpred and weight are local to decode *)
Record Chan := mkChan {
  c_height : Z; c_width : Z; c_vshift : Z; c_hshift : Z; c_forceWP : bool;
  c_buf : list (list Z); c_decoded : bool; c_pred : list (list Z) }.
Definition set_buf (c : Chan) (b : list (list Z)) : Chan :=
  mkChan (c_height c) (c_width c) (c_vshift c) (c_hshift c) (c_forceWP c) b (c_decoded c) (c_pred c).
(* :63-75 *)
Definition newChan (height width vshift hshift : Z) (forceWP : bool) : Chan :=
  mkChan (u32 height) (u32 width) vshift hshift forceWP [] false [].
(* :77-87 *)
Definition allocate (c : Chan) : Chan :=
  if negb (length (c_buf c) =? 0)%nat then c
  else if (c_height c =? 0) || (c_width c =? 0) then set_buf c []
  else set_buf c (zeros2 (c_height c) (c_width c)).
(* :51-61, NewModularChannelFromChannel: copy copies the shorter length of
   each row.  An empty buffer is treated as a nil one. *)
Definition copyRow (dst src : list Z) : list Z := firstn (length dst) src ++ skipn (length src) dst.
Definition chanFromChan (ch : Chan) : Outcome Chan :=
  let mc := newChan (i32 (c_height ch)) (i32 (c_width ch)) (c_vshift ch) (c_hshift ch) (c_forceWP ch) in
  let mc := mkChan (c_height mc) (c_width mc) (c_vshift mc) (c_hshift mc) (c_forceWP mc) [] (c_decoded ch) [] in
  match c_buf ch with
  | [] => Ok mc
  | _ =>
      let mc := allocate mc in
      buf <o- oloop (Z.to_nat (c_height mc)) 0 (fun y b =>
                d <o- slice_get b (Z.of_nat y) ;; s <o- slice_get (c_buf ch) (Z.of_nat y) ;;
                slice_set b (Z.of_nat y) (copyRow d s)) (c_buf mc) ;;
      Ok (set_buf mc buf)
  end.

(* :308-405, getWalkerFunc.  prev are the channels before this one, nearest
   first. *)
Definition sameShape (a b : Chan) : bool :=
  (c_width a =? c_width b) && (c_height a =? c_height b) && (c_hshift a =? c_hshift b) && (c_vshift a =? c_vshift b).
Fixpoint refProps (mc : Chan) (prev : list Chan) (x y k k2 : Z) : Outcome Z :=
  match prev with
  | [] => Ok 0
  | c :: rest =>
      if negb (sameShape c mc) then refProps mc rest x y k k2
      else if i32 (k2 + 4) <=? k then refProps mc rest x y k (i32 (k2 + 4))
      else
        rC <o- get2 (c_buf c) y x ;;
        if k2 =? k then Ok (Abs_i32 rC)
        else if k2 + 1 =? k then Ok rC
        else
          rW <o- (if 0 <? x then get2 (c_buf c) y (x - 1) else Ok 0) ;;
          rN <o- (if 0 <? y then get2 (c_buf c) (y - 1) x else Ok rW) ;;
          rNW <o- (if (0 <? x) && (0 <? y) then get2 (c_buf c) (y - 1) (x - 1) else Ok rW) ;;
          let rG := i32 (rC - Clamp3 (i32 (rW + rN - rNW)) rN rW) in
          if k2 + 2 =? k then Ok (Abs_i32 rG)
          else if k2 + 3 =? k then Ok rG
          else refProps mc rest x y k (k2 + 4)
  end.
Definition walkerFunc (mc : Chan) (prev : list Chan) (channelIndex streamIndex x y maxError k : Z) : Outcome Z :=
  let buf := c_buf mc in
  let width := i32 (c_width mc) in
  match k with
  | 0 => Ok channelIndex
  | 1 => Ok streamIndex
  | 2 => Ok y
  | 3 => Ok x
  | 4 => omap Abs_i32 (north buf x y)
  | 5 => omap Abs_i32 (west buf x y)
  | 6 => north buf x y
  | 7 => west buf x y
  | 8 => if 0 <? x then
           w <o- west buf x y ;; w1 <o- west buf (x - 1) y ;; n1 <o- north buf (x - 1) y ;; nw1 <o- northWest buf (x - 1) y ;;
           Ok (i32 (w - (w1 + n1 - nw1)))
         else west buf x y
  | 9 => w <o- west buf x y ;; n <o- north buf x y ;; nw <o- northWest buf x y ;; Ok (i32 (w + n - nw))
  | 10 => w <o- west buf x y ;; nw <o- northWest buf x y ;; Ok (i32 (w - nw))
  | 11 => nw <o- northWest buf x y ;; n <o- north buf x y ;; Ok (i32 (nw - n))
  | 12 => n <o- north buf x y ;; ne <o- northEast width buf x y ;; Ok (i32 (n - ne))
  | 13 => n <o- north buf x y ;; nn <o- northNorth buf x y ;; Ok (i32 (n - nn))
  | 14 => w <o- west buf x y ;; ww <o- westWest buf x y ;; Ok (i32 (w - ww))
  | 15 => Ok maxError
  | _ => if i32 (4 * channelIndex) <=? i32 (k - 16) then Ok 0 else refProps mc prev x y k 16
  end.

(* :418-491, decode.  The state of the loops: buffer, errs, pred. *)
Record DS := mkDS { d_buf : list (list Z); d_errs : list (list (list Z)); d_pred : list (list Z) }.
Definition elift {A} (o : Outcome A) : EM A := rd (rlift o).
(* :476-483 *)
Definition storeErrors (errs : list (list (list Z))) (y x trueValue : Z) (subpred : list Z) (pred : Z) : Outcome (list (list (list Z))) :=
  let tv3 := i32 (Z.shiftl trueValue 3) in
  let put errs e v := m <o- slice_get errs e ;; m <o- set2 m y x v ;; slice_set errs e m in
  let err e := s <o- slice_get subpred e ;; Ok (Z.shiftr (i32 (Abs_i32 (i32 (s - tv3)) + 3)) 3) in
  v0 <o- err 0 ;; errs <o- put errs 0 v0 ;; v1 <o- err 1 ;; errs <o- put errs 1 v1 ;;
  v2 <o- err 2 ;; errs <o- put errs 2 v2 ;; v3 <o- err 3 ;; errs <o- put errs 3 v3 ;;
  put errs 4 (i32 (pred - tv3)).
(* :446-484, one pixel *)
Definition decodePixel (wp : WPParams) (useWP : bool) (nodes : list Node) (refined : Z) (mc : Chan) (prev : list Chan)
    (channelIndex streamIndex distMultiplier y x : Z) (st : DS) : EM DS :=
  let width := i32 (c_width mc) in
  r <e- elift (if useWP then prePredictWP wp width (d_buf st) (d_errs st) x y else Ok (0, [], 0)) ;;
  let '(maxError, subpred, p) := r in
  pred <e- elift (if useWP then set2 (d_pred st) y x p else Ok (d_pred st)) ;;
  leaf <e- elift (walk (length nodes) nodes refined (walkerFunc (set_buf mc (d_buf st)) prev channelIndex streamIndex x y maxError)) ;;
  n <e- elift (slice_get nodes leaf) ;;
  diff <e- ReadSymbolWithMultiplier (n_context n) distMultiplier ;;
  let diff := i32 (UnpackSigned (u32 diff) * n_multiplier n + n_offset n) in
  q <e- elift (prediction width (d_buf st) pred y x (n_predictor n)) ;;
  let trueValue := i32 (diff + q) in
  buf <e- elift (set2 (d_buf st) y x trueValue) ;;
  errs <e- elift (if useWP then storeErrors (d_errs st) y x trueValue subpred p else Ok (d_errs st)) ;;
  eret (mkDS buf errs pred).
Fixpoint eloop {S} (n i0 : nat) (f : nat -> S -> EM S) (s : S) : EM S :=
  match n with O => eret s | Datatypes.S n' => t <e- f i0 s ;; eloop n' (Datatypes.S i0) f t end.
Definition decode (wp : WPParams) (nodes : list Node) (mc : Chan) (prev : list Chan) (channelIndex streamIndex distMultiplier : Z) : EM Chan :=
  if c_decoded mc then eret mc
  else
    let mc := allocate mc in
    tree <e- elift (compactify (length nodes) nodes 0 channelIndex streamIndex) ;;
    useWP <e- (if c_forceWP mc then eret true else elift (useWeightedPredictor (length nodes) nodes tree)) ;;
    let zero := zeros2 (c_height mc) (c_width mc) in
    let st := mkDS (c_buf mc) (if useWP : bool then repeat zero 5 else []) (if useWP : bool then zero else c_pred mc) in
    st <e- eloop (Z.to_nat (c_height mc)) 0 (fun y st =>
             refined <e- elift (compactifyWithY (length nodes) nodes tree channelIndex streamIndex (Z.of_nat y)) ;;
             eloop (Z.to_nat (c_width mc)) 0 (fun x st =>
               decodePixel wp useWP nodes refined mc prev channelIndex streamIndex distMultiplier (Z.of_nat y) (Z.of_nat x) st) st) st ;;
    eret (mkChan (c_height mc) (c_width mc) (c_vshift mc) (c_hshift mc) (c_forceWP mc) (d_buf st) true (d_pred st)).

(* ---- frame/ModularStream.go: inverse transforms ---- *)
(* :673-701 *)
Definition tendancy (a b c : Z) : Z :=
  if (b <=? a) && (c <=? b) then
    let x := Z.quot (i32 (4 * a - 3 * c - b + 6)) 12 in
    let d := i32 (2 * (a - b)) in let e := i32 (2 * (b - c)) in
    let x := if d <? i32 (x - Z.land x 1) then i32 (d + 1) else x in
    if e <? i32 (x + Z.land x 1) then e else x
  else if (a <=? b) && (b <=? c) then
    let x := Z.quot (i32 (4 * a - 3 * c - b - 6)) 12 in
    let d := i32 (2 * (a - b)) in let e := i32 (2 * (b - c)) in
    let x := if i32 (x + Z.land x 1) <? d then i32 (d - 1) else x in
    if i32 (x - Z.land x 1) <? e then e else x
  else 0.

(* :583-628; sizes are uint32 *)
Definition inverseHorizontalSqueeze (channel orig res : Chan) : Outcome Chan :=
  if negb (c_width channel =? u32 (c_width orig + c_width res)) ||
     (negb (c_width orig =? c_width res) && negb (c_width orig =? u32 (1 + c_width res))) ||
     negb (c_height channel =? c_height orig) || negb (c_height res =? c_height orig) then Err
  else
    let channel := allocate channel in
    buf <o- loop2 (Z.to_nat (c_height channel)) (Z.to_nat (c_width res)) (fun y x b =>
      let y := Z.of_nat y in let x := Z.of_nat x in
      avg <o- get2 (c_buf orig) y x ;;
      residu <o- get2 (c_buf res) y x ;;
      nextAvg <o- (if x + 1 <? c_width orig then get2 (c_buf orig) y (x + 1) else Ok avg) ;;
      left <o- (if 0 <? x then get2 b y (2 * x - 1) else Ok avg) ;;
      let diff := i32 (residu + tendancy left avg nextAvg) in
      let first := i32 (avg + Z.quot diff 2) in
      b <o- set2 b y (2 * x) first ;;
      set2 b y (2 * x + 1) (i32 (first - diff))) (c_buf channel) ;;
    buf <o- (if c_width res <? c_width orig then
      oloop (Z.to_nat (c_height channel)) 0 (fun y b =>
        v <o- get2 (c_buf orig) (Z.of_nat y) (c_width res) ;; set2 b (Z.of_nat y) (2 * c_width res) v) buf
      else Ok buf) ;;
    Ok (set_buf channel buf).

(* :630-671 *)
Definition inverseVerticalSqueeze (channel orig res : Chan) : Outcome Chan :=
  if negb (c_height channel =? u32 (c_height orig + c_height res)) ||
     (negb (c_height orig =? c_height res) && negb (c_height orig =? u32 (1 + c_height res))) ||
     negb (c_width channel =? c_width orig) || negb (c_width res =? c_width orig) then Err
  else
    let channel := allocate channel in
    buf <o- loop2 (Z.to_nat (c_height res)) (Z.to_nat (c_width channel)) (fun y x b =>
      let y := Z.of_nat y in let x := Z.of_nat x in
      avg <o- get2 (c_buf orig) y x ;;
      residu <o- get2 (c_buf res) y x ;;
      nextAvg <o- (if y + 1 <? c_height orig then get2 (c_buf orig) (y + 1) x else Ok avg) ;;
      top <o- (if 0 <? y then get2 b (2 * y - 1) x else Ok avg) ;;
      let diff := i32 (residu + tendancy top avg nextAvg) in
      let first := i32 (avg + Z.quot diff 2) in
      b <o- set2 b (2 * y) x first ;;
      set2 b (2 * y + 1) x (i32 (first - diff))) (c_buf channel) ;;
    buf <o- (if c_height res <? c_height orig then
      row <o- slice_get (c_buf orig) (c_height res) ;;
      oloop (length row) 0 (fun x b =>
        v <o- get2 (c_buf orig) (c_height res) (Z.of_nat x) ;; set2 b (2 * c_height res) (Z.of_nat x) v) buf
      else Ok buf) ;;
    Ok (set_buf channel buf).

(* :443-517, inverse RCT on the three buffers *)
Definition rctPixel (transType : Z) (a b c : Z) : Outcome (Z * Z * Z) :=
  match transType with
  | 0 => Ok (a, b, c)
  | 1 => Ok (a, b, i32 (c + a))
  | 2 => Ok (a, i32 (b + a), c)
  | 3 => Ok (a, i32 (b + a), i32 (c + a))
  | 4 => Ok (a, i32 (b + Z.shiftr (i32 (a + c)) 1), c)
  | 5 => let ac := i32 (a + c) in Ok (a, i32 (b + Z.shiftr (i32 (a + ac)) 1), ac)
  | 6 => let tmp := i32 (a - Z.shiftr c 1) in
         let f := i32 (tmp - Z.shiftr b 1) in Ok (i32 (f + b), i32 (c + tmp), f)
  | _ => Err
  end.
(* :17-19 *)
Definition permutationLUT : list (list Z) := [[0; 1; 2]; [1; 2; 0]; [2; 0; 1]; [0; 2; 1]; [1; 0; 2]; [2; 1; 0]].
(* Reads and writes of the three buffers: the closures of :458-505 read only
   the channels a type needs; all three have a sample at (y, x) when the
   channels have equal size, which is what the theorems assume.  For other
   sizes the model may panic where the code does not. *)
Definition inverseRCT (rctType beginC : Z) (channels : list Chan) : Outcome (list Chan) :=
  let permutation := Z.quot rctType 7 in
  let transType := Z.rem rctType 7 in
  v0 <o- slice_get channels beginC ;; v1 <o- slice_get channels (beginC + 1) ;; v2 <o- slice_get channels (beginC + 2) ;;
  bufs <o- loop2 (Z.to_nat (c_height v0)) (Z.to_nat (c_width v0)) (fun y x s =>
      let '(b0, b1, b2) := s in let y := Z.of_nat y in let x := Z.of_nat x in
      p0 <o- get2 b0 y x ;; p1 <o- get2 b1 y x ;; p2 <o- get2 b2 y x ;;
      r <o- rctPixel transType p0 p1 p2 ;;
      let '(q0, q1, q2) := r in
      b0 <o- set2 b0 y x q0 ;; b1 <o- set2 b1 y x q1 ;; b2 <o- set2 b2 y x q2 ;; Ok (b0, b1, b2))
    (c_buf v0, c_buf v1, c_buf v2) ;;
  let '(b0, b1, b2) := bufs in
  perm <o- slice_get permutationLUT permutation ;;
  j0 <o- slice_get perm 0 ;; channels <o- slice_set channels (beginC + j0) (set_buf v0 b0) ;;
  j1 <o- slice_get perm 1 ;; channels <o- slice_set channels (beginC + j1) (set_buf v1 b1) ;;
  j2 <o- slice_get perm 2 ;; slice_set channels (beginC + j2) (set_buf v2 b2).

(* :518-575, inverse palette *)
Definition kDeltaPalette : list (list Z) := [
  [0; 0; 0]; [4; 4; 4]; [11; 0; 0]; [0; 0; -13]; [0; -12; 0]; [-10; -10; -10];
  [-18; -18; -18]; [-27; -27; -27]; [-18; -18; 0]; [0; 0; -32]; [-32; 0; 0]; [-37; -37; -37];
  [0; -32; -32]; [24; 24; 45]; [50; 50; 50]; [-45; -24; -24]; [-24; -45; -45]; [0; -24; -24];
  [-34; -34; 0]; [-24; 0; -24]; [-45; -45; -24]; [64; 64; 64]; [-32; 0; -32]; [0; -32; 0];
  [-32; 0; 32]; [-24; -45; -24]; [45; 24; 45]; [24; -24; -45]; [-45; -24; 24]; [80; 80; 80];
  [64; 0; 0]; [0; 0; -64]; [0; -64; -64]; [-24; -24; 45]; [96; 96; 96]; [64; 64; 0];
  [45; -24; -24]; [34; -34; 0]; [112; 112; 112]; [24; -45; -45]; [45; 45; -24]; [0; -32; 32];
  [24; -24; 45]; [0; 96; 96]; [45; -24; 24]; [24; -45; -24]; [-24; -45; 24]; [0; -64; 0];
  [96; 0; 0]; [128; 128; 128]; [64; 0; 64]; [144; 144; 144]; [96; 96; 0]; [-36; -36; 36];
  [45; -24; -45]; [45; -45; -24]; [0; 0; -96]; [0; 128; 128]; [0; 96; 0]; [45; 24; -45];
  [-128; 0; 0]; [24; -45; 24]; [-45; 24; -45]; [64; 0; -64]; [64; -64; -64]; [96; 0; 96];
  [45; -45; 24]; [24; 45; -45]; [64; 64; -64]; [128; 128; 0]; [0; 0; -128]; [-24; 45; -45]].
(* :531-559, the palette value of an index for channel c; bitDepth is a
   uint32, so bitDepth-3 wraps; the shifts are int32 *)
Definition divN (c : nat) (i : Z) : Z := Nat.iter c (fun i => Z.quot i 5) i.
Definition paletteValue (palette : list (list Z)) (nbColours bitDepth : Z) (c : nat) (index : Z) : Outcome Z :=
  let cz := Z.of_nat c in
  if (0 <=? index) && (index <? i32 nbColours) then get2 palette cz index
  else if i32 nbColours <=? index then
    let index := i32 (index - i32 nbColours) in
    if index <? 64 then
      Ok (i32 (Z.quot (i32 (Z.rem (Z.shiftr index (2 * cz)) 4 * i32 (shl32 1 bitDepth - 1))) 4 + shl32 1 (Z.max 0 (u32 (bitDepth - 3)))))
    else
      let index := divN c (i32 (index - 64)) in
      Ok (Z.quot (i32 (Z.rem index 5 * i32 (shl32 1 bitDepth - 1))) 4)
  else if cz <? 3 then
    let index := Z.rem (i32 (- index - 1)) 143 in
    v <o- get2 kDeltaPalette (Z.shiftr (index + 1) 1) cz ;;
    let v := if Z.land index 1 =? 0 then i32 (- v) else v in
    Ok (if 8 <? bitDepth then shl32 v (Z.min bitDepth 24 - 8) else v)
  else Ok 0.
(* :528-572 for one channel *)
Definition paletteChannel (palette : list (list Z)) (nbColours nbDeltas dPred bitDepth : Z) (c : nat) (h w : Z) (ch : Chan) : Outcome Chan :=
  buf <o- loop2 (Z.to_nat h) (Z.to_nat w) (fun y x b =>
    let y := Z.of_nat y in let x := Z.of_nat x in
    index <o- get2 b y x ;;
    v <o- paletteValue palette nbColours bitDepth c index ;;
    b <o- set2 b y x v ;;
    if index <? i32 nbDeltas then
      p <o- prediction (i32 (c_width ch)) b (c_pred ch) y x dPred ;;
      set2 b y x (i32 (v + p))
    else Ok b) (c_buf ch) ;;
  Ok (set_buf ch buf).
(* util.Add (util/misc.go:96-100) on the contents of a slice; ProofModular
   shows that this is what ModelUtil.Add computes.  The code stores the same
   pointer twice where the model stores the same value twice. *)
Definition addList {A} (l : list A) (index : Z) (elem : A) : Outcome (list A) :=
  if (index <? 0) || (Z.of_nat (length l) <? index) then Panic
  else let i := Z.to_nat index in
       Ok (firstn i l ++ elem :: (if (i <? length l)%nat then elem :: skipn (S i) l else [])).
(* :518-580 *)
Definition inversePalette (beginC numC nbColours nbDeltas dPred bitDepth : Z) (channels : list Chan) : Outcome (list Chan) :=
  let first := beginC + 1 in
  let last := beginC + numC in
  firstChannel <o- slice_get channels first ;;
  c0 <o- slice_get channels 0 ;;
  channels <o- oloop (Z.to_nat (last - first)) 0 (fun j chs =>
      cp <o- chanFromChan firstChannel ;; addList chs (first + 1 + Z.of_nat j) cp) channels ;;
  channels <o- oloop (Z.to_nat numC) 0 (fun c chs =>
      ch <o- slice_get chs (first + Z.of_nat c) ;;
      ch <o- paletteChannel (c_buf c0) nbColours nbDeltas dPred bitDepth c (c_height firstChannel) (c_width firstChannel) ch ;;
      slice_set chs (first + Z.of_nat c) ch) channels ;;
  match channels with [] => Panic | _ :: t => Ok t end.
