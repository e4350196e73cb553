(* Transcription of the filters of frame/Frame.go and of the upsampling
   kernels of bundle/image_header.go, over the real numbers: float32 values
   and their arithmetic are exact, +Inf (a division by zero) is None.

   Buffers are float buffers already.  The loops over the pixels of a buffer,
   which workers share (PropConcurrency.v shows that the order does not
   matter), are written as the table of the pixels' values. *)
From Coq Require Import ZArith List Bool Reals.
From Verif Require Import GoBase ModelUtil ModelDCT ModelConcurrency.
Import ListNotations.
Open Scope Z_scope.

Local Notation "x <o- m ;; k" := (obind m (fun x => k)) (at level 61, m at next level, right associativity).

Fixpoint orow {A} (n : nat) (f : nat -> Outcome A) (i : nat) : Outcome (list A) :=
  match n with O => Ok [] | S n' => a <o- f i ;; t <o- orow n' f (S i) ;; Ok (a :: t) end.
Definition otab {A} (h w : nat) (f : Z -> Z -> Outcome A) : Outcome (list (list A)) :=
  orow h (fun y => orow w (fun x => f (Z.of_nat y) (Z.of_nat x)) 0%nat) 0%nat.

(* ---- Gaborish ---- *)
(* Frame.go:979-987: normGabBase, normGabAdj, normGabDiag of a channel *)
Definition gabNorm (w1 w2 : R) : R * R * R :=
  let mult := (1 / (1 + 4 * (w1 + w2)))%R in (mult, (w1 * mult)%R, (w2 * mult)%R).
(* :989-1072 for a channel of the given size *)
Definition gabChannel (w1 w2 : R) (height width : nat) (buffC : list (list R)) : Outcome (list (list R)) :=
  let '(base, adj, diag) := gabNorm w1 w2 in
  otab height width (gabPixel Rplus Rmult base adj diag buffC (Z.of_nat height) (Z.of_nat width)).

(* ---- edge-preserving filter ---- *)
(* :25-33, (Y, X) *)
Definition epfCross : list (Z * Z) := [(0, 0); (0, -1); (0, 1); (-1, 0); (1, 0)].
Definition epfDoubleCross : list (Z * Z) :=
  [(0, 0); (-1, 0); (1, 0); (0, -1); (0, 1); (1, -1); (1, 1); (-1, 1); (-1, -1); (-2, 0); (2, 0); (0, 2); (0, -2)].
(* :1400-1405 *)
Definition mirrorCoord (coord size : Z) : Outcome Z :=
  if (0 <=? coord) && (coord <? size) then Ok coord else MirrorCoordinate coord size.

Section epf.
  Context (height width : Z).
  (* one term of the distances: |buffC[py][px] - buffC[dy][dx]| * scale *)
  Definition epfTerm (buffC : list (list R)) (scale : R) (py px dy dx : Z) : Outcome R :=
    a <o- rget2 buffC py px ;; b <o- rget2 buffC dy dx ;; Ok (Rabs (a - b) * scale)%R.
  (* :1210-1252 and :1321-1355, distance1: dist is the sum so far *)
  Fixpoint epfDistance1 (inputs : list (list (list R))) (channelScales : list R) (y x crossY crossX : Z) (dist : R) : Outcome R :=
    match inputs, channelScales with
    | [], _ => Ok dist
    | _, [] => Panic
    | buffC :: inputs', scale :: scales' =>
        dY0 <o- mirrorCoord (i32 (y + crossY)) height ;;
        dX0 <o- mirrorCoord (i32 (x + crossX)) width ;;
        t0 <o- epfTerm buffC scale y x dY0 dX0 ;;
        pX1 <o- mirrorCoord (i32 (x - 1)) width ;;
        dX1 <o- mirrorCoord (i32 (x + crossX - 1)) width ;;
        t1 <o- epfTerm buffC scale y pX1 dY0 dX1 ;;
        pX2 <o- mirrorCoord (i32 (x + 1)) width ;;
        dX2 <o- mirrorCoord (i32 (x + crossX + 1)) width ;;
        t2 <o- epfTerm buffC scale y pX2 dY0 dX2 ;;
        pY3 <o- mirrorCoord (i32 (y - 1)) height ;;
        dY3 <o- mirrorCoord (i32 (y + crossY - 1)) height ;;
        t3 <o- epfTerm buffC scale pY3 x dY3 dX0 ;;
        pY4 <o- mirrorCoord (i32 (y + 1)) height ;;
        dY4 <o- mirrorCoord (i32 (y + crossY + 1)) height ;;
        t4 <o- epfTerm buffC scale pY4 x dY4 dX0 ;;
        epfDistance1 inputs' scales' y x crossY crossX (dist + t0 + t1 + t2 + t3 + t4)%R
    end.
  (* :1283-1289, distance2 *)
  Fixpoint epfDistance2 (inputs : list (list (list R))) (channelScales : list R) (y x dY dX : Z) (dist : R) : Outcome R :=
    match inputs, channelScales with
    | [], _ => Ok dist
    | _, [] => Panic
    | buffC :: inputs', scale :: scales' =>
        t <o- epfTerm buffC scale y x dY dX ;; epfDistance2 inputs' scales' y x dY dX (dist + t)%R
    end.
  (* :1255-1260 *)
  Definition epfWeight (isBorder : bool) (borderSadMul sigmaScaleS dist : R) : R :=
    let dist := if isBorder then (dist * borderSadMul)%R else dist in
    let weight := (1 - dist * sigmaScaleS)%R in
    if Rlt_dec weight 0 then 0%R else weight.
  (* sumChannels[c] += inputBuffers[c][mY][mX] * weight *)
  Fixpoint epfAdd (inputs : list (list (list R))) (sums : list R) (mY mX : Z) (weight : R) : Outcome (list R) :=
    match inputs, sums with
    | [], _ => Ok sums
    | _, [] => Panic
    | buffC :: inputs', s :: sums' =>
        v <o- rget2 buffC mY mX ;; r <o- epfAdd inputs' sums' mY mX weight ;; Ok ((s + v * weight)%R :: r)
    end.
  (* :1205-1269, :1277-1303 and :1306-1366: the loop over the points *)
  Fixpoint epfPoints (useDistance2 : bool) (points : list (Z * Z)) (inputs : list (list (list R))) (channelScales : list R)
      (isBorder : bool) (borderSadMul sigmaScaleS : R) (y x : Z) (sumWeights : R) (sums : list R) : Outcome (R * list R) :=
    match points with
    | [] => Ok (sumWeights, sums)
    | (crossY, crossX) :: points' =>
        mY <o- mirrorCoord (i32 (y + crossY)) height ;;
        mX <o- mirrorCoord (i32 (x + crossX)) width ;;
        dist <o- (if useDistance2 then epfDistance2 inputs channelScales y x mY mX 0%R
                  else epfDistance1 inputs channelScales y x crossY crossX 0%R) ;;
        let weight := epfWeight isBorder borderSadMul sigmaScaleS dist in
        sums' <o- epfAdd inputs sums mY mX weight ;;
        epfPoints useDistance2 points' inputs channelScales isBorder borderSadMul sigmaScaleS y x (sumWeights + weight)%R sums'
    end.
  Definition isBorderAt (v : Z) : bool := let m := Z.land v 7 in (m =? 0) || (m =? 7).
  (* :1183-1372: the values of the channels at one pixel; skipThreshold is
     1/0.3 *)
  Definition epfPixel (i : Z) (inputs : list (list (list R))) (channelScales : list R) (borderSadMul sigmaScale : R)
      (inverseSigma : list (list (option R))) (y x : Z) : Outcome (list R) :=
    invSigmaRow <o- slice_get inverseSigma (Z.shiftr y 3) ;;
    s <o- slice_get invSigmaRow (Z.shiftr x 3) ;;
    let copy := orow (length inputs) (fun c => buffC <o- slice_get inputs (Z.of_nat c) ;; rget2 buffC y x) 0%nat in
    match s with
    | None => copy
    | Some s =>
        if Rlt_dec (1 / (3 / 10)) s then copy
        else
          let isBorder := isBorderAt y || isBorderAt x in
          r <o- epfPoints (i =? 2) (if i =? 0 then epfDoubleCross else epfCross) inputs channelScales isBorder borderSadMul (sigmaScale * s)%R y x 0%R
                  (repeat 0%R (length inputs)) ;;
          let '(sumWeights, sums) := r in
          let invSumWeights := (1 / sumWeights)%R in
          Ok (map (fun v => (v * invSumWeights)%R) sums)
    end.
  (* :1140-1395, one iteration of the loop over i *)
  Definition epfPass (i : Z) (channelScales : list R) (borderSadMul sigmaScale : R) (inverseSigma : list (list (option R)))
      (inputs : list (list (list R))) : Outcome (list (list (list R))) :=
    orow (length inputs) (fun c =>
      otab (Z.to_nat height) (Z.to_nat width) (fun y x =>
        l <o- epfPixel i inputs channelScales borderSadMul sigmaScale inverseSigma y x ;; slice_get l (Z.of_nat c))) 0%nat.
End epf.
(* :1079 *)
Definition stepMultiplier : R := (165 / 100 * 4 * (1 - sqrt (5 / 10)))%R.
(* :1140-1395 *)
Definition epfPasses (height width epfIterations : Z) (channelScales : list R) (borderSadMul pass0SigmaScale pass2SigmaScale : R)
    (inverseSigma : list (list (option R))) (inputs : list (list (list R))) : Outcome (list (list (list R))) :=
  b0 <o- (if epfIterations <? 3 then Ok inputs
          else epfPass height width 0 channelScales borderSadMul (stepMultiplier * pass0SigmaScale)%R inverseSigma inputs) ;;
  b1 <o- epfPass height width 1 channelScales borderSadMul stepMultiplier inverseSigma b0 ;;
  if epfIterations <? 2 then Ok b1
  else epfPass height width 2 channelScales borderSadMul (stepMultiplier * pass2SigmaScale)%R inverseSigma b1.

(* 1/x *)
Definition recip (x : R) : option R := if Req_EM_T x 0 then None else Some (1 / x)%R.
(* :1089-1119, the inverse of sigma of every block.  Per LF group:
   hfMultiplier and hfStreamBuffer[3]. *)
Definition epfSigma (blockHeight blockWidth : nat) (modular : bool) (sigmaForModular : R) (lfGlobalScale : Z) (sharpLut : list R)
    (lfGroupRowStride : Z) (lfGroups : list (list (list Z) * list (list Z))) : Outcome (list (list (option R))) :=
  if modular then otab blockHeight blockWidth (fun _ _ => Ok (recip sigmaForModular))
  else
    let globalScale := (65536 / IZR lfGlobalScale)%R in
    otab blockHeight blockWidth (fun y x =>
      let lfY := Z.shiftr y 8 in
      let bY := i32 (y - i32 (Z.shiftl lfY 8)) in
      let lfR := i32 (lfY * i32 lfGroupRowStride) in
      let lfX := Z.shiftr x 8 in
      let bX := i32 (x - i32 (Z.shiftl lfX 8)) in
      lfg <o- slice_get lfGroups (i32 (lfR + lfX)) ;;
      hfRow <o- slice_get (fst lfg) bY ;; hf <o- slice_get hfRow bX ;;
      shRow <o- slice_get (snd lfg) bY ;; sharpness <o- slice_get shRow bX ;;
      if (sharpness <? 0) || (7 <? sharpness) then Err
      else
        lut <o- slice_get sharpLut sharpness ;;
        Ok (recip (globalScale * lut / IZR hf)%R)).

(* ---- upsampling ---- *)
(* bundle/image_header.go:887-914: the kernels for the factor k.  The index of
   the weights for a kernel position *)
Definition upIndex (k ky kx iy ix : Z) : Z :=
  let j := if ky <? Z.quot k 2 then iy + 5 * ky else (4 - iy) + 5 * (k - 1 - ky) in
  let i := if kx <? Z.quot k 2 then ix + 5 * kx else (4 - ix) + 5 * (k - 1 - kx) in
  let x := if i <? j then j else i in
  let y := Z.lxor (Z.lxor x j) i in
  Z.quot (5 * k * y) 2 - Z.quot (y * (y - 1)) 2 + x - y.
Definition upKernel (k : Z) (upKWeights : list R) (ky kx : Z) : Outcome (list (list R)) :=
  otab 5 5 (fun iy ix => slice_get upKWeights (upIndex k ky kx iy ix)).
(* math.MaxFloat32 and math.SmallestNonzeroFloat32 *)
Definition MaxFloat32 : R := ((2 ^ 24 - 1) * 2 ^ 104)%R.
Definition SmallestNonzeroFloat32 : R := (/ 2 ^ 149)%R.
(* Frame.go:1526-1555: one new pixel, from the pixel (y, x) *)
Definition upPixel (buffer weights : list (list R)) (y x : Z) : Outcome R :=
  let height := i32 (Z.of_nat (length buffer)) in
  t <o- otab 5 5 (fun iy ix =>
    newY <o- MirrorCoordinate (i32 (i32 (i32 y + iy) - 2)) height ;;
    row <o- slice_get buffer newY ;;
    newX <o- MirrorCoordinate (i32 (i32 (i32 x + ix) - 2)) (i32 (Z.of_nat (length row))) ;;
    sample <o- slice_get row newX ;;
    w <o- rget2 weights iy ix ;;
    Ok (sample, w)) ;;
  let '(total, mn, mx) := fold_left (fun (a : R * R * R) (s : R * R) =>
    let '(total, mn, mx) := a in
    ((total + snd s * fst s)%R, (if Rlt_dec (fst s) mn then fst s else mn), (if Rlt_dec mx (fst s) then fst s else mx)))
    (concat t) (0%R, MaxFloat32, SmallestNonzeroFloat32) in
  Ok (if Rlt_dec total mn then mn else if Rlt_dec mx total then mx else total).
(* :1493-1562: for the factor k, with the kernels upWeights[ky][kx] *)
Definition upsample (k : nat) (upWeights : Z -> Z -> Outcome (list (list R))) (buffer : list (list R)) : Outcome (list (list R)) :=
  rows <o- orow (length buffer) (fun y => orow k (fun ky =>
    row <o- slice_get buffer (Z.of_nat y) ;;
    cells <o- orow (length row) (fun x => orow k (fun kx =>
      weights <o- upWeights (Z.of_nat ky) (Z.of_nat kx) ;;
      upPixel buffer weights (Z.of_nat y) (Z.of_nat x)) 0%nat) 0%nat ;;
    Ok (concat cells)) 0%nat) 0%nat ;;
  Ok (concat rows).
(* :1463-1492: nothing to do for 1; the kernels are those of upWeights[l] *)
Definition performUpsampling (k : Z) (up2 up4 up8 : list R) (buffer : list (list R)) : Outcome (list (list R)) :=
  if k =? 1 then Ok buffer
  else
    w <o- slice_get [up2; up4; up8] (CeilLog1p (k - 1) - 1) ;;
    upsample (Z.to_nat k) (upKernel (Z.shiftl 1 (CeilLog1p (k - 1) - 1 + 1)) w) buffer.

(* bundle/image_header.go:22-81: the kernels used without custom weights, in
   units of 10^-8 *)
Definition DEFAULT_UP2 : list Z :=
  [-1716200; -3452303; -4022174; -2921014; -624645; 14111091; 28896755; 278718; -1610267; 56661550;
   3777607; -1986694; -3144731; -1185068; -213539].
Definition DEFAULT_UP4 : list Z :=
  [-2419067; -3491987; -3693351; -3094285; -529785; -1663432; -3556863; -3888905; -3516850; -989469;
   23651958; 33392945; -1073543; -1313181; -3556694; 13048175; 40103025; 3951150; -2077584; 46914198;
   -209270; -1484589; -4064806; 18942530; 56279892; 6674400; -2335494; -3551682; -754830; -2267919;
   -2363578; 315804; -3399098; -1359519; -91653; -335467; -1163294; -1610294; -974088; -191622;
   -1095446; -3198464; -4455121; -2799790; -645912; 6390599; 22963888; 630981; -1897349; 67537268;
   8483369; -2534994; -2205197; -1667999; -384443].
Definition DEFAULT_UP8 : list Z :=
  [-2928613; -3706353; -3783812; -3324558; -447632; -2519406; -3752601; -3901508; -3663285; -646649;
   -2066407; -3838633; -4002101; -3900035; -901973; -1626393; -3954148; -4046620; -3979621; -1224485;
   29895328; 35757708; -2447552; -1081748; -4314594; 23903219; 41119301; -573046; -1450239; -4246845;
   17567618; 45220643; 2287757; -1936783; -3583255; 11572472; 47416733; 6284440; -2685066; 42720050;
   -2248939; -1155273; -4562755; 28689496; 49093869; -7891; -1545926; -4562659; 21238920; 53980934;
   3369474; -2070211; -3866988; 14229550; 56593398; 8045181; -2888298; -3680918; -542229; -2920477;
   -2788574; -2118180; -3942402; -775547; -2433614; -3193943; -2030828; -4044014; -1074016; -1930822;
   -3620399; -1974125; -3919545; -1456093; -45072; -360110; -1020207; -1231907; -638988; -71592;
   -279122; -957115; -1288327; -730937; -107783; -210156; -890705; -1317668; -813895; -153491;
   -2128481; -4173044; -4831487; -3293190; -525260; -1720322; -4052736; -5045706; -3607317; -738030;
   -1341764; -3965629; -5151616; -3814886; -1005819; 18968273; 33063684; -1300105; -1372950; -4017465;
   13727832; 36402234; 1027890; -1832107; -3365072; 8734506; 38194295; 4338228; -2525993; 56408126;
   458352; -1648227; -4887868; 24585519; 62026135; 4314807; -2213737; -4158014; 16637289; 65027023;
   9621636; -3101388; -4082742; -904519; -2790922; -2117818; 798662; -3995711; -1243427; -2231705;
   -2946266; 992055; -3600283; -1684920; -111684; -411204; -1297130; -1723725; -1022545; -165306;
   -313110; -1218016; -1763266; -1125620; -231663; -1374149; -3797620; -5142937; -3117307; -581914;
   -1064003; -3608089; -5272168; -3375670; -795586; 9628104; 27129991; -353779; -1734151; -3153981;
   5686230; 28500998; 2230594; -2374955; 68214326; 5018048; -2320852; -4383616; 18459474; 71517975;
   10805613; -3263677; -3637639; -1394373; -2511203; -1728636; 5407331; -2867568; -1893131; -240854;
   -446511; -1636187; -2377053; -1522848; -333334; -819975; -2964169; -4499287; -2745350; -612408;
   2727416; 19446600; 159832; -2232473; 74982506; 11452620; -3348048; -1605681; -2070339; -458223].
Definition decimals (l : list Z) : list R := map (fun z => (IZR z / 100000000)%R) l.

(* ---- chroma upsampling ---- *)
(* :910-926, one row *)
Definition doubleRow (oldRow : list R) : Outcome (list R) :=
  let n := Z.of_nat (length oldRow) in
  cells <o- orow (length oldRow) (fun i =>
    let x := Z.of_nat i in
    v <o- slice_get oldRow x ;;
    let b75 := (75 / 100 * v)%R in
    a <o- slice_get oldRow (if x =? 0 then 0 else x - 1) ;;
    b <o- slice_get oldRow (if x + 1 =? n then n - 1 else x + 1) ;;
    Ok [(b75 + 25 / 100 * a)%R; (b75 + 25 / 100 * b)%R]) 0%nat ;;
  Ok (concat cells).
Definition doubleWidth (old : list (list R)) : Outcome (list (list R)) :=
  orow (length old) (fun y => row <o- slice_get old (Z.of_nat y) ;; doubleRow row) 0%nat.
(* :944-965 *)
Definition doubleHeight (old : list (list R)) : Outcome (list (list R)) :=
  let n := Z.of_nat (length old) in
  rows <o- orow (length old) (fun i =>
    let y := Z.of_nat i in
    oldRow <o- slice_get old y ;;
    oldRowPrev <o- slice_get old (if y =? 0 then 0 else y - 1) ;;
    oldRowNext <o- slice_get old (if y + 1 =? n then n - 1 else y + 1) ;;
    let mix other := orow (length oldRow) (fun x =>
      v <o- slice_get oldRow (Z.of_nat x) ;; o <o- slice_get other (Z.of_nat x) ;; Ok (75 / 100 * v + 25 / 100 * o)%R) 0%nat in
    a <o- mix oldRowPrev ;; b <o- mix oldRowNext ;; Ok [a; b]) 0%nat ;;
  Ok (concat rows).
(* :890-970 for one channel; the shifts are jpegUpsamplingX/Y[c] *)
Fixpoint times {A} (n : nat) (f : A -> Outcome A) (a : A) : Outcome A :=
  match n with O => Ok a | S n' => b <o- f a ;; times n' f b end.
Definition invertSubsampling (xShift yShift : nat) (buffer : list (list R)) : Outcome (list (list R)) :=
  b <o- times xShift doubleWidth buffer ;; times yShift doubleHeight b.
