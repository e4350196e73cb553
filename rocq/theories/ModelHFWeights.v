(* Weights of the HF coefficients: frame/HFGlobal.go:443-543 and 545-660 and
   frame/transformtype.go:166-175.

   Simplifications:
   - float32 and float64 numbers are exact real numbers, so rounding, infinity
     and NaN are not modelled: the test for infinite weights is left out, and
     the theorems ask for divisors that are not zero;
   - math.Pow is Rpower, which agrees with it for a positive base;
   - matrices from the pool are zero (property C35) and do not share rows. *)
From Coq Require Import ZArith List Bool Reals.
From Verif Require Import GoBase GoLoop ModelDCT ModelHF.
Import ListNotations.
Open Scope Z_scope.

Local Notation "x <o- m ;; k" := (obind m (fun x => k)) (at level 61, m at next level, right associativity).

(* frame/dctparams.go *)
Record DCTParam := mkDP { dp_dctParam : list (list R); dp_param : list (list R); dp_mode : Z; dp_denominator : R; dp_params4x4 : list (list R) }.
(* frame/transformtype.go:166-175 *)
Definition getHorizontalTransformType (i : Z) : Outcome TransformType :=
  match find (fun t => (tt_parameterIndex t =? i) && negb (tt_isVertical t)) allDCT with Some t => Ok t | None => Err end.
(* :101-102 *)
Definition tt_matrixWidth (t : TransformType) : Z := Z.max (tt_pixelHeight t) (tt_pixelWidth t).
Definition tt_matrixHeight (t : TransformType) : Z := Z.min (tt_pixelHeight t) (tt_pixelWidth t).

(* HFGlobal.go:15-34 *)
Definition dct4x4params : list (list R) := [[2200; 0; 0; 0]; [392; 0; 0; 0]; [112; -0.25; -0.25; -0.5]]%R.
Definition dct4x8params : list (list R) := [[2198.050556016380522; -0.96269623020744692; -0.76194253026666783; -0.6551140670773547]; [764.3655248643528689; -0.92630200888366945; -0.9675229603596517; -0.27845290869168118]; [527.107573587542228; -1.4594385811273854; -1.450082094097871593; -1.5843722511996204]]%R.
Definition seqA : list R := [-1.025; -0.78; -0.65012; -0.19041574084286472; -0.20819395464; -0.421064; -0.32733845535848671]%R.
Definition seqB : list R := [-0.3041958212306401; -0.3633036457487539; -0.35660379990111464; -0.3443074455424403; -0.33699592683512467; -0.30180866526242109; -0.27321683125358037]%R.
Definition seqC : list R := [-1.2; -1.2; -0.8; -0.7; -0.7; -0.4; -0.5]%R.
(* :44-219 *)
Definition defaultParams : list DCTParam := [
  mkDP [[3150; 0; -0.4; -0.4; -0.4; -2]; [560; 0; -0.3; -0.3; -0.3; -0.3]; [512; -2; -1; 0; -1; -2]]%R [] 6 1 [];
  mkDP [] [[280; 3160; 3160]; [60; 864; 864]; [18; 200; 200]]%R 1 1 [];
  mkDP [] [[3840; 2560; 1280; 640; 480; 300]; [960; 640; 320; 180; 140; 120]; [640; 320; 128; 64; 32; 16]]%R 2 1 [];
  mkDP dct4x4params [[1; 1]; [1; 1]; [1; 1]]%R 3 1 dct4x4params;
  mkDP [[8996.8725711814115328; -1.3000777393353804; -0.49424529824571225; -0.439093774457103443; -0.6350101832695744; -0.90177264050827612; -1.6162099239887414]; [3191.48366296844234752; -0.67424582104194355; -0.80745813428471001; -0.44925837484843441; -0.35865440981033403; -0.31322389111877305; -0.37615025315725483]; [1157.50408145487200256; -2.0531423165804414; -1.4; -0.50687130033378396; -0.42708730624733904; -1.4856834539296244; -4.9209142884401604]]%R [] 6 1 [];
  mkDP [[15718.40830982518931456; -1.025; -0.98; -0.9012; -0.4; -0.48819395464; -0.421064; -0.27]; [7305.7636810695983104; -0.8041958212306401; -0.7633036457487539; -0.55660379990111464; -0.49785304658857626; -0.43699592683512467; -0.40180866526242109; -0.27321683125358037]; [3803.53173721215041536; -3.060733579805728; -2.0413270132490346; -2.0235650159727417; -0.5495389509954993; -0.4; -0.4; -0.3]]%R [] 6 1 [];
  mkDP [[7240.7734393502; -0.7; -0.7; -0.2; -0.2; -0.2; -0.5]; [1448.15468787004; -0.5; -0.5; -0.5; -0.2; -0.2; -0.2]; [506.854140754517; -1.4; -0.2; -0.5; -0.5; -1.5; -3.6]]%R [] 6 1 [];
  mkDP [[16283.2494710648897; -1.7812845336559429; -1.6309059012653515; -1.0382179034313539; -0.85; -0.7; -0.9; -1.2360638576849587]; [5089.15750884921511936; -0.320049391452786891; -0.35362849922161446; -0.30340000000000003; -0.61; -0.5; -0.5; -0.6]; [3397.77603275308720128; -0.321327362693153371; -0.34507619223117997; -0.70340000000000003; -0.9; -1; -1; -1.1754605576265209]]%R [] 6 1 [];
  mkDP [[13844.97076442300573; -0.97113799999999995; -0.658; -0.42026; -0.22712; -0.2206; -0.226; -0.6]; [4798.964084220744293; -0.61125308982767057; -0.83770786552491361; -0.79014862079498627; -0.2692727459704829; -0.38272769465388551; -0.22924222653091453; -0.20719098826199578]; [1807.236946760964614; -1.2; -1.2; -0.7; -0.7; -0.7; -0.4; -0.5]]%R [] 6 1 [];
  mkDP dct4x8params [[1]; [1]; [1]]%R 4 1 [];
  mkDP dct4x8params [[3072; 3072; 256; 256; 256; 414; 0; 0; 0]; [1024; 1024; 50; 50; 50; 58; 0; 0; 0]; [384; 384; 12; 12; 12; 22; -0.25; -0.25; -0.25]]%R 5 1 dct4x4params;
  mkDP [23966.1665298448605%R :: seqA; 8380.19148390090414%R :: seqB; 4493.02378009847706%R :: seqC] [] 6 1 [];
  mkDP [15358.89804933239925%R :: seqA; 5597.360516150652990%R :: seqB; 2919.961618960011210%R :: seqC] [] 6 1 [];
  mkDP [47932.3330596897210%R :: seqA; 16760.38296780180828%R :: seqB; 8986.04756019695412%R :: seqC] [] 6 1 [];
  mkDP [30717.796098664792%R :: seqA; 11194.72103230130598%R :: seqB; 5839.92323792002242%R :: seqC] [] 6 1 [];
  mkDP [95864.6661193794420%R :: seqA; 33520.76593560361656%R :: seqB; 17972.09512039390824%R :: seqC] [] 6 1 [];
  mkDP [61435.5921973295970%R :: seqA; 24209.44206460261196%R :: seqB; 12979.84647584004484%R :: seqC] [] 6 1 []].

(* HFGlobal.go:545-551, quantMult *)
Definition quantMult (v : R) : R := if Rle_dec 0 v then (1 + v)%R else (1 / (1 - v))%R.
(* :568-572: bands[i] = bands[i-1] * quantMult(params[i]) *)
Fixpoint bandsFrom (b : R) (params : list R) : list R :=
  match params with [] => [b] | p :: ps => b :: bandsFrom (b * quantMult p)%R ps end.
Definition bandsOf (params : list R) : Outcome (list R) :=
  match params with [] => Panic | p :: ps => Ok (bandsFrom p ps) end.
(* :588-605; int(scaledPos) is the integer part, scaledPos is not negative *)
Definition interpolate (scaledPos : R) (bands : list R) : Outcome R :=
  let l := Z.of_nat (length bands) - 1 in
  if l =? 0 then slice_get bands 0
  else
    let scaledIndex := Int_part scaledPos in
    if l <? scaledIndex + 1 then slice_get bands l
    else
      let fracIndex := (scaledPos - IZR scaledIndex)%R in
      a <o- slice_get bands scaledIndex ;;
      b <o- slice_get bands (scaledIndex + 1) ;;
      Ok (a * Rpower (b / a) fracIndex)%R.
(* util/Matrix.go, MakeMatrix2DPooled *)
Definition zeroWeights (h w : nat) : list (list R) := repeat (repeat 0%R w) h.
(* :566-586 *)
Definition getDCTQuantWeights (height width : nat) (params : list R) : Outcome (list (list R)) :=
  bands <o- bandsOf params ;;
  let scale := (IZR (Z.of_nat (length bands) - 1) / (sqrt 2 + 1e-6))%R in
  oloop height 0 (fun y weights =>
    let dy := (INR y * scale / INR (height - 1))%R in
    let dy2 := (dy * dy)%R in
    oloop width 0 (fun x weights =>
      let dx := (INR x * scale / INR (width - 1))%R in
      let dist := sqrt (dx * dx + dy2) in
      v <o- interpolate dist bands ;;
      rset2 weights (Z.of_nat y) (Z.of_nat x) v) weights) (zeroWeights height width).

(* :29-31 *)
Definition afvFreqs : list R := [0; 0; 0.8517778890324296; 5.37778436506804;
  0; 0; 4.734747904497923; 5.449245381693219; 1.6598270267479331; 4; 7.275749096817861;
  10.423227632456525; 2.662932286148962; 7.630657783650829; 8.962388608184032; 12.97166202570235]%R.
(* :617-627: the four bands; p is the row of parameters of a channel *)
Definition afvBands (p : list R) : Outcome (list R) :=
  b0 <o- slice_get p 5 ;;
  if Rlt_dec b0 0 then Err
  else
    oloop 3 1 (fun i bands =>
      prev <o- slice_get bands (Z.of_nat i - 1) ;;
      q <o- slice_get p (Z.of_nat i + 5) ;;
      let b := (prev * quantMult q)%R in
      if Rlt_dec b 0 then Err else slice_set bands (Z.of_nat i) b) [b0; 0%R; 0%R; 0%R].
Definition afvLow : R := 0.8517778890324296.
Definition afvHigh : R := 12.97166202570235.
(* w[y][x] = p[i] *)
Definition setParam (w : list (list R)) (y x : Z) (p : list R) (i : Z) : Outcome (list (list R)) :=
  v <o- slice_get p i ;; rset2 w y x v.
(* w[y][x] /= p[i] *)
Definition divParam (w : list (list R)) (y x : Z) (p : list R) (i : Z) : Outcome (list (list R)) :=
  d <o- slice_get p i ;; v <o- rget2 w y x ;; rset2 w y x (v / d)%R.
(* :607-660 *)
Definition getAFVTransformWeights (dct params4x4 p : list R) : Outcome (list (list R)) :=
  weights4x8 <o- getDCTQuantWeights 4 8 dct ;;
  weights4x4 <o- getDCTQuantWeights 4 4 params4x4 ;;
  bands <o- afvBands p ;;
  w <o- rset2 (zeroWeights 8 8) 0 0 1%R ;;
  w <o- setParam w 1 0 p 0 ;;
  w <o- setParam w 0 1 p 1 ;;
  w <o- setParam w 2 0 p 2 ;;
  w <o- setParam w 0 2 p 3 ;;
  w <o- setParam w 2 2 p 4 ;;
  oloop 4 0 (fun y w =>
    w <o- oloop 4 0 (fun x w =>
      if (x <? 2)%nat && (y <? 2)%nat then Ok w
      else
        f <o- slice_get afvFreqs (Z.of_nat (y * 4 + x)) ;;
        v <o- interpolate ((f - afvLow) / (afvHigh - afvLow))%R bands ;;
        rset2 w (Z.of_nat (2 * x)) (Z.of_nat (2 * y)) v) w ;;
    w <o- oloop 8 0 (fun x w =>
      if (x =? 0)%nat && (y =? 0)%nat then Ok w
      else v <o- rget2 weights4x8 (Z.of_nat y) (Z.of_nat x) ;; rset2 w (Z.of_nat (2 * y + 1)) (Z.of_nat x) v) w ;;
    oloop 4 0 (fun x w =>
      if (x =? 0)%nat && (y =? 0)%nat then Ok w
      else v <o- rget2 weights4x4 (Z.of_nat y) (Z.of_nat x) ;; rset2 w (Z.of_nat (2 * y)) (Z.of_nat (2 * x + 1)) v) w) w.

(* :456-469 *)
Definition weightsDCT4 (dct p : list R) : Outcome (list (list R)) :=
  w <o- getDCTQuantWeights 4 4 dct ;;
  r <o- oloop 8 0 (fun y r => oloop 8 0 (fun x r =>
          v <o- rget2 w (Z.of_nat (y / 2)) (Z.of_nat (x / 2)) ;; rset2 r (Z.of_nat y) (Z.of_nat x) v) r) (zeroWeights 8 8) ;;
  r <o- divParam r 1 0 p 0 ;;
  r <o- divParam r 0 1 p 0 ;;
  divParam r 1 1 p 1.
(* :470-490 *)
Definition weightsDCT2 (p : list R) : Outcome (list (list R)) :=
  w <o- rset2 (zeroWeights 8 8) 0 0 1%R ;;
  w <o- setParam w 0 1 p 0 ;;
  w <o- setParam w 1 0 p 0 ;;
  w <o- setParam w 1 1 p 1 ;;
  w <o- oloop 2 0 (fun y w => oloop 2 0 (fun x w =>
          let y := Z.of_nat y in let x := Z.of_nat x in
          w <o- setParam w y (x + 2) p 2 ;; w <o- setParam w (x + 2) y p 2 ;; setParam w (y + 2) (x + 2) p 3) w) w ;;
  oloop 4 0 (fun y w => oloop 4 0 (fun x w =>
          let y := Z.of_nat y in let x := Z.of_nat x in
          w <o- setParam w y (x + 4) p 4 ;; w <o- setParam w (x + 4) y p 4 ;; setParam w (y + 4) (x + 4) p 5) w) w.
(* :491-502 *)
Definition weightsHornuss (p : list R) : Outcome (list (list R)) :=
  w <o- oloop 8 0 (fun y w => oloop 8 0 (fun x w => setParam w (Z.of_nat y) (Z.of_nat x) p 0) w) (zeroWeights 8 8) ;;
  w <o- setParam w 1 1 p 2 ;;
  w <o- setParam w 0 1 p 1 ;;
  w <o- setParam w 1 0 p 1 ;;
  rset2 w 0 0 1%R.
(* :503-512 *)
Definition weightsDCT4_8 (dct p : list R) : Outcome (list (list R)) :=
  w <o- getDCTQuantWeights 4 8 dct ;;
  r <o- oloop 8 0 (fun y r => oloop 8 0 (fun x r =>
          v <o- rget2 w (Z.of_nat (y / 2)) (Z.of_nat x) ;; rset2 r (Z.of_nat y) (Z.of_nat x) v) r) (zeroWeights 8 8) ;;
  divParam r 1 0 p 0.
(* :519-525 *)
Definition weightsRaw (h w : nat) (p : list R) (den : R) : Outcome (list (list R)) :=
  oloop h 0 (fun y r => oloop w 0 (fun x r =>
    v <o- slice_get p (Z.of_nat (y * w + x)) ;; rset2 r (Z.of_nat y) (Z.of_nat x) (v * den)%R) r) (zeroWeights h w).
(* :451-528, one channel.  Modes: HORNUSS 1, DCT2 2, DCT4 3, DCT4_8 4, AFV 5,
   DCT 6, RAW 7 *)
Definition channelWeights (t : TransformType) (d : DCTParam) (c : Z) : Outcome (list (list R)) :=
  let h := Z.to_nat (tt_matrixHeight t) in let w := Z.to_nat (tt_matrixWidth t) in
  match dp_mode d with
  | 6 => q <o- slice_get (dp_dctParam d) c ;; getDCTQuantWeights h w q
  | 3 => q <o- slice_get (dp_dctParam d) c ;; p <o- slice_get (dp_param d) c ;; weightsDCT4 q p
  | 2 => p <o- slice_get (dp_param d) c ;; weightsDCT2 p
  | 1 => p <o- slice_get (dp_param d) c ;; weightsHornuss p
  | 4 => q <o- slice_get (dp_dctParam d) c ;; p <o- slice_get (dp_param d) c ;; weightsDCT4_8 q p
  | 5 => q <o- slice_get (dp_dctParam d) c ;; r <o- slice_get (dp_params4x4 d) c ;; p <o- slice_get (dp_param d) c ;; getAFVTransformWeights q r p
  | 7 => p <o- slice_get (dp_param d) c ;; weightsRaw h w p (dp_denominator d)
  | _ => Err
  end.
(* :530-541, one channel *)
Definition invertWeights (h w : nat) (m : list (list R)) : Outcome (list (list R)) :=
  oloop h 0 (fun y m => oloop w 0 (fun x m =>
    v <o- rget2 m (Z.of_nat y) (Z.of_nat x) ;;
    if Rlt_dec v 0 then Err else rset2 m (Z.of_nat y) (Z.of_nat x) (1 / v)%R) m) m.
(* :443-543 *)
Definition generateWeights (index : Z) (d : DCTParam) : Outcome (list (list (list R))) :=
  t <o- getHorizontalTransformType index ;;
  let h := Z.to_nat (tt_matrixHeight t) in let w := Z.to_nat (tt_matrixWidth t) in
  w0 <o- channelWeights t d 0 ;;
  w1 <o- channelWeights t d 1 ;;
  w2 <o- channelWeights t d 2 ;;
  if dp_mode d =? 7 then Ok [w0; w1; w2]
  else
    w0 <o- invertWeights h w w0 ;;
    w1 <o- invertWeights h w w1 ;;
    w2 <o- invertWeights h w w2 ;;
    Ok [w0; w1; w2].
