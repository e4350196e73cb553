(* From quantised to final coefficients: frame/HFCoefficients.go:248-445 and
   the LLF scales of frame/transformtype.go:30-40, 106-110 and 143-147.

   Simplifications:
   - float32 and float64 numbers are exact real numbers;
   - a block is given with its type and multiplier, which the code looks up
     at its position in the metadata; blocks outside the group (nil entries)
     are left out of the list;
   - the matrices do not share rows. *)
From Coq Require Import ZArith List Bool Reals.
From Verif Require Import GoBase GoLoop GoMatrix ModelUtil ModelDCT ModelHF ModelHFWeights.
Import ListNotations.
Open Scope Z_scope.

Local Notation "x <o- m ;; k" := (obind m (fun x => k)) (at level 61, m at next level, right associativity).

(* A block: its type, its position in the LF group in units of 8 samples, its
   multiplier *)
Record HFBlock := mkHB { hb_type : TransformType; hb_y : Z; hb_x : Z; hb_mult : Z }.
(* for i := range blocks *)
Fixpoint eachBlock {S} (f : HFBlock -> S -> Outcome S) (bs : list HFBlock) (s : S) : Outcome S :=
  match bs with [] => Ok s | b :: bs' => s' <o- f b s ;; eachBlock f bs' s' end.
(* a loop body that works on channel c only *)
Definition onChannel (ms : list (list (list R))) (c : nat) (f : list (list R) -> Outcome (list (list R))) : Outcome (list (list (list R))) :=
  m <o- slice_get ms (Z.of_nat c) ;; m' <o- f m ;; slice_set ms (Z.of_nat c) m'.
(* :290-300, and the same in :409-418: the place of a block in a channel in
   units of 8 samples, None if the channel has no such block *)
Definition channelPos (groupY groupX shiftY shiftX : Z) : option (Z * Z) :=
  let sY := Z.shiftr groupY shiftY in let sX := Z.shiftr groupX shiftX in
  if negb (groupY =? Z.shiftl sY shiftY) || negb (groupX =? Z.shiftl sX shiftX) then None else Some (sY, sX).

Record HFParams := mkHFP { hp_globalScale : Z; hp_xqmScale : Z; hp_bqmScale : Z; hp_shiftY : list Z; hp_shiftX : list Z;
  hp_groupY : Z; hp_groupX : Z; hp_quantBias : list R; hp_quantBiasNumerator : R; hp_weights : list (list (list (list R))) }.

(* ---- dequantizeHFCoefficients, :265-332 ---- *)
(* math.Pow(0.8, float64(q-2)) where q is a uint32 *)
Definition qmFactor (q : Z) : R := (0.8 ^ Z.to_nat (u32 (q - 2)))%R.
Definition scaleFactor (p : HFParams) : list R :=
  let globalScale := (65536 / IZR (hp_globalScale p))%R in
  [(globalScale * qmFactor (hp_xqmScale p))%R; globalScale; (globalScale * qmFactor (hp_bqmScale p))%R].
(* :311-318 *)
Definition quantValue (bias num : R) (coeff : Z) : Outcome R :=
  if (-2 <? coeff) && (coeff <? 2) then slice_get [(- bias)%R; 0%R; bias] (coeff + 1)
  else Ok (IZR coeff - num / IZR coeff)%R.
(* :301-329, one channel of a block at (pixelGroupY, pixelGroupX) *)
Definition dequantBlock (t : TransformType) (sfc bias num : R) (w3 : list (list R)) (pixelGroupY pixelGroupX : Z) (q : list (list Z)) (m : list (list R))
    : Outcome (list (list R)) :=
  oloop (Z.to_nat (tt_pixelHeight t)) 0 (fun y m =>
    oloop (Z.to_nat (tt_pixelWidth t)) 0 (fun x m =>
      let y := Z.of_nat y in let x := Z.of_nat x in
      if (y <? tt_dctSelectHeight t) && (x <? tt_dctSelectWidth t) then Ok m
      else
        let pY := pixelGroupY + y in let pX := pixelGroupX + x in
        coeff <o- get2 q pY pX ;;
        quant <o- quantValue bias num coeff ;;
        let wy := if tt_flip t then x else y in
        let wx := Z.lxor (Z.lxor x y) wy in
        w <o- rget2 w3 wy wx ;;
        rset2 m pY pX (quant * sfc * w)%R) m) m.
Definition dequantizeHFCoefficients (p : HFParams) (quantized : list (list (list Z))) (bs : list HFBlock) (ms : list (list (list R)))
    : Outcome (list (list (list R))) :=
  eachBlock (fun b ms =>
    w2 <o- slice_get (hp_weights p) (tt_parameterIndex (hb_type b)) ;;
    oloop 3 0 (fun c ms =>
      sy <o- slice_get (hp_shiftY p) (Z.of_nat c) ;; sx <o- slice_get (hp_shiftX p) (Z.of_nat c) ;;
      match channelPos (hb_y b - hp_groupY p) (hb_x b - hp_groupX p) sy sx with
      | None => Ok ms
      | Some (sY, sX) =>
        w3 <o- slice_get w2 (Z.of_nat c) ;;
        sf <o- slice_get (scaleFactor p) (Z.of_nat c) ;;
        bias <o- slice_get (hp_quantBias p) (Z.of_nat c) ;;
        q <o- slice_get quantized (Z.of_nat c) ;;
        onChannel ms c (dequantBlock (hb_type b) (sf / IZR (hb_mult b))%R bias (hp_quantBiasNumerator p) w3 (Z.shiftl sY 3) (Z.shiftl sX 3) q)
      end) ms) bs ms.

(* ---- chromaFromLuma, :334-393 ---- *)
(* :373-382, one of the two factors: computed and stored at the corner of a
   tile, else taken from the store *)
Definition tileFactor (corner : bool) (base inv : R) (hf : list (list Z)) (fy fx : Z) (cache : list (list R)) : Outcome (R * list (list R)) :=
  if corner then v <o- get2 hf fy fx ;; let k := (base + IZR v * inv)%R in cache' <o- rset2 cache fy fx k ;; Ok (k, cache')
  else k <o- rget2 cache fy fx ;; Ok (k, cache).
(* :369-386 *)
Definition cflPixel (inv baseX baseB : R) (hfX hfB : list (list Z)) (my : list (list R)) (y x : Z)
    (s : (list (list R) * list (list R)) * (list (list R) * list (list R))) : Outcome ((list (list R) * list (list R)) * (list (list R) * list (list R))) :=
  let '((mx, xF), (mb, bF)) := s in
  let fy := Z.shiftr y 6 in let fx := Z.shiftr x 6 in
  let corner := (Z.shiftl fy 6 =? y) && (Z.shiftl fx 6 =? x) in
  kx <o- tileFactor corner baseX inv hfX fy fx xF ;;
  kb <o- tileFactor corner baseB inv hfB fy fx bF ;;
  let py := Z.land y 255 in let px := Z.land x 255 in
  dequantY <o- rget2 my py px ;;
  a <o- rget2 mx py px ;; mx' <o- rset2 mx py px (a + fst kx * dequantY)%R ;;
  b <o- rget2 mb py px ;; mb' <o- rset2 mb py px (b + fst kb * dequantY)%R ;;
  Ok ((mx', snd kx), (mb', snd kb)).
Definition cflBlock (inv baseX baseB : R) (hfX hfB : list (list Z)) (my : list (list R)) (b : HFBlock)
    (s : (list (list R) * list (list R)) * (list (list R) * list (list R))) :=
  let pPosY := Z.shiftl (hb_y b) 3 in let pPosX := Z.shiftl (hb_x b) 3 in
  oloop (Z.to_nat (tt_pixelHeight (hb_type b))) 0 (fun iy s =>
    let y := pPosY + Z.of_nat iy in
    _ <o- slice_get (snd (fst s)) (Z.shiftr y 6) ;; _ <o- slice_get (snd (snd s)) (Z.shiftr y 6) ;;
    _ <o- slice_get hfX (Z.shiftr y 6) ;; _ <o- slice_get hfB (Z.shiftr y 6) ;;
    oloop (Z.to_nat (tt_pixelWidth (hb_type b))) 0 (fun ix s =>
      cflPixel inv baseX baseB hfX hfB my y (pPosX + Z.of_nat ix) s) s) s.
(* the samples of the first two channels of the HF metadata; the stores are
   zero matrices of their sizes *)
Definition chromaFromLuma (p : HFParams) (colorFactor : Z) (baseX baseB : R) (hfX hfB : list (list Z)) (bs : list HFBlock) (ms : list (list (list R)))
    : Outcome (list (list (list R))) :=
  if existsb (fun x => negb (x =? 0)) (hp_shiftX p) || existsb (fun y => negb (y =? 0)) (hp_shiftY p) then Ok ms
  else
    rx <o- slice_get hfX 0 ;; rb <o- slice_get hfB 0 ;;
    let xF := repeat (repeat 0%R (length rx)) (length hfX) in
    let bF := repeat (repeat 0%R (length rb)) (length hfB) in
    mx <o- slice_get ms 0 ;; my <o- slice_get ms 1 ;; mb <o- slice_get ms 2 ;;
    s <o- eachBlock (cflBlock (1 / IZR colorFactor)%R baseX baseB hfX hfB my) bs ((mx, xF), (mb, bF)) ;;
    ms' <o- slice_set ms 0 (fst (fst s)) ;; slice_set ms' 2 (fst (snd s)).

(* ---- finalizeLLF, :395-445 ---- *)
(* transformtype.go:30-40 *)
Definition SCALE_F : list R := [
  1.0000000000000000000; 1.0003954307206444720; 1.0015830492063566798;
  1.0035668445359847378; 1.0063534990068075448; 1.0099524393750471170;
  1.0143759095929498827; 1.0196390660646908181; 1.0257600967811994622;
  1.0327603660498609462; 1.0406645869479269795; 1.0495010240726261235;
  1.0593017296818027804; 1.0701028169146909598; 1.0819447744633102634;
  1.0948728278735071820; 1.1089373535928257701; 1.1241943530045446156;
  1.1407059950032801390; 1.1585412372562662921; 1.1777765381971696030;
  1.1984966740821024139; 1.2207956782314713353; 1.2447779229495839992;
  1.2705593687655135089; 1.2982690107340108228; 1.3280505578212198723;
  1.3600643892400108061; 1.3944898413648201160; 1.4315278911623840964;
  1.4714043176060183528; 1.5143734423313919909]%R.
(* :143-147 *)
Definition scaleF (c b : Z) : Outcome R := slice_get SCALE_F (Z.shiftl c (5 - b)).
(* :90-110, one entry of llfScale *)
Definition llfScale (t : TransformType) (y x : Z) : Outcome R :=
  a <o- scaleF y (CeilLog2_u32 (tt_dctSelectHeight t)) ;; b <o- scaleF x (CeilLog2_u32 (tt_dctSelectWidth t)) ;; Ok (a * b)%R.
(* HFCoefficients.go:421-438, one channel; returns the channel and the
   scratch matrices *)
Definition llfBlock (t : TransformType) (dqlf : list (list R)) (lfY lfX pixelGroupY pixelGroupX : Z) (s : list (list R) * list (list R) * list (list R))
    : Outcome (list (list R) * list (list R) * list (list R)) :=
  let '(dq, s0, s1) := s in
  let h := Z.to_nat (tt_dctSelectHeight t) in let w := Z.to_nat (tt_dctSelectWidth t) in
  r <o- ForwardDCT2D dqlf dq (lfY, lfX) (pixelGroupY, pixelGroupX) h w s0 s1 ;;
  let '(dq, s0, s1) := r in
  dq <o- oloop h 0 (fun y dq =>
    _ <o- slice_get dq (Z.of_nat y + pixelGroupY) ;;
    oloop w 0 (fun x dq =>
      v <o- rget2 dq (Z.of_nat y + pixelGroupY) (Z.of_nat x + pixelGroupX) ;;
      k <o- llfScale t (Z.of_nat y) (Z.of_nat x) ;;
      rset2 dq (Z.of_nat y + pixelGroupY) (Z.of_nat x + pixelGroupX) (v * k)%R) dq) dq ;;
  Ok (dq, s0, s1).
Definition finalizeLLF (p : HFParams) (lf : list (list (list R))) (bs : list HFBlock) (s0 s1 : list (list R)) (ms : list (list (list R)))
    : Outcome (list (list (list R)) * list (list R) * list (list R)) :=
  eachBlock (fun b s =>
    oloop 3 0 (fun c s =>
      let '(ms, s0, s1) := s in
      sy <o- slice_get (hp_shiftY p) (Z.of_nat c) ;; sx <o- slice_get (hp_shiftX p) (Z.of_nat c) ;;
      match channelPos (hb_y b - hp_groupY p) (hb_x b - hp_groupX p) sy sx with
      | None => Ok s
      | Some (sY, sX) =>
        dqlf <o- slice_get lf (Z.of_nat c) ;;
        dq <o- slice_get ms (Z.of_nat c) ;;
        r <o- llfBlock (hb_type b) dqlf (Z.shiftr (hb_y b) sy) (Z.shiftr (hb_x b) sx) (Z.shiftl sY 3) (Z.shiftl sX 3) (dq, s0, s1) ;;
        let '(dq, s0, s1) := r in
        ms <o- slice_set ms (Z.of_nat c) dq ;;
        Ok (ms, s0, s1)
      end) s) bs (ms, s0, s1).
(* :248-263 *)
Definition bakeDequantizedCoeffs (p : HFParams) (quantized : list (list (list Z))) (colorFactor : Z) (baseX baseB : R) (hfX hfB : list (list Z))
    (lf : list (list (list R))) (s0 s1 : list (list R)) (bs : list HFBlock) (ms : list (list (list R))) : Outcome (list (list (list R))) :=
  ms <o- dequantizeHFCoefficients p quantized bs ms ;;
  ms <o- chromaFromLuma p colorFactor baseX baseB hfX hfB bs ms ;;
  r <o- finalizeLLF p lf bs s0 s1 ms ;;
  Ok (fst (fst r)).
