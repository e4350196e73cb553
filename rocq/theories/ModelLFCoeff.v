(* LF coefficients: frame/lfcoefficients.go:23-124 and 155-225, and the
   scaled steps of frame/LFGlobal.go:111-113.

   Simplifications:
   - float32 numbers are exact real numbers, so rounding is not modelled;
   - the samples of the modular stream (ModelModular.v, ModelModStream.v) are
     an argument, and so are the samples of the LF frame after their
     conversion to float32;
   - the matrices do not share rows. *)
From Coq Require Import ZArith List Bool Reals.
From Verif Require Import GoBase GoLoop ModelDCT ModelLF.
Import ListNotations.
Open Scope Z_scope.

Local Notation "x <o- m ;; k" := (obind m (fun x => k)) (at level 61, m at next level, right associativity).

(* LFGlobal.go:112 *)
Definition scaledDequant (lfDequant : R) (globalScale quantLF : Z) : R := (65536 * lfDequant / IZR (scaleDivisor globalScale quantLF))%R.
(* Frame.go:21 *)
Definition cMap : list Z := [1; 0; 2].
Definition zeroMatrix (h w : Z) : list (list R) := repeat (repeat 0%R (Z.to_nat w)) (Z.to_nat h).

(* lfcoefficients.go:53-58, one channel: the rows from pY on and the columns from pX on *)
Definition copyLFFrame (b : list (list R)) (pY pX : Z) (dq : list (list R)) : Outcome (list (list R)) :=
  oloop (length dq) 0 (fun y dq =>
    dqy <o- slice_get dq (Z.of_nat y) ;;
    oloop (length dqy) 0 (fun d dq =>
      v <o- rget2 b (pY + Z.of_nat y) (pX + Z.of_nat d) ;;
      rset2 dq (Z.of_nat y) (Z.of_nat d) v) dq) dq.
(* :81-87, one channel *)
Definition dequantChannel (lfQuant : list (list Z)) (sd : R) (dq : list (list R)) : Outcome (list (list R)) :=
  oloop (length lfQuant) 0 (fun y dq =>
    _ <o- slice_get dq (Z.of_nat y) ;;
    q <o- slice_get lfQuant (Z.of_nat y) ;;
    oloop (length q) 0 (fun x dq =>
      v <o- slice_get q (Z.of_nat x) ;;
      rset2 dq (Z.of_nat y) (Z.of_nat x) (IZR v * sd)%R) dq) dq.
(* :93-94, uint32 subtraction *)
Definition correlation (base : R) (factorLF colorFactor : Z) : R := (base + IZR (u32 (factorLF - 128)) / IZR colorFactor)%R.
(* :98-106 *)
Definition correlate (kX kB : R) (dqLFX dqLFY dqLFB : list (list R)) : Outcome (list (list R) * list (list R)) :=
  oloop (length dqLFY) 0 (fun y xb =>
    dqLFYy <o- slice_get dqLFY (Z.of_nat y) ;;
    _ <o- slice_get (fst xb) (Z.of_nat y) ;;
    _ <o- slice_get (snd xb) (Z.of_nat y) ;;
    oloop (length dqLFYy) 0 (fun x xb =>
      s <o- slice_get dqLFYy (Z.of_nat x) ;;
      a <o- rget2 (fst xb) (Z.of_nat y) (Z.of_nat x) ;;
      m <o- rset2 (fst xb) (Z.of_nat y) (Z.of_nat x) (a + kX * s)%R ;;
      b <o- rget2 (snd xb) (Z.of_nat y) (Z.of_nat x) ;;
      n <o- rset2 (snd xb) (Z.of_nat y) (Z.of_nat x) (b + kB * s)%R ;;
      Ok (m, n)) xb) (dqLFX, dqLFB).

(* :165-171 *)
Definition initGap (height width : nat) : Outcome (list (list R)) :=
  oloop (height - 2) 1 (fun y gap =>
    _ <o- slice_get gap (Z.of_nat y) ;;
    oloop width 0 (fun x gap => rset2 gap (Z.of_nat y) (Z.of_nat x) 0.5%R) gap) (repeat (repeat 0%R width) height).
(* :174-194, one channel: weighted samples and the gap *)
Definition smoothWeights (co : list (list R)) (sd : R) (weighted gap : list (list R)) : Outcome (list (list R) * list (list R)) :=
  oloop (length co - 2) 1 (fun y wg =>
    coy <o- slice_get co (Z.of_nat y) ;;
    coym <o- slice_get co (Z.of_nat y - 1) ;;
    coyp <o- slice_get co (Z.of_nat y + 1) ;;
    _ <o- slice_get (snd wg) (Z.of_nat y) ;;
    _ <o- slice_get (fst wg) (Z.of_nat y) ;;
    oloop (length coy - 2) 1 (fun x wg =>
      let x := Z.of_nat x in
      sample <o- slice_get coy x ;;
      a1 <o- slice_get coy (x - 1) ;; a2 <o- slice_get coy (x + 1) ;; a3 <o- slice_get coym x ;; a4 <o- slice_get coyp x ;;
      let adjacent := (a1 + a2 + a3 + a4)%R in
      d1 <o- slice_get coym (x - 1) ;; d2 <o- slice_get coym (x + 1) ;; d3 <o- slice_get coyp (x - 1) ;; d4 <o- slice_get coyp (x + 1) ;;
      let diag := (d1 + d2 + d3 + d4)%R in
      let w := (0.05226273532324128 * sample + 0.20345139757231578 * adjacent + 0.0334829185968739 * diag)%R in
      weighted <o- rset2 (fst wg) (Z.of_nat y) x w ;;
      let g := (Rabs (sample - w) * sd)%R in
      cur <o- rget2 (snd wg) (Z.of_nat y) x ;;
      gap <o- (if Rlt_dec cur g then rset2 (snd wg) (Z.of_nat y) x g else Ok (snd wg)) ;;
      Ok (weighted, gap)) wg) (weighted, gap).
(* :197-202 *)
Definition gapFactors (height : nat) (gap : list (list R)) : Outcome (list (list R)) :=
  oloop (height - 2) 1 (fun y gap =>
    gy <o- slice_get gap (Z.of_nat y) ;;
    oloop (length gy) 0 (fun x gap =>
      g <o- rget2 gap (Z.of_nat y) (Z.of_nat x) ;;
      rset2 gap (Z.of_nat y) (Z.of_nat x) (Rmax 0 (3 - 4 * g))) gap) gap.
(* copy(dst, src) *)
Definition copySlice {A} (dst src : list A) : list A := firstn (length dst) src ++ skipn (length src) dst.
(* :204-226, one channel *)
Definition smoothBlend (co weighted gap dq : list (list R)) : Outcome (list (list R)) :=
  oloop (length co) 0 (fun y dq =>
    coy <o- slice_get co (Z.of_nat y) ;;
    dqy <o- slice_get dq (Z.of_nat y) ;;
    if (y =? 0)%nat || (S y =? length co)%nat then slice_set dq (Z.of_nat y) (copySlice dqy coy)
    else
      gy <o- slice_get gap (Z.of_nat y) ;;
      wiy <o- slice_get weighted (Z.of_nat y) ;;
      e <o- slice_get coy 0 ;;
      dq <o- rset2 dq (Z.of_nat y) 0 e ;;
      e <o- slice_get coy (Z.of_nat (length coy) - 1) ;;
      dq <o- rset2 dq (Z.of_nat y) (Z.of_nat (length coy) - 1) e ;;
      oloop (length coy - 2) 1 (fun x dq =>
        s <o- slice_get coy (Z.of_nat x) ;;
        w <o- slice_get wiy (Z.of_nat x) ;;
        g <o- slice_get gy (Z.of_nat x) ;;
        rset2 dq (Z.of_nat y) (Z.of_nat x) ((s - w) * g + w)%R) dq) dq.
(* :155-228, adaptiveSmooth; coeff and scaledDequant have three elements *)
Definition adaptiveSmooth (c0 c1 c2 : list (list R)) (s0 s1 s2 : R) : Outcome (list (list R) * list (list R) * list (list R)) :=
  r0 <o- slice_get c0 0 ;;
  let height := length c0 in
  let width := length r0 in
  let zero := repeat (repeat 0%R width) height in
  gap <o- initGap height width ;;
  wg0 <o- smoothWeights c0 s0 zero gap ;;
  wg1 <o- smoothWeights c1 s1 zero (snd wg0) ;;
  wg2 <o- smoothWeights c2 s2 zero (snd wg1) ;;
  gap <o- gapFactors height (snd wg2) ;;
  d0 <o- smoothBlend c0 (fst wg0) gap zero ;;
  d1 <o- smoothBlend c1 (fst wg1) gap zero ;;
  d2 <o- smoothBlend c2 (fst wg2) gap zero ;;
  Ok (d0, d1, d2).

(* frame header flags: LF frame, no smoothing; the shifts of the channels,
   the size of the LF group and its place in the LF frame; factor and base
   correlations of LFChannelCorrelation *)
Record LFParams := mkLFP { lp_useLFFrame : bool; lp_skipSmoothing : bool; lp_shiftY : Z * Z * Z; lp_shiftX : Z * Z * Z;
  lp_height : Z; lp_width : Z; lp_pY : Z; lp_pX : Z; lp_scaled : R * R * R; lp_colorFactor : Z; lp_baseX : R; lp_baseB : R; lp_xFactorLF : Z; lp_bFactorLF : Z }.
Definition is0 (t : Z * Z * Z) : bool := let '(a, b, c) := t in (a =? 0) && (b =? 0) && (c =? 0).
Definition subSampled (p : LFParams) : bool := negb (is0 (lp_shiftY p) && is0 (lp_shiftX p)).

(* :23-124; before the samples are read and after *)
Definition lfBefore (p : LFParams) (lfBuffer : list (list (list R))) : Outcome (list (list R) * list (list R) * list (list R)) :=
  if negb (lp_skipSmoothing p || lp_useLFFrame p) && subSampled p then Err
  else
    let '(y0, y1, y2) := lp_shiftY p in let '(x0, x1, x2) := lp_shiftX p in
    let channel y x := zeroMatrix (Z.shiftr (lp_height p) y) (Z.shiftr (lp_width p) x) in
    if lp_useLFFrame p then
      b <o- slice_get lfBuffer 0 ;; d0 <o- copyLFFrame b (lp_pY p) (lp_pX p) (channel y0 x0) ;;
      b <o- slice_get lfBuffer 1 ;; d1 <o- copyLFFrame b (lp_pY p) (lp_pX p) (channel y1 x1) ;;
      b <o- slice_get lfBuffer 2 ;; d2 <o- copyLFFrame b (lp_pY p) (lp_pX p) (channel y2 x2) ;;
      Ok (d0, d1, d2)
    else Ok (channel y0 x0, channel y1 x1, channel y2 x2).
Definition lfAfter (p : LFParams) (dq : list (list R) * list (list R) * list (list R)) (extraPrecision : Z) (lfQuant : list (list (list Z)))
    : Outcome (list (list R) * list (list R) * list (list R)) :=
  let '(d0, d1, d2) := dq in let '(s0, s1, s2) := lp_scaled p in
  let step s := (s / IZR (Z.shiftl 1 extraPrecision))%R in
  c <o- slice_get cMap 0 ;; q <o- slice_get lfQuant c ;; d0 <o- dequantChannel q (step s0) d0 ;;
  c <o- slice_get cMap 1 ;; q <o- slice_get lfQuant c ;; d1 <o- dequantChannel q (step s1) d1 ;;
  c <o- slice_get cMap 2 ;; q <o- slice_get lfQuant c ;; d2 <o- dequantChannel q (step s2) d2 ;;
  xb <o- (if subSampled p then Ok (d0, d2)
          else correlate (correlation (lp_baseX p) (lp_xFactorLF p) (lp_colorFactor p)) (correlation (lp_baseB p) (lp_bFactorLF p) (lp_colorFactor p)) d0 d1 d2) ;;
  if lp_skipSmoothing p || lp_useLFFrame p then Ok (fst xb, d1, snd xb)
  else adaptiveSmooth (fst xb) d1 (snd xb) s0 s1 s2.
Definition lfCoefficients (p : LFParams) (lfBuffer : list (list (list R))) (extraPrecision : Z) (lfQuant : list (list (list Z)))
    : Outcome (list (list R) * list (list R) * list (list R)) :=
  dq <o- lfBefore p lfBuffer ;; lfAfter p dq extraPrecision lfQuant.
