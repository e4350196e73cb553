(* LF global information: frame/LFGlobal.go:43-135, Quantizer.go,
   LFChannelCorrelation.go, and frame/HFBlockContext.go with the reader of
   cluster maps as an argument, as in the source.  The global tree and the
   global modular stream that follow are in ModelMATree.v and
   ModelModStream.v. *)
From Coq Require Import ZArith List Bool.
From Verif Require Import GoBase GoLoop ModelBitReader ModelHeader ModelEntropy ModelHF ModelHFCoeff.
Import ListNotations.
Open Scope Z_scope.

(* HFBlockContext.go:19-86 *)
Definition NewHFBlockContextWith (readClusterMap : nat -> Z -> RM (list Z * Z)) : RM HFBlockContext :=
  useDefault <- ReadBool ;;
  if useDefault : bool then rret (mkHFB [[]; []; []] defaultClusterMap 15 [] 1)
  else
    lf <- rrepeat 3 readLFThresholds ;;
    let lfCtx := fold_left (fun a ts => i32 (a * (Z.of_nat (length ts) + 1))) lf 1 in
    nbQf <- ReadBits 4 ;;
    qf <- rrepeat (Z.to_nat nbQf) (t <- ReadU32 0 2 4 3 12 5 44 8 ;; rret (i32 (i32 t + 1))) ;;
    let bSize := fold_left (fun a ts => i32 (a * (Z.of_nat (length ts) + 1))) lf (i32 (39 * (i32 nbQf + 1))) in
    if 39 * 64 <? bSize then rerr
    else
      r <- readClusterMap (Z.to_nat bSize) 16 ;;
      rret (mkHFB lf (fst r) (i32 (snd r)) qf lfCtx).

(* LFChannelCorrelation.go:5-11 *)
Record LFChannelCorrelation := mkCC { cc_colorFactor : Z; cc_baseCorrelationX : F32; cc_baseCorrelationB : F32; cc_xFactorLF : Z; cc_bFactorLF : Z }.
(* :17-24 *)
Definition NewLFChannelCorrelation : LFChannelCorrelation := mkCC 84 (f32_of_Z 0) (f32_of_Z 1) 128 128.
(* :17-49 and :51-58 *)
Definition NewLFChannelCorrelationWithReader : RM LFChannelCorrelation :=
  allDefault <- ReadBool ;;
  if allDefault : bool then rret NewLFChannelCorrelation
  else
    colorFactor <- ReadU32 84 0 256 0 2 8 258 16 ;;
    x <- ReadF16 ;;
    b <- ReadF16 ;;
    xf <- ReadBits 8 ;;
    bf <- ReadBits 8 ;;
    rret (mkCC colorFactor x b (u32 xf) (u32 bf)).

(* LFGlobal.go:28, powers of two *)
Definition defaultLfDequant : list F32 := [mkF32 false 1 (-12); mkF32 false 1 (-9); mkF32 false 1 (-8)].
(* :96, multiplication by 1/128, exact for half-precision numbers *)
Definition times128th (f : F32) : F32 := mkF32 (f_neg f) (f_mant f) (f_exp f - 7).
(* :86-98 *)
Definition readLfDequant : RM (list F32) :=
  readDequant <- ReadBool ;;
  if readDequant : bool then rret defaultLfDequant
  else l <- readF16List 3 ;; rret (map times128th l).
(* :101-110 (and Quantizer.go:15-24, which is not used) *)
Definition readQuantizer : RM (Z * Z) :=
  globalScale <- ReadU32 1 11 2049 11 4097 12 8193 16 ;;
  quantLF <- ReadU32 16 0 1 5 1 8 1 16 ;;
  rret (i32 globalScale, i32 quantLF).
(* :112, the divisor of the scaled steps: int32 arithmetic *)
Definition scaleDivisor (globalScale quantLF : Z) : Z := i32 (globalScale * quantLF).

(* :43-135; hfBlockCtx is nil for modular frames *)
Record LFGlobal := mkLFG { lg_lfDequant : list F32; lg_globalScale : Z; lg_quantLF : Z; lg_hfBlockCtx : option HFBlockContext;
  lg_lfChanCorr : LFChannelCorrelation; lg_hasGlobalTree : bool }.
Definition readLFGlobal (readBlockContext : RM HFBlockContext) (flags : Z) (vardct : bool) : RM LFGlobal :=
  if negb (Z.land flags 2 =? 0) then rerr          (* patches *)
  else if negb (Z.land flags 16 =? 0) then rerr    (* splines *)
  else if negb (Z.land flags 1 =? 0) then rerr     (* noise *)
  else
    d <- readLfDequant ;;
    r <- (if vardct then
            q <- readQuantizer ;;
            h <- readBlockContext ;;
            c <- NewLFChannelCorrelationWithReader ;;
            rret (q, Some h, c)
          else rret ((0, 0), None, NewLFChannelCorrelation)) ;;
    t <- ReadBool ;;
    rret (mkLFG d (fst (fst (fst r))) (snd (fst (fst r))) (snd (fst r)) (snd r) t).
