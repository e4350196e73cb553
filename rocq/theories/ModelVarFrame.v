(* Transcription of the decoding of a VarDCT frame up to the samples of its
   three channels, before restoration filters: frame/LFGlobal.go:43-168,
   LFGroup.go, HFGlobal.go:221-253, Pass.go, PassGroup.go:73-106 and
   Frame.go:324-405 with Encoding == VARDCT.

   Simplifications:
   - frames with one pass and without extra channels, so that the global
     modular stream and those of the groups have no channels;
   - the goroutines of the groups are run one after the other, as in
     ModelModFrame.v;
   - float32 numbers are exact real numbers;
   - the raw tables of quantisation weights and the weights generated from the
     parameters are arguments (ModelHFGlobal.v, ModelHFWeights.v), and so are
     the sort of the scan orders and the samples of an LF frame. *)
From Coq Require Import ZArith List Bool Reals.
From Verif Require Import GoBase GoLoop GoMatrix ModelBitReader ModelUtil ModelHeader ModelEntropy ModelMATree ModelModular ModelModStream ModelModDecode.
From Verif Require Import ModelGroups ModelSections ModelHF ModelHFCoeff ModelLF ModelLFCoeff ModelLFGroup ModelHFGlobal ModelHFPass ModelHFGroup ModelHFDequant ModelVarDCT ModelModFrame.
Import ListNotations.
Open Scope Z_scope.

Local Notation "x <o- m ;; k" := (obind m (fun x => k)) (at level 61, m at next level, right associativity).

(* What the frame takes from the image and frame headers: geometry, flags, bit
   depth, shifts of subsampled channels, shift of the pass, scales of X and B,
   and the biases of the quantisation *)
Record VF := mkVF { vf_geo : Geo; vf_flags : Z; vf_depth : Z; vf_jy : Z * Z * Z; vf_jx : Z * Z * Z; vf_shift : Z;
  vf_xqm : Z; vf_bqm : Z; vf_bias : list R; vf_biasNum : R }.
Definition triple {A} (t : A * A * A) : list A := let '(a, b, c) := t in [a; b; c].
Definition f32R (f : F32) : R := ((if f_neg f then -1 else 1) * IZR (f_mant f) * powerRZ 2 (f_exp f))%R.

(* ---- LF global: LFGlobal.go:43-168 ---- *)
Definition newLFGlobalVar (f : VF) : RM (LFGlobal * option (list Node * ES)) :=
  lg <- readLFGlobal (NewHFBlockContextWith ReadClusterMap) (vf_flags f) true ;;
  global <- (if lg_hasGlobalTree lg then t <- NewMATreeWithReader ;; rret (Some t) else rret None) ;;
  ms <- NewModularStream global [] ;;
  _ <- decodeChannels (vf_depth f) (g_dim (vf_geo f)) globalStream true ms ;;
  rret (lg, global).

(* ---- LF groups: Frame.go:594-633 ---- *)
(* FrameHeader.go: USE_LF_FRAME = 32, SKIP_ADAPTIVE_LF_SMOOTHING = 128;
   LFGroup.go:25-33, lfcoefficients.go:36-58 *)
Definition lfParams (f : VF) (lg : LFGlobal) (size loc : Z * Z) : LFParams :=
  let step i := scaledDequant (f32R (nth i (lg_lfDequant lg) (f32_of_Z 0))) (lg_globalScale lg) (lg_quantLF lg) in
  let cc := lg_lfChanCorr lg in
  mkLFP (negb (Z.land (vf_flags f) 32 =? 0)) (negb (Z.land (vf_flags f) 128 =? 0)) (vf_jy f) (vf_jx f)
    (Z.shiftr (fst size) 3) (Z.shiftr (snd size) 3) (Z.shiftl (fst loc) 8) (Z.shiftl (snd loc) 8) (step 0%nat, step 1%nat, step 2%nat)
    (cc_colorFactor cc) (f32R (cc_baseCorrelationX cc)) (f32R (cc_baseCorrelationB cc)) (cc_xFactorLF cc) (cc_bFactorLF cc).
(* LF image and contexts; channels; correlation factors, sharpness and layout *)
Definition VarLF : Type := ((list (list R) * list (list R) * list (list R)) * list (list Z)) * list Chan * (list (list (list Z)) * (list (Z * Z) * (list (list Z) * list (list Z)))).
Definition varLFGroup (f : VF) (lg : LFGlobal) (hc : HFBlockContext) (global : option (list Node * ES)) (numLF : Z) (lfBuffer : list (list (list R))) (id : nat) (rs : list BR)
    : Outcome VarLF * list BR :=
  match (size <o- getLFGroupSize (vf_geo f) (Z.of_nat id) ;; loc <o- getLFGroupLocation (vf_geo f) (Z.of_nat id) ;; Ok (size, loc)) with
  | Ok (size, loc) =>
      onSection (lfGroupEntry (Z.of_nat id)) (NewLFGroup (mkLGI (lfParams f lg size loc) hc global (vf_depth f) (g_dim (vf_geo f)) (Z.of_nat id) numLF) [] lfBuffer) rs
  | Err => (Err, rs)
  | Panic => (Panic, rs)
  end.

(* ---- HF global and the pass: Frame.go:386-405, HFGlobal.go:221-253 ---- *)
Definition hfGlobalAndPass (raw : Z -> RM (list (list (list Z)))) (weights : list TableParams -> Outcome (list (list (list (list R)))))
    (sort : (Z * Z -> Z * Z -> Z) -> list (Z * Z) -> list (Z * Z)) (hc : HFBlockContext) (numG : Z) : RM ((list (list (list (list R))) * Z) * (list (list (list (Z * Z))) * ES)) :=
  r <- readHFGlobal raw (fun ps => match weights ps with Ok _ => true | _ => false end) numG ;;
  w <- rlift (weights (fst r)) ;;
  pass <- NewHFPass sort hc (snd r) ;;
  rret ((w, snd r), pass).

(* ---- groups ---- *)
(* HFCoefficients.go:40-80: what the reader takes from the frame *)
Definition groupIn (f : VF) (hc : HFBlockContext) (presets : Z) (orders : list (list (list (Z * Z)))) (stream : ES) (size pos : Z * Z) (lf : VarLF) : GroupIn :=
  let '(((_, lfIndex), _), (_, (positions, (select, mult)))) := lf in
  mkGI hc presets orders stream (vf_shift f) size pos (triple (vf_jy f)) (triple (vf_jx f)) positions select mult lfIndex.
Definition zeroes (h w : Z) : list (list R) := zeroMatrix h w.
(* HFCoefficients.go:65-78, 245-275 and PassGroup.go:108-130; pooled matrices
   are zeroed (C35) *)
Definition jobOf (f : VF) (lg : LFGlobal) (weights : list (list (list (list R)))) (call : nat -> HFBlock -> nat) (id : nat) (size pos loc : Z * Z) (lf : VarLF)
    (blocks : list (option (Z * Z))) (quantized : list (list (list Z))) : GroupJob :=
  let '((((d0, d1, d2), _), _), (buf, (_, (select, mult)))) := lf in
  let cc := lg_lfChanCorr lg in let jy := triple (vf_jy f) in let jx := triple (vf_jx f) in
  mkGJ (mkHFP (lg_globalScale lg) (vf_xqm f) (vf_bqm f) jy jx (Z.shiftl (fst pos) 5) (Z.shiftl (snd pos) 5) (vf_bias f) (vf_biasNum f) weights)
    (call id) loc select mult blocks quantized
    (map (fun c => zeroes (Z.shiftr (fst size) (nth c jy 0)) (Z.shiftr (snd size) (nth c jx 0))) [0; 1; 2]%nat)
    (mkBI (cc_colorFactor cc) (f32R (cc_baseCorrelationX cc)) (f32R (cc_baseCorrelationB cc)) (nth 0 buf []) (nth 1 buf []) [d0; d1; d2] (zeroes 32 32) (zeroes 32 32))
    (let z := zeroes 256 256 in (z, z, z, z)).
(* Frame.go:690-725 with PassGroup.go:73-106, in pass 0 *)
Definition varGroup (f : VF) (lg : LFGlobal) (hc : HFBlockContext) (global : option (list Node * ES)) (numLF numG : Z) (lfs : list VarLF)
    (hf : (list (list (list (list R))) * Z) * (list (list (list (Z * Z))) * ES)) (call : nat -> HFBlock -> nat) (id : nat) (rs : list BR) : Outcome GroupJob * list BR :=
  match (k <o- lfGroupIndex (vf_geo f) (Z.of_nat id) ;; lf <o- slice_get lfs k ;;
         size <o- getGroupSize (vf_geo f) (Z.of_nat id) ;; pos <o- groupPosInLFGroup (vf_geo f) k (Z.of_nat id) ;;
         loc <o- getGroupLocation (vf_geo f) (Z.of_nat id) ;; Ok (lf, size, pos, loc)) with
  | Ok (lf, size, pos, loc) =>
      let i := groupIn f hc (snd (fst hf)) (fst (snd hf)) (snd (snd hf)) size pos lf in
      onSection (passGroupEntry numLF numG 0 (Z.of_nat id))
        (r <- NewHFCoefficients i ;;
         _ <- decodeModular global (vf_depth f) (g_dim (vf_geo f)) (passStream numLF numG 0 (Z.of_nat id)) [] ;;
         rret (jobOf f lg (fst (fst hf)) call id size pos loc lf (snd (fst r)) (snd r))) rs
  | Err => (Err, rs)
  | Panic => (Panic, rs)
  end.
(* Frame.go:681-688 and 813-816: the error of a group is logged, and the group
   stays a zero PassGroup, whose coefficients are a nil pointer *)
Definition needGroup {A} (r : Outcome A) : Outcome A := match r with Err => Panic | _ => r end.

(* ---- Frame.go:324-405 ---- *)
Definition decodeVarFrame (f : VF) (raw : Z -> RM (list (list (list Z)))) (weights : list TableParams -> Outcome (list (list (list (list R)))))
    (sort : (Z * Z -> Z * Z -> Z) -> list (Z * Z) -> list (Z * Z)) (call : nat -> HFBlock -> nat) (lfBuffer : list (list (list R))) (rs : list BR)
    : Outcome (list (list (list R))) * list BR :=
  match onSection lfGlobalEntry (newLFGlobalVar f) rs with
  | (Ok (lg, global), rs) =>
      match (ph <o- paddedHeight (vf_geo f) ;; pw <o- paddedWidth (vf_geo f) ;;
             numLF <o- numLFGroups (vf_geo f) ;; numG <o- numGroups (vf_geo f) ;;
             match lg_hfBlockCtx lg with Some hc => Ok (ph, pw, numLF, numG, hc) | None => Panic end) with
      | Ok (ph, pw, numLF, numG, hc) =>
          let buffers := map (fun c => zeroes (i32 (Z.shiftr ph (nth c (triple (vf_jy f)) 0))) (i32 (Z.shiftr pw (nth c (triple (vf_jx f)) 0)))) [0; 1; 2]%nat in
          let '(l, rs) := forGroups (varLFGroup f lg hc global numLF lfBuffer) (seq 0 (Z.to_nat numLF)) rs in
          match allGroups l with
          | Ok lfs =>
              match onSection (hfGlobalEntry numLF) (hfGlobalAndPass raw weights sort hc numG) rs with
              | (Ok hf, rs) =>
                  let '(l, rs) := forGroups (varGroup f lg hc global numLF numG lfs hf call) (seq 0 (Z.to_nat numG)) rs in
                  (jobs <o- allGroups (map needGroup l) ;; invertGroups false jobs buffers, rs)
              | (Err, rs) => (Err, rs)
              | (Panic, rs) => (Panic, rs)
              end
          | Err => (Err, rs)
          | Panic => (Panic, rs)
          end
      | Err => (Err, rs)
      | Panic => (Panic, rs)
      end
  | (Err, rs) => (Err, rs)
  | (Panic, rs) => (Panic, rs)
  end.
