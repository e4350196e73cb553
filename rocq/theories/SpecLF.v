(* Independent grammar of the LF global information. *)
From Coq Require Import ZArith List Bool.
From Verif Require Import GoBase Bits ModelBitReader SpecBitReader SpecCodes SpecGrammar ModelHeader SpecHeader ModelHF ModelLF.
Import ListNotations.
Open Scope Z_scope.

Definition c_map {A B} (f : A -> B) (R : code A) : code B := v <== R ;;; c_ret (f v).
(* value of a float with another exponent *)
Definition scaled_float (k : Z) (f : F32) : F32 := mkF32 (f_neg f) (f_mant f) (f_exp f + k).

(* Steps of the three LF channels: 2^-12, 2^-9 and 2^-8, or three half floats
   over 128 *)
Definition dequant_code : code (list F32) :=
  def <== c_bool ;;;
  if def : bool then c_ret (map (fun k => mkF32 false 1 k) [-12; -9; -8])
  else c_list 3 (c_map (scaled_float (-7)) c_f16).
Definition quantizer_code : code (Z * Z) :=
  g <== c_u32 1 11 2049 11 4097 12 8193 16 ;;; q <== c_u32 16 0 1 5 1 8 1 16 ;;; c_ret (g, q).
(* factor, base correlations of X and B, LF factors *)
Definition correlation_code : code LFChannelCorrelation :=
  def <== c_bool ;;;
  if def : bool then c_ret (mkCC 84 (mkF32 false 0 0) (mkF32 false 1 0) 128 128)
  else f <== c_u32 84 0 256 0 2 8 258 16 ;;; x <== c_f16 ;;; b <== c_f16 ;;; xf <== c_fixed 8 ;;; bf <== c_fixed 8 ;;;
       c_ret (mkCC f x b xf bf).

(* Block contexts: thresholds of the three LF channels and of the multiplier,
   and a map from the 39 combinations of channel and order, times the
   threshold intervals, to at most 16 contexts.  unpack turns the coded number
   into a threshold; map_code is the syntax of maps. *)
Definition intervals (l : list (list Z)) : Z := fold_right (fun t a => (Z.of_nat (length t) + 1) * a) 1 l.
Definition block_context_code (unpack : Z -> Z) (map_code : Z -> code (list Z * Z)) : code HFBlockContext :=
  def <== c_bool ;;;
  if def : bool then
    c_ret (mkHFB [[]; []; []]
      (let luma := [0; 1; 2; 2; 3; 3; 4; 5; 6; 6; 6; 6; 6] in
       let chroma := [7; 8; 9; 9; 10; 11; 12; 13; 14; 14; 14; 14; 14] in luma ++ chroma ++ chroma) 15 [] 1)
  else
    lf <== c_list 3 (n <== c_fixed 4 ;;; c_list (Z.to_nat n) (c_map unpack (c_u32 0 4 16 8 272 16 65808 32))) ;;;
    nq <== c_fixed 4 ;;;
    qf <== c_list (Z.to_nat nq) (c_map (fun t => t + 1) (c_u32 0 2 4 3 12 5 44 8)) ;;;
    c_guard (intervals (qf :: lf) <= 64)
    (m <== map_code (39 * intervals (qf :: lf)) ;;;
     c_ret (mkHFB lf (fst m) (snd m) qf (intervals lf))).
(* thresholds are zig-zag coded modulo 2^32 *)
Definition standard_threshold (v : Z) : Z := unzigzag (v mod 2 ^ 32).

(* flags: 1 noise, 2 patches, 16 splines *)
Definition lf_global_code (unpack : Z -> Z) (map_code : Z -> code (list Z * Z)) (vardct : bool) : code LFGlobal :=
  d <== dequant_code ;;;
  if vardct then
    q <== quantizer_code ;;; h <== block_context_code unpack map_code ;;; c <== correlation_code ;;; t <== c_bool ;;;
    c_ret (mkLFG d (fst q) (snd q) (Some h) c t)
  else t <== c_bool ;;; c_ret (mkLFG d 0 0 None (mkCC 84 (mkF32 false 0 0) (mkF32 false 1 0) 128 128) t).
