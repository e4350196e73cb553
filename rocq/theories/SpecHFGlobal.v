(* Independent grammar of the parameters of HF weights. *)
From Coq Require Import ZArith List Bool.
From Verif Require Import GoBase Bits ModelBitReader SpecBitReader SpecCodes SpecGrammar ModelHeader SpecHeader ModelEntropy SpecLF ModelHFGlobal.
Import ListNotations.
Open Scope Z_scope.

(* half floats; k of n are multiplied by 64, from the first on *)
Definition scaled_prefix (k : nat) (l : list F32) : list F32 :=
  map (fun p => if (fst p <? k)%nat then scaled_float 6 (snd p) else snd p) (combine (seq 0 (length l)) l).
Definition floats (n k : nat) : code (list F32) := c_map (scaled_prefix k) (c_list n c_f16).
(* three channels of 1 to 16 bands, the first of each times 64 *)
Definition bands_code : code (list (list F32)) := n <== c_fixed 4 ;;; c_list 3 (floats (Z.to_nat n + 1) 1).

(* One table; special modes are for blocks of eight by eight only.  raw i is
   the syntax of three channels of samples for table i; mode48 says whether
   mode 4 is there. *)
Definition is_8x8 (i : Z) : Prop := In i [0; 1; 2; 3; 9; 10].
Definition table_code (mode48 : bool) (raw : Z -> code (list (list (list Z)))) (i : Z) : code TableParams :=
  mode <== c_fixed 3 ;;;
  match mode with
  | 0 => c_ret PLibrary
  | 1 => c_guard (is_8x8 i) (m <== c_list 3 (floats 3 3) ;;; c_ret (PGiven 1 [] m []))
  | 2 => c_guard (is_8x8 i) (m <== c_list 3 (floats 6 6) ;;; c_ret (PGiven 2 [] m []))
  | 3 => c_guard (is_8x8 i) (m <== c_list 3 (floats 2 2) ;;; d <== bands_code ;;; c_ret (PGiven 3 d m []))
  | 4 => c_guard (is_8x8 i /\ mode48 = true) (m <== c_list 3 (floats 1 0) ;;; d <== bands_code ;;; c_ret (PGiven 4 d m []))
  | 5 => c_guard (is_8x8 i) (m <== c_list 3 (floats 9 6) ;;; d <== bands_code ;;; f <== bands_code ;;; c_ret (PGiven 5 d m f))
  | 6 => d <== bands_code ;;; c_ret (PGiven 6 d [] [])
  | _ => den <== c_f16 ;;; s <== raw i ;;; c_ret (PRaw den s)
  end.
(* a code for each number of a list *)
Fixpoint c_each {A} (R : Z -> code A) (l : list Z) : code (list A) :=
  match l with [] => c_ret [] | i :: l' => a <== R i ;;; r <== c_each R l' ;;; c_ret (a :: r) end.
(* Seventeen tables and the number of presets, at most the number of groups
   rounded up to a power of two *)
Definition hf_global_code (mode48 : bool) (raw : Z -> code (list (list (list Z)))) (valid : list TableParams -> Prop) (groups : Z) : code (list TableParams * Z) :=
  def <== c_bool ;;;
  ps <== (if def : bool then c_ret (repeat PLibrary 17) else c_each (table_code mode48 raw) [0; 1; 2; 3; 4; 5; 6; 7; 8; 9; 10; 11; 12; 13; 14; 15; 16]) ;;;
  c_guard (valid ps) (n <== c_fixed (Z.to_nat (Z.log2_up groups)) ;;; c_ret (ps, 1 + n)).
