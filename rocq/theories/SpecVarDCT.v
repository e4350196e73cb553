(* Independent description of the samples of a VarDCT group: what an encoder
   makes of the samples of a block, and where the block is in the frame. *)
From Coq Require Import ZArith List Bool Arith Reals.
From Verif Require Import SpecDCT SpecVarBlock SpecTypes.
Import ListNotations.
Open Scope R_scope.

(* The transform of an encoder, by kind; B is the basis of AFV blocks.  Two
   kinds are left out: the 4x4 DCT and AFV blocks whose corner is not the top
   left one. *)
Definition encode (B : nat -> nat -> R) (k : kind) : (nat -> nat -> R) -> nat -> nat -> R :=
  match k with
  | Dct h w => dct2 (Z.to_nat h) (Z.to_nat w)
  | Hornuss => enc_hornuss
  | Dct2 => enc_dct2
  | Dct4x8 => enc_dct4_8
  | Dct8x4 => enc_dct8_4
  | Afv _ => enc_afv B false false
  | Dct4 => fun f => f
  end.
Definition supported (k : kind) : Prop := match k with Dct4 => False | Afv corner => corner = 0%Z | _ => True end.
(* g is the block f; in the corner of an AFV block up to 16 * 10^-14 times the
   bound M of its samples *)
Definition near (M : R) (k : kind) (f g : nat -> nat -> R) (y x : nat) : Prop :=
  match k with
  | Afv _ => if ((y <? 4) && (x <? 4))%nat then Rabs (g y x - f y x) <= 16 * M / IZR (10 ^ 14) else g y x = f y x
  | _ => g y x = f y x
  end.
(* kinds whose samples come back exactly *)
Definition exact_kind (k : kind) : Prop := match k with Dct4 => False | Afv _ => False | _ => True end.
