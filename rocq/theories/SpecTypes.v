(* Independent description of the 27 transform types of the standard. *)
From Coq Require Import ZArith List Bool.
Import ListNotations.
Open Scope Z_scope.

(* rows and columns of a DCT, the special transforms of 8x8 samples, the
   corner of an AFV transform *)
Inductive kind : Set := Dct (h w : Z) | Hornuss | Dct2 | Dct4 | Dct4x8 | Dct8x4 | Afv (corner : Z).
Definition kinds : list kind :=
  [Dct 8 8; Hornuss; Dct2; Dct4; Dct 16 16; Dct 32 32; Dct 16 8; Dct 8 16; Dct 32 8; Dct 8 32; Dct 32 16; Dct 16 32; Dct4x8; Dct8x4;
   Afv 0; Afv 1; Afv 2; Afv 3; Dct 64 64; Dct 64 32; Dct 32 64; Dct 128 128; Dct 128 64; Dct 64 128; Dct 256 256; Dct 256 128; Dct 128 256].
Definition size (k : kind) : Z * Z := match k with Dct h w => (h, w) | _ => (8, 8) end.
(* Blocks that share their scan order: a size and its transpose, and all
   special transforms *)
Definition order_groups : list (kind -> bool) :=
  let dct a b k := match k with Dct h w => (h =? a) && (w =? b) || (h =? b) && (w =? a) | _ => false end in
  [dct 8 8; (fun k => match k with Dct _ _ => false | _ => true end); dct 16 16; dct 32 32; dct 16 8; dct 32 8; dct 32 16; dct 64 64; dct 64 32; dct 128 128; dct 128 64; dct 256 256; dct 256 128].
(* Blocks that share their weights *)
Definition weight_groups : list (kind -> bool) :=
  let dct a b k := match k with Dct h w => (h =? a) && (w =? b) || (h =? b) && (w =? a) | _ => false end in
  [dct 8 8; (fun k => match k with Hornuss => true | _ => false end); (fun k => match k with Dct2 => true | _ => false end); (fun k => match k with Dct4 => true | _ => false end); dct 16 16; dct 32 32; dct 16 8; dct 32 8; dct 32 16;
   (fun k => match k with Dct4x8 | Dct8x4 => true | _ => false end); (fun k => match k with Afv _ => true | _ => false end); dct 64 64; dct 64 32; dct 128 128; dct 128 64; dct 256 256; dct 256 128].
Definition in_groups (gs : list (kind -> bool)) (k : kind) (n : Z) : Prop := forall i, (i < length gs)%nat -> nth i gs (fun _ => false) k = (Z.of_nat i =? n).
