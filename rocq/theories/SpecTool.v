(* What a PNG file made of an image with an ICC profile should hold: ISO/IEC
   15948. *)
From Coq Require Import ZArith List Bool.
From Verif Require Import ModelHeader SpecBitReader SpecHeader SpecDecode SpecImage SpecICCTags.
Import ListNotations.
Open Scope Z_scope.

(* Samples of D bits, and the ICC profile P, sent in one of the ways of C108 *)
Definition profiled (D : Z) (P : list Z) (ih : ImageHeader) : Prop :=
  bd_bits (ih_bd ih) = D /\ Forall (fun e => bd_bits (ec_bd e) = D) (ih_extra ih) /\
  (Forall is_byte P /\ (132 <= length P)%nat /\ Z.of_nat (length P) < 2 ^ 29 /\ nth 128 P 0 < 127) /\
  exists enc, ih_icc ih = Some enc /\ profile_sent P enc /\ Forall is_byte enc /\ Z.of_nat (length enc) < 2 ^ 31.
(* alpha, if any, is the first extra channel and belongs to a colour image, whose
   colours are not multiplied by it *)
Definition usual_alpha (ih : ImageHeader) : Prop :=
  ih_alpha ih = [] \/ col_space (ih_colour ih) <> 1 /\ exists e t, ih_extra ih = e :: t /\ hd 0 (ih_alpha ih) = 0 /\ ec_assoc e = false.

Definition bytes4 (v : Z) (l : list Z) : Prop := length l = 4%nat /\ Forall is_byte l /\ be_value l = v.
(* The file has the image out, with H rows and W columns, as it is seen, and the
   profile P; deflate and deflate1 compress.  Colour type 0: gray, 2: colour, 6: colour and alpha.
   The profile has a name that ends with 0, and compression method 0. *)
Definition png_shows (crc : list Z -> Z) (deflate deflate1 : list Z -> list Z) (D : Z) (P : list Z) (ih : ImageHeader) (H W : nat)
    (out : nat -> nat -> nat -> Z) (bytes : list Z) : Prop :=
  let k := ih_orientation ih in let size := seen_size k H W in
  let gray := col_space (ih_colour ih) =? 1 in let opaque := (length (ih_alpha ih) =? 0)%nat in
  let n := if gray then 1%nat else if opaque then 3%nat else 4%nat in
  exists width height name sample,
    bytes4 (Z.of_nat (snd size)) width /\ bytes4 (Z.of_nat (fst size)) height /\
    (1 <= length name <= 79)%nat /\ Forall (fun b => 32 <= b <= 126) name /\
    (forall y x c, (y < H)%nat -> (x < W)%nat -> (c < n)%nat ->
       sample c (fst (seen_at k H W y x)) (snd (seen_at k H W y x)) = clamped (2 ^ D - 1) (out c y x)) /\
    let rows := png_rows (fst size) (snd size) n D sample in
    (Forall is_byte (deflate rows) /\ Forall is_byte (deflate1 P) ->
     Z.of_nat (length (deflate rows)) < 2 ^ 32 - 100 -> Z.of_nat (length (deflate1 P)) < 2 ^ 32 - 100 ->
     png_file crc [mkCh [73; 72; 68; 82] (width ++ height ++ [D; if gray then 0 else if opaque then 2 else 6; 0; 0; 0]);
                   mkCh [105; 67; 67; 80] (name ++ [0; 0] ++ deflate1 P);
                   mkCh [73; 68; 65; 84] (deflate rows);
                   mkCh [73; 69; 78; 68] []] bytes).
