(* What decoding to an image of the Go standard library should give: package
   image of Go. *)
From Coq Require Import ZArith List Bool.
From Verif Require Import ModelHeader ModelToImage ModelReader SpecHeader SpecDecode SpecImage SpecToImage.
Import ListNotations.
Open Scope Z_scope.

(* Samples of D bits in the colours of sRGB, without ICC profile; the first
   extra channel is alpha if any is, and colours are not multiplied by it *)
Definition srgb_bits (D : Z) (ih : ImageHeader) : Prop :=
  bd_bits (ih_bd ih) = D /\ Forall (fun e => bd_bits (ec_bd e) = D) (ih_extra ih) /\ ih_icc ih = None /\
  col_tf (ih_colour ih) = 2 ^ 24 + 13 /\ col_primXY (ih_colour ih) = prim_xy 1 /\ col_white (ih_colour ih) = white_xy 1 /\
  (ih_alpha ih = [] \/ exists e t, ih_extra ih = e :: t /\ hd 0 (ih_alpha ih) = 0 /\ ec_assoc e = false).
Definition eight_bit : ImageHeader -> Prop := srgb_bits 8.
(* g is the image out, with H rows and W columns, as it is seen; samples are cut to
   0..255, a colour image without alpha is opaque *)
Definition go_shows (g : GoImage) (ih : ImageHeader) (H W : nat) (out : nat -> nat -> nat -> Z) : Prop :=
  let k := ih_orientation ih in let size := seen_size k H W in
  let gray := col_space (ih_colour ih) =? 1 in
  exists pix, g = (if gray then Gray else NRGBA) (Z.of_nat (snd size)) (Z.of_nat (fst size)) pix /\
    let n := if gray then 1%nat else 4%nat in
    length pix = (n * (fst size * snd size))%nat /\
    forall y x c, (y < H)%nat -> (x < W)%nat -> (c < n)%nat ->
      pix_byte n (snd size) pix (fst (seen_at k H W y x)) (snd (seen_at k H W y x)) c =
      if (c =? 3)%nat && (length (ih_alpha ih) =? 0)%nat then 255 else clamped 255 (out c y x).
(* The same for colour images and samples of D < 8 bits: 255 v / (2^D - 1), to the nearest
   integer *)
Definition go_shows_scaled (D : Z) (g : GoImage) (ih : ImageHeader) (H W : nat) (out : nat -> nat -> nat -> Z) : Prop :=
  let k := ih_orientation ih in let size := seen_size k H W in
  exists pix, g = NRGBA (Z.of_nat (snd size)) (Z.of_nat (fst size)) pix /\
    length pix = (4 * (fst size * snd size))%nat /\
    forall y x c, (y < H)%nat -> (x < W)%nat -> (c < 4)%nat ->
      let b := pix_byte 4 (snd size) pix (fst (seen_at k H W y x)) (snd (seen_at k H W y x)) c in
      if (c =? 3)%nat && (length (ih_alpha ih) =? 0)%nat then b = 255 else 2 * Z.abs (b * (2 ^ D - 1) - 255 * out c y x) <= 2 ^ D - 1.

(* The configuration of a Go image: its colour model and its size *)
Definition config_of (g : GoImage) : Config :=
  match g with
  | Gray w h _ => mkCfg GrayModel w h
  | NRGBA w h _ => mkCfg NRGBAModel w h
  end.
