(* What the image layer should do, independent of the model functions. *)
From Coq Require Import ZArith List Bool.
From Verif Require Import GoMatrix.
Import ListNotations.
Open Scope Z_scope.

(* ---- orientation: the EXIF table ---- *)
Inductive Side := STop | SBottom | SLeft | SRight.
(* where the stored row 0 and the stored column 0 are seen *)
Definition exif (k : Z) : Side * Side :=
  match k with
  | 1 => (STop, SLeft)
  | 2 => (STop, SRight)
  | 3 => (SBottom, SRight)
  | 4 => (SBottom, SLeft)
  | 5 => (SLeft, STop)
  | 6 => (SRight, STop)
  | 7 => (SRight, SBottom)
  | _ => (SLeft, SBottom)
  end.
Definition vertical (s : Side) : bool := match s with STop | SBottom => true | _ => false end.
(* size (height, width) of the image as seen, from the stored size *)
Definition seen_size (k : Z) (h w : nat) : nat * nat := if vertical (fst (exif k)) then (h, w) else (w, h).
(* distance i from the given side, as a coordinate of the seen image *)
Definition from_side (s : Side) (size : nat * nat) (i : nat) : nat :=
  match s with
  | STop | SLeft => i
  | SBottom => fst size - 1 - i
  | SRight => snd size - 1 - i
  end%nat.
(* where the stored pixel in row r and column c is seen, as (row, column) *)
Definition seen_at (k : Z) (h w : nat) (r c : nat) : nat * nat :=
  let size := seen_size k h w in
  let (rs, cs) := exif k in
  if vertical rs then (from_side rs size r, from_side cs size c) else (from_side cs size c, from_side rs size r).
(* the orientation that undoes orientation k *)
Definition exif_inverse (k : Z) : Z := if k =? 6 then 8 else if k =? 8 then 6 else k.

(* ---- blending ---- *)
(* canvas pixel (y, x) is covered by a frame of size fh x fw with its upper
   left corner at (oy, ox) *)
Definition covered (oy ox fh fw : Z) (y x : nat) : Prop :=
  oy <= Z.of_nat y < oy + fh /\ ox <= Z.of_nat x < ox + fw.
Definition coveredb (oy ox fh fw : Z) (y x : nat) : bool :=
  (oy <=? Z.of_nat y) && (Z.of_nat y <? oy + fh) && (ox <=? Z.of_nat x) && (Z.of_nat x <? ox + fw).

(* ---- clamping ---- *)
Definition clamped (mx v : Z) : Z := Z.max 0 (Z.min mx v).

(* ---- IEEE 754 single precision: value of the 32 bits, in units of 2^-149 ---- *)
Definition ieee_value (bits : Z) : Z :=
  let sign := bits / 2 ^ 31 in
  let e := (bits / 2 ^ 23) mod 2 ^ 8 in
  let frac := bits mod 2 ^ 23 in
  (if sign =? 0 then 1 else -1) * (if e =? 0 then frac else (2 ^ 23 + frac) * 2 ^ (e - 1)).
Definition be_value (l : list Z) : Z := fold_left (fun a b => 256 * a + b) l 0.

(* ---- decimal numbers ---- *)
Definition is_decimal (n : Z) (l : list Z) : Prop :=
  l <> [] /\ Forall (fun b => 48 <= b <= 57) l /\
  fold_left (fun a b => 10 * a + (b - 48)) l 0 = n /\
  (match l with b :: _ :: _ => b <> 48 | _ => True end).

(* ---- PNG files ---- *)
Record Chunk := mkCh { ch_type : list Z; ch_data : list Z }.
(* the bytes of a chunk, for a checksum function *)
Definition chunk_bytes (crc : list Z -> Z) (ch : Chunk) (bytes : list Z) : Prop :=
  exists len sum, length len = 4%nat /\ length sum = 4%nat /\
    be_value len = Z.of_nat (length (ch_data ch)) /\ be_value sum = crc (ch_type ch ++ ch_data ch) /\
    bytes = len ++ ch_type ch ++ ch_data ch ++ sum.
Inductive png_chunks (crc : list Z -> Z) : list Chunk -> list Z -> Prop :=
| png_nil : png_chunks crc [] []
| png_cons ch chs b bs : chunk_bytes crc ch b -> png_chunks crc chs bs -> png_chunks crc (ch :: chs) (b ++ bs).
(* signature and chunks *)
Definition png_file (crc : list Z -> Z) (chs : list Chunk) (bytes : list Z) : Prop :=
  exists bs, png_chunks crc chs bs /\ bytes = [137; 80; 78; 71; 13; 10; 26; 10] ++ bs.
(* samples per pixel of a colour type *)
Definition png_samples (colourType : Z) : Z :=
  match colourType with 0 => 1 | 2 => 3 | 4 => 2 | 6 => 4 | _ => 0 end.
(* number of bytes of the uncompressed image data announced by the header:
   one filter byte per row, rows of whole bytes *)
Definition png_announced (w h depth colourType : Z) : Z := h * (1 + (w * png_samples colourType * depth + 7) / 8).


(* ---- PFM files: rows from the last to the first, each from left to right,
   channels interleaved; each sample is a big-endian IEEE number ---- *)
Definition pfm_samples (h w channels : nat) (sample : nat -> nat -> nat -> Z) : list Z :=
  flat_map (fun i => flat_map (fun x => map (fun c => sample c (h - 1 - i)%nat x) (seq 0 channels)) (seq 0 w)) (seq 0 h).
Fixpoint be_floats (l : list Z) : list Z :=
  match l with
  | a :: b :: c :: d :: t => ieee_value (be_value [a; b; c; d]) :: be_floats t
  | _ => []
  end.

(* ---- PNG image data: rows from the first to the last, each with filter
   byte 0, samples of depth/8 bytes, high byte first ---- *)
Definition png_sample (depth v : Z) : list Z := if depth =? 8 then [v] else [v / 256; v mod 256].
Definition png_rows (h w channels : nat) (depth : Z) (sample : nat -> nat -> nat -> Z) : list Z :=
  flat_map (fun y => 0 :: flat_map (fun x => flat_map (fun c => png_sample depth (sample c y x)) (seq 0 channels)) (seq 0 w)) (seq 0 h).
