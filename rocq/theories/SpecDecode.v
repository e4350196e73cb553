(* The picture that a sequence of frames makes, by value: the canvas and the
   four saved frames are functions from channel, row and column to a sample.
   Nothing is shared between them.  Independent of the model; header records
   and float32 arithmetic are the common vocabulary. *)
From Coq Require Import ZArith List Bool.
From Verif Require Import GoFloat32 ModelHeader ModelFrameHeader SpecImage.
Import ListNotations.
Open Scope Z_scope.

Definition Layer := nat -> nat -> nat -> Z.

(* number of colour channels of the image, and of a frame *)
Definition image_colours (ih : ImageHeader) : nat := if col_space (ih_colour ih) =? 1 then 1 else 3.
Definition frame_colours (ih : ImageHeader) (fh : FrameHeader) : nat :=
  if ih_xyb ih then 3%nat else if fh_enc fh =? 0 then 3%nat else image_colours ih.
Definition channel_count (ih : ImageHeader) : nat := (image_colours ih + length (ih_extra ih))%nat.
(* the frame's channel that is drawn on channel c of the image: a gray image
   shows the second of three colour channels *)
Definition source_channel (ih : ImageHeader) (fh : FrameHeader) (c : nat) : nat :=
  if (c <? image_colours ih)%nat
  then (if (frame_colours ih fh =? image_colours ih)%nat then c else 1%nat)
  else (c - image_colours ih + frame_colours ih fh)%nat.
(* blending of channel c: one for the colours, one for each extra channel *)
Definition blending_of (ih : ImageHeader) (fh : FrameHeader) (c : nat) : Blending :=
  if (c <? image_colours ih)%nat then fh_blend fh else nth (c - image_colours ih) (fh_ecblend fh) (mkBl 0 0 false 0).
Definition is_alpha (ih : ImageHeader) (c : nat) : bool :=
  if (c <? image_colours ih)%nat then false
  else match nth_error (ih_extra ih) (c - image_colours ih) with Some e => ec_type e =? 0 | None => false end.
Definition has_alpha (ih : ImageHeader) : bool := match ih_alpha ih with [] => false | _ => true end.
Definition alpha_premultiplied (ih : ImageHeader) (b : Blending) : bool :=
  match nth_error (ih_extra ih) (Z.to_nat (bl_alpha b)) with Some e => ec_assoc e | None => false end.

(* a sample blended onto an old one.  Modes: 1 add, 2 alpha blending, 3
   weighted add, 4 multiply.  32 bit integers wrap around. *)
Definition limited (clamp : bool) (v : Z) : Z := if clamp then Z.max 0 (Z.min F_ONE v) else v.
Definition wrap32 (v : Z) : Z := (v + 2 ^ 31) mod 2 ^ 32 - 2 ^ 31.
Definition mixed (int : bool) (ih : ImageHeader) (c : nat) (b : Blending) (old new oldA newA : Z) : Z :=
  let oldA := if has_alpha ih then oldA else F_ONE in
  let newA := limited (bl_clamp b) (if has_alpha ih then newA else F_ONE) in
  let outA := f_add oldA (f_mul newA (f_sub F_ONE oldA)) in
  match bl_mode b with
  | 1 => if int then wrap32 (old + new) else f_add old new
  | 4 => f_mul (limited (bl_clamp b) new) old
  | 3 => if is_alpha ih c then oldA else f_add old (f_mul newA new)
  | _ => if is_alpha ih c then outA
         else if has_alpha ih && negb (alpha_premultiplied ih b)
              then f_div (f_add (f_mul new newA) (f_mul (f_mul old oldA) (f_sub F_ONE newA))) outA
              else f_add new (f_mul old (f_sub F_ONE newA))
  end.

(* A frame drawn on the canvas: inside its rectangle each sample is replaced,
   or blended onto the saved frame that the header names; the rest of the
   canvas stays. *)
Definition drawn (int : bool) (ih : ImageHeader) (fh : FrameHeader) (frame : Layer) (saved : nat -> option Layer) (canvas : Layer) : Layer :=
  fun c y x =>
    if coveredb (fh_oy fh) (fh_ox fh) (fh_bh fh * fh_up fh) (fh_bw fh * fh_up fh) y x then
      let b := blending_of ih fh c in
      let fy := Z.to_nat (Z.of_nat y - fh_oy fh) in
      let fx := Z.to_nat (Z.of_nat x - fh_ox fh) in
      let new := frame (source_channel ih fh c) fy fx in
      match saved (Z.to_nat (bl_source b)) with
      | Some old => if bl_mode b =? 0 then new
                    else mixed int ih c b (old c y x) new
                           (old (image_colours ih + Z.to_nat (bl_alpha b))%nat y x)
                           (frame (frame_colours ih fh + Z.to_nat (bl_alpha b))%nat fy fx)
      | None => new
      end
    else canvas c y x.
Definition store {A} (f : nat -> option A) (i : nat) (v : A) : nat -> option A := fun j => if (j =? i)%nat then Some v else f j.

(* The picture of a list of frames.  decoded f lf p: with the LF picture lf the
   frame f decodes to p (of type P), whose samples are layer p.  allowed f p
   saved: a restriction on the frames, given what is saved before f. *)
Inductive picture {F P : Type} (int : bool) (ih : ImageHeader) (header : F -> FrameHeader)
  (decoded : F -> option P -> P -> Prop) (layer : P -> Layer) (allowed : F -> P -> (nat -> option Layer) -> Prop) :
  list F -> (nat -> option P) -> (nat -> option Layer) -> Layer -> Layer -> Prop :=
(* an LF frame is kept for the frames of the level below *)
| pic_lf f t lfs saved canvas out p :
    fh_type (header f) = 1 -> 1 <= fh_lflevel (header f) <= 4 -> decoded f (lfs (Z.to_nat (fh_lflevel (header f)))) p ->
    picture int ih header decoded layer allowed t (store lfs (Z.to_nat (fh_lflevel (header f) - 1)) p) saved canvas out ->
    picture int ih header decoded layer allowed (f :: t) lfs saved canvas out
(* a frame that is only saved *)
| pic_reference f t lfs saved canvas out p :
    fh_type (header f) = 2 -> fh_last (header f) = false -> fh_lflevel (header f) = 0 -> decoded f (lfs 0%nat) p -> allowed f p saved ->
    picture int ih header decoded layer allowed t lfs (store saved (Z.to_nat (fh_saveref (header f))) (layer p)) canvas out ->
    picture int ih header decoded layer allowed (f :: t) lfs saved canvas out
(* the last frame; what follows it is not looked at *)
| pic_last f t lfs saved canvas p :
    fh_type (header f) = 0 \/ fh_type (header f) = 3 -> fh_last (header f) = true -> fh_lflevel (header f) = 0 -> decoded f (lfs 0%nat) p -> allowed f p saved ->
    picture int ih header decoded layer allowed (f :: t) lfs saved canvas (drawn int ih (header f) (layer p) saved canvas)
(* a frame that is drawn and saved: as it is, or the canvas after it *)
| pic_frame f t lfs saved canvas out p :
    fh_type (header f) = 0 \/ fh_type (header f) = 3 -> fh_last (header f) = false -> fh_lflevel (header f) = 0 -> decoded f (lfs 0%nat) p -> allowed f p saved ->
    (let canvas' := drawn int ih (header f) (layer p) saved canvas in
     let kept := if fh_savect (header f) then layer p else canvas' in
     picture int ih header decoded layer allowed t lfs (store saved (Z.to_nat (fh_saveref (header f))) kept) canvas' out) ->
    picture int ih header decoded layer allowed (f :: t) lfs saved canvas out.
