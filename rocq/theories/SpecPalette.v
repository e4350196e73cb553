(* Independent specification of the palette transform, after the JPEG XL
   standard.  The table of delta entries is a parameter, for which the table
   of the standard is given. *)
From Coq Require Import ZArith List Bool.
From Verif Require Import GoMatrix SpecModular.
Import ListNotations.
Open Scope Z_scope.

(* The value of an index in channel c: an entry of the explicit palette of
   nb colours; above it a 4x4x4 cube and then a 5x5x5 cube; below it an entry
   of the delta table. *)
Definition pal_value (delta : nat -> nat -> Z) (palette : list (list Z)) (nb depth : Z) (c : nat) (index : Z) : Z :=
  if index <? 0 then
    if (c <? 3)%nat then
      let j := (- index - 1) mod 143 in
      let v := delta (Z.to_nat ((j + 1) / 2)) c in
      (if j mod 2 =? 0 then - v else v) * (if 8 <? depth then 2 ^ (Z.min depth 24 - 8) else 1)
    else 0
  else if index <? nb then px palette c (Z.to_nat index)
  else if index - nb <? 64 then
    ((index - nb) / 4 ^ Z.of_nat c) mod 4 * (2 ^ depth - 1) / 4 + 2 ^ Z.max 0 (depth - 3)
  else ((index - nb - 64) / 5 ^ Z.of_nat c) mod 5 * (2 ^ depth - 1) / 4.

(* The 72 delta entries of the standard (red, green, blue). *)
Definition delta_entries : list (Z * Z * Z) := [
   (0, 0, 0); (4, 4, 4); (11, 0, 0); (0, 0, -13); (0, -12, 0); (-10, -10, -10); (-18, -18, -18); (-27, -27, -27); (-18, -18, 0);
   (0, 0, -32); (-32, 0, 0); (-37, -37, -37); (0, -32, -32); (24, 24, 45); (50, 50, 50); (-45, -24, -24); (-24, -45, -45); (0, -24, -24);
   (-34, -34, 0); (-24, 0, -24); (-45, -45, -24); (64, 64, 64); (-32, 0, -32); (0, -32, 0); (-32, 0, 32); (-24, -45, -24); (45, 24, 45);
   (24, -24, -45); (-45, -24, 24); (80, 80, 80); (64, 0, 0); (0, 0, -64); (0, -64, -64); (-24, -24, 45); (96, 96, 96); (64, 64, 0);
   (45, -24, -24); (34, -34, 0); (112, 112, 112); (24, -45, -45); (45, 45, -24); (0, -32, 32); (24, -24, 45); (0, 96, 96); (45, -24, 24);
   (24, -45, -24); (-24, -45, 24); (0, -64, 0); (96, 0, 0); (128, 128, 128); (64, 0, 64); (144, 144, 144); (96, 96, 0); (-36, -36, 36);
   (45, -24, -45); (45, -45, -24); (0, 0, -96); (0, 128, 128); (0, 96, 0); (45, 24, -45); (-128, 0, 0); (24, -45, 24); (-45, 24, -45);
   (64, 0, -64); (64, -64, -64); (96, 0, 96); (45, -45, 24); (24, 45, -45); (64, 64, -64); (128, 128, 0); (0, 0, -128); (-24, 45, -45)].
Definition deltaTable (i c : nat) : Z :=
  match nth_error delta_entries i with
  | Some (r, g, b) => match c with O => r | 1%nat => g | 2%nat => b | _ => 0 end
  | None => 0
  end.

(* The decoded channel: entries below the number of deltas are added to the
   prediction from the decoded pixels before them. *)
Definition pal_channel delta palette (nb nbDeltas dPred depth : Z) (c h w : nat) (idx out : list (list Z)) : Prop :=
  rect h w out /\
  forall y x, (y < h)%nat -> (x < w)%nat ->
    let v := pal_value delta palette nb depth c (px idx y x) in
    px out y x = if px idx y x <? nbDeltas then wrap (v + predictor w (px out) y x dPred 0) else v.
