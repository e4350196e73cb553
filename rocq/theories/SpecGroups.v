(* Independent specification of the group grid of a frame. *)
From Coq Require Import ZArith List Bool.
From Verif Require Import GoBase ModelGroups.
Open Scope Z_scope.

(* Frames considered: sizes from 1 up to about 2^31, group sizes 128, 256,
   512, 1024, upsampling shifts 0 and 1, and a number of groups that fits
   an int32. *)
Record geo_ok (g : Geo) : Prop := {
  go_w : 1 <= g_width g <= 2 ^ 31 - 2 ^ 12;
  go_h : 1 <= g_height g <= 2 ^ 31 - 2 ^ 12;
  go_dim : exists s, 0 <= s <= 3 /\ g_dim g = 128 * 2 ^ s;
  go_fx : 0 <= g_fx g <= 1;
  go_fy : 0 <= g_fy g <= 1;
  go_n : ((g_width g - 1) / g_dim g + 1) * ((g_height g - 1) / g_dim g + 1) < 2 ^ 31
}.

(* The pixel (y, x) is in the tile at grid position pos, of size size, of a
   grid with pitch d.  Pairs are (vertical, horizontal). *)
Definition covers (d : Z) (pos size : Z * Z) (y x : Z) : Prop :=
  fst pos * d <= y < fst pos * d + fst size /\ snd pos * d <= x < snd pos * d + snd size.

(* The smallest multiple of m that is at least n *)
Definition round_up (n m : Z) : Z := ((n - 1) / m + 1) * m.

Fixpoint sum_to (n : nat) (f : Z -> Z) : Z := match n with O => 0 | S n' => sum_to n' f + f (Z.of_nat n') end.

(* Sizes are padded to multiples of this: subsampled blocks or samples *)
Definition pad_unit (g : Geo) (shift : Z) : Z := (if g_vardct g then 8 else 1) * 2 ^ shift.
(* The area of a tile of size (height, width) *)
Definition gsize (o : Outcome (Z * Z)) : Z := match o with Ok (h, w) => h * w | _ => 0 end.
