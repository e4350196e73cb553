(* Specification of colour conversions, in real arithmetic. *)
From Coq Require Import List Arith Reals.
From Verif Require Import SpecDCT.
Import ListNotations.
Open Scope R_scope.

(* A matrix of h rows and w columns *)
Definition rrect (h w : nat) (m : list (list R)) : Prop := length m = h /\ Forall (fun r => length r = w) m.
(* Products and the identity *)
Definition prod (n : nat) (A B : nat -> nat -> R) (i j : nat) : R := sum n (fun k => A i k * B k j).
Definition app (n : nat) (A : nat -> nat -> R) (v : nat -> R) (i : nat) : R := sum n (fun k => A i k * v k).
Definition delta (i j : nat) : R := if (i =? j)%nat then 1 else 0.
Definition inverse3 (A B : nat -> nat -> R) : Prop :=
  forall i j, (i < 3)%nat -> (j < 3)%nat -> prod 3 A B i j = delta i j /\ prod 3 B A i j = delta i j.

(* CIE coordinates of the colour of luminance 1 with chromaticity (x, y) *)
Definition XYZ (xy : R * R) (i : nat) : R :=
  match i with O => fst xy / snd xy | 1%nat => 1 | _ => (1 - fst xy - snd xy) / snd xy end.
Definition chromaticity (xy : R * R) : Prop := 0 <= fst xy <= 1 /\ 0 < snd xy <= 1.

(* The matrix from linear red, green and blue to CIE coordinates of the
   colour space with the primaries p 0, p 1, p 2 and white w: each primary has
   its chromaticity, and (1, 1, 1) is white. *)
Definition rgb_matrix (p : nat -> R * R) (w : R * R) (M : nat -> nat -> R) : Prop :=
  (forall j, (j < 3)%nat -> exists s, forall i, (i < 3)%nat -> M i j = s * XYZ (p j) i) /\
  (forall i, (i < 3)%nat -> app 3 M (fun _ => 1) i = XYZ w i).
(* The primaries are not on a line *)
Definition spans (p : nat -> R * R) : Prop := exists N, inverse3 (fun i j => XYZ (p j) i) N.

(* Adaptation from one white to another: responses of the three kinds of
   cones (matrix B) are scaled so that white goes to white. *)
Definition adapts (B : nat -> nat -> R) (from to : R * R) (A : nat -> nat -> R) : Prop :=
  forall v i, (i < 3)%nat -> app 3 B (app 3 A v) i = app 3 B v i * (app 3 B (XYZ to) i / app 3 B (XYZ from) i).
Definition bradford (i j : nat) : R :=
  nth j (nth i [[0.8951; 0.2664; -0.1614]; [-0.7502; 1.7135; 0.0367]; [0.0389; -0.0685; 1.0296]] []) 0.

(* XYB: A takes linear colours to cone responses, which are scaled to the
   intensity target, compressed with a cube root (moved by the bias) and
   turned into a difference, a mean and the blue response. *)
Definition cube (x : R) : R := x * x * x.
Definition compressed (bias l g : R) : Prop := exists r c, cube r = l - bias /\ cube c = bias /\ g = r + c.
Definition xyb_of (A : nat -> nat -> R) (bias : nat -> R) (target : R) (rgb xyb : nat -> R) : Prop :=
  exists g : nat -> R, (forall i, (i < 3)%nat -> compressed (bias i) (app 3 A rgb i * (target / 255)) (g i)) /\
    xyb 0%nat = (g 0%nat - g 1%nat) / 2 /\ xyb 1%nat = (g 0%nat + g 1%nat) / 2 /\ xyb 2%nat = g 2%nat.
