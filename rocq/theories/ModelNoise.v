(* The noise generator: frame/XorShiro.go and frame/NoiseGroup.go.  Neither is
   called by the decoder, which rejects frames with noise (ModelLF.v).

   Simplifications:
   - a float32 in the noise buffer is represented by its 32 bits;
   - the rows of the noise buffer are not shared. *)
From Coq Require Import ZArith List Bool.
From Verif Require Import GoBase GoLoop GoMatrix.
Import ListNotations.
Open Scope Z_scope.

Local Notation "x <o- m ;; k" := (obind m (fun x => k)) (at level 61, m at next level, right associativity).

(* XorShiro.go:3-8 *)
Record XorShiro := mkXS { xs_state0 : list Z; xs_state1 : list Z; xs_batch : list Z; xs_batchPos : Z }.
(* :63-67 *)
Definition splitMix64 (z : Z) : Z :=
  let z := u64 (Z.lxor z (Z.shiftr z 30) * 0xbf58476d1ce4e5b9) in
  let z := u64 (Z.lxor z (Z.shiftr z 27) * 0x94d049bb133111eb) in
  Z.lxor z (Z.shiftr z 31).
(* :56-59 *)
Definition seedLane (i : nat) (s : list Z * list Z) : Outcome (list Z * list Z) :=
  let i := Z.of_nat i in
  a <o- slice_get (fst s) (i - 1) ;; s0 <o- slice_set (fst s) i (splitMix64 (u64 a)) ;;
  b <o- slice_get (snd s) (i - 1) ;; s1 <o- slice_set (snd s) i (splitMix64 (u64 b)) ;;
  Ok (s0, s1).
(* :47-61 *)
Definition NewXorShiroWith2Seeds (seed0 seed1 : Z) : Outcome XorShiro :=
  s0 <o- slice_set (repeat 0 8) 0 (splitMix64 (u64 (u64 seed0 + 0x9e3779b97f4a7c15))) ;;
  s1 <o- slice_set (repeat 0 8) 0 (splitMix64 (u64 (u64 seed1 + 0x9e3779b97f4a7c15))) ;;
  s <o- oloop 7 1 seedLane (s0, s1) ;;
  Ok (mkXS (fst s) (snd s) (repeat 0 8) 8).
(* :40-45 *)
Definition NewXorShiroWith4Seeds (seed0 seed1 seed2 seed3 : Z) : Outcome XorShiro :=
  NewXorShiroWith2Seeds
    (Z.lor (i64 (Z.shiftl seed0 32)) (Z.land seed1 0xffffffff))
    (Z.lor (i64 (Z.shiftl seed2 32)) (Z.land seed3 0xffffffff)).
(* :25-38 *)
Definition fillLane (i : nat) (s : list Z * list Z * list Z) : Outcome (list Z * list Z * list Z) :=
  let '(s0, s1, batch) := s in
  let i := Z.of_nat i in
  a <o- slice_get s1 i ;;
  b <o- slice_get s0 i ;;
  batch <o- slice_set batch i (u64 (a + b)) ;;
  s0 <o- slice_set s0 i a ;;
  let b := Z.lxor b (u64 (Z.shiftl b 23)) in
  s1 <o- slice_set s1 i (Z.lxor (Z.lxor (Z.lxor b a) (Z.shiftr b 18)) (Z.shiftr a 5)) ;;
  Ok (s0, s1, batch).
Definition fillBatch (xs : XorShiro) : Outcome XorShiro :=
  if xs_batchPos xs <? Z.of_nat (length (xs_batch xs)) then Ok xs
  else
    s <o- oloop (length (xs_batch xs)) 0 fillLane (xs_state0 xs, xs_state1 xs, xs_batch xs) ;;
    let '(s0, s1, batch) := s in Ok (mkXS s0 s1 batch 0).
(* :18-23 *)
Definition nextLong (xs : XorShiro) : Outcome (Z * XorShiro) :=
  xs <o- fillBatch xs ;;
  b <o- slice_get (xs_batch xs) (xs_batchPos xs) ;;
  Ok (b, mkXS (xs_state0 xs) (xs_state1 xs) (xs_batch xs) (xs_batchPos xs + 1)).
(* :10-16: k pairs are left to fill *)
Fixpoint fillFrom (k : nat) (i : Z) (xs : XorShiro) (bits : list Z) : Outcome (list Z * XorShiro) :=
  match k with
  | O => Ok (bits, xs)
  | S k' =>
      r <o- nextLong xs ;;
      let '(l, xs) := r in
      bits <o- slice_set bits i (Z.land l 0xffffffff) ;;
      bits <o- slice_set bits (i + 1) (Z.land (Z.shiftr l 32) 0xffffffff) ;;
      fillFrom k' (i + 2) xs bits
  end.
Definition fill (xs : XorShiro) (bits : list Z) : Outcome (list Z * XorShiro) :=
  fillFrom (Z.to_nat ((Z.of_nat (length bits) + 1) / 2)) 0 xs bits.

(* NoiseGroup.go:26: the bits of a float32 *)
Definition noiseBits (b : Z) : Z := Z.lor (Z.shiftr (u32 b) 9) 0x3f800000.
(* :25-28, at most 16 samples from x on *)
Definition putRun (y0 x0 : Z) (xSize x y : nat) (bits : list Z) (m : list (list Z)) : Outcome (list (list Z)) :=
  oloop (Nat.min 16 (xSize - x)) 0 (fun i m =>
    b <o- slice_get bits (Z.of_nat i) ;;
    set2 m (i32 (y0 + Z.of_nat y)) (i32 (x0 + Z.of_nat x + Z.of_nat i)) (noiseBits b)) m.
(* :20-31, one channel *)
Definition noiseChannel (y0 x0 : Z) (ySize xSize : nat) (s : XorShiro * list Z * list (list Z)) : Outcome (XorShiro * list Z * list (list Z)) :=
  oloop ySize 0 (fun y s =>
    oloop xSize 0 (fun x s =>
      let '(rng, bits, m) := s in
      r <o- fill rng bits ;;
      let '(bits, rng) := r in
      m <o- putRun y0 x0 xSize x y bits m ;;
      Ok (rng, bits, m)) s) s.
(* :13-34; groupDim, Width and Height are fields of the frame header *)
Definition NewNoiseGroupWithHeader (groupDim width height seed0 : Z) (noiseBuffer : list (list (list Z))) (x0 y0 : Z)
    : Outcome (XorShiro * list (list (list Z))) :=
  let seed1 := Z.lor (i64 (Z.shiftl x0 32)) y0 in
  let xSize := Z.min groupDim (u32 (width - u32 x0)) in
  let ySize := Z.min groupDim (u32 (height - u32 y0)) in
  rng <o- NewXorShiroWith2Seeds seed0 seed1 ;;
  r <o- oloop 3 0 (fun c s =>
    let '(rng, bits, buf) := s in
    (* nothing is looked up when there is nothing to draw *)
    if (ySize =? 0) || (xSize =? 0) then Ok s
    else
      m <o- slice_get buf (Z.of_nat c) ;;
      r <o- noiseChannel y0 x0 (Z.to_nat ySize) (Z.to_nat xSize) (rng, bits, m) ;;
      let '(rng, bits, m) := r in
      buf <o- slice_set buf (Z.of_nat c) m ;;
      Ok (rng, bits, buf)) (rng, repeat 0 16, noiseBuffer) ;;
  let '(rng, _, buf) := r in Ok (rng, buf).
