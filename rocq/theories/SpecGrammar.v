(* Bit-string grammars: a grammar relates the bit strings of a syntax element
   to its values. *)
From Coq Require Import ZArith List Bool.
From Verif Require Import GoBase Bits ModelBitReader SpecBitReader SpecCodes.
Import ListNotations.
Open Scope Z_scope.

Definition code (A : Type) : Type := list bool -> A -> Prop.

Definition c_ret {A} (v : A) : code A := fun c w => c = [] /\ w = v.
Definition c_none {A} : code A := fun _ _ => False.
(* element R followed by an element depending on its value *)
Definition c_seq {A B} (R : code A) (S : A -> code B) : code B :=
  fun c w => exists c1 c2 v, c = c1 ++ c2 /\ R c1 v /\ S v c2 w.
Definition c_guard {A} (P : Prop) (R : code A) : code A := fun c w => P /\ R c w.
Definition c_bool : code bool := fun c b => c = [b].
Definition c_fixed (n : nat) : code Z := fun c v => c = zbits n v /\ 0 <= v < 2 ^ Z.of_nat n.
(* U32(c0+u(n0), ...): 2-bit selector, then the selected number of bits,
   added to the selected constant *)
Definition c_u32 (c0 : Z) (n0 : nat) (c1 : Z) (n1 : nat) (c2 : Z) (n2 : nat) (c3 : Z) (n3 : nat) : code Z :=
  fun c v => exists i x, (i < 4)%nat /\
    let k := nth i [c0; c1; c2; c3] 0 in let n := nth i [n0; n1; n2; n3] O in
    0 <= x < 2 ^ Z.of_nat n /\ c = zbits 2 (Z.of_nat i) ++ zbits n x /\ v = k + x.
Definition c_enum : code Z := fun c v => c_u32 0 0 1 0 2 4 18 6 c v /\ v <= 63.
(* float32 with the value of the half float with bits h *)
Definition f32_of_half (h : Z) : F32 :=
  if half_exp_field h =? 0 then mkF32 (half_sign h) (h mod 1024) (-24)
  else mkF32 (half_sign h) ((1024 + h mod 1024) * 2 ^ 13) (half_exp_field h - 38).
Definition c_f16 : code F32 := fun c f => exists h, c = zbits 16 h /\ 0 <= h < 2 ^ 16 /\
  half_exp_field h <> 31 /\ f = f32_of_half h.
Fixpoint c_list {A} (n : nat) (R : code A) : code (list A) :=
  match n with
  | O => c_ret []
  | S n' => c_seq R (fun a => c_seq (c_list n' R) (fun t => c_ret (a :: t)))
  end.
Definition c_opt {A} (b : bool) (R : code A) : code (option A) :=
  if b then c_seq R (fun v => c_ret (Some v)) else c_ret None.

(* m accepts exactly the grammar R: it decodes every string of R to its value
   wherever it stands and stops right behind it; whenever it succeeds the
   bits consumed are a string of R for the returned value; it never panics. *)
Definition exact {A} (m : RM A) (R : code A) : Prop :=
  (forall c v, R c v -> reads m c v) /\
  (forall s d p, reader_at s d p ->
     match m s with
     | (GoBase.Ok v, s') => exists c, bits_at d p c /\ R c v /\ reader_at s' d (p + length c)
     | (GoBase.Err, _) => True
     | (GoBase.Panic, _) => False
     end).
