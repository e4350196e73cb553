(* Grammar of the ANS distribution descriptions: the ways frequencies adding
   up to 4096 are written into a stream. *)
From Coq Require Import ZArith List Bool.
From Verif Require Import GoBase Bits ModelBitReader SpecBitReader SpecCodes SpecGrammar SpecEntropy.
Import ListNotations.
Open Scope Z_scope.

Local Notation "x <== R ;;; S" := (c_seq R (fun x => S)) (at level 61, R at next level, right associativity).

(* As [reads] and [exact], for readers that look ahead: the string is only
   promised to be decoded if k more bits follow it. *)
Definition reads_ahead {A} (k : nat) (m : RM A) (c : list bool) (v : A) : Prop :=
  forall s d p, reader_at s d p -> bits_at d p c -> (p + length c + k <= 8 * length d)%nat ->
  exists s', m s = (GoBase.Ok v, s') /\ reader_at s' d (p + length c).
Definition exact_ahead {A} (k : nat) (m : RM A) (R : code A) : Prop :=
  (forall c v, R c v -> reads_ahead k m c v) /\
  (forall s d p, reader_at s d p ->
     match m s with
     | (GoBase.Ok v, s') => exists c, bits_at d p c /\ R c v /\ reader_at s' d (p + length c)
     | (GoBase.Err, _) => True
     | (GoBase.Panic, _) => False
     end).

(* The fixed prefix code of the logarithms 0..12 and of the run marker 13,
   in the order the bits are sent *)
Local Notation O := false.
Local Notation I := true.
Definition log_codewords : list (list bool) :=
  [[I;O;O;O;I]; [I;I;O;I]; [I;I;I;I]; [I;I;O;O]; [I;O;O;I]; [I;I;I;O]; [O;O;I]; [O;I;O]; [I;O;I];
   [O;I;I]; [O;O;O]; [I;O;O;O;O;I]; [I;O;O;O;O;O;O]; [I;O;O;O;O;O;I]].
Definition c_log : code Z := fun c l => 0 <= l <= 13 /\ c = nth (Z.to_nat l) log_codewords [].

(* A description covers the positions 0..n-1 by logarithms of one position
   each and by runs of at least four positions repeating the frequency
   before them; the last run may be longer than needed. *)
Inductive item := Log (l : Z) | Run (n : Z).
Inductive c_items : Z -> code (list item) :=
| ci_done : forall n, n <= 0 -> c_items n [] []
| ci_log : forall n l c1 c2 its, 0 < n -> c_log c1 l -> l <= 12 -> c_items (n - 1) c2 its ->
    c_items n (c1 ++ c2) (Log l :: its)
| ci_run : forall n r c1 c2 c3 its, 0 < n -> c_log c1 13 -> u8_code c2 r -> c_items (n - (r + 4)) c3 its ->
    c_items n (c1 ++ c2 ++ c3) (Run (r + 4) :: its).

(* Positions with a logarithm of their own *)
Fixpoint logs_from (i : Z) (its : list item) : list (Z * Z) :=
  match its with
  | [] => []
  | Log l :: t => (i, l) :: logs_from (i + 1) t
  | Run n :: t => logs_from (i + n) t
  end.
(* The position whose frequency is not sent: the first one with the greatest
   logarithm *)
Definition omitted (its : list item) (o : Z) : Prop :=
  exists l, In (o, l) (logs_from 0 its) /\
    forall i l', In (i, l') (logs_from 0 its) -> l' < l \/ (l' = l /\ o <= i).
(* A run starts at position o *)
Fixpoint run_at (i : Z) (its : list item) (o : Z) : Prop :=
  match its with
  | [] => False
  | Log _ :: t => run_at (i + 1) t o
  | Run n :: t => i = o \/ run_at (i + n) t o
  end.

(* A frequency with logarithm l >= 2 has l - 1 bits below its leading one, of
   which the upper b are sent. *)
Definition sent_bits (shift l : Z) : Z := Z.min (l - 1) (Z.max 0 (shift - (13 - l) / 2)).
Definition c_freq (shift l : Z) : code Z :=
  if l <=? 1 then c_ret l
  else x <== c_fixed (Z.to_nat (sent_bits shift l)) ;;; c_ret (2 ^ (l - 1) + x * 2 ^ (l - 1 - sent_bits shift l)).
(* The frequencies from position i on, the one before being prev; 0 for the
   omitted one *)
Fixpoint c_freqs (shift o i prev : Z) (its : list item) : code (list Z) :=
  match its with
  | [] => c_ret []
  | Log l :: t =>
      if i =? o then r <== c_freqs shift o (i + 1) 0 t ;;; c_ret (0 :: r)
      else f <== c_freq shift l ;;; r <== c_freqs shift o (i + 1) f t ;;; c_ret (f :: r)
  | Run n :: t => r <== c_freqs shift o (i + n) prev t ;;; c_ret (repeat prev (Z.to_nat n) ++ r)
  end.
Definition put (o v : Z) (l : list Z) : list Z := firstn (Z.to_nat o) l ++ v :: skipn (S (Z.to_nat o)) l.

Definition c_shift : code Z := fun c v => exists (l : nat) x, (l <= 3)%nat /\ 0 <= x < 2 ^ Z.of_nat l /\
  c = repeat true l ++ (if (l <? 3)%nat then [false] else []) ++ zbits l x /\ v = 2 ^ Z.of_nat l - 1 + x.

(* The four forms.  A value is: number of symbols, the symbol with all the
   probability (-1 if none is singled out), frequencies. *)
Definition dist_single : code (Z * Z * list Z) :=
  x <== u8_code ;;; c_ret (x + 1, x, repeat 0 (Z.to_nat x) ++ [4096]).
Definition dist_pair (las : Z) : code (Z * Z * list Z) :=
  v1 <== u8_code ;;; v2 <== u8_code ;;;
  c_guard (v1 <> v2 /\ v1 < 2 ^ las /\ v2 < 2 ^ las)
    (f <== c_fixed 12 ;;;
     c_ret (Z.max v1 v2 + 1, (if f =? 0 then v2 else -1),
            map (fun i => if Z.of_nat i =? v1 then f else if Z.of_nat i =? v2 then 4096 - f else 0)
              (seq 0 (Z.to_nat (Z.max v1 v2 + 1))))).
Definition dist_flat (las : Z) : code (Z * Z * list Z) :=
  r <== u8_code ;;;
  c_guard (r + 1 <= 2 ^ las)
    (c_ret (r + 1, (if r =? 0 then 0 else -1),
       repeat (4096 / (r + 1) + 1) (Z.to_nat (4096 mod (r + 1))) ++
       repeat (4096 / (r + 1)) (Z.to_nat (r + 1 - 4096 mod (r + 1))))).
Definition dist_general (las : Z) : code (Z * Z * list Z) :=
  shift <== c_shift ;;; c_guard (shift <= 13) (
  r <== u8_code ;;; c_guard (r + 3 <= 2 ^ las) (
  its <== c_items (r + 3) ;;;
  o <== (fun c o => c = [] /\ omitted its o) ;;; c_guard (~ run_at 0 its (o + 1)) (
  fs <== c_freqs shift o 0 0 its ;;;
  let fs := firstn (Z.to_nat (r + 3)) fs in
  c_ret (r + 3, -1, put o (4096 - sumZ fs) fs)))).
Definition dist_code (las : Z) : code (Z * Z * list Z) :=
  simple <== c_bool ;;;
  if simple : bool then pair <== c_bool ;;; (if pair : bool then dist_pair las else dist_single)
  else flat <== c_bool ;;; (if flat : bool then dist_flat las else dist_general las).
