(* Independent specifications for the entropy coding layer. *)
From Coq Require Import ZArith List Bool.
From Verif Require Import Bits.
Import ListNotations.
Open Scope Z_scope.

(* ---- hybrid integers ---- *)
(* A configuration: split exponent e, i most and j least significant bits
   kept in the token. *)
Record hconf := HConf { h_e : Z; h_i : Z; h_j : Z }.
Definition hconf_ok (c : hconf) : Prop := 0 <= h_i c /\ 0 <= h_j c /\ h_i c + h_j c <= h_e c <= 15.

(* The encoder: values below 2^e are their own token.  Any other value v,
   with leading bit m, has the token made of m - e, the i bits below the
   leading one and the j lowest bits, and m - i - j extra bits, the ones in
   between. *)
Definition hyb_token (c : hconf) (v : Z) : Z :=
  if v <? 2 ^ h_e c then v
  else let m := Z.log2 v in
       2 ^ h_e c + (m - h_e c) * 2 ^ (h_i c + h_j c)
       + (v - 2 ^ m) / 2 ^ (m - h_i c) * 2 ^ h_j c + v mod 2 ^ h_j c.
Definition hyb_extra (c : hconf) (v : Z) : list bool :=
  if v <? 2 ^ h_e c then []
  else zbits (Z.to_nat (Z.log2 v - h_i c - h_j c)) (v / 2 ^ h_j c).

(* How many extra bits a token asks for *)
Definition hyb_need (c : hconf) (t : Z) : Z :=
  if t <? 2 ^ h_e c then 0 else (t - 2 ^ h_e c) / 2 ^ (h_i c + h_j c) + h_e c - h_i c - h_j c.

(* ---- move to front ---- *)
(* The encoder: each value is replaced by its position in the current list,
   and then moved to the front of it. *)
Fixpoint position (x : Z) (l : list Z) : nat :=
  match l with [] => 0%nat | y :: t => if y =? x then 0%nat else S (position x t) end.
Fixpoint without (x : Z) (l : list Z) : list Z :=
  match l with [] => [] | y :: t => if y =? x then t else y :: without x t end.
Fixpoint move_to_front (order l : list Z) : list Z :=
  match l with
  | [] => []
  | x :: t => Z.of_nat (position x order) :: move_to_front (x :: without x order) t
  end.

(* ---- canonical prefix codes ---- *)
(* Codewords for a list of positive lengths in nondecreasing order: the
   first is all zeros; each next is the previous plus one, extended with
   zeros to its own length.  A codeword is sent most significant bit first. *)
Fixpoint canonical (next len : Z) (ls : list Z) : list (list bool) :=
  match ls with
  | [] => []
  | l :: t => let c := next * 2 ^ (l - len) in rev (zbits (Z.to_nat l) c) :: canonical (c + 1) l t
  end.
Definition codewords (ls : list Z) : list (list bool) := canonical 0 0 ls.

(* Kraft sum scaled by 2^b *)
Definition kraft (b : Z) (ls : list Z) : Z := fold_right (fun l a => 2 ^ (b - l) + a) 0 ls.

Fixpoint nondecreasing (lo : Z) (ls : list Z) : Prop :=
  match ls with [] => True | l :: t => lo <= l /\ nondecreasing l t end.

(* The (length, symbol) pairs that do get a codeword *)
Definition coded (lens syms : list Z) : list (Z * Z) := filter (fun p => 0 <? fst p) (combine lens syms).

Definition prefix_of (w x : list bool) : Prop := firstn (length w) x = w.

(* ---- alias tables ---- *)
(* Slot k of a table with buckets of size b: bucket k / b, position k mod b;
   below the bucket's cutoff it is the bucket's own symbol, from the cutoff
   on the alias symbol with a shifted offset. *)
Definition alias_slot (b : Z) (cutoffs symbols offsets : list Z) (k : Z) : Z * Z :=
  let i := Z.to_nat (k / b) in let pos := k mod b in
  if nth i cutoffs 0 <=? pos then (nth i symbols 0, nth i offsets 0 + pos) else (k / b, pos).

Definition sumZ (l : list Z) : Z := fold_right Z.add 0 l.

(* f maps 0..n-1 one-to-one onto the pairs (s, o) with o < freq s *)
Definition slot_bijection (n : Z) (freqs : list Z) (f : Z -> Z * Z) : Prop :=
  (forall k, 0 <= k < n -> let '(s, o) := f k in 0 <= s < Z.of_nat (length freqs) /\ 0 <= o < nth (Z.to_nat s) freqs 0) /\
  (forall s o, 0 <= s < Z.of_nat (length freqs) -> 0 <= o < nth (Z.to_nat s) freqs 0 ->
     exists k, 0 <= k < n /\ f k = (s, o)) /\
  (forall k k', 0 <= k < n -> 0 <= k' < n -> f k = f k' -> k = k').

(* ---- rANS ---- *)
(* An alias table with buckets of size 2^at_lb for the given frequencies *)
Record atable := ATable { at_lb : Z; at_freqs : list Z; at_cut : list Z; at_sym : list Z; at_off : list Z }.
Definition at_slot (t : atable) : Z -> Z * Z := alias_slot (2 ^ at_lb t) (at_cut t) (at_sym t) (at_off t).
Definition at_freq (t : atable) (s : Z) : Z := nth (Z.to_nat s) (at_freqs t) 0.

(* The encoder's inverse table: the slot holding offset o of symbol s. *)
Definition find_slot (t : atable) (s o : Z) : Z :=
  match find (fun k => let '(s', o') := at_slot t (Z.of_nat k) in (s' =? s) && (o' =? o)) (seq 0 4096) with
  | Some k => Z.of_nat k
  | None => 0
  end.

(* rANS encoding works backwards: encoding the message rest leaves the state
   x and some 16-bit words; encoding s before it moves 16 bits of the state
   to the words if the new state would leave 32 bits, then puts s into the
   state. *)
Fixpoint rans_encode (msg : list (atable * Z)) (x0 : Z) : Z * list Z :=
  match msg with
  | [] => (x0, [])
  | (t, s) :: rest =>
      let '(x, ws) := rans_encode rest x0 in
      let f := at_freq t s in
      if f * 2 ^ 20 <=? x then
        let y := x / 2 ^ 16 in (y / f * 4096 + find_slot t s (y mod f), x mod 2 ^ 16 :: ws)
      else (x / f * 4096 + find_slot t s (x mod f), ws)
  end.
(* The stream: 32 bits of final encoder state, then the words *)
Definition rans_stream (msg : list (atable * Z)) (x0 : Z) : list bool :=
  let '(x, ws) := rans_encode msg x0 in zbits 32 x ++ flat_map (zbits 16) ws.
