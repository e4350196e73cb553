(* Reference semantics of LZ77 decoding: an unbounded history instead of a
   ring buffer. *)
From Coq Require Import ZArith List Bool.
From Verif Require Import GoBase ModelBitReader ModelEntropy.
Import ListNotations.
Open Scope Z_scope.

(* What a token stream says: a literal, or a copy of so many symbols from so
   far back *)
Inductive event := Lit (v : Z) | Copy (len dist : Z).

(* The distance a transmitted number stands for; at least 1 *)
Definition spec_distance (mult n : Z) : Z :=
  if mult =? 0 then n + 1
  else if n <? 120 then let '(a, b) := nth (Z.to_nat n) SPECIAL_DISTANCES (0, 0) in Z.max 1 (a + mult * b)
  else n - 119.

(* The history is kept most recent symbol first. *)
Definition copied (h : list Z) (d : Z) : Z := if d =? 0 then 0 else nth (Z.to_nat (d - 1)) h 0.
Fixpoint copy_n (n : nat) (d : Z) (h : list Z) : list Z :=
  match n with O => h | S n' => copy_n n' d (copied h d :: h) end.
Definition limit (h : list Z) (d : Z) : Z := Z.min d (Z.min 1048576 (Z.of_nat (length h))).
Definition apply_event (h : list Z) (ev : event) : list Z :=
  match ev with Lit v => v :: h | Copy len d => copy_n (Z.to_nat len) (limit h d) h end.

(* Reading one event with the distributions of e.  Numbers that do not fit
   31 bits are not read. *)
Definition get {A} (o : Outcome A * BR) : option (A * BR) :=
  match o with (Ok a, s) => Some (a, s) | _ => None end.
Definition read_event (e : ES) (context mult : Z) (st : ANSState * BR) : option (event * (ANSState * BR)) :=
  let '(a, s) := st in
  match nth_error (es_clusterMap e) (Z.to_nat context), nth_error (es_clusterMap e) (length (es_clusterMap e) - 1) with
  | Some c, Some c' =>
      if (context <? 0) || (c <? 0) || (c' <? 0) then None
      else
      match nth_error (es_dists e) (Z.to_nat c), nth_error (es_dists e) (Z.to_nat c') with
      | Some (d, cfg), Some (d', cfg') =>
          match get (distReadSymbol d a s) with
          | None => None
          | Some ((token, a), s) =>
              if token <? es_lz77MinSymbol e then
                match get (ReadHybridInteger cfg token s) with
                | None => None
                | Some (v, s) => Some (Lit v, (a, s))
                end
              else
                match get (ReadHybridInteger (es_lzLengthConfig e) (token - es_lz77MinSymbol e) s) with
                | None => None
                | Some (hi, s) =>
                    match get (distReadSymbol d' a s) with
                    | None => None
                    | Some ((token, a), s) =>
                        match get (ReadHybridInteger cfg' token s) with
                        | None => None
                        | Some (n, s) =>
                            if (hi <? 0) || (2147483647 <? es_lz77MinLength e + hi) || (n <? 0) || (2147483646 <? n) then None
                            else Some (Copy (es_lz77MinLength e + hi) (spec_distance mult n), (a, s))
                        end
                    end
                end
          end
      | _, _ => None
      end
  | _, _ => None
  end.

(* The reference decoder: history, copies still to do, their distance *)
Record lz := LZ { lz_h : list Z; lz_n : Z; lz_d : Z }.
Definition lz0 : lz := LZ [] 0 0.
Definition copy_step (r : lz) : Z * lz :=
  let v := copied (lz_h r) (lz_d r) in (v, LZ (v :: lz_h r) (lz_n r - 1) (lz_d r)).
Definition ref_read (e : ES) (context mult : Z) (r : lz) (st : ANSState * BR) : option (Z * lz * (ANSState * BR)) :=
  if 0 <? lz_n r then Some (copy_step r, st)
  else
    match read_event e context mult st with
    | None => None
    | Some (Lit v, st) => Some (v, LZ (v :: lz_h r) 0 (lz_d r), st)
    | Some (Copy len d, st) => Some (copy_step (LZ (lz_h r) len (limit (lz_h r) d)), st)
    end.
Fixpoint ref_run (e : ES) (calls : list (Z * Z)) (r : lz) (st : ANSState * BR) : option (list Z * lz * (ANSState * BR)) :=
  match calls with
  | [] => Some ([], r, st)
  | (c, m) :: t =>
      match ref_read e c m r st with
      | None => None
      | Some (v, r, st) =>
          match ref_run e t r st with
          | None => None
          | Some (vs, r, st) => Some (v :: vs, r, st)
          end
      end
  end.
