(* Transcription of the two-dimensional pool of util/buffer_pool.go (one type), with its
   metrics.

   Memory is a map from addresses to rows; a matrix is the list of the addresses of its
   rows.  sync.Pool.Get gives any item put earlier or the result of New, which is set for
   every pool; the runtime may drop items, which is the same as never giving them. *)
From Coq Require Import ZArith List Bool Arith.
Import ListNotations.

Definition Matrix2 := list nat.
Definition Key2 := (nat * nat)%type.
Record Mem2 := mkMem2 { m2_next : nat; m2_rows : nat -> list Z; m2_pools : Key2 -> option (list Matrix2); m2_hits : Z; m2_misses : Z }.
Definition mem2_init : Mem2 := mkMem2 0 (fun _ => []) (fun _ => None) 0 0.

Definition key2_eqb (a b : Key2) : bool := ((fst a =? fst b) && (snd a =? snd b))%nat.
Definition setPool2 (ps : Key2 -> option (list Matrix2)) (k : Key2) (v : list Matrix2) : Key2 -> option (list Matrix2) :=
  fun k' => if key2_eqb k k' then Some v else ps k'.

(* util/misc.go:12-18: h new rows of w zeros *)
Definition makeMatrix2D (h w : nat) (s : Mem2) : Matrix2 * Mem2 :=
  (seq (m2_next s) h,
   mkMem2 (m2_next s + h) (fun a => if (m2_next s <=? a)%nat && (a <? m2_next s + h)%nat then repeat 0%Z w else m2_rows s a) (m2_pools s) (m2_hits s) (m2_misses s)).

(* p.hits.Add(1) *)
Definition addHit (s : Mem2) : Mem2 := mkMem2 (m2_next s) (m2_rows s) (m2_pools s) (m2_hits s + 1) (m2_misses s).

(* util/buffer_pool.go:120-153.  New is never nil, so pool.Get gives a matrix, and lines
   151 and 152 are not reached; made tells whether the matrix is the result of New. *)
Inductive pget2 (h w : nat) (s : Mem2) : bool -> Matrix2 -> Mem2 -> Prop :=
| pg2_zero m t : (h = 0 \/ w = 0)%nat -> makeMatrix2D h w s = (m, t) -> pget2 h w s true m t
| pg2_new m t l : (h <> 0 /\ w <> 0)%nat ->
    (m2_pools s (h, w) = Some l \/ m2_pools s (h, w) = None /\ l = []) ->
    makeMatrix2D h w (mkMem2 (m2_next s) (m2_rows s) (setPool2 (m2_pools s) (h, w) l) (m2_hits s) (m2_misses s)) = (m, t) ->
    pget2 h w s true m (addHit t)
| pg2_reuse m l1 l2 : (h <> 0 /\ w <> 0)%nat -> m2_pools s (h, w) = Some (l1 ++ m :: l2) ->
    pget2 h w s false m (addHit (mkMem2 (m2_next s) (m2_rows s) (setPool2 (m2_pools s) (h, w) (l1 ++ l2)) (m2_hits s) (m2_misses s))).

(* util/buffer_pool.go:156-178 *)
Definition clearRows2 (m : Matrix2) (rows : nat -> list Z) : nat -> list Z :=
  fun a => if existsb (Nat.eqb a) m then repeat 0%Z (length (rows a)) else rows a.
Definition pput2 (m : Matrix2) (s : Mem2) : Mem2 :=
  match m with
  | [] => s
  | r :: _ =>
      let key := (length m, length (m2_rows s r)) in
      match m2_pools s key with
      | Some l => mkMem2 (m2_next s) (clearRows2 m (m2_rows s)) (setPool2 (m2_pools s) key (m :: l)) (m2_hits s) (m2_misses s)
      | None => s
      end
  end.
