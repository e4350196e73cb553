(* Transcription of util/buffer_pool.go (the three-dimensional pool; one type)
   and of how frame/Frame.go:787-797 uses it.

   Memory is a map from addresses to rows (the innermost slices).  A matrix is
   the list of its channels, a channel the list of the addresses of its rows;
   assigning a channel of another matrix (buffers[c] = FloatBuffer) shares the
   rows.  Code never replaces a row of a channel by another row, so sharing
   the middle slices is not modelled.  sync.Pool.Get may return any item put
   earlier or the result of New; the runtime may drop items at any time, which
   is the same as never returning them.  The locks make Get and Put atomic
   with respect to the map of pools; the metrics are left out. *)
From Coq Require Import ZArith List Bool Arith.
From Verif Require Import GoBase GoLoop.
Import ListNotations.

Definition Matrix3 := list (list nat).
Definition Key := (nat * nat * nat)%type.
Record Mem := mkMem { m_next : nat; m_rows : nat -> list Z; m_pools : Key -> option (list Matrix3) }.
Definition mem_init : Mem := mkMem 0 (fun _ => []) (fun _ => None).

Definition key_eqb (a b : Key) : bool :=
  let '(a1, a2, a3) := a in let '(b1, b2, b3) := b in ((a1 =? b1) && (a2 =? b2) && (a3 =? b3))%nat.
Definition setPool (ps : Key -> option (list Matrix3)) (k : Key) (v : list Matrix3) : Key -> option (list Matrix3) :=
  fun k' => if key_eqb k k' then Some v else ps k'.

(* util/misc.go:20-29: d*h new rows of w zeros *)
Fixpoint channelAddrs (d h base : nat) : Matrix3 :=
  match d with O => [] | S d' => seq base h :: channelAddrs d' h (base + h) end.
Definition makeMatrix3D (d h w : nat) (s : Mem) : Matrix3 * Mem :=
  (channelAddrs d h (m_next s),
   mkMem (m_next s + d * h) (fun a => if (m_next s <=? a)%nat && (a <? m_next s + d * h)%nat then repeat 0%Z w else m_rows s a) (m_pools s)).

(* util/buffer_pool.go:31-67 *)
Inductive pget (d h w : nat) (s : Mem) : Matrix3 -> Mem -> Prop :=
| pg_zero m t : (d = 0 \/ h = 0 \/ w = 0)%nat -> makeMatrix3D d h w s = (m, t) -> pget d h w s m t
| pg_new m t l : (d <> 0 /\ h <> 0 /\ w <> 0)%nat ->
    (m_pools s (d, h, w) = Some l \/ m_pools s (d, h, w) = None /\ l = []) ->
    makeMatrix3D d h w (mkMem (m_next s) (m_rows s) (setPool (m_pools s) (d, h, w) l)) = (m, t) ->
    pget d h w s m t
| pg_reuse m l1 l2 : (d <> 0 /\ h <> 0 /\ w <> 0)%nat -> m_pools s (d, h, w) = Some (l1 ++ m :: l2) ->
    pget d h w s m (mkMem (m_next s) (m_rows s) (setPool (m_pools s) (d, h, w) (l1 ++ l2))).

(* util/buffer_pool.go:70-100 *)
Definition clearRows (m : Matrix3) (rows : nat -> list Z) : nat -> list Z :=
  fun a => if existsb (Nat.eqb a) (concat m) then repeat 0%Z (length (rows a)) else rows a.
Definition pput (m : Matrix3) (s : Mem) : Mem :=
  match m with
  | [] => s
  | [] :: _ => s
  | (r :: rs) :: _ =>
      let key := (length m, length (r :: rs), length (m_rows s r)) in
      match m_pools s key with
      | Some l => mkMem (m_next s) (clearRows m (m_rows s)) (setPool (m_pools s) key (m :: l))
      | None => s
      end
  end.

(* frame/Frame.go:787-837: buffers := MakeMatrix3DPooled(3, 0, 0); its
   channels become those of the frame buffer, the groups are written into them
   (work), and the deferred ReturnMatrix3DToPool runs on the way out. *)
Definition decodeVarDCT (frameBuffer : Matrix3) (work : (nat -> list Z) -> nat -> list Z) (s : Mem) : Mem :=
  pput frameBuffer (mkMem (m_next s) (work (m_rows s)) (m_pools s)).
