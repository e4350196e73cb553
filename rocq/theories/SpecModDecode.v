(* Independent description of a whole modular stream, seen from the encoder:
   the symbols of the transformed channels, the bits, and where the decoding
   of the global stream stops. *)
From Coq Require Import ZArith List Bool.
From Verif Require Import GoMatrix SpecCodes SpecBitReader SpecGrammar SpecStream SpecSymbols SpecMATree SpecTreeCode SpecModular SpecChannel ModelMATree ModelModular ModelModStream SpecModStream.
Import ListNotations.
Open Scope Z_scope.

(* the parameters of the predictor as the header has them *)
Definition wp_fields (wp : WPParams) : wp_header :=
  mkWpHeader (wp_1 wp) (wp_2 wp) (wp_3a wp) (wp_3b wp) (wp_3c wp) (wp_3d wp) (wp_3e wp) (wp_weight wp).
(* The channels that properties 16 and up refer to: those before of the same
   size and shifts, nearest first *)
Definition alike (q p : Plane) : bool := (p_h p =? p_h q)%nat && (p_w p =? p_w q)%nat && (p_vs p =? p_vs q) && (p_hs p =? p_hs q).
Definition refs_of (before : list Plane) (q : Plane) : list SpecChannel.Plane := map (fun p => px (p_px p)) (filter (alike q) (rev before)).

(* Contexts and values of the residuals of a channel, in raster order.  The
   limits are those of C92. *)
Definition plane_sends (wp : WPParams) (nodes : list Node) (stream : Z) (before : list Plane) (q : Plane) (l : list (Z * Z)) : Prop :=
  let h := p_h q in let w := p_w q in let I := px (p_px q) in
  length l = (h * w)%nat /\ (forall y x, (y < h)%nat -> (x < w)%nat -> - 2 ^ 26 <= I y x <= 2 ^ 26) /\
  exists E T,
    (Exists weighted nodes -> error_history (wp_fields wp) h w I E T /\
       forall y x, (y < h)%nat -> (x < w)%nat -> - 2 ^ 20 <= I y x <= 2 ^ 20 /\ - 2 ^ 23 <= T y x <= 2 ^ 23) /\
    forall y x, (y < h)%nat -> (x < w)%nat -> exists leaf n d,
      decides nodes (property w I (refs_of before q) (Z.of_nat (length before)) stream y x (largest_error w T y x)) 0 leaf /\ nth_error nodes leaf = Some n /\
      nth_error l (y * w + x) = Some (n_context n, d) /\ 0 <= d < 2 ^ 31 /\
      I y x = unzigzag d * n_multiplier n + n_offset n + predictor w I y x (n_predictor n) (weighted_prediction (wp_fields wp) w I E T y x).
Inductive planes_send (wp : WPParams) (nodes : list Node) (stream : Z) (before : list Plane) : list Plane -> list (Z * Z) -> Prop :=
| PsNone : planes_send wp nodes stream before [] []
| PsMore q l t l' : plane_sends wp nodes stream before q l -> planes_send wp nodes stream (before ++ [q]) t l' -> planes_send wp nodes stream before (q :: t) (l ++ l').

(* distances of LZ77 copies are in rows of this length *)
Definition widest (Q : list Plane) : Z := fold_right Z.max 0 (map (fun q => Z.of_nat (p_w q)) Q).

(* A tree that has been sent, with the header h of the stream behind it *)
Definition tree_sent (nodes : list Node) (h : header) (c : list bool) : Prop :=
  breadth_first nodes /\ Z.of_nat (length nodes) <= 2 ^ 20 + 1 /\ described h /\ tree_code nodes h c.
(* The bits c of a stream of the channels Q, of which the channels now are
   sent: header, tree unless it is the one of the frame, symbols.  m is the
   length of rows for copies. *)
Definition modular_bits (global : option (list Node * header)) (stream m : Z) (l : list TransformInfo) (now : list Plane) (c : list bool) : Prop :=
  exists hc wp g tc nodes h values sc x,
    modular_code mstandard hc (g, wp, l) /\
    (if g : bool then tc = [] /\ global = Some (nodes, h) else tree_sent nodes h tc) /\
    planes_send wp nodes stream [] now values /\ Z.of_nat (length values) < 2 ^ 31 /\
    (hd_lz h <> None -> 8 <= m <= 2 ^ 24) /\
    symbols h m sst0 values sc x /\ (ss_x x = None \/ ss_x x = Some 1245184) /\ c = hc ++ tc ++ sc.
(* The global stream holds the channels before the first one that is neither
   a meta channel nor as small as a group *)
Definition held (meta : nat) (dim : Z) (i : nat) (q : Plane) : Prop := (i < meta)%nat \/ Z.of_nat (p_w q) <= dim /\ Z.of_nat (p_h q) <= dim.
Definition global_part (meta : nat) (dim : Z) (now later : list Plane) : Prop :=
  (forall i q, nth_error now i = Some q -> held meta dim i q) /\
  match later with [] => True | q :: _ => ~ held meta dim (length now) q end.
