(* Grammar of the symbols of an entropy-coded stream: the bits that stand for
   a sequence of values, each in a context. *)
From Coq Require Import ZArith List Bool.
From Verif Require Import Bits SpecGrammar SpecEntropy SpecAlias SpecLZ SpecPrefix SpecStream.
Import ListNotations.
Open Scope Z_scope.

(* The cluster of a context, with its configuration *)
Definition cluster (h : header) (ctx : Z) (cl : nat) (cfg : hconf) : Prop :=
  0 <= ctx /\ nth_error (hd_map h) (Z.to_nat ctx) = Some (Z.of_nat cl) /\ nth_error (hd_configs h) cl = Some cfg.

(* rANS: in state n, the lower 12 bits say which symbol follows; the state
   after it is filled up with 16 bits if it is small *)
Definition ans_code (fs : list Z) (slot : Z -> Z * Z) (n : Z) (c : list bool) (t n' : Z) : Prop :=
  exists o, slot (n mod 4096) = (t, o) /\
  let y := nth (Z.to_nat t) fs 0 * (n / 4096) + o in
  if y <? 2 ^ 16 then exists w, 0 <= w < 2 ^ 16 /\ c = zbits 16 w /\ n' = y * 2 ^ 16 + w else c = [] /\ n' = y.
(* A token of a cluster.  The state of the ANS coder is sent before the first
   one; prefix codes have no state. *)
Inductive token_code (h : header) (cl : nat) : option Z -> Z -> list bool -> option Z -> Prop :=
| token_prefix : forall ts T w t x, hd_codes h = Prefixes ts -> nth_error ts cl = Some T -> In (w, t) T ->
    token_code h cl x t w x
| token_first : forall fs f slot n c t n', hd_codes h = Frequencies fs -> nth_error fs cl = Some f -> alias_standard (hd_las h) (snd f) slot ->
    2 ^ 16 <= n < 2 ^ 32 -> ans_code (snd f) slot n c t n' -> token_code h cl None t (zbits 32 n ++ c) (Some n')
| token_next : forall fs f slot n c t n', hd_codes h = Frequencies fs -> nth_error fs cl = Some f -> alias_standard (hd_las h) (snd f) slot ->
    ans_code (snd f) slot n c t n' -> token_code h cl (Some n) t c (Some n').

(* A value as a token with extra bits; tokens from min_symbol on are lengths *)
Definition literal_below (h : header) (t : Z) : Prop := match hd_lz h with Some (s, _, _) => t < s | None => True end.
(* Between two symbols: the values so far, latest first, how many are still
   to be copied and from how far back, and the state of the coder *)
Record sst := SST { ss_hist : list Z; ss_n : Z; ss_d : Z; ss_x : option Z }.
Definition sst0 : sst := SST [] 0 0 None.
Inductive symbol (h : header) (m : Z) : sst -> Z -> Z -> list bool -> sst -> Prop :=
| symbol_literal : forall hist d x ctx cl cfg v c x', cluster h ctx cl cfg -> 0 <= v < 2 ^ 31 ->
    literal_below h (hyb_token cfg v) -> token_code h cl x (hyb_token cfg v) c x' ->
    symbol h m (SST hist 0 d x) ctx v (c ++ hyb_extra cfg v) (SST (v :: hist) 0 d x')
| symbol_copy : forall hist d x ctx s l lc len n cl cfg cl' cfg' c1 x1 c2 x2, hd_lz h = Some (s, l, lc) ->
    cluster h ctx cl cfg -> cluster h (Z.of_nat (length (hd_map h)) - 1) cl' cfg' -> l <= len < 2 ^ 31 -> 0 <= n < 2 ^ 31 - 1 ->
    token_code h cl x (s + hyb_token lc (len - l)) c1 x1 -> token_code h cl' x1 (hyb_token cfg' n) c2 x2 ->
    let d' := limit hist (spec_distance m n) in
    symbol h m (SST hist 0 d x) ctx (copied hist d') (c1 ++ hyb_extra lc (len - l) ++ c2 ++ hyb_extra cfg' n)
      (SST (copied hist d' :: hist) (len - 1) d' x2)
| symbol_copied : forall hist n d x ctx, 0 < n ->
    symbol h m (SST hist n d x) ctx (copied hist d) [] (SST (copied hist d :: hist) (n - 1) d x).
(* l: contexts and values *)
Inductive symbols (h : header) (m : Z) : sst -> list (Z * Z) -> list bool -> sst -> Prop :=
| symbols_nil : forall x, symbols h m x [] [] x
| symbols_cons : forall x ctx v c x1 l c' x2, symbol h m x ctx v c x1 -> symbols h m x1 l c' x2 ->
    symbols h m x ((ctx, v) :: l) (c ++ c') x2.

(* What the headers of the standard satisfy: the distributions are nonnegative
   with sum 4096 over no more symbols than buckets, or have one symbol only,
   and are then described by it (see C95) *)
Definition proper_freqs (las : Z) (f : Z * Z * list Z) : Prop :=
  Forall (fun x => 0 <= x) (snd f) /\ sumZ (snd f) = 4096 /\
  (snd (fst f) = -1 /\ Z.of_nat (length (snd f)) <= 2 ^ las /\ ~ In 4096 (snd f) \/
   0 <= snd (fst f) /\ nth_error (snd f) (Z.to_nat (snd (fst f))) = Some 4096).
Definition proper_header (h : header) : Prop :=
  Forall hconf_ok (hd_configs h) /\ 0 <= hd_las h /\ Forall (fun c => 0 <= c < Z.of_nat (length (hd_configs h))) (hd_map h) /\
  match hd_lz h with Some (s, l, c) => 0 <= s < 2 ^ 16 /\ 1 <= l < 2 ^ 16 /\ hconf_ok c | None => True end /\
  match hd_codes h with
  | Prefixes _ => True
  | Frequencies fs => hd_las h <= 12 /\ Forall (proper_freqs (hd_las h)) fs
  end.
(* Headers as the grammar gives them: one-symbol distributions described by
   their symbol, cluster maps without numbers beyond the clusters *)
Definition described (h : header) : Prop :=
  match hd_codes h with Prefixes _ => True | Frequencies fs => Forall (fun f => 0 <= snd (fst f) \/ ~ In 4096 (snd f)) fs end.
Definition good_maps (maps : Z -> code (list Z * Z)) : Prop :=
  forall n c v, maps n c v -> 0 <= snd v /\ Forall (fun x => 0 <= x < snd v) (fst v).
(* A token can be sent: it has a code word, or a frequency *)
Definition codable (h : header) (cl : nat) (t : Z) : Prop :=
  match hd_codes h with
  | Prefixes ts => exists T w, nth_error ts cl = Some T /\ In (w, t) T
  | Frequencies fs => exists f, nth_error fs cl = Some f /\ 0 <= t /\ 0 < nth (Z.to_nat t) (snd f) 0
  end.
Definition sendable (h : header) (p : Z * Z) : Prop :=
  exists cl cfg, cluster h (fst p) cl cfg /\ 0 <= snd p < 2 ^ 31 /\ literal_below h (hyb_token cfg (snd p)) /\ codable h cl (hyb_token cfg (snd p)).
(* Prefix codes are looked up in 15 bits, which have to be there. *)
Definition ahead (h : header) : nat := match hd_codes h with Prefixes _ => 15 | Frequencies _ => 0 end.
(* A complete sequence of ANS symbols ends in this state, with no copy left *)
Definition final_state (h : header) (x : sst) : Prop :=
  ss_n x = 0 /\ match hd_codes h with Prefixes _ => ss_x x = None | Frequencies _ => ss_x x = Some 1245184 end.

(* Cluster maps in streams of their own, with one context, LZ77 only for more
   than two numbers, and with move to front if the second bit is set.  Their
   maps are again of this kind if depth allows for it: with LZ77 there are two
   contexts, and without it one. *)
Fixpoint map_code (depth : nat) (n : Z) : code (list Z * Z) :=
  match depth with
  | O => plain_map n
  | S depth => fun c v => plain_map n c v \/
      exists mtf hc h l sc x, 1 < n < 2 ^ 31 /\ c = false :: mtf :: hc ++ sc /\
        header_code (map_code depth) proper_dist 1 (2 <? n) hc h /\ described h /\
        symbols h 0 sst0 (map (pair 0) (if mtf : bool then move_to_front (map Z.of_nat (seq 0 256)) l else l)) sc x /\
        (ss_x x = None \/ ss_x x = Some 1245184) /\ Z.of_nat (length l) = n /\
        Forall (fun y => 0 <= y < if mtf then 256 else 2 ^ 31) l /\ 1 + fold_right Z.max (-1) l <= n /\ v = (l, 1 + fold_right Z.max (-1) l)
  end.
Definition cluster_map : Z -> code (list Z * Z) := map_code 2.

(* A whole stream of n contexts: header and symbols, ending in the final
   state unless nothing was sent *)
Definition sent (n m : Z) (l : list (Z * Z)) (c : list bool) : Prop :=
  exists hc h sc x, header_code cluster_map proper_dist n true hc h /\ described h /\ symbols h m sst0 l sc x /\
    (ss_x x = None \/ ss_x x = Some 1245184) /\ Z.of_nat (length l) < 2 ^ 31 /\ c = hc ++ sc.
