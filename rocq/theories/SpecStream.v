(* Grammar of the headers of entropy-coded streams. *)
From Coq Require Import ZArith List Bool.
From Verif Require Import GoBase Bits ModelBitReader ModelEntropy SpecBitReader SpecCodes SpecGrammar SpecEntropy SpecAlias SpecDist SpecPrefix.
Import ListNotations.
Open Scope Z_scope.

Local Notation "x <== R ;;; S" := (c_seq R (fun x => S)) (at level 61, R at next level, right associativity).

(* Hybrid integer configuration for tokens below 2^las *)
Definition config_code (las : Z) : code hconf :=
  e <== c_fixed (Z.to_nat (Z.log2_up (las + 1))) ;;;
  if e =? las then c_ret (HConf las 0 0)
  else i <== c_fixed (Z.to_nat (Z.log2_up (e + 1))) ;;; c_guard (i <= e) (
       j <== c_fixed (Z.to_nat (Z.log2_up (e - i + 1))) ;;; c_guard (i + j <= e) (
       c_ret (HConf e i j))).
(* Size of the alphabet of a prefix code, 1 .. 2^16 *)
Definition alphabet_code : code Z :=
  more <== c_bool ;;;
  if more : bool then n <== c_fixed 4 ;;; x <== c_fixed (Z.to_nat n) ;;; c_ret (1 + 2 ^ n + x) else c_ret 1.
Fixpoint c_each {A B} (f : A -> code B) (l : list A) : code (list B) :=
  match l with [] => c_ret [] | a :: t => b <== f a ;;; r <== c_each f t ;;; c_ret (b :: r) end.

(* The codes of the clusters: prefix tables, or frequencies *)
Inductive codes := Prefixes (ts : list prefix_table) | Frequencies (fs : list (Z * Z * list Z)).
Record header := Header {
  hd_lz : option (Z * Z * hconf);   (* smallest length symbol, smallest length, configuration of lengths *)
  hd_map : list Z;
  hd_las : Z;
  hd_configs : list hconf;
  hd_codes : codes
}.
(* map n is the grammar of the cluster maps of n contexts: the map and the
   number of clusters; dist las the grammar of the frequencies.  A stream with
   LZ77 has one more context. *)
Definition header_code (map : Z -> code (list Z * Z)) (dist : Z -> code (Z * Z * list Z)) (n : Z) (lz_allowed : bool) : code header :=
  lz <== c_bool ;;;
  lzp <== (if lz : bool
           then c_guard (lz_allowed = true) (
                s <== c_u32 224 0 512 0 4096 0 8 15 ;;; l <== c_u32 3 0 4 0 5 2 9 8 ;;; c <== config_code 8 ;;; c_ret (Some (s, l, c)))
           else c_ret None) ;;;
  cm <== map (if lz : bool then n + 1 else n) ;;;
  prefix <== c_bool ;;;
  las <== (if prefix : bool then c_ret 15 else x <== c_fixed 2 ;;; c_ret (5 + x)) ;;;
  configs <== c_list (Z.to_nat (snd cm)) (config_code las) ;;;
  cs <== (if prefix : bool
          then sizes <== c_list (Z.to_nat (snd cm)) alphabet_code ;;; ts <== c_each prefix_code sizes ;;; c_ret (Prefixes ts)
          else fs <== c_list (Z.to_nat (snd cm)) (dist las) ;;; c_ret (Frequencies fs)) ;;;
  c_ret (Header lzp (fst cm) las configs cs).
(* without negative frequencies *)
Definition proper_dist (las : Z) : code (Z * Z * list Z) := fun c v => dist_code las c v /\ Forall (fun f => 0 <= f) (snd v).

(* The stream of a header *)
Definition table_matches (x : prefix_table) (v : SymDist) : Prop :=
  forall st, exact_ahead 15 (distReadSymbol v st) (fun w r => In (w, fst r) x /\ snd r = st).
Definition freqs_match (las : Z) (f : Z * Z * list Z) (v : SymDist) : Prop :=
  exists cut sym off, v = AnsDist (12 - las) (snd f) cut sym off /\
    (Forall (fun f => 0 <= f) (snd f) ->
       sumZ (snd f) = 4096 /\ length cut = Z.to_nat (2 ^ las) /\ length sym = Z.to_nat (2 ^ las) /\ length off = Z.to_nat (2 ^ las) /\
       (forall i, 0 <= i < 2 ^ las -> - 4096 <= nth (Z.to_nat i) off 0 <= 4096) /\
       slot_bijection 4096 (snd f) (alias_slot (2 ^ (12 - las)) cut sym off) /\
       (* see C95 *)
       (0 <= snd (fst f) \/ ~ In 4096 (snd f) -> alias_standard las (snd f) (alias_slot (2 ^ (12 - las)) cut sym off))).
Definition codes_match (las : Z) (c : codes) (vs : list SymDist) : Prop :=
  match c with Prefixes ts => Forall2 table_matches ts vs | Frequencies fs => Forall2 (freqs_match las) fs vs end.
Definition stream_of (h : header) (e : ES) : Prop :=
  es_clusterMap e = hd_map h /\ es_logAlphabetSize e = hd_las h /\
  map snd (es_dists e) = map (fun c => mkHIC (h_e c) (h_i c) (h_j c)) (hd_configs h) /\
  codes_match (hd_las h) (hd_codes h) (map fst (es_dists e)) /\
  match hd_lz h with
  | Some (s, l, c) => es_usesLZ77 e = true /\ es_lz77MinSymbol e = s /\ es_lz77MinLength e = l /\ es_lzLengthConfig e = mkHIC (h_e c) (h_i c) (h_j c)
  | None => es_usesLZ77 e = false
  end.
(* nothing read yet *)
Definition fresh (e : ES) : Prop := ans_has (es_ans e) = false /\ es_numToCopy77 e = 0 /\ es_numDecoded77 e = 0 /\ es_copyPos77 e = 0 /\ forall k, es_window e k = 0.

(* The reader m for the grammar R, up to the relation rel between values of
   the grammar and of the program: every string of the grammar is read if k
   bits follow it, and only such strings are *)
Definition complete {A B} (k : nat) (m : RM A) (R : code B) (rel : B -> A -> Prop) : Prop :=
  forall c b, R c b -> exists a, rel b a /\ reads_ahead k m c a.
Definition sound {A B} (m : RM A) (R : code B) (rel : B -> A -> Prop) : Prop :=
  forall s d p a s', reader_at s d p -> m s = (Ok a, s') ->
  exists c b, bits_at d p c /\ R c b /\ rel b a /\ reader_at s' d (p + length c).

(* Cluster maps of one context, and maps of numbers of a fixed width, with no
   more clusters than contexts *)
Definition plain_map (n : Z) : code (list Z * Z) :=
  if n =? 1 then c_ret ([0], 1)
  else fun c v => exists w l, (w < 4)%nat /\ c = true :: zbits 2 (Z.of_nat w) ++ flat_map (zbits w) l /\ Z.of_nat (length l) = n /\
    Forall (fun x => 0 <= x < 2 ^ Z.of_nat w) l /\ 1 + fold_right Z.max (-1) l <= n /\ v = (l, 1 + fold_right Z.max (-1) l).
