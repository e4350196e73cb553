(* Properties of the entropy coding layer: C18 - C24. *)
From Coq Require Import ZArith List Bool Lia.
From Verif Require Import GoBase GoLoop Bits ModelBitReader ModelUtil ModelEntropy SpecBitReader SpecEntropy SpecLZ.
From Verif Require Import ProofBitReader ProofBitReader2 ProofReads ProofCodes ProofHybrid ProofVLC ProofAlias ProofANS ProofLZ ProofCluster.
Import ListNotations.
Open Scope Z_scope.

(* ---- C18: hybrid integers ---- *)
(* Every configuration the reader accepts is a proper one. *)
Theorem C18_hybrid_config : forall las, 0 <= las <= 15 ->
  yields (NewHybridIntegerConfigWithReader las)
    (fun h => exists c, hconf_ok c /\ h = mkHIC (h_e c) (h_i c) (h_j c)).
Proof. exact config_ok. Qed.
Print Assumptions C18_hybrid_config.

(* Reading the token and the extra bits of v gives v, as a 32-bit value. *)
Theorem C18_hybrid_roundtrip : forall c v, hconf_ok c -> 0 <= v < 2 ^ 32 ->
  reads (ReadHybridInteger (mkHIC (h_e c) (h_i c) (h_j c)) (hyb_token c v)) (hyb_extra c v) (i32 v).
Proof. exact hybrid_roundtrip. Qed.
Print Assumptions C18_hybrid_roundtrip.

(* Tokens asking for more than 32 extra bits are errors. *)
Theorem C18_hybrid_rejects : forall c t s, hconf_ok c -> t < 2 ^ 31 -> 32 < hyb_need c t ->
  ReadHybridInteger (mkHIC (h_e c) (h_i c) (h_j c)) t s = (Err, s).
Proof. exact hybrid_reject. Qed.
Print Assumptions C18_hybrid_rejects.

(* No token panics. *)
Theorem C18_hybrid_total : forall c t, hconf_ok c -> - 2 ^ 31 <= t < 2 ^ 31 ->
  yields (ReadHybridInteger (mkHIC (h_e c) (h_i c) (h_j c)) t) (fun v => - 2 ^ 31 <= v < 2 ^ 31).
Proof.
  intros c t Hc Ht. eapply yields_weaken; [exact (hybrid_yields c t Hc ltac:(lia))|]. cbv beta. intros v [H|H]; lia.
Qed.
Print Assumptions C18_hybrid_total.

Example C18_example :
  let c := HConf 4 1 2 in
  hconf_ok c /\ hyb_token c 1234567 = 16 + (20 - 4) * 8 + 0 * 4 + 3 /\ length (hyb_extra c 1234567) = 17%nat /\
  hyb_need c 16000 > 32.
Proof. cbv zeta. unfold hconf_ok. cbn [h_e h_i h_j]. repeat split; try lia; vm_compute; reflexivity. Qed.

(* ---- C19: prefix codes ---- *)
(* For lengths in nondecreasing order that fill the code space a table is
   built; every codeword of the canonical code decodes to its symbol, and
   every bit string starts with exactly one codeword.  Missing: the lookup
   needs B bits to be left even if the codeword is shorter (see below). *)
Theorem C19_canonical_code_partial : forall B lens syms, (B <= 31)%nat -> length lens = length syms -> syms <> [] ->
  Forall (fun l => 0 <= l <= Z.of_nat B) lens ->
  nondecreasing 0 (map fst (coded lens syms)) -> kraft (Z.of_nat B) (map fst (coded lens syms)) = 2 ^ Z.of_nat B ->
  exists t, NewVLCTableWithSymbols (Z.of_nat B) lens syms = Ok t /\
    (forall k w l sym, nth_error (codewords (map fst (coded lens syms))) k = Some w ->
       nth_error (coded lens syms) k = Some (l, sym) ->
       Z.of_nat (length w) = l /\
       forall s d p, reader_at s d p -> bits_at d p w -> (p + B <= 8 * length d)%nat ->
       exists s', GetVLC t s = (Ok sym, s') /\ reader_at s' d (p + length w)) /\
    (forall x : list bool, length x = B -> exists k w, nth_error (codewords (map fst (coded lens syms))) k = Some w /\ prefix_of w x /\
       forall k' w', nth_error (codewords (map fst (coded lens syms))) k' = Some w' -> prefix_of w' x -> k' = k).
Proof. exact vlc_decodes. Qed.
Print Assumptions C19_canonical_code_partial.

(* Lengths that do not fill the code space exactly are rejected. *)
Theorem C19_incomplete_rejected : forall B lens syms, length lens = length syms -> syms <> [] ->
  Forall (fun l => 0 <= l <= 32) lens -> kraft 32 (map fst (coded lens syms)) <> 2 ^ 32 ->
  NewVLCTableWithSymbols B lens syms = Err.
Proof. exact vlc_incomplete. Qed.
Print Assumptions C19_incomplete_rejected.

(* Finding: a codeword that ends the stream is not decoded if fewer than the
   table's B bits are left: the lookup peeks B bits and fails. *)
Theorem C19_end_of_stream_refuted : forall B table d p s, (B <= 31)%nat -> reader_at s d p -> (8 * length d < p + B)%nat ->
  exists s', GetVLC (mkVLC (Z.of_nat B) table) s = (Err, s').
Proof. exact lookup_short. Qed.
Print Assumptions C19_end_of_stream_refuted.
Example C19_end_of_stream_example :
  match NewVLCTableWithSymbols 9 [1; 2; 2] [7; 8; 9] with
  | Ok t => fst (GetVLC t (NewBitStreamReader [0; 0])) = Ok 7 /\ fst (GetVLC t (NewBitStreamReader [0])) = Err
  | _ => False
  end.
Proof. vm_compute. auto. Qed.

Example C19_example :
  let lens := [0; 2; 2; 2; 3; 3] in let syms := [0; 1; 2; 3; 4; 5] in
  coded lens syms = [(2, 1); (2, 2); (2, 3); (3, 4); (3, 5)] /\
  nondecreasing 0 (map fst (coded lens syms)) /\ kraft 3 (map fst (coded lens syms)) = 2 ^ 3 /\
  nth_error (codewords (map fst (coded lens syms))) 4 = Some [true; true; true].
Proof. cbv zeta. repeat split; vm_compute; try reflexivity; discriminate. Qed.

(* ---- C20: alias tables ---- *)
(* Construction succeeds for every distribution of 4096 over at most 2^las
   symbols (and for a single symbol of any index); the table maps the 4096
   slots one to one onto the (symbol, offset) pairs of the frequencies. *)
Theorem C20_alias_bijection : forall las a u freqs, 0 <= las <= 12 -> Forall (fun f => 0 <= f) freqs -> sumZ freqs = 4096 ->
  (u = -1 /\ Z.of_nat (length freqs) <= 2 ^ las) \/
  (0 <= u < Z.of_nat (length freqs) /\ nth (Z.to_nat u) freqs 0 = 4096) ->
  exists cut sym off,
    generateAliasMapping las a u freqs = Ok (AnsDist (12 - las) freqs cut sym off) /\
    length cut = Z.to_nat (2 ^ las) /\ length sym = Z.to_nat (2 ^ las) /\ length off = Z.to_nat (2 ^ las) /\
    slot_bijection 4096 freqs (alias_slot (2 ^ (12 - las)) cut sym off).
Proof.
  intros las a u freqs H1 H2 H3 H4. destruct (alias_all las a u freqs (conj H1 (conj H2 (conj H3 H4)))) as (t & E & El & Ef & G).
  destruct t as [lb fr cut sym off]. cbn [at_lb at_freqs] in El, Ef. subst lb fr. exists cut, sym, off. split; [exact E|].
  destruct G as [_ L1 L2 L3 _ _ B]. cbn [at_lb at_cut at_sym at_off] in *. replace (12 - (12 - las)) with las in * by lia. exact (conj L1 (conj L2 (conj L3 B))).

Qed.
Print Assumptions C20_alias_bijection.
Example C20_example :
  let freqs := [3000; 0; 1000; 96] in
  Forall (fun f => 0 <= f) freqs /\ sumZ freqs = 4096 /\ Z.of_nat (length freqs) <= 2 ^ 5 /\
  match generateAliasMapping 5 4 (-1) freqs with
  | Ok (AnsDist 7 _ cut sym off) => alias_slot 128 cut sym off 300 = (2, 44) /\ alias_slot 128 cut sym off 4095 = (2, 999)
  | _ => False
  end.
Proof. cbv zeta. split; [repeat constructor; lia|]. split; [reflexivity|]. split; [cbn; lia|]. vm_compute. auto. Qed.

(* ---- C21: ANS ---- *)
(* Every message over any tables built by generateAliasMapping, encoded from
   any initial state of 17..32 bits: the decoder returns the message,
   consumes exactly the produced bits and ends in the initial state. *)
Theorem C21_ans_roundtrip : forall msg x0 st, msg <> [] -> 2 ^ 16 <= x0 < 2 ^ 32 -> ans_has st = false ->
  Forall (fun p => (exists las a u, freqs_ok las u (at_freqs (fst p)) /\
                      generateAliasMapping las a u (at_freqs (fst p)) = Ok (dist_of (fst p))) /\
                   0 <= snd p < Z.of_nat (length (at_freqs (fst p))) /\ 0 < at_freq (fst p) (snd p)) msg ->
  reads (readAll (map (fun p => dist_of (fst p)) msg) st) (rans_stream msg x0) (map snd msg, mkANS (i32 x0) true).
Proof.
  intros msg x0 st Hne Hx Hst HF. apply rans_roundtrip; auto.
  eapply Forall_impl; [|exact HF]. intros [t s] ((las & a & u & Hf & E) & Hs & Hp). cbn [fst snd] in *. split; [|split; assumption].
  destruct (alias_all las a u _ Hf) as (t' & E' & _ & _ & G). assert (dist_of t = dist_of t') by congruence.
  assert (t = t') by (destruct t, t'; unfold dist_of in H; cbn in H; congruence). subst t'. exact G.
Qed.
Print Assumptions C21_ans_roundtrip.

(* The encoder state, and with it the decoder state, fits 32 bits and the
   words 16. *)
Theorem C21_ans_state_fits : forall msg x0, 2 ^ 16 <= x0 < 2 ^ 32 ->
  Forall (fun p => (exists las a u, freqs_ok las u (at_freqs (fst p)) /\
                      generateAliasMapping las a u (at_freqs (fst p)) = Ok (dist_of (fst p))) /\
                   0 <= snd p < Z.of_nat (length (at_freqs (fst p))) /\ 0 < at_freq (fst p) (snd p)) msg ->
  2 ^ 16 <= fst (rans_encode msg x0) < 2 ^ 32 /\ Forall (fun w => 0 <= w < 2 ^ 16) (snd (rans_encode msg x0)).
Proof.
  intros msg x0 Hx HF.
  assert (H : msg_ok msg).
  { eapply Forall_impl; [|exact HF]. intros [t s] ((las & a & u & Hf & E) & Hs & Hp). cbn [fst snd] in *. split; [|split; assumption].
    destruct (alias_all las a u _ Hf) as (t' & E' & _ & _ & G). assert (dist_of t = dist_of t') by congruence.
    assert (t = t') by (destruct t, t'; unfold dist_of in H; cbn in H; congruence). subst t'. exact G. }
  pose proof (rans_ok msg H x0 Hx) as R. destruct (rans_encode msg x0) as [x ws]. cbn [fst snd]. tauto.
Qed.
Print Assumptions C21_ans_state_fits.

(* A message encoded from the standard's initial state 0x130000 passes the
   final state check, and the check fails for every other state. *)
Theorem C21_final_state : forall e st, es_ans e = mkANS st true -> - 2 ^ 31 <= st < 2 ^ 31 ->
  (ValidateFinalState e = true <-> st = 19 * 2 ^ 16).
Proof.
  intros e st H Hst. unfold ValidateFinalState. rewrite H. cbn [ans_has ans_state negb orb].
  rewrite Z.eqb_eq. change (19 * 2 ^ 16) with 1245184. tauto.
Qed.
Print Assumptions C21_final_state.

Example C21_example :
  match generateAliasMapping 5 3 (-1) [3000; 1000; 96] with
  | Ok (AnsDist lb f c s o) =>
      let t := ATable lb f c s o in
      let msg := [(t, 0); (t, 2); (t, 1); (t, 0); (t, 2); (t, 2)] in
      fst (readAll (map (fun p => dist_of (fst p)) msg) (mkANS (-1) false)
             (NewBitStreamReader (map (fun i => bz (firstn 8 (skipn (8 * i) (rans_stream msg 1245184)))) (seq 0 6))))
      = Ok ([0; 2; 1; 0; 2; 2], mkANS 1245184 true)
  | _ => False
  end.
Proof. vm_compute. reflexivity. Qed.

(* ---- C22: LZ77 ---- *)
(* For any tokens, a stream with LZ77 behaves like the reference decoder
   with an unbounded history: same values, same bits consumed, for any
   number of calls below 2^31.  Missing: distance multipliers 1..7 and
   distance or length numbers of 2^31 and more (see below). *)
Theorem C22_lz77_history_partial : forall e calls s vs r a' s',
  es_usesLZ77 e = true -> es_numDecoded77 e = 0 -> es_numToCopy77 e = 0 -> (forall k, es_window e k = 0) ->
  0 <= es_lz77MinSymbol e < 2 ^ 31 -> 1 <= es_lz77MinLength e < 2 ^ 31 ->
  Forall (fun d => dist_typed (fst d)) (es_dists e) ->
  Forall (fun p => snd p = 0 \/ 8 <= snd p <= 2 ^ 24) calls -> Z.of_nat (length calls) < 2 ^ 31 ->
  ref_run e calls lz0 (es_ans e, s) = Some (vs, r, (a', s')) ->
  exists e', readCalls calls (e, s) = (Ok vs, (e', s')) /\ es_ans e' = a' /\ lz_h r = rev vs.
Proof.
  intros e calls s vs r a' s' H1 H2 H3 H4 H5 H6 HT H7 H8 HR.
  destruct (ref_run_ok e calls (conj H5 H6) H7) with (5 := HR) as (e' & E1 & _ & E3 & E4).
  - intros d cfg a s0 t a1 s1 Hin E. rewrite Forall_forall in HT. exact (token_typed d a s0 t a1 s1 (HT _ Hin) E).
  - now apply fresh_repr.
  - cbn. lia.
  - cbn [lz0 lz_h length]. lia.
  - exists e'. rewrite app_nil_r in E4. auto.
Qed.
Print Assumptions C22_lz77_history_partial.

(* The reference decoder plays events one after the other: each event read
   with no copy pending accounts for the next max(1, length) calls. *)
Theorem C22_reference_events : forall e c m cs h d0 st ev st', read_event e c m st = Some (ev, st') ->
  length cs = match ev with Lit _ => 0%nat | Copy len _ => (Z.to_nat len - 1)%nat end ->
  (match ev with Lit _ => True | Copy len _ => 1 <= len end) ->
  exists d1, ref_run e ((c, m) :: cs) (LZ h 0 d0) st =
  Some (rev (firstn (S (length cs)) (apply_event h ev)), LZ (apply_event h ev) 0 d1, st').
Proof. exact ref_event. Qed.
Print Assumptions C22_reference_events.

(* Copies in closed form: symbol i of a copy at distance d is symbol
   i mod d of the last d symbols; a copy with no history gives zeros. *)
Theorem C22_copy_closed_form : forall n d h, 1 <= d <= Z.of_nat (length h) ->
  copy_n n d h = rev (map (fun i => nth (Z.to_nat d - 1 - i mod Z.to_nat d) h 0) (seq 0 n)) ++ h.
Proof. exact copy_n_closed. Qed.
Print Assumptions C22_copy_closed_form.

(* The special distances are the 120 neighbours (x, y) left of or above, each
   once, by increasing Euclidean distance. *)
Theorem C22_special_distances :
  NoDup SPECIAL_DISTANCES /\
  (forall x y, In (x, y) SPECIAL_DISTANCES <-> -7 <= x <= 8 /\ 0 <= y <= 7 /\ (0 < y \/ 0 < x)) /\
  nondecreasing 0 (map (fun p => fst p * fst p + snd p * snd p) SPECIAL_DISTANCES).
Proof.
  split; [|split].
  - assert (D : forall a b : Z * Z, {a = b} + {a <> b}) by (intros [a b] [c d]; destruct (Z.eq_dec a c), (Z.eq_dec b d); [left|right|right|right]; congruence).
    assert (H : forall l : list (Z * Z), (fix go l := match l with [] => true | x :: t => negb (existsb (fun y => (fst x =? fst y) && (snd x =? snd y)) t) && go t end) l = true -> NoDup l).
    { induction l as [|x l IH]; intros H; constructor.
      - intros Hin. apply andb_true_iff in H. destruct H as [H _]. apply negb_true_iff in H.
        assert (existsb (fun y => (fst x =? fst y) && (snd x =? snd y)) l = true); [|congruence].
        apply existsb_exists. exists x. split; [assumption|]. rewrite !Z.eqb_refl. reflexivity.
      - apply IH. apply andb_true_iff in H. tauto. }
    apply H. vm_compute. reflexivity.
  - intros x y. split.
    + intros Hin. pose proof special_range as F. rewrite Forall_forall in F. specialize (F _ Hin). cbn [fst snd] in F. lia.
    + intros (Hx & Hy & Hxy).
      assert (C : forall a b, (a < 16)%nat -> (b < 8)%nat -> (a <? 8)%nat && (b =? 0)%nat = false ->
                  existsb (fun p => (fst p =? Z.of_nat a - 7) && (snd p =? Z.of_nat b)) SPECIAL_DISTANCES = true).
      { assert (G : forallb (fun a => forallb (fun b => ((a <? 8)%nat && (b =? 0)%nat) ||
                  existsb (fun p => (fst p =? Z.of_nat a - 7) && (snd p =? Z.of_nat b)) SPECIAL_DISTANCES) (seq 0 8)) (seq 0 16) = true)
          by (vm_compute; reflexivity).
        intros a b Ha Hb E. rewrite forallb_forall in G. specialize (G a ltac:(apply in_seq; lia)).
        rewrite forallb_forall in G. specialize (G b ltac:(apply in_seq; lia)). rewrite E in G. exact G. }
      specialize (C (Z.to_nat (x + 7)) (Z.to_nat y) ltac:(lia) ltac:(lia)).
      destruct ((Z.to_nat (x + 7) <? 8)%nat && (Z.to_nat y =? 0)%nat) eqn:E.
      * apply andb_true_iff in E. destruct E as [E1 E2]. apply Nat.ltb_lt in E1. apply Nat.eqb_eq in E2. lia.
      * specialize (C eq_refl). apply existsb_exists in C. destruct C as ([a b] & Hin & C). cbn [fst snd] in C.
        apply andb_true_iff in C. destruct C as [C1 C2]. apply Z.eqb_eq in C1, C2. replace x with a by lia. replace y with b by lia. assumption.
  - vm_compute. repeat split; discriminate.
Qed.
Print Assumptions C22_special_distances.

(* Finding: with multipliers 1..7 special distances can be zero or negative;
   the code does not raise them to 1, so it copies from positions not yet
   decoded.  With multiplier 1, distance number 3 is distance 0: after the
   literal 5 a copy gives 0 instead of 5. *)
Definition lz_demo : ES :=
  mkES (fun _ => 0) [0; 1] [(PrefixDist None 6, mkHIC 15 0 0); (PrefixDist None 3, mkHIC 15 0 0)] (mkHIC 8 0 0) (mkANS (-1) false) 15
       6 3 0 0 0 true.
Theorem C22_small_multiplier_refuted :
  exists e s, repr e e (LZ [5] 0 0) /\
    ref_run e [(0, 1)] (LZ [5] 0 0) (es_ans e, s) = Some ([5], LZ [5; 5] 2 1, (es_ans e, s)) /\
    fst (readCalls [(0, 1)] (e, s)) = Ok [0].
Proof.
  exists (record 5 lz_demo), (NewBitStreamReader []). split; [|split; vm_compute; reflexivity].
  pose proof (fresh_repr lz_demo eq_refl eq_refl eq_refl (fun _ => eq_refl)) as F.
  destruct (record_repr lz_demo [] 5 (rp_w _ _ _ F) eq_refl ltac:(cbn; lia)) as [R1 R2].
  constructor; cbn [lz_h lz_n lz_d]; auto; try reflexivity; lia.
Qed.
Print Assumptions C22_small_multiplier_refuted.

(* Finding: a distance number of 2^31 or more indexes the table of special
   distances with a negative number and panics. *)
Theorem C22_negative_distance_refuted : forall m n, m <> 0 -> n < 0 -> lzDistance m n = Panic.
Proof.
  intros m n Hm Hn. unfold lzDistance. destruct (Z.eqb_spec m 0); [contradiction|]. destruct (Z.ltb_spec n 120); [|lia].
  unfold slice_get. destruct (Z.ltb_spec n 0); [reflexivity|lia].
Qed.
Print Assumptions C22_negative_distance_refuted.

Example C22_example :
  (* 7 8 9, then 5 symbols from distance 2 *)
  apply_event [9; 8; 7] (Copy 5 2) = [8; 9; 8; 9; 8; 9; 8; 7] /\
  ref_run lz_demo [(0, 0); (0, 0); (0, 0)] (LZ [9; 8; 7] 0 0) (mkANS (-1) false, NewBitStreamReader [])
  = Some ([7; 8; 9], LZ [9; 8; 7; 9; 8; 7] 0 3, (mkANS (-1) false, NewBitStreamReader [])).
Proof. split; vm_compute; reflexivity. Qed.

(* ---- C23: cluster maps ---- *)
(* Every cluster is below the reported number, which is tight and at most
   the allowed maximum.  Clusters are not negative if the map is sent in the
   simple form or with move-to-front; missing: the remaining form. *)
Theorem C23_cluster_map_partial : forall n mx s cm k s', ReadClusterMap n mx s = (Ok (cm, k), s') ->
  length cm = n /\ Forall (fun c => c < k) cm /\ 0 <= k <= mx /\ (k = 0 \/ In (k - 1) cm) /\
  (forall d p, reader_at s d p -> n = 1%nat \/ fst (ReadBool s) = Ok true \/ fst (ReadBool (snd (ReadBool s))) = Ok true ->
   Forall (fun c => 0 <= c) cm).
Proof. intros n mx s cm k s' H. exact (readClusterMap_ok _ _ _ _ _ _ _ H). Qed.
Print Assumptions C23_cluster_map_partial.

(* Every stream that is created has a distribution for each cluster. *)
Theorem C23_stream_clusters : forall n dis s e s', NewEntropyStreamWithReader n dis s = (Ok e, s') ->
  0 < n /\
  Z.of_nat (length (es_clusterMap e)) = n + (if es_usesLZ77 e then 1 else 0) /\
  Forall (fun c => c < Z.of_nat (length (es_dists e))) (es_clusterMap e) /\
  Z.of_nat (length (es_dists e)) <= Z.of_nat (length (es_clusterMap e)) /\
  (dis = true -> es_usesLZ77 e = false).
Proof. intros n dis s e s' H. apply load_ok in H. tauto. Qed.
Print Assumptions C23_stream_clusters.

(* Finding: a map sent without move-to-front may hold a negative cluster
   number: the hybrid integer 2^31 wraps.  Indexing with it panics. *)
Definition neg_map_bits : list bool :=
  [false; false; false; true] ++ zbits 4 0 ++ [true] ++ zbits 4 5 ++ zbits 5 0 ++ zbits 2 1 ++ zbits 2 0 ++ zbits 6 32
  ++ zbits 31 0 ++ zbits 31 0.
Definition bytes_of (b : list bool) : list Z := map (fun i => bz (firstn 8 (skipn (8 * i) b))) (seq 0 ((length b + 7) / 8)).
Theorem C23_negative_cluster_refuted :
  exists s', ReadClusterMap 2 2 (NewBitStreamReader (bytes_of neg_map_bits)) = (Ok ([- 2 ^ 31; - 2 ^ 31], 0), s').
Proof. eexists. vm_compute. reflexivity. Qed.
Print Assumptions C23_negative_cluster_refuted.

(* Finding: with move-to-front an index of 256 or more panics. *)
Theorem C23_mtf_index_refuted : forall i t, i < 0 \/ 256 <= i -> invMTF (i :: t) (map Z.of_nat (seq 0 256)) = Panic.
Proof.
  intros i t H. cbn [invMTF]. rewrite slice_get_panic; [reflexivity|]. rewrite map_length, seq_length. lia.
Qed.
Print Assumptions C23_mtf_index_refuted.

Example C23_example :
  (* simple form, two bits each: clusters 0 2 1 2 *)
  exists s', ReadClusterMap 4 4 (NewBitStreamReader (bytes_of ([true] ++ zbits 2 2 ++ zbits 2 0 ++ zbits 2 2 ++ zbits 2 1 ++ zbits 2 2)))
  = (Ok ([0; 2; 1; 2], 3), s').
Proof. eexists. vm_compute. reflexivity. Qed.

(* ---- C24: move to front ---- *)
Theorem C24_inverse_mtf : forall l, Forall (fun x => 0 <= x < 256) l ->
  invMTF (move_to_front (map Z.of_nat (seq 0 256)) l) (map Z.of_nat (seq 0 256)) = Ok l.
Proof.
  intros l H. apply invMTF_correct. eapply Forall_impl; [|exact H]. intros x Hx. cbv beta in Hx.
  apply in_map_iff. exists (Z.to_nat x). split; [lia|]. apply in_seq. lia.
Qed.
Print Assumptions C24_inverse_mtf.
Example C24_example :
  move_to_front (map Z.of_nat (seq 0 256)) [3; 3; 0; 255; 3] = [3; 0; 1; 255; 2].
Proof. vm_compute. reflexivity. Qed.
