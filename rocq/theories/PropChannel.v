(* Properties of the samples of a modular channel: C92. *)
From Coq Require Import ZArith List Bool Lia ZifyBool ZifyNat.
From Verif Require Import GoBase GoLoop GoMatrix ModelBitReader ModelEntropy ModelMATree ModelModular.
From Verif Require Import SpecCodes SpecMATree SpecModular SpecChannel.
From Verif Require Import ProofModular ProofPredict ProofChannel.
Import ListNotations.
Open Scope Z_scope.

(* The planes that properties 16 and up refer to: channels before this one of
   the same size and shifts, nearest first. *)
Definition earlier (mc : Chan) (prev : list Chan) : list Plane :=
  map (fun c => px (c_buf c))
    (filter (fun c => (c_width c =? c_width mc) && (c_height c =? c_height mc) && (c_hshift c =? c_hshift mc) && (c_vshift c =? c_vshift mc)) prev).
(* the parameters and weights as the header has them: five and four bits *)
Definition five_bit (v : Z) : Prop := 0 <= v < 32.
Definition header_fields (wp : WPParams) : Prop :=
  five_bit (wp_1 wp) /\ five_bit (wp_2 wp) /\ five_bit (wp_3a wp) /\ five_bit (wp_3b wp) /\ five_bit (wp_3c wp) /\ five_bit (wp_3d wp) /\ five_bit (wp_3e wp) /\
  length (wp_weight wp) = 4%nat /\ Forall (fun g => 0 <= g <= 15) (wp_weight wp).
Definition fields (wp : WPParams) : wp_header := mkWpHeader (wp_1 wp) (wp_2 wp) (wp_3a wp) (wp_3b wp) (wp_3c wp) (wp_3d wp) (wp_3e wp) (wp_weight wp).

(* The sample of I at (y, x) is what the stream in state s encodes, and
   reading it leaves the stream in state s': the tree decides on a leaf by the
   properties at the pixel, a symbol is read in the context of the leaf, and
   the sample is the residual times the multiplier plus the offset plus the
   prediction of the leaf. *)
Definition encodes (wp : WPParams) (nodes : list Node) (mc : Chan) (prev : list Chan) (channel stream dm : Z) (w : nat) (I : Plane) (E : nat -> Plane) (T : Plane)
    (y x : nat) (s s' : ES * BR) : Prop :=
  exists leaf n d,
    decides nodes (property w I (earlier mc prev) channel stream y x (largest_error w T y x)) 0 leaf /\ nth_error nodes leaf = Some n /\
    ReadSymbolWithMultiplier (n_context n) dm s = (Ok d, s') /\ 0 <= d < 2 ^ 31 /\
    I y x = unzigzag d * n_multiplier n + n_offset n + predictor w I y x (n_predictor n) (weighted_prediction (fields wp) w I E T y x).

(* Decoding gives the plane that the stream encodes, pixel by pixel in raster
   order, and leaves the stream behind the last symbol.  E and T are the
   errors of the self-correcting predictor; they only matter, and samples and
   errors then must be below 2^20 and 2^23, if the channel asks for the
   predictor or the tree has a weighted leaf or tests property 15. *)
Theorem C92_channel_samples_partial : forall wp nodes mc prev stream dm h w (I : Plane) (E : nat -> Plane) (T : Plane) (ss : nat -> ES * BR),
  proper_tree nodes -> Forall (fun n => n_property n < 2 ^ 31 /\ (n_property n < 0 -> 0 <= n_predictor n <= 13)) nodes ->
  (1 <= h)%nat -> (1 <= w)%nat -> Z.of_nat w < 2 ^ 31 - 1 -> c_height mc = Z.of_nat h -> c_width mc = Z.of_nat w -> c_buf mc = [] -> c_decoded mc = false ->
  Z.of_nat (length prev) < 2 ^ 28 ->
  Forall (fun c => c_height c = c_height mc -> c_width c = c_width mc -> rect h w (c_buf c) /\ samples_within (2 ^ 26) (c_buf c)) prev ->
  (forall y x, (y < h)%nat -> (x < w)%nat -> - 2 ^ 26 <= I y x <= 2 ^ 26) ->
  (c_forceWP mc = true \/ (exists k n, below nodes 0 k /\ nth_error nodes k = Some n /\ weighted n) ->
     header_fields wp /\ error_history (fields wp) h w I E T /\
     forall y x, (y < h)%nat -> (x < w)%nat -> - 2 ^ 20 <= I y x <= 2 ^ 20 /\ - 2 ^ 23 <= T y x <= 2 ^ 23) ->
  (forall y x, (y < h)%nat -> (x < w)%nat ->
     encodes wp nodes mc prev (Z.of_nat (length prev)) stream dm w I E T y x (ss (y * w + x)%nat) (ss (y * w + x + 1)%nat)) ->
  exists c, decode wp nodes mc prev (Z.of_nat (length prev)) stream dm (ss 0%nat) = (Ok c, ss (h * w)%nat) /\
    c_buf c = mat h w I /\ c_decoded c = true /\ c_height c = c_height mc /\ c_width c = c_width mc /\
    c_vshift c = c_vshift mc /\ c_hshift c = c_hshift mc /\ c_forceWP c = c_forceWP mc.
Proof.
  intros wp nodes mc prev stream dm h w I E T ss HT HN Hh Hw1 Hw Ch Cw Cb Cd HL HR BI HW HE.
  destruct (decode_ok wp nodes mc prev (Z.of_nat (length prev)) stream dm h w I E T HT HN Hw Cw eq_refl HL) with (ss := ss) as (p & D); try assumption.
  - unfold sound_refs. eapply Forall_impl; [|exact HR]. cbv beta. intros c Hc G. unfold same_grid in G. apply Hc; lia.
  - intros y x Hy Hx. rewrite <- Nat.add_1_r. exact (HE y x Hy Hx).
  - eexists. split; [exact D|]. cbn. repeat split; reflexivity.
Qed.
Print Assumptions C92_channel_samples_partial.

(* The plane is the only one that is encoded, given the states of the stream. *)
Theorem C92_one_plane_partial : forall wp nodes mc prev stream dm h w (I J : Plane) (E F : nat -> Plane) (T U : Plane) (ss tt : nat -> ES * BR),
  proper_tree nodes -> Forall (fun n => n_property n < 2 ^ 31 /\ (n_property n < 0 -> 0 <= n_predictor n <= 13)) nodes ->
  (1 <= h)%nat -> (1 <= w)%nat -> Z.of_nat w < 2 ^ 31 - 1 -> c_height mc = Z.of_nat h -> c_width mc = Z.of_nat w -> c_buf mc = [] -> c_decoded mc = false ->
  Z.of_nat (length prev) < 2 ^ 28 ->
  Forall (fun c => c_height c = c_height mc -> c_width c = c_width mc -> rect h w (c_buf c) /\ samples_within (2 ^ 26) (c_buf c)) prev ->
  header_fields wp -> error_history (fields wp) h w I E T -> error_history (fields wp) h w J F U ->
  (forall y x, (y < h)%nat -> (x < w)%nat -> - 2 ^ 20 <= I y x <= 2 ^ 20 /\ - 2 ^ 23 <= T y x <= 2 ^ 23) ->
  (forall y x, (y < h)%nat -> (x < w)%nat -> - 2 ^ 20 <= J y x <= 2 ^ 20 /\ - 2 ^ 23 <= U y x <= 2 ^ 23) ->
  (forall y x, (y < h)%nat -> (x < w)%nat ->
     encodes wp nodes mc prev (Z.of_nat (length prev)) stream dm w I E T y x (ss (y * w + x)%nat) (ss (y * w + x + 1)%nat)) ->
  (forall y x, (y < h)%nat -> (x < w)%nat ->
     encodes wp nodes mc prev (Z.of_nat (length prev)) stream dm w J F U y x (tt (y * w + x)%nat) (tt (y * w + x + 1)%nat)) ->
  ss 0%nat = tt 0%nat -> forall y x, (y < h)%nat -> (x < w)%nat -> I y x = J y x.
Proof.
  intros wp nodes mc prev stream dm h w I J E F T U ss tt HT HN Hh Hw1 Hw Ch Cw Cb Cd HL HR HF EI EJ BI BJ HI HJ S0 y x Hy Hx.
  destruct (C92_channel_samples_partial wp nodes mc prev stream dm h w I E T ss) as (c & D & B & _); try assumption; [intros y' x' Hy' Hx'; specialize (BI y' x' Hy' Hx'); lia|auto|].
  destruct (C92_channel_samples_partial wp nodes mc prev stream dm h w J F U tt) as (c' & D' & B' & _); try assumption; [intros y' x' Hy' Hx'; specialize (BJ y' x' Hy' Hx'); lia|auto|].
  rewrite S0 in D. rewrite D in D'. assert (c = c') by (apply (f_equal fst) in D'; cbn [fst] in D'; congruence). subst c'. rewrite B in B'.
  apply (f_equal (fun m => px m y x)) in B'. rewrite !px_mat in B' by assumption. exact B'.
Qed.
Print Assumptions C92_one_plane_partial.

(* A channel that is marked as decoded is returned as it is and nothing is
   read. *)
Theorem C92_decoded_channel : forall wp nodes mc prev channel stream dm s, c_decoded mc = true ->
  decode wp nodes mc prev channel stream dm s = (Ok mc, s).
Proof. intros wp nodes mc prev channel stream dm s H. unfold decode. rewrite H. reflexivity. Qed.
Print Assumptions C92_decoded_channel.

(* Two rows of three samples from a stream of zeros: where the sample on the
   left is above 100, the weighted prediction less 40, else the gradient plus
   90. *)
Definition demo_wp : WPParams := mkWP 16 10 7 7 7 0 0 [13; 12; 12; 12].
Definition two_leaves : list Node := [mkNode 7 0 100 1 2 (-1) 0 0; mkNode (-1) 1 0 0 0 6 (-40) 1; mkNode (-1) 0 0 0 0 5 90 1].
Definition zeros_only : ES :=
  mkES (fun _ => 0) [0; 0] [(PrefixDist None 0, mkHIC 4 0 0)] (mkHIC 4 0 0) (mkANS (-1) false) 0 0 0 0 0 0 false.
Definition demo_plane : Plane := px [[90; 180; 140]; [180; 159; 100]].
Definition demo_errors (i : nat) : Plane :=
  px (nth i [[[90; 90; 40]; [0; 19; 59]]; [[90; 45; 85]; [0; 54; 20]]; [[90; 62; 68]; [34; 82; 62]]; [[90; 90; 40]; [31; 52; 42]]] []).
Definition demo_error : Plane := px [[-720; -720; 320]; [-124; 317; 320]].
Example C92_example :
  proper_tree two_leaves /\ weighted (mkNode (-1) 1 0 0 0 6 (-40) 1) /\ header_fields demo_wp /\ error_history (fields demo_wp) 2 3 demo_plane demo_errors demo_error /\
  (forall y x, (y < 2)%nat -> (x < 3)%nat ->
     encodes demo_wp two_leaves (newChan 2 3 0 0 false) [] 0 0 0 3 demo_plane demo_errors demo_error y x (zeros_only, NewBitStreamReader [0]) (zeros_only, NewBitStreamReader [0])) /\
  exists c, decode demo_wp two_leaves (newChan 2 3 0 0 false) [] 0 0 0 (zeros_only, NewBitStreamReader [0]) = (Ok c, (zeros_only, NewBitStreamReader [0])) /\
    c_buf c = [[90; 180; 140]; [180; 159; 100]].
Proof.
  assert (A : proper_tree two_leaves).
  { split; [discriminate|]. intros i n. do 3 (destruct i as [|i]; [intros [= <-]; cbn; lia|]). destruct i; discriminate. }
  assert (B : header_fields demo_wp) by (unfold header_fields, five_bit; cbn; repeat split; try lia; repeat constructor; lia).
  assert (C : error_history (fields demo_wp) 2 3 demo_plane demo_errors demo_error).
  { intros y x Hy Hx. destruct y as [|[|y]]; [| |lia]; (destruct x as [|[|[|x]]]; [| | |lia]); (split; [vm_compute; reflexivity|]);
      intros i Hi; (destruct i as [|[|[|[|i]]]]; [| | | |lia]); vm_compute; reflexivity. }
  assert (D : forall y x, (y < 2)%nat -> (x < 3)%nat ->
     encodes demo_wp two_leaves (newChan 2 3 0 0 false) [] 0 0 0 3 demo_plane demo_errors demo_error y x (zeros_only, NewBitStreamReader [0]) (zeros_only, NewBitStreamReader [0])).
  { intros y x Hy Hx.
    assert (Z0 : forall k, k = 0 \/ k = 1 -> ReadSymbolWithMultiplier k 0 (zeros_only, NewBitStreamReader [0]) = (Ok 0, (zeros_only, NewBitStreamReader [0]))) by (intros k [-> | ->]; lazy; reflexivity).
    destruct (100 <? nW demo_plane y x) eqn:G.
    - exists 1%nat, (mkNode (-1) 1 0 0 0 6 (-40) 1), 0. split; [eapply dec_left; [reflexivity|cbn; lia|apply Z.ltb_lt in G; exact G|eapply dec_leaf; [reflexivity|cbn; lia]]|].
      split; [reflexivity|]. split; [apply Z0; auto|]. split; [lia|]. revert G. destruct y as [|[|y]]; [| |lia]; (destruct x as [|[|[|x]]]; [| | |lia]); vm_compute; congruence.
    - exists 2%nat, (mkNode (-1) 0 0 0 0 5 90 1), 0. split; [eapply dec_right; [reflexivity|cbn; lia|apply Z.ltb_ge in G; exact G|eapply dec_leaf; [reflexivity|cbn; lia]]|].
      split; [reflexivity|]. split; [apply Z0; auto|]. split; [lia|]. revert G. destruct y as [|[|y]]; [| |lia]; (destruct x as [|[|[|x]]]; [| | |lia]); vm_compute; congruence. }
  split; [exact A|]. split; [right; split; [cbn; lia|reflexivity]|]. split; [exact B|]. split; [exact C|]. split; [exact D|].
  assert (R : forall y x, (y < 2)%nat -> (x < 3)%nat -> - 2 ^ 20 <= demo_plane y x <= 2 ^ 20 /\ - 2 ^ 23 <= demo_error y x <= 2 ^ 23).
  { intros y x Hy Hx. destruct y as [|[|y]]; [| |lia]; (destruct x as [|[|[|x]]]; [| | |lia]); (split; split; vm_compute; discriminate). }
  destruct (C92_channel_samples_partial demo_wp two_leaves (newChan 2 3 0 0 false) [] 0 0 2 3 demo_plane demo_errors demo_error (fun _ => (zeros_only, NewBitStreamReader [0])))
    as (c & E & F & _); try reflexivity; try assumption; try (cbn; lia).
  - unfold two_leaves. apply Forall_cons; [cbn; lia|]. apply Forall_cons; [cbn; lia|]. apply Forall_cons; [cbn; lia|]. apply Forall_nil.
  - apply Forall_nil.
  - intros y x Hy Hx. specialize (R y x Hy Hx). lia.
  - auto.
  - exists c. split; [exact E|]. rewrite F. reflexivity.
Qed.
