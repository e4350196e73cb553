(* Properties of the modular decoder: C25-C30, C57-C58. *)
From Coq Require Import ZArith List Bool Lia ZifyBool ZifyNat.
From Verif Require Import GoBase GoLoop GoMatrix ModelBitReader ModelUtil ModelEntropy ModelToc ModelMATree ModelModular.
From Verif Require Import SpecToc SpecMATree SpecModular SpecPalette.
From Verif Require Import ProofMATree ProofSqueeze ProofModular ProofPredict ProofPalette.
Import ListNotations.
Open Scope Z_scope.

(* ---- C25: meta-adaptive trees ---- *)
(* An accepted tree is proper: the children of the k-th inner node are the
   nodes 2k+1 and 2k+2, both behind it and inside the tree.  The leaves carry
   the contexts 0, 1, 2, ..., predictors up to 13, and the entropy stream has
   a cluster for every context (one more for LZ77). *)
Theorem C25_accepted_tree : forall s nodes es s', NewMATreeWithReader s = (Ok (nodes, es), s') ->
  proper_tree nodes /\ map n_context (leaves nodes) = iota (Z.of_nat (length (leaves nodes))) /\
  Z.of_nat (length nodes) = 2 * Z.of_nat (length (leaves nodes)) - 1 /\
  Forall (fun n => n_property n < 0 -> n_predictor n <= 13) nodes /\
  Z.of_nat (length (es_clusterMap es)) = Z.of_nat (length (leaves nodes)) + (if es_usesLZ77 es then 1 else 0) /\
  Forall (fun c => c < Z.of_nat (length (es_dists es))) (es_clusterMap es).
Proof. intros s nodes es s'. exact (tree_read_ok treeFuel s nodes es s'). Qed.
Print Assumptions C25_accepted_tree.

(* Walking an accepted tree ends at the leaf it decides for, whatever the
   properties; there is exactly one. *)
Theorem C25_walk : forall s nodes es s' prop, NewMATreeWithReader s = (Ok (nodes, es), s') ->
  exists j, walk (length nodes) nodes 0 (fun k => Ok (prop k)) = Ok (Z.of_nat j) /\ (j < length nodes)%nat /\ leaf_at nodes j /\
    decides nodes prop 0 j /\ forall j', decides nodes prop 0 j' -> j' = j.
Proof.
  intros s nodes es s' prop H. destruct (tree_read_ok treeFuel s nodes es s' H) as [P _].
  assert (0 < length nodes)%nat by (destruct P as [P _]; destruct nodes; [congruence|cbn; lia]).
  destruct (walk_ok nodes prop P (length nodes) 0%nat ltac:(lia) ltac:(lia)) as (j & E & J & L & D).
  exists j. split; [exact E|]. split; [exact J|]. split; [exact L|]. split; [exact D|]. exact (decides_det nodes prop 0 j D).
Qed.
Print Assumptions C25_walk.

(* a tree with two inner nodes: channel > 0 ? (x > 5 ? leaf 1 : leaf 2) : leaf 0 *)
Definition demo_tree : list Node :=
  [mkNode 0 0 0 1 2 (-1) 0 0; mkNode 3 0 5 3 4 (-1) 0 0; mkNode (-1) 0 0 0 0 1 0 1; mkNode (-1) 1 0 0 0 5 0 1; mkNode (-1) 2 0 0 0 2 0 1].
Example C25_example : proper_tree demo_tree /\ length (leaves demo_tree) = 3%nat /\
  walk 5 demo_tree 0 (fun k => Ok (if k =? 0 then 1 else 5)) = Ok 4 /\ decides demo_tree (fun k => if k =? 0 then 1 else 5) 0 4.
Proof.
  split; [|split; [reflexivity|split; [reflexivity|]]].
  - split; [discriminate|]. intros i n. do 5 (destruct i as [|i]; [intros [= <-]; cbn; lia|]). destruct i; discriminate.
  - eapply dec_left; [reflexivity|cbn; lia|cbn; lia|]. eapply dec_right; [reflexivity|cbn; lia|cbn; lia|]. eapply dec_leaf; [reflexivity|cbn; lia].
Qed.
(* and a real one from bits: one leaf, predictor 0 *)
Example C25_read_example : exists nodes es s',
  NewMATreeWithFuel 4 (NewBitStreamReader [242; 67; 9; 124]) = (Ok (nodes, es), s') /\ length nodes = 1%nat.
Proof. eexists _, _, _. split; [vm_compute; reflexivity|reflexivity]. Qed.

(* ---- C26: specialisation ---- *)
(* Fixing the channel and stream, and then the row, leaves every walk alone:
   for any properties that agree (and that may even fail). *)
Theorem C26_compactify : forall s nodes es s' ch st, NewMATreeWithReader s = (Ok (nodes, es), s') ->
  exists k, compactify (length nodes) nodes 0 ch st = Ok k /\ 0 <= k < Z.of_nat (length nodes) /\
    forall prop, prop 0 = Ok ch -> prop 1 = Ok st -> walk (length nodes) nodes k prop = walk (length nodes) nodes 0 prop.
Proof.
  intros s nodes es s' ch st H. destruct (tree_read_ok treeFuel s nodes es s' H) as [P _].
  assert (0 < length nodes)%nat by (destruct P as [P _]; destruct nodes; [congruence|cbn; lia]).
  destruct (compactify_ok nodes ch st P (length nodes) 0%nat ltac:(lia) ltac:(lia)) as (k & E & K & _ & W).
  exists (Z.of_nat k). split; [exact E|]. split; [lia|]. intros prop P0 P1. symmetry. exact (W prop P0 P1).
Qed.
Print Assumptions C26_compactify.

Theorem C26_compactify_row : forall s nodes es s' ch st t y, NewMATreeWithReader s = (Ok (nodes, es), s') ->
  compactify (length nodes) nodes 0 ch st = Ok t ->
  exists k, compactifyWithY (length nodes) nodes t ch st y = Ok k /\ 0 <= k < Z.of_nat (length nodes) /\
    forall prop, prop 0 = Ok ch -> prop 1 = Ok st -> prop 2 = Ok y -> walk (length nodes) nodes k prop = walk (length nodes) nodes 0 prop.
Proof.
  intros s nodes es s' ch st t y H Ht. destruct (tree_read_ok treeFuel s nodes es s' H) as [P _].
  assert (0 < length nodes)%nat by (destruct P as [P _]; destruct nodes; [congruence|cbn; lia]).
  destruct (compactify_ok nodes ch st P (length nodes) 0%nat ltac:(lia) ltac:(lia)) as (i & E & I & _ & W).
  assert (t = Z.of_nat i) by (change (Z.of_nat 0) with 0 in E; congruence). subst t.
  destruct (compactifyY_ok nodes ch st y P (length nodes) i ltac:(lia) ltac:(lia)) as (k & E' & K & _ & W').
  exists (Z.of_nat k). split; [exact E'|]. split; [lia|]. intros prop P0 P1 P2. rewrite <- (W' prop P0 P1 P2). symmetry. exact (W prop P0 P1).
Qed.
Print Assumptions C26_compactify_row.

(* Whether a subtree needs the weighted predictor: if it has a node that asks
   for its error, or a leaf that predicts with it.  If not, every decision is
   the same whatever that error is taken to be, and ends at another leaf. *)
Theorem C26_weighted : forall nodes i, proper_tree nodes -> (i < length nodes)%nat ->
  exists b, useWeightedPredictor (length nodes) nodes (Z.of_nat i) = Ok b /\
    (b = true <-> exists k n, below nodes i k /\ nth_error nodes k = Some n /\ weighted n) /\
    (b = false -> forall prop prop' j, (forall k, k <> 15 -> prop k = prop' k) -> decides nodes prop i j ->
       decides nodes prop' i j /\ forall n, nth_error nodes j = Some n -> n_predictor n <> 6).
Proof.
  intros nodes i P Hi. destruct (weighted_ok nodes P (length nodes) i Hi ltac:(lia)) as (b & E & H). exists b. split; [exact E|]. split; [exact H|].
  intros -> prop prop' j HP HD. apply (unweighted_walk nodes prop prop' P HP i j HD). intros k n Hb En Hw.
  discriminate (proj2 H (ex_intro _ k (ex_intro _ n (conj Hb (conj En Hw))))).
Qed.
Print Assumptions C26_weighted.

Example C26_weighted_example :
  let tree p := [mkNode 3 0 10 1 2 0 0 1; mkNode (-1) 0 0 0 0 p 0 1; mkNode (-1) 1 0 0 0 5 0 1] in
  proper_tree (tree 6) /\ useWeightedPredictor 3 (tree 6) 0 = Ok true /\ useWeightedPredictor 3 (tree 4) 0 = Ok false /\ useWeightedPredictor 3 (tree 6) 2 = Ok false.
Proof.
  cbv zeta. split; [|repeat split]. split; [discriminate|]. intros i n En Hp.
  do 3 (destruct i as [|i]; [injection En as <-; cbn in *; lia|]). now destruct i.
Qed.

Example C26_example : proper_tree demo_tree /\ compactify 5 demo_tree 0 1 0 = Ok 1 /\ compactifyWithY 5 demo_tree 1 1 0 9 = Ok 1 /\ compactify 5 demo_tree 0 0 0 = Ok 2.
Proof. split; [exact (proj1 C25_example)|]. repeat split. Qed.

(* ---- C27: squeeze ---- *)
(* Samples below 2^28: the averages and residuals of the standard's forward
   squeeze.  Samples below 2^30: the same with the decoder's own (wrapping)
   tendency.  Missing: channels with an empty side. *)
Theorem C27_horizontal_partial : forall h w A ch orig res, rect h w A -> samples_within (2 ^ 28 - 1) A ->
  (1 <= h)%nat -> (1 <= w)%nat -> Z.of_nat h < 2 ^ 31 -> Z.of_nat w < 2 ^ 31 -> blank h w ch ->
  holds h ((w + 1) / 2) (squeezeH_avg h w A) orig -> holds h (w / 2) (squeezeH_res tend h w A) res ->
  inverseHorizontalSqueeze ch orig res = Ok (set_buf ch A).
Proof.
  intros h w A ch orig res R S Hh Hw Bh Bw B O E. exact (horizontal_ok tend (2 ^ 28 - 1) h w A ch orig res ltac:(lia) (fun a b c => tendancy_ok a b c) R S Hh Hw (conj Bh Bw) B O E).
Qed.
Print Assumptions C27_horizontal_partial.
Theorem C27_vertical_partial : forall h w A ch orig res, rect h w A -> samples_within (2 ^ 28 - 1) A ->
  (1 <= h)%nat -> (1 <= w)%nat -> Z.of_nat h < 2 ^ 31 -> Z.of_nat w < 2 ^ 31 -> blank h w ch ->
  holds ((h + 1) / 2) w (squeezeV_avg h w A) orig -> holds (h / 2) w (squeezeV_res tend h w A) res ->
  inverseVerticalSqueeze ch orig res = Ok (set_buf ch A).
Proof.
  intros h w A ch orig res R S Hh Hw Bh Bw B O E. exact (vertical_ok tend (2 ^ 28 - 1) h w A ch orig res ltac:(lia) (fun a b c => tendancy_ok a b c) R S Hh Hw (conj Bh Bw) B O E).
Qed.
Print Assumptions C27_vertical_partial.
Theorem C27_wrapping_tendency_partial : forall b h w A ch orig res, b < 2 ^ 30 -> rect h w A -> samples_within b A ->
  (1 <= h)%nat -> (1 <= w)%nat -> Z.of_nat h < 2 ^ 31 -> Z.of_nat w < 2 ^ 31 -> blank h w ch ->
  (holds h ((w + 1) / 2) (squeezeH_avg h w A) orig -> holds h (w / 2) (squeezeH_res tendancy h w A) res ->
   inverseHorizontalSqueeze ch orig res = Ok (set_buf ch A)) /\
  (holds ((h + 1) / 2) w (squeezeV_avg h w A) orig -> holds (h / 2) w (squeezeV_res tendancy h w A) res ->
   inverseVerticalSqueeze ch orig res = Ok (set_buf ch A)).
Proof.
  intros b h w A ch orig res Hb R S Hh Hw Bh Bw B. split; intros O E.
  - exact (horizontal_ok tendancy b h w A ch orig res Hb (fun _ _ _ _ _ _ => eq_refl) R S Hh Hw (conj Bh Bw) B O E).
  - exact (vertical_ok tendancy b h w A ch orig res Hb (fun _ _ _ _ _ _ => eq_refl) R S Hh Hw (conj Bh Bw) B O E).
Qed.
Print Assumptions C27_wrapping_tendency_partial.

(* Finding: a channel of width 0 and odd height cannot be un-squeezed
   vertically; such channels arise from squeezing a channel of width 1
   horizontally and its residuals vertically. *)
Theorem C27_empty_channel_refuted :
  inverseVerticalSqueeze (newChan 3 0 0 0 false) (allocate (newChan 2 0 1 0 false)) (allocate (newChan 1 0 1 0 false)) = Panic.
Proof. reflexivity. Qed.
Print Assumptions C27_empty_channel_refuted.

Example C27_example : let A := [[10; 20; 35; 7; 9]; [-3; 0; 5; 4; 1000]] in
  squeezeH_avg 2 5 A = [[15; 21; 9]; [-2; 5; 1000]] /\ squeezeH_res tend 2 5 A = [[-9; 28]; [-2; 12]] /\
  inverseHorizontalSqueeze (newChan 2 5 0 0 false) (set_buf (newChan 2 3 0 1 false) (squeezeH_avg 2 5 A)) (set_buf (newChan 2 2 0 1 false) (squeezeH_res tend 2 5 A))
  = Ok (set_buf (newChan 2 5 0 0 false) A).
Proof. cbv zeta. repeat split; vm_compute; reflexivity. Qed.

(* ---- C28: reversible colour transforms ---- *)
(* Any three int32 planes o 0, o 1, o 2 of one size, anywhere in the list of
   channels: the forward transform takes the planes the permutation names. *)
Theorem C28_rct_inverse : forall h w rctType pre post (o : Z -> Chan), 0 <= rctType < 42 ->
  (forall j, 0 <= j <= 2 -> c_height (o j) = Z.of_nat h /\ c_width (o j) = Z.of_nat w /\ rect h w (c_buf (o j)) /\ samples_i32 (c_buf (o j))) ->
  let p := rctType / 7 in let t := rctType mod 7 in
  let a := o (rct_position p 0) in let b := o (rct_position p 1) in let c := o (rct_position p 2) in
  inverseRCT rctType (Z.of_nat (length pre))
    (pre ++ [set_buf a (plane h w fst3 t (c_buf a) (c_buf b) (c_buf c));
             set_buf b (plane h w snd3 t (c_buf a) (c_buf b) (c_buf c));
             set_buf c (plane h w thd3 t (c_buf a) (c_buf b) (c_buf c))] ++ post)
  = Ok (pre ++ [o 0; o 1; o 2] ++ post).
Proof. exact rct_ok. Qed.
Print Assumptions C28_rct_inverse.

(* Any triple of samples. *)
Theorem C28_pixel_inverse : forall t a b c, 0 <= t <= 6 ->
  - 2 ^ 31 <= a < 2 ^ 31 -> - 2 ^ 31 <= b < 2 ^ 31 -> - 2 ^ 31 <= c < 2 ^ 31 ->
  let f := rct_forward t a b c in rctPixel t (fst3 f) (snd3 f) (thd3 f) = Ok (a, b, c).
Proof. exact rct_pixel_ok. Qed.
Print Assumptions C28_pixel_inverse.

Example C28_example : let f := rct_forward 6 (2 ^ 31 - 1) 5 (- 2 ^ 31) in
  f = (1073741826, -1, -2147483642) /\ rctPixel 6 (fst3 f) (snd3 f) (thd3 f) = Ok (2 ^ 31 - 1, 5, - 2 ^ 31) /\
  rct_position 4 0 = 1 /\ rct_position 4 1 = 0 /\ rct_position 4 2 = 2.
Proof. cbv zeta. repeat split; vm_compute; reflexivity. Qed.

(* ---- C29: prediction ---- *)
(* Inside the channel every predictor has a value; it depends only on pixels
   before the current one; and for samples up to 2^26 it is the predictor of
   the standard. *)
Theorem C29_prediction : forall h w buf pred y x k, rect h w buf -> rect h w pred -> (y < h)%nat -> (x < w)%nat -> Z.of_nat w < 2 ^ 31 - 1 ->
  0 <= k <= 13 ->
  (exists v, prediction (Z.of_nat w) buf pred (Z.of_nat y) (Z.of_nat x) k = Ok v) /\
  (forall buf', rect h w buf' -> (forall y' x', before y' x' y x -> (y' < h)%nat -> (x' < w)%nat -> px buf y' x' = px buf' y' x') ->
     prediction (Z.of_nat w) buf pred (Z.of_nat y) (Z.of_nat x) k = prediction (Z.of_nat w) buf' pred (Z.of_nat y) (Z.of_nat x) k).
Proof.
  intros h w buf pred y x k R Rp Hy Hx Hw Hk. split; [exact (prediction_value h w buf y x R Hy Hx Hw pred k Rp Hk)|].
  intros buf' R' A. exact (prediction_local h w buf buf' pred y x k R R' Hy Hx Hw A).
Qed.
Print Assumptions C29_prediction.
Theorem C29_prediction_value : forall h w buf pred y x k, rect h w buf -> rect h w pred -> (y < h)%nat -> (x < w)%nat -> Z.of_nat w < 2 ^ 31 - 1 ->
  samples_within (2 ^ 26) buf -> samples_within (2 ^ 30) pred -> 0 <= k <= 13 ->
  prediction (Z.of_nat w) buf pred (Z.of_nat y) (Z.of_nat x) k = Ok (predictor w (px buf) y x k (px pred y x)).
Proof. exact prediction_exact. Qed.
Print Assumptions C29_prediction_value.

Example C29_example : let b := [[10; 20; 30; 40]; [50; 60; 70; 80]; [90; -7; 0; 0]] in
  rect 3 4 b /\ map (fun k => prediction 4 b (zeros2 3 4) 2 2 k) [1; 2; 3; 4; 5; 7; 8; 9; 10; 11; 12; 13]
  = map Ok [-7; 70; 31; -7; 3; 80; 60; 90; 26; 65; 75; 45].
Proof. cbv zeta. split; [split; [reflexivity|repeat apply Forall_cons; try apply Forall_nil; reflexivity]|vm_compute; reflexivity]. Qed.

(* ---- C30: the self-correcting predictor ---- *)
(* Stored errors of 0..2^28-1 and weights of 0..15 (all a header can hold):
   every table index is inside the table and the shift by the logarithm of
   the weight sum is defined; what is stored is again in range if the
   sub-predictions are within 2^31-4 of the (eightfold) sample. *)
Theorem C30_no_fault_partial : forall h w y x wp buf errs e0 e1 e2 e3 e4 g0 g1 g2 g3, (y < h)%nat -> (x < w)%nat -> Z.of_nat w < 2 ^ 31 - 1 ->
  rect h w buf -> errs = [e0; e1; e2; e3; e4] -> (forall e, In e errs -> rect h w e) ->
  (forall e, In e [e0; e1; e2; e3] -> forall y x, (y < h)%nat -> (x < w)%nat -> 0 <= px e y x < 2 ^ 28) ->
  wp_weight wp = [g0; g1; g2; g3] -> Forall (fun g => 0 <= g <= 15) (wp_weight wp) ->
  exists r, prePredictWP wp (Z.of_nat w) buf errs (Z.of_nat x) (Z.of_nat y) = Ok r.
Proof. intros h w y x wp buf errs e0 e1 e2 e3 e4 g0 g1 g2 g3 Hy Hx Hw. exact (prePredict_ok h w y x Hy Hx Hw wp buf errs e0 e1 e2 e3 e4 g0 g1 g2 g3). Qed.
Print Assumptions C30_no_fault_partial.
Theorem C30_stored_errors_partial : forall s tv3, - (2 ^ 31 - 4) <= s - tv3 <= 2 ^ 31 - 4 ->
  0 <= Z.shiftr (i32 (Abs_i32 (i32 (s - tv3)) + 3)) 3 < 2 ^ 28.
Proof. exact stored_range. Qed.
Print Assumptions C30_stored_errors_partial.

(* Finding: a sample of 2^28 makes the stored error wrap to -2^28 and the next
   pixel index the table at a negative position.  The stream has one symbol
   (0) and consumes no bits; the tree is one leaf with offset 2^28. *)
Definition zero_stream : ES :=
  mkES (fun _ => 0) [0] [(PrefixDist None 0, mkHIC 4 0 0)] (mkHIC 4 0 0) (mkANS (-1) false) 0 0 0 0 0 0 false.
Definition offset_leaf (v : Z) : list Node := [mkNode (-1) 0 0 0 0 6 v 1].
Definition default_wp : WPParams := mkWP 16 10 7 7 7 0 0 [13; 12; 12; 12].
Theorem C30_large_sample_refuted : forall data,
  fst (decode default_wp (offset_leaf (2 ^ 28)) (newChan 1 2 0 0 false) [] 0 0 0 (zero_stream, NewBitStreamReader data)) = Panic.
Proof. intros data. lazy. reflexivity. Qed.
Print Assumptions C30_large_sample_refuted.

Example C30_example : exists r, fst (decode default_wp (offset_leaf 1000) (newChan 1 3 0 0 false) [] 0 0 0 (zero_stream, NewBitStreamReader [0])) = Ok r /\
  c_buf r = [[1000; 2000; 3000]].
Proof. eexists. split; [vm_compute; reflexivity|reflexivity]. Qed.

(* ---- C57: palettes ---- *)
(* The index channel is the last one: every decoded channel is the value of
   the index, plus the prediction from the decoded pixels for indices below
   the number of deltas. *)
Theorem C57_palette_partial : forall nb depth nbDeltas dPred h w nc pal pre idx, nb = 0 \/ rect nc (Z.to_nat nb) (c_buf pal) -> 0 <= nb < 2 ^ 20 -> 3 <= depth <= 24 ->
  0 <= nbDeltas < 2 ^ 20 -> 0 <= dPred <= 13 -> dPred <> 6 -> (1 <= h)%nat -> (1 <= w)%nat -> Z.of_nat h < 2 ^ 31 -> Z.of_nat w < 2 ^ 31 - 1 -> (1 <= nc)%nat ->
  c_height idx = Z.of_nat h -> c_width idx = Z.of_nat w -> rect h w (c_buf idx) -> samples_i32 (c_buf idx) ->
  exists outs, inversePalette (Z.of_nat (length pre)) (Z.of_nat nc) nb nbDeltas dPred depth (pal :: pre ++ [idx]) = Ok (pre ++ outs) /\ (length outs = nc)%nat /\
    forall c, (c < nc)%nat -> exists out, nth c outs pal = set_buf (if (c =? 0)%nat then idx else copyOf idx) out /\ rect h w out /\
      forall y x, (y < h)%nat -> (x < w)%nat -> exists p, (forall P, prediction (Z.of_nat w) out P (Z.of_nat y) (Z.of_nat x) dPred = Ok p) /\
        px out y x = if px (c_buf idx) y x <? nbDeltas then i32 (pal_value deltaTable (c_buf pal) nb depth c (px (c_buf idx) y x) + p)
                     else pal_value deltaTable (c_buf pal) nb depth c (px (c_buf idx) y x).
Proof. exact palette_list. Qed.
Print Assumptions C57_palette_partial.

(* Findings.  A channel behind the index channel is lost when a palette of
   two or more channels is expanded (and the new channel is stored twice);
   delta entries with the self-correcting predictor panic; and images of 1 or
   2 bits get the wrong offset for the small cube. *)
Definition one_pixel (v : Z) : Chan := set_buf (newChan 1 1 0 0 false) [[v]].
Definition two_colour_palette : Chan := set_buf (newChan 2 2 0 0 false) [[10; 20]; [30; 40]].
Theorem C57_later_channel_lost_refuted :
  match inversePalette 0 2 2 0 0 8 [two_colour_palette; one_pixel 1; one_pixel 77] with
  | Ok l => map c_buf l = [[[20]]; [[40]]; [[1]]]
  | _ => False
  end.
Proof. vm_compute. reflexivity. Qed.
Print Assumptions C57_later_channel_lost_refuted.
Theorem C57_weighted_delta_refuted : inversePalette 0 2 2 2 6 8 [two_colour_palette; one_pixel 1] = Panic.
Proof. vm_compute. reflexivity. Qed.
Print Assumptions C57_weighted_delta_refuted.
Theorem C57_small_depth_refuted :
  pal_value deltaTable [[]] 0 2 0 0 = 1 /\ paletteValue [[]] 0 2 0 0 = Ok 0.
Proof. split; vm_compute; reflexivity. Qed.
Print Assumptions C57_small_depth_refuted.

Example C57_example :
  match inversePalette 0 2 2 1 1 8 [two_colour_palette; set_buf (newChan 1 4 0 0 false) [[1; 0; 2; -2]]] with
  | Ok l => map c_buf l = [[[20; 30; 32; 36]]; [[40; 70; 32; 36]]]
  | _ => False
  end.
Proof. vm_compute. reflexivity. Qed.

(* ---- C58: reading a tree ---- *)
(* Finding: the property value and the leaf offset are read by a function
   that turns errors into panics, so a truncated tree panics.  The three
   bytes hold a two-symbol prefix code, an inner node and half a leaf.  The
   panic is not for lack of fuel: any number of further steps gives it. *)
Theorem C58_truncated_tree_refuted :
  (exists s', NewMATreeWithReader (NewBitStreamReader [242; 67; 25]) = (Panic, s')) /\
  forall f, fst (NewMATreeWithFuel (S (S f)) (NewBitStreamReader [242; 67; 25])) = Panic.
Proof.
  assert (G : forall f, fst (NewMATreeWithFuel (S (S f)) (NewBitStreamReader [242; 67; 25])) = Panic) by (intros f; lazy; reflexivity).
  split; [|exact G]. unfold NewMATreeWithReader.
  replace treeFuel with (S (S (Z.to_nat (2 ^ 20 + 1)))) by (unfold treeFuel; lia).
  specialize (G (Z.to_nat (2 ^ 20 + 1))). destruct (NewMATreeWithFuel _ _) as [r s']. cbn [fst] in G. subst. eauto.
Qed.
Print Assumptions C58_truncated_tree_refuted.
