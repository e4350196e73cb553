(* Lemmas about matrices of real numbers and the loops over them. *)
From Coq Require Import ZArith List Bool Lia Arith Reals ZifyBool ZifyNat.
From Verif Require Import GoBase GoLoop ModelDCT SpecDCT SpecColour ProofDCT.
Import ListNotations.
Open Scope nat_scope.

Definition rmat (h w : nat) (f : nat -> nat -> R) : list (list R) := map (fun y => map (f y) (seq 0 w)) (seq 0 h).
Lemma rrect_rmat h w f : rrect h w (rmat h w f).
Proof.
  split; [unfold rmat; now rewrite map_length, seq_length|]. apply Forall_forall. intros r Hr. unfold rmat in Hr.
  apply in_map_iff in Hr as (y & <- & _). now rewrite map_length, seq_length.
Qed.
Lemma pixel_rmat h w f y x : y < h -> x < w -> pixel (rmat h w f) y x = f y x.
Proof. intros Hy Hx. unfold pixel, rmat. rewrite (nth_map_seq _ h y []) by assumption. apply nth_map_seq. assumption. Qed.
Lemma rrect_row h w m y : rrect h w m -> y < h -> length (nth y m []) = w.
Proof. intros [L F] Hy. rewrite Forall_forall in F. apply F, nth_In. lia. Qed.
Lemma rrect_ext h w a b : rrect h w a -> rrect h w b -> (forall y x, y < h -> x < w -> pixel a y x = pixel b y x) -> a = b.
Proof.
  intros Ha Hb H. destruct (Ha) as [A1 A2]. destruct (Hb) as [B1 B2]. apply (nth_ext a b [] []); [lia|]. intros y Hy.
  apply (nth_ext _ _ 0%R 0%R); [rewrite (rrect_row h w a), (rrect_row h w b) by (assumption || lia); reflexivity|].
  intros x Hx. rewrite (rrect_row h w a) in Hx by (assumption || lia). apply H; lia.
Qed.
Lemma rmat_pixel h w m : rrect h w m -> rmat h w (pixel m) = m.
Proof. intros H. apply (rrect_ext h w); [apply rrect_rmat|assumption|]. intros. apply pixel_rmat; assumption. Qed.
Lemma rmat_ext h w f g : (forall y x, y < h -> x < w -> f y x = g y x) -> rmat h w f = rmat h w g.
Proof. intros H. apply (rrect_ext h w); try apply rrect_rmat. intros. rewrite !pixel_rmat by assumption. auto. Qed.
Lemma rrect_repeat h w v : rrect h w (repeat (repeat v w) h).
Proof. split; [apply repeat_length|]. apply Forall_forall. intros r Hr. apply repeat_spec in Hr. subst. apply repeat_length. Qed.

Lemma get_row h w m y z : rrect h w m -> y < h -> z = Z.of_nat y -> slice_get m z = Ok (nth y m []).
Proof. intros [L F] Hy ->. rewrite (slice_get_ok m _ []) by lia. now rewrite Nat2Z.id. Qed.
Lemma get_pixel h w m y x z : rrect h w m -> y < h -> x < w -> z = Z.of_nat x -> slice_get (nth y m []) z = Ok (pixel m y x).
Proof.
  intros H Hy Hx ->. rewrite (slice_get_ok _ _ 0%R); [|rewrite (rrect_row h w m) by assumption; lia]. now rewrite Nat2Z.id.
Qed.
Lemma rget2_rect h w m y x zy zx : rrect h w m -> y < h -> x < w -> zy = Z.of_nat y -> zx = Z.of_nat x -> rget2 m zy zx = Ok (pixel m y x).
Proof. intros H Hy Hx -> ->. unfold rget2. rewrite (get_row h w m y) by auto. cbn [obind]. apply (get_pixel h w); auto. Qed.
Definition upd (h w : nat) (m m' : list (list R)) (y x : nat) (v : R) : Prop :=
  rrect h w m' /\ forall y' x', pixel m' y' x' = if (y' =? y) && (x' =? x) then v else pixel m y' x'.
Lemma rset2_rect h w m y x v zy zx : rrect h w m -> y < h -> x < w -> zy = Z.of_nat y -> zx = Z.of_nat x ->
  exists m', rset2 m zy zx v = Ok m' /\ upd h w m m' y x v.
Proof.
  intros H Hy Hx -> ->. destruct (rset2_ok m y x v) as (m' & E & L & Lr & P); [destruct H; lia|rewrite (rrect_row h w m) by auto; lia|].
  exists m'. split; [exact E|]. split; [|exact P]. split; [destruct H; lia|]. apply Forall_forall. intros r Hr.
  destruct (In_nth _ _ [] Hr) as (i & Hi & <-). rewrite Lr. apply (rrect_row h w); [assumption|destruct H; lia].
Qed.
Lemma upd_same h w m y x : rrect h w m -> upd h w m m y x (pixel m y x).
Proof.
  intros H. split; [exact H|]. intros y' x'. destruct (Nat.eqb_spec y' y) as [->|]; cbn [andb]; [|reflexivity].
  destruct (Nat.eqb_spec x' x) as [->|]; reflexivity.
Qed.

(* for y0 <= y < y0+h { row }, where the row is { for x0 <= x < x0+w { body } } *)
Lemma rloop2_inv {S} (P : nat -> nat -> S -> Prop) row body y0 h x0 w s :
  P y0 x0 s ->
  (forall y s, y0 <= y < y0 + h -> P y x0 s -> row y s = oloop w x0 (body y) s) ->
  (forall y x s, y0 <= y < y0 + h -> x0 <= x < x0 + w -> P y x s -> exists s', body y x s = Ok s' /\ P y (Datatypes.S x) s') ->
  (forall y s, y0 <= y < y0 + h -> P y (x0 + w) s -> P (Datatypes.S y) x0 s) ->
  exists s', oloop h y0 row s = Ok s' /\ P (y0 + h) x0 s'.
Proof.
  intros H0 Hr Hstep Hrow. replace (y0 + h) with (h + y0) by lia.
  destruct (oloop_inv (fun y s => P y x0 s) row h y0 s H0) as (s' & E & H').
  2:{ exists s'. split; [exact E|]. replace (h + y0) with (y0 + h) by lia. exact H'. }
  intros y t Hy Ht. rewrite (Hr y t Hy Ht). destruct (oloop_inv (fun x s => P y x s) (body y) w x0 t Ht) as (t' & E & Ht').
  - intros x u Hx Hu. apply Hstep; auto; lia.
  - exists t'. split; [exact E|]. apply Hrow; [lia|exact Ht'].
Qed.
(* cells visited before (y, x) *)
Definition before (y0 x0 w y x y' x' : nat) : bool :=
  (x0 <=? x') && (x' <? x0 + w) && (y0 <=? y') && ((y' <? y) || ((y' =? y) && (x' <? x))).
Ltac bcases := repeat match goal with |- context [?a =? ?b] => destruct (Nat.eqb_spec a b) | |- context [?a <? ?b] => destruct (Nat.ltb_spec a b)
  | |- context [?a <=? ?b] => destruct (Nat.leb_spec a b) end; cbn [andb orb negb]; subst; try reflexivity; try (exfalso; lia).

(* one matrix is written, every cell once *)
Lemma rfill_ok H W y0 h x0 w row body m0 g :
  rrect H W m0 -> y0 + h <= H -> x0 + w <= W ->
  (forall y m, y0 <= y < y0 + h -> rrect H W m -> row y m = oloop w x0 (body y) m) ->
  (forall y x m, y0 <= y < y0 + h -> x0 <= x < x0 + w -> rrect H W m -> pixel m y x = pixel m0 y x ->
     exists m', body y x m = Ok m' /\ upd H W m m' y x (g y x)) ->
  exists m', oloop h y0 row m0 = Ok m' /\ rrect H W m' /\
    forall y x, pixel m' y x = if in_block y0 x0 h w y x then g y x else pixel m0 y x.
Proof.
  intros HR Hh Hw Hrw Hb.
  destruct (rloop2_inv (fun y x m => rrect H W m /\ forall y' x', pixel m y' x' = if before y0 x0 w y x y' x' then g y' x' else pixel m0 y' x') row body y0 h x0 w m0) as (m' & E & R' & P').
  - split; [exact HR|]. intros y' x'. unfold before. bcases.
  - intros y m Hy [Rm _]. apply Hrw; assumption.
  - intros y x m Hy Hx [Rm P]. destruct (Hb y x m Hy Hx Rm) as (m' & E & R' & P').
    + rewrite P. unfold before. bcases.
    + exists m'. split; [exact E|]. split; [exact R'|]. intros y' x'. rewrite P', P. unfold before. bcases.
  - intros y m Hy [Rm P]. split; [exact Rm|]. intros y' x'. rewrite P. unfold before. bcases.
  - exists m'. split; [exact E|]. split; [exact R'|]. intros y' x'. rewrite P'. unfold before, in_block. bcases.
Qed.
(* two matrices are written, every cell once *)
Lemma rfill2_ok Ha Wa Hb Wb y0 h x0 w row body a0 b0 ga gb :
  rrect Ha Wa a0 -> rrect Hb Wb b0 ->
  (forall y a b, y0 <= y < y0 + h -> rrect Ha Wa a -> rrect Hb Wb b -> row y (a, b) = oloop w x0 (body y) (a, b)) ->
  (forall y x a b, y0 <= y < y0 + h -> x0 <= x < x0 + w -> rrect Ha Wa a -> rrect Hb Wb b -> pixel a y x = pixel a0 y x -> pixel b y x = pixel b0 y x ->
     exists a' b', body y x (a, b) = Ok (a', b') /\ upd Ha Wa a a' y x (ga y x) /\ upd Hb Wb b b' y x (gb y x)) ->
  exists a' b', oloop h y0 row (a0, b0) = Ok (a', b') /\ rrect Ha Wa a' /\ rrect Hb Wb b' /\
    (forall y x, pixel a' y x = if in_block y0 x0 h w y x then ga y x else pixel a0 y x) /\
    (forall y x, pixel b' y x = if in_block y0 x0 h w y x then gb y x else pixel b0 y x).
Proof.
  intros HA HB Hrw Hs.
  destruct (rloop2_inv (fun y x ab => rrect Ha Wa (fst ab) /\ rrect Hb Wb (snd ab) /\
     (forall y' x', pixel (fst ab) y' x' = if before y0 x0 w y x y' x' then ga y' x' else pixel a0 y' x') /\
     (forall y' x', pixel (snd ab) y' x' = if before y0 x0 w y x y' x' then gb y' x' else pixel b0 y' x')) row body y0 h x0 w (a0, b0))
    as ([a' b'] & E & Ra & Rb & Pa & Pb).
  - cbn [fst snd]. split; [exact HA|]. split; [exact HB|]. split; intros y' x'; unfold before; bcases.
  - intros y [a b] Hy (Ra & Rb & _). apply Hrw; assumption.
  - intros y x [a b] Hy Hx (Ra & Rb & Pa & Pb). cbn [fst snd] in *. destruct (Hs y x a b Hy Hx Ra Rb) as (a' & b' & E & [Ra' Pa'] & [Rb' Pb']).
    + rewrite Pa. unfold before. bcases.
    + rewrite Pb. unfold before. bcases.
    + exists (a', b'). split; [exact E|]. cbn [fst snd]. split; [exact Ra'|]. split; [exact Rb'|]. split; intros y' x'.
      * rewrite Pa', Pa. unfold before. bcases.
      * rewrite Pb', Pb. unfold before. bcases.
  - intros y [a b] Hy (Ra & Rb & Pa & Pb). cbn [fst snd] in *. split; [exact Ra|]. split; [exact Rb|]. split; intros y' x'.
    + rewrite Pa. unfold before. bcases.
    + rewrite Pb. unfold before. bcases.
  - cbn [fst snd] in *. exists a', b'. split; [exact E|]. split; [exact Ra|]. split; [exact Rb|]. split; intros y' x'.
    + rewrite Pa. unfold before, in_block. bcases.
    + rewrite Pb. unfold before, in_block. bcases.
Qed.
(* the same as equations *)
Lemma rfill_eq H W y0 h x0 w row body m0 g :
  (forall y m, y0 <= y < y0 + h -> rrect H W m -> row y m = oloop w x0 (body y) m) ->
  rrect H W m0 -> y0 + h <= H -> x0 + w <= W ->
  (forall y x m, y0 <= y < y0 + h -> x0 <= x < x0 + w -> rrect H W m -> pixel m y x = pixel m0 y x ->
     exists m', body y x m = Ok m' /\ upd H W m m' y x (g y x)) ->
  oloop h y0 row m0 = Ok (rmat H W (fun y x => if in_block y0 x0 h w y x then g y x else pixel m0 y x)).
Proof.
  intros Hr HR Hh Hw Hb. destruct (rfill_ok H W y0 h x0 w row body m0 g) as (m' & E & R & P); try assumption.
  rewrite E. f_equal. apply (rrect_ext H W); [assumption|apply rrect_rmat|]. intros y x Hy Hx. now rewrite pixel_rmat, P by assumption.
Qed.
Lemma rfill2_eq Ha Wa Hb Wb y0 h x0 w row body a0 b0 ga gb :
  (forall y a b, y0 <= y < y0 + h -> rrect Ha Wa a -> rrect Hb Wb b -> row y (a, b) = oloop w x0 (body y) (a, b)) ->
  rrect Ha Wa a0 -> rrect Hb Wb b0 ->
  (forall y x a b, y0 <= y < y0 + h -> x0 <= x < x0 + w -> rrect Ha Wa a -> rrect Hb Wb b -> pixel a y x = pixel a0 y x -> pixel b y x = pixel b0 y x ->
     exists a' b', body y x (a, b) = Ok (a', b') /\ upd Ha Wa a a' y x (ga y x) /\ upd Hb Wb b b' y x (gb y x)) ->
  oloop h y0 row (a0, b0) = Ok (rmat Ha Wa (fun y x => if in_block y0 x0 h w y x then ga y x else pixel a0 y x),
                                rmat Hb Wb (fun y x => if in_block y0 x0 h w y x then gb y x else pixel b0 y x)).
Proof.
  intros Hr HA HB Hs. destruct (rfill2_ok Ha Wa Hb Wb y0 h x0 w row body a0 b0 ga gb) as (a' & b' & E & Ra & Rb & Pa & Pb); try assumption.
  rewrite E. f_equal. f_equal.
  - apply (rrect_ext Ha Wa); [assumption|apply rrect_rmat|]. intros y x Hy Hx. now rewrite pixel_rmat, Pa by assumption.
  - apply (rrect_ext Hb Wb); [assumption|apply rrect_rmat|]. intros y x Hy Hx. now rewrite pixel_rmat, Pb by assumption.
Qed.
Lemma in_full h w y x : y < h -> x < w -> in_block 0 0 h w y x = true.
Proof. intros. unfold in_block. bcases. Qed.
Ltac rfill H W G := etransitivity; [eapply (rfill_eq H W) with (g := G)|f_equal; apply rmat_ext].
Ltac rfill2 H1 W1 H2 W2 F G := etransitivity; [eapply (rfill2_eq H1 W1 H2 W2) with (ga := F) (gb := G)|f_equal; f_equal; apply rmat_ext].
