(* Lemmas on block placement. *)
From Coq Require Import ZArith List Bool Lia Arith Permutation Sorted ZifyBool ZifyNat.
From Verif Require Import GoBase GoLoop GoMatrix ModelHF SpecHF.
Import ListNotations.
Open Scope Z_scope.

Lemma tt_props t : 0 <= t <= 26 -> exists tt, slice_get allDCT t = Ok tt /\ nth_error allDCT (Z.to_nat t) = Some tt /\ tt_type tt = t /\
  (tt_dctSelectHeight tt, tt_dctSelectWidth tt) = cells t /\ 1 <= tt_dctSelectHeight tt <= 32 /\ 1 <= tt_dctSelectWidth tt <= 32.
Proof.
  intros H. assert (E : exists n, t = Z.of_nat n /\ (n <= 26)%nat) by (exists (Z.to_nat t); lia). destruct E as (n & -> & Hn). clear H.
  do 27 (destruct n as [|n]; [eexists; split; [reflexivity|]; split; [reflexivity|]; split; [reflexivity|]; split; [reflexivity|]; cbn; lia|]). lia.
Qed.

Definition PB := (Rect * (Z * Z))%type.
Definition wf (p : PB) : Prop := 0 <= fst (snd p) <= 26 /\ (r_h (fst p), r_w (fst p)) = cells (fst (snd p)) /\ 1 <= r_h (fst p) /\ 1 <= r_w (fst p).
Definition pcovers (p : PB) (y x : Z) : Prop := covers (fst p) y x.
Record pinv (H W : nat) (ps : list PB) (lastY : Z) (d m : list (list Z)) : Prop := {
  v_d : rect H W d; v_m : rect H W m; v_y : 0 <= lastY;
  v_wf : Forall wf ps;
  v_in : Forall (fun p => inside (Z.of_nat H) (Z.of_nat W) (fst p)) ps;
  v_dis : ForallOrdPairs disjoint (map fst ps);
  v_last : Forall (fun p => r_y (fst p) <= lastY) ps;
  v_cov : forall y x p, (y < H)%nat -> (x < W)%nat -> In p ps -> pcovers p (Z.of_nat y) (Z.of_nat x) -> px d y x = fst (snd p) + 1 /\ px m y x = snd (snd p);
  v_free : forall y x, (y < H)%nat -> (x < W)%nat -> (forall p, In p ps -> ~ pcovers p (Z.of_nat y) (Z.of_nat x)) -> px d y x = 0 /\ px m y x = 0 }.

Lemma covers_dec r y x : {covers r y x} + {~ covers r y x}.
Proof. unfold covers. destruct (Z_le_dec (r_y r) y), (Z_lt_dec y (r_y r + r_h r)), (Z_le_dec (r_x r) x), (Z_lt_dec x (r_x r + r_w r)); (left; lia) || (right; lia). Qed.
Lemma cover_or_free (ps : list PB) y x : (exists p, In p ps /\ pcovers p y x) \/ (forall p, In p ps -> ~ pcovers p y x).
Proof.
  induction ps as [|p ps IH]; [right; intros p []|]. destruct (covers_dec (fst p) y x) as [C|C]; [left; exists p; split; [left; reflexivity|exact C]|].
  destruct IH as [(q & Hq & Cq)|IH]; [left; exists q; split; [right; exact Hq|exact Cq]|]. right. intros q [<-|Hq]; [exact C|exact (IH q Hq)].
Qed.
Lemma cell_width t p : wf p -> t = fst (snd p) -> cellWidth (t + 1) = r_w (fst p).
Proof.
  intros (H1 & H2 & _) ->. unfold cellWidth. replace (fst (snd p) + 1 - 1) with (fst (snd p)) by lia. destruct (tt_props _ H1) as (tt & _ & E & _ & C & _). rewrite E. rewrite <- C in H2. congruence.
Qed.
(* a zero cell is free, a non-zero cell is covered *)
Section grid.
  Context (H W : nat) (ps : list PB) (lastY : Z) (d m : list (list Z)) (I : pinv H W ps lastY d m).
  Lemma cell_cases y x : (y < H)%nat -> (x < W)%nat ->
    (px d y x = 0 /\ forall p, In p ps -> ~ pcovers p (Z.of_nat y) (Z.of_nat x)) \/
    exists p, In p ps /\ wf p /\ pcovers p (Z.of_nat y) (Z.of_nat x) /\ px d y x = fst (snd p) + 1 /\ px d y x <> 0 /\ cellWidth (px d y x) = r_w (fst p) /\ 1 <= r_w (fst p).
  Proof.
    intros Hy Hx. destruct (cover_or_free ps (Z.of_nat y) (Z.of_nat x)) as [(p & Hp & C)|F].
    - right. exists p. destruct (v_cov _ _ _ _ _ _ I y x p Hy Hx Hp C) as [E _]. pose proof (proj1 (Forall_forall _ _) (v_wf _ _ _ _ _ _ I) p Hp) as Wp.
      split; [exact Hp|]. split; [exact Wp|]. split; [exact C|]. split; [exact E|]. pose proof (cell_width _ p Wp eq_refl) as CW. rewrite E. destruct Wp as (A & _ & _ & B). split; [lia|]. split; [exact CW|exact B].
    - left. split; [exact (proj1 (v_free _ _ _ _ _ _ I y x Hy Hx F))|exact F].
  Qed.
  Lemma firstOccupied_ok y row : (y < H)%nat -> row = nth y d [] -> forall n x, 0 <= x -> x + Z.of_nat n <= Z.of_nat W ->
    (firstOccupied row x n = Ok None /\ forall x', x <= x' < x + Z.of_nat n -> px d y (Z.to_nat x') = 0) \/
    exists x', x <= x' < x + Z.of_nat n /\ px d y (Z.to_nat x') <> 0 /\ firstOccupied row x n = Ok (Some (px d y (Z.to_nat x'))) /\
      forall z, x <= z < x' -> px d y (Z.to_nat z) = 0.
  Proof.
    intros Hy Er. induction n as [|n IH]; intros x Hx Hn; cbn [firstOccupied].
    - left. split; [reflexivity|]. intros x' Hx'. lia.
    - rewrite (slice_get_ok row x 0) by (rewrite Er, (rect_row H W d) by (exact (v_d _ _ _ _ _ _ I) || exact Hy); lia). cbn [obind].
      replace (nth (Z.to_nat x) row 0) with (px d y (Z.to_nat x)) by (rewrite Er; reflexivity). destruct (Z.eqb_spec (px d y (Z.to_nat x)) 0) as [E|E].
      + destruct (IH (x + 1) ltac:(lia) ltac:(lia)) as [[A B]|(x' & A & B & C & D)].
        * left. split; [exact A|]. intros x' Hx'. destruct (Z.eq_dec x' x) as [->|]; [exact E|]. apply B. lia.
        * right. exists x'. split; [lia|]. split; [exact B|]. split; [exact C|]. intros z Hz. destruct (Z.eq_dec z x) as [->|]; [exact E|]. apply D. lia.
      + right. exists x. split; [lia|]. split; [exact E|]. split; [reflexivity|]. intros z Hz. lia.
  Qed.
  Lemma scanRow_ok y row w : (y < H)%nat -> row = nth y d [] -> 1 <= w -> forall fuel x, 0 <= x -> (W - Z.to_nat x < fuel)%nat ->
    scanRow fuel row w x = Ok None \/ exists x', x <= x' /\ x' + w <= Z.of_nat W /\ scanRow fuel row w x = Ok (Some x') /\
      forall z, x' <= z < x' + w -> px d y (Z.to_nat z) = 0.
  Proof.
    intros Hy Er Hw. assert (Lr : length row = W) by (rewrite Er; apply (rect_row H W d); [exact (v_d _ _ _ _ _ _ I)|exact Hy]).
    induction fuel as [|fuel IH]; intros x Hx Hf; [lia|]. cbn [scanRow]. rewrite Lr.
    destruct (Z.leb_spec (Z.of_nat W) x); [left; reflexivity|]. destruct (Z.ltb_spec (Z.of_nat W) (w + x)); [left; reflexivity|].
    destruct (firstOccupied_ok y row Hy Er (Z.to_nat w) x Hx ltac:(lia)) as [[A B]|(x' & A & B & C & _)].
    - rewrite A. cbn [obind]. right. exists x. split; [lia|]. split; [lia|]. split; [reflexivity|]. intros z Hz. apply B. lia.
    - rewrite C. cbn [obind]. destruct (cell_cases y (Z.to_nat x') Hy ltac:(lia)) as [[E _]|(p & _ & _ & _ & _ & _ & CW & Pw)]; [congruence|].
      rewrite CW. destruct (IH (x + (r_w (fst p) - 1) + 1) ltac:(lia) ltac:(lia)) as [E|(x2 & E1 & E2 & E3 & E4)]; [left; exact E|].
      right. exists x2. split; [lia|]. auto.
  Qed.
  Lemma scanRows_ok w : 1 <= w -> forall n y, 0 <= y -> y + Z.of_nat n = Z.of_nat H ->
    scanRows n d w y = Err \/ exists y' x', y <= y' < Z.of_nat H /\ 0 <= x' /\ x' + w <= Z.of_nat W /\ scanRows n d w y = Ok (y', x') /\
      forall z, x' <= z < x' + w -> px d (Z.to_nat y') (Z.to_nat z) = 0.
  Proof.
    intros Hw. induction n as [|n IH]; intros y Hy Hn; cbn [scanRows]; [left; reflexivity|].
    destruct (v_d _ _ _ _ _ _ I) as [Ld _].
    rewrite (slice_get_ok d y []) by lia. cbn [obind].
    assert (Lr : length (nth (Z.to_nat y) d []) = W) by (apply (rect_row H W d); [exact (v_d _ _ _ _ _ _ I)|lia]).
    destruct (scanRow_ok (Z.to_nat y) (nth (Z.to_nat y) d []) w ltac:(lia) eq_refl Hw (S (length (nth (Z.to_nat y) d []))) 0 ltac:(lia) ltac:(lia)) as [E|(x' & A & B & C & D)].
    - rewrite E. cbn [obind]. destruct (IH (y + 1) ltac:(lia) ltac:(lia)) as [E'|(y' & x' & A & B & C & D & F)]; [left; exact E'|].
      right. exists y', x'. split; [lia|]. auto.
    - rewrite C. cbn [obind]. right. exists y, x'. split; [lia|]. split; [lia|]. split; [exact B|]. split; [reflexivity|exact D].
  Qed.
End grid.

(* filling a block *)
Lemma fill_ok H W tt y x mul d m : rect H W d -> rect H W m -> 0 <= y -> 0 <= x -> x + tt_dctSelectWidth tt <= Z.of_nat W -> 1 <= tt_dctSelectHeight tt -> 1 <= tt_dctSelectWidth tt ->
  y < Z.of_nat H ->
  if y + tt_dctSelectHeight tt <=? Z.of_nat H then
    exists d' m', fillBlock tt y x mul (d, m) = Ok (d', m') /\ rect H W d' /\ rect H W m' /\
      forall y' x', (px d' y' x' = if (y <=? Z.of_nat y') && (Z.of_nat y' <? y + tt_dctSelectHeight tt) && ((x <=? Z.of_nat x') && (Z.of_nat x' <? x + tt_dctSelectWidth tt)) then tt_type tt + 1 else px d y' x') /\
        (px m' y' x' = if (y <=? Z.of_nat y') && (Z.of_nat y' <? y + tt_dctSelectHeight tt) && ((x <=? Z.of_nat x') && (Z.of_nat x' <? x + tt_dctSelectWidth tt)) then mul else px m y' x')
  else fillBlock tt y x mul (d, m) = Panic.
Proof.
  intros Rd Rm Hy Hx Hxw Hh1 Hw1 HyH. set (h := tt_dctSelectHeight tt) in *. set (w := tt_dctSelectWidth tt) in *.
  pose (body := fun (iy ix : nat) '(d, m) => obind (set2 d (y + Z.of_nat iy) (x + Z.of_nat ix) (tt_type tt + 1)) (fun d => obind (set2 m (y + Z.of_nat iy) (x + Z.of_nat ix) mul) (fun m => Ok (d, m)))).
  assert (G : forall n, y + Z.of_nat n <= Z.of_nat H -> exists s', loop2 n (Z.to_nat w) body (d, m) = Ok s' /\
    (rect H W (fst s') /\ rect H W (snd s') /\
      forall y' x', (px (fst s') y' x' = if (y <=? Z.of_nat y') && (Z.of_nat y' <? y + Z.of_nat n) && ((x <=? Z.of_nat x') && (Z.of_nat x' <? x + w)) then tt_type tt + 1 else px d y' x') /\
        (px (snd s') y' x' = if (y <=? Z.of_nat y') && (Z.of_nat y' <? y + Z.of_nat n) && ((x <=? Z.of_nat x') && (Z.of_nat x' <? x + w)) then mul else px m y' x'))).
  { intros n Hn.
    pose (dn := fun (iy ix y' x' : nat) => (y <=? Z.of_nat y') && ((x <=? Z.of_nat x') && (Z.of_nat x' <? x + w)) && ((Z.of_nat y' <? y + Z.of_nat iy) || ((Z.of_nat y' =? y + Z.of_nat iy) && (Z.of_nat x' <? x + Z.of_nat ix)))).
    destruct (loop2_inv (fun iy ix s => rect H W (fst s) /\ rect H W (snd s) /\ forall y' x',
        (px (fst s) y' x' = if dn iy ix y' x' then tt_type tt + 1 else px d y' x') /\ (px (snd s) y' x' = if dn iy ix y' x' then mul else px m y' x')) body n (Z.to_nat w) (d, m)) as (s' & E & R1 & R2 & R3).
    - cbn [fst snd]. split; [exact Rd|]. split; [exact Rm|]. intros y' x'. unfold dn. replace (Z.of_nat y' <? y + Z.of_nat 0) with (Z.of_nat y' <? y) by lia.
      destruct (Z.leb_spec y (Z.of_nat y')); cbn [andb]; [|split; reflexivity]. replace (Z.of_nat y' <? y) with false by lia. cbn [orb].
      destruct (Z.leb_spec x (Z.of_nat x')); cbn [andb]; [|split; reflexivity]. replace (Z.of_nat x' <? x + Z.of_nat 0) with false by lia. rewrite !andb_false_r. split; reflexivity.
    - intros iy ix [d1 m1] Hiy Hix (R1 & R2 & R3). cbn [fst snd] in *. unfold body.
      destruct (set2_ok H W d1 (y + Z.of_nat iy) (x + Z.of_nat ix) (tt_type tt + 1) R1 ltac:(lia) ltac:(lia)) as (d2 & E1 & R1' & P1). rewrite E1. cbn [obind].
      destruct (set2_ok H W m1 (y + Z.of_nat iy) (x + Z.of_nat ix) mul R2 ltac:(lia) ltac:(lia)) as (m2 & E2 & R2' & P2). rewrite E2. cbn [obind].
      eexists. split; [reflexivity|]. cbn [fst snd]. split; [exact R1'|]. split; [exact R2'|]. intros y' x'. rewrite P1, P2. destruct (R3 y' x') as [Q1 Q2]. rewrite Q1, Q2.
      replace (dn iy (S ix) y' x') with (((y' =? Z.to_nat (y + Z.of_nat iy))%nat && (x' =? Z.to_nat (x + Z.of_nat ix))%nat) || dn iy ix y' x').
      + destruct (_ && _)%bool; cbn [orb]; split; reflexivity.
      + unfold dn. clear - Hx Hy Hix. lia.
    - intros iy [d1 m1] Hiy (R1 & R2 & R3). cbn [fst snd] in *. split; [exact R1|]. split; [exact R2|]. intros y' x'.
      replace (dn (S iy) 0%nat y' x') with (dn iy (Z.to_nat w) y' x'); [exact (R3 y' x')|]. unfold dn. clear - Hw1. lia.
    - exists s'. split; [exact E|]. split; [exact R1|]. split; [exact R2|]. intros y' x'. destruct (R3 y' x') as [Q1 Q2].
      replace ((y <=? Z.of_nat y') && (Z.of_nat y' <? y + Z.of_nat n) && ((x <=? Z.of_nat x') && (Z.of_nat x' <? x + w))) with (dn n 0%nat y' x'); [split; assumption|].
      unfold dn. clear. lia. }
  destruct (Z.leb_spec (y + h) (Z.of_nat H)) as [L|L].
  - destruct (G (Z.to_nat h) ltac:(lia)) as ([d' m'] & E & R1 & R2 & R3). exists d', m'. split; [exact E|]. split; [exact R1|]. split; [exact R2|].
    intros y' x'. specialize (R3 y' x'). rewrite Z2Nat.id in R3 by lia. exact R3.
  - unfold fillBlock. fold h. fold w. unfold loop2. replace (Z.to_nat h) with (Z.to_nat (Z.of_nat H - y) + (Z.to_nat h - Z.to_nat (Z.of_nat H - y)))%nat by lia.
    rewrite oloop_split. destruct (G (Z.to_nat (Z.of_nat H - y)) ltac:(lia)) as ([d' m'] & E & [L1 _] & R2 & R3). unfold loop2, body in E. rewrite E. cbn [obind fst] in *.
    destruct (Z.to_nat h - Z.to_nat (Z.of_nat H - y))%nat as [|k] eqn:K; [lia|]. cbn [oloop].
    destruct (Z.to_nat w) as [|kw] eqn:Kw; [lia|]. cbn [oloop]. unfold set2 at 1. rewrite slice_get_panic; [reflexivity|]. lia.
Qed.

Lemma fop_snoc {A} (R : A -> A -> Prop) l a : ForallOrdPairs R l -> Forall (fun b => R b a) l -> ForallOrdPairs R (l ++ [a]).
Proof. induction 1 as [|b l Hb F IH]; intros Fa; cbn; [repeat constructor|]. inversion Fa; subst. constructor; [apply Forall_app; split; [exact Hb|repeat constructor; assumption]|auto]. Qed.

(* one block *)
Lemma place_ok H W ps lastY d m t mul tt : pinv H W ps lastY d m -> slice_get allDCT t = Ok tt -> 0 <= t <= 26 ->
  match placeBlock lastY tt mul (d, m) with
  | Err => True
  | Panic => exists y x, scanRows (Z.to_nat (Z.of_nat H - lastY)) d (tt_dctSelectWidth tt) lastY = Ok (y, x) /\ Z.of_nat H < y + tt_dctSelectHeight tt
  | Ok ((y, x), (d', m')) => lastY <= y /\ pinv H W (ps ++ [(mkR y x (fst (cells t)) (snd (cells t)), (t, mul))]) y d' m'
  end.
Proof.
  intros I E Ht. destruct (tt_props t Ht) as (tt' & E' & _ & Ty & C & Bh & Bw). rewrite E in E'. injection E' as <-.
  unfold placeBlock. cbn [fst]. pose proof (v_y _ _ _ _ _ _ I) as Vy. destruct (v_d _ _ _ _ _ _ I) as [Ld _]. rewrite Ld.
  destruct (Z_lt_le_dec (Z.of_nat H) lastY) as [Far|Near].
  { replace (Z.to_nat (Z.of_nat H - lastY)) with 0%nat by lia. cbn [scanRows obind]. exact Logic.I. }
  destruct (scanRows_ok H W ps lastY d m I (tt_dctSelectWidth tt) ltac:(lia) (Z.to_nat (Z.of_nat H - lastY)) lastY Vy ltac:(lia)) as [E1|(y & x & A1 & A2 & A3 & A4 & A5)].
  { rewrite E1. exact Logic.I. }
  rewrite A4. cbn [obind fst snd].
  pose proof (fill_ok H W tt y x mul d m (v_d _ _ _ _ _ _ I) (v_m _ _ _ _ _ _ I) ltac:(lia) A2 A3 ltac:(lia) ltac:(lia) ltac:(lia)) as F.
  destruct (Z.leb_spec (y + tt_dctSelectHeight tt) (Z.of_nat H)) as [L|L].
  - destruct F as (d' & m' & F1 & R1 & R2 & R3). rewrite F1. cbn [obind]. split; [lia|].
    replace (fst (cells t)) with (tt_dctSelectHeight tt) by (rewrite <- C; reflexivity). replace (snd (cells t)) with (tt_dctSelectWidth tt) by (rewrite <- C; reflexivity).
    set (r := mkR y x (tt_dctSelectHeight tt) (tt_dctSelectWidth tt)). rewrite Ty in R3.
    assert (D : Forall (fun p : PB => disjoint (fst p) r) ps).
    { apply Forall_forall. intros p Hp y' x' Cp Cr. unfold covers in Cr. cbn [r_y r_x r_h r_w r] in Cr.
      assert (Cy : pcovers p (Z.of_nat (Z.to_nat y)) (Z.of_nat (Z.to_nat x'))).
      { rewrite !Z2Nat.id by lia. unfold pcovers, covers in *. pose proof (proj1 (Forall_forall _ _) (v_last _ _ _ _ _ _ I) p Hp) as Ly. cbn in Ly. lia. }
      destruct (v_cov _ _ _ _ _ _ I (Z.to_nat y) (Z.to_nat x') p ltac:(lia) ltac:(lia) Hp Cy) as [Q _]. rewrite A5 in Q by lia.
      pose proof (proj1 (Forall_forall _ _) (v_wf _ _ _ _ _ _ I) p Hp) as (Wt & _). lia. }
    constructor.
    + exact R1.
    + exact R2.
    + lia.
    + apply Forall_app. split; [exact (v_wf _ _ _ _ _ _ I)|]. constructor; [|constructor]. unfold wf. cbn [fst snd]. split; [exact Ht|]. unfold r. cbn [r_h r_w]. split; [exact C|]. lia.
    + apply Forall_app. split; [exact (v_in _ _ _ _ _ _ I)|]. constructor; [|constructor]. unfold inside, r. cbn [fst r_h r_w r_y r_x]. lia.
    + rewrite map_app. cbn [map fst]. apply fop_snoc; [exact (v_dis _ _ _ _ _ _ I)|]. apply Forall_map. exact D.
    + apply Forall_app. split; [|constructor; [unfold r; cbn [fst r_y]; lia|constructor]]. eapply Forall_impl; [|exact (v_last _ _ _ _ _ _ I)]. cbn. intros p Hp. lia.
    + intros y' x' p Hy' Hx' Hp Cp. destruct (R3 y' x') as [Q1 Q2]. rewrite Q1, Q2. apply in_app_iff in Hp as [Hp|[<-|[]]].
      * destruct (v_cov _ _ _ _ _ _ I y' x' p Hy' Hx' Hp Cp) as [P1 P2]. pose proof (proj1 (Forall_forall _ _) D p Hp _ _ Cp) as N. unfold covers in N. cbn [r r_y r_x r_h r_w] in N.
        replace ((y <=? Z.of_nat y') && (Z.of_nat y' <? y + tt_dctSelectHeight tt) && ((x <=? Z.of_nat x') && (Z.of_nat x' <? x + tt_dctSelectWidth tt))) with false by (clear - N; lia). auto.
      * unfold pcovers, covers in Cp. cbn [fst snd r r_y r_x r_h r_w] in *.
        replace ((y <=? Z.of_nat y') && (Z.of_nat y' <? y + tt_dctSelectHeight tt) && ((x <=? Z.of_nat x') && (Z.of_nat x' <? x + tt_dctSelectWidth tt))) with true by (clear - Cp; lia). auto.
    + intros y' x' Hy' Hx' F. destruct (R3 y' x') as [Q1 Q2]. rewrite Q1, Q2.
      pose proof (F (r, (t, mul)) ltac:(apply in_app_iff; right; left; reflexivity)) as N. unfold pcovers, covers in N. cbn [fst r r_y r_x r_h r_w] in N.
      replace ((y <=? Z.of_nat y') && (Z.of_nat y' <? y + tt_dctSelectHeight tt) && ((x <=? Z.of_nat x') && (Z.of_nat x' <? x + tt_dctSelectWidth tt))) with false by (clear - N; lia).
      apply (v_free _ _ _ _ _ _ I y' x' Hy' Hx'). intros p Hp. apply F. apply in_app_iff. auto.
  - rewrite F. cbn [obind]. exists y, x. split; [reflexivity|lia].
Qed.

Definition blockOf (tm : Z * Z) (yx : Z * Z) : PB := (mkR (fst yx) (snd yx) (fst (cells (fst tm))) (snd (cells (fst tm))), (fst tm, 1 + snd tm)).
Fixpoint blocksOf (tms : list (Z * Z)) (pos : list (Z * Z)) : list PB :=
  match tms, pos with tm :: tms', yx :: pos' => blockOf tm yx :: blocksOf tms' pos' | _, _ => [] end.
Lemma places_ok H W : forall blocks ps lastY d m pos s', pinv H W ps lastY d m -> placeBlocks blocks lastY (d, m) = Ok (pos, s') ->
  length pos = length blocks /\ StronglySorted (fun a b : Z * Z => fst a <= fst b) ((lastY, 0) :: pos) /\ exists lastY', pinv H W (ps ++ blocksOf blocks pos) lastY' (fst s') (snd s').
Proof.
  induction blocks as [|[t mul] blocks IH]; intros ps lastY d m pos s' I E; cbn [placeBlocks] in E.
  - injection E as <- <-. split; [reflexivity|]. split; [repeat constructor|]. exists lastY. cbn. rewrite app_nil_r. exact I.
  - destruct ((26 <? t) || (t <? 0)) eqn:B; [discriminate|]. destruct (tt_props t ltac:(lia)) as (tt & Et & _). rewrite Et in E. cbn [obind] in E.
    pose proof (place_ok H W ps lastY d m t (1 + mul) tt I Et ltac:(lia)) as P. destruct (placeBlock lastY tt (1 + mul) (d, m)) as [[[y x] [d' m']]| |]; [|discriminate|discriminate].
    cbn [obind] in E. destruct P as [Hy I']. destruct (placeBlocks blocks y (d', m')) as [[pos' s2]| |] eqn:E2; [|discriminate|discriminate]. cbn [obind] in E. injection E as <- <-.
    destruct (IH _ _ _ _ _ _ I' E2) as (L & S & lastY' & I2). cbn [fst snd] in *. split; [cbn; lia|]. split.
    + inversion S as [|? ? S1 S2]; subst. constructor; [constructor; [exact S1|exact S2]|]. constructor; [cbn; exact Hy|]. eapply Forall_impl; [|exact S2]. cbn. intros a Ha. lia.
    + exists lastY'. cbn [blocksOf]. rewrite <- app_assoc in I2. exact I2.
Qed.
Lemma pinv_init H W : pinv H W [] 0 (zeros2 (Z.of_nat H) (Z.of_nat W)) (zeros2 (Z.of_nat H) (Z.of_nat W)).
Proof.
  pose proof (rect_zeros (Z.of_nat H) (Z.of_nat W)) as R. rewrite !Nat2Z.id in R. split; try apply R; try (constructor; fail); try lia; intros.
  - contradiction.
  - assert (Z : px (zeros2 (Z.of_nat H) (Z.of_nat W)) y x = 0).
    { unfold px, zeros2. rewrite !Nat2Z.id. destruct (nth_in_or_default y (repeat (repeat 0 W) H) []) as [Hi|Hi]; [|rewrite Hi; destruct x; reflexivity].
      apply repeat_spec in Hi. rewrite Hi. destruct (nth_in_or_default x (repeat 0 W) 0) as [Hj|Hj]; [exact (repeat_spec _ _ _ Hj)|exact Hj]. }
    rewrite Z. split; reflexivity.
Qed.

(* ---- packings of the standard ---- *)
(* every cell of the rows above lastY is covered *)
Definition above_full (H W : nat) (ps : list PB) (lastY : Z) : Prop :=
  forall y x, 0 <= y < lastY -> 0 <= x < Z.of_nat W -> exists p, In p ps /\ pcovers p y x.
Lemma disjoint_same ps (p q : PB) y x : ForallOrdPairs disjoint (map fst ps) -> In p ps -> In q ps -> pcovers p y x -> pcovers q y x -> fst p = fst q.
Proof.
  intros D. induction ps as [|a ps IH]; intros Hp Hq Cp Cq; [destruct Hp|]. cbn in D. inversion D as [|? ? D1 D2]; subst.
  assert (G : forall b, In b ps -> disjoint (fst a) (fst b)) by (intros b Hb; rewrite Forall_forall in D1; apply D1; apply in_map; exact Hb).
  destruct Hp as [<-|Hp], Hq as [<-|Hq]; [reflexivity| | |auto].
  - exfalso. exact (G q Hq y x Cp Cq).
  - exfalso. exact (G p Hp y x Cq Cp).
Qed.
Section std.
  Context (H W : nat) (ps : list PB) (lastY : Z) (d m : list (list Z)) (I : pinv H W ps lastY d m).
  Lemma scanRow_full y row w : (y < H)%nat -> row = nth y d [] -> 1 <= w -> (forall x, (x < W)%nat -> px d y x <> 0) -> forall fuel x, 0 <= x -> (W - Z.to_nat x < fuel)%nat -> scanRow fuel row w x = Ok None.
  Proof.
    intros Hy Er Hw F fuel x Hx Hf. destruct (scanRow_ok H W ps lastY d m I y row w Hy Er Hw fuel x Hx Hf) as [E|(x' & A & B & _ & D)]; [exact E|].
    exfalso. apply (F (Z.to_nat x') ltac:(lia)). apply D. lia.
  Qed.
  Lemma scanRow_first y row w rx : (y < H)%nat -> row = nth y d [] -> 1 <= w -> 0 <= rx -> rx + w <= Z.of_nat W ->
    (forall x, 0 <= x < rx -> px d y (Z.to_nat x) <> 0) -> (forall x, rx <= x < rx + w -> px d y (Z.to_nat x) = 0) ->
    forall fuel x, 0 <= x <= rx -> (W - Z.to_nat x < fuel)%nat -> (forall p, In p ps -> pcovers p (Z.of_nat y) x -> r_x (fst p) = x) -> scanRow fuel row w x = Ok (Some rx).
  Proof.
    intros Hy Er Hw Hr Hrw Occ Free. assert (Lr : length row = W) by (rewrite Er; apply (rect_row H W d); [exact (v_d _ _ _ _ _ _ I)|exact Hy]).
    induction fuel as [|fuel IH]; intros x Hx Hf Edge; [lia|]. cbn [scanRow]. rewrite Lr.
    destruct (Z.leb_spec (Z.of_nat W) x); [lia|]. destruct (Z.ltb_spec (Z.of_nat W) (w + x)); [lia|].
    destruct (firstOccupied_ok H W ps lastY d m I y row Hy Er (Z.to_nat w) x ltac:(lia) ltac:(lia)) as [[A B]|(x' & A & B & C & D)].
    - rewrite A. cbn [obind]. destruct (Z.eq_dec x rx) as [->|N]; [reflexivity|]. exfalso. apply (Occ x ltac:(lia)). apply B. lia.
    - rewrite C. cbn [obind]. assert (x < rx) by (destruct (Z.eq_dec x rx) as [->|]; [exfalso; apply B; apply Free; lia|lia]).
      assert (x' = x) by (destruct (Z.eq_dec x' x) as [|N]; [assumption|exfalso; apply (Occ x ltac:(lia)); apply D; lia]). subst x'.
      destruct (cell_cases H W ps lastY d m I y (Z.to_nat x) Hy ltac:(lia)) as [[E _]|(p & Hp & _ & Cp & _ & _ & CW & Pw)]; [congruence|].
      rewrite Z2Nat.id in Cp by lia. pose proof (Edge p Hp Cp) as Ex. rewrite CW.
      assert (Le : x + r_w (fst p) <= rx).
      { destruct (Z_le_dec (x + r_w (fst p)) rx) as [|N]; [assumption|exfalso]. assert (Cr : pcovers p (Z.of_nat y) (Z.of_nat (Z.to_nat rx))) by (unfold pcovers, covers in *; lia).
        destruct (v_cov _ _ _ _ _ _ I y (Z.to_nat rx) p Hy ltac:(lia) Hp Cr) as [Q _]. rewrite Free in Q by lia. pose proof (proj1 (Forall_forall _ _) (v_wf _ _ _ _ _ _ I) p Hp) as (Wt & _). lia. }
      replace (x + (r_w (fst p) - 1) + 1) with (x + r_w (fst p)) by lia. apply IH; [lia|lia|].
      intros q Hq Cq. destruct (Z.eq_dec (r_x (fst q)) (x + r_w (fst p))) as [|N]; [assumption|exfalso].
      assert (C1 : pcovers q (Z.of_nat y) (x + r_w (fst p) - 1)) by (unfold pcovers, covers in *; lia).
      assert (C2 : pcovers p (Z.of_nat y) (x + r_w (fst p) - 1)) by (unfold pcovers, covers in *; lia).
      pose proof (disjoint_same ps p q _ _ (v_dis _ _ _ _ _ _ I) Hp Hq C2 C1) as E. rewrite <- E in *. unfold pcovers, covers in Cq. rewrite <- E in Cq. lia.
  Qed.
  (* a block that the standard puts at r is put there *)
  Lemma scan_std r : inside (Z.of_nat H) (Z.of_nat W) r -> 1 <= r_h r -> 1 <= r_w r -> Forall (fun p => disjoint p r) (map fst ps) -> first_free (Z.of_nat W) (map fst ps) r -> above_full H W ps lastY -> lastY <= Z.of_nat H ->
    scanRows (Z.to_nat (Z.of_nat H - lastY)) d (r_w r) lastY = Ok (r_y r, r_x r).
  Proof.
    intros Ir Hh Hw Dr [F1 F2] AF HL. unfold inside in Ir.
    assert (Ly : lastY <= r_y r).
    { destruct (Z_le_dec lastY (r_y r)) as [|N]; [assumption|exfalso]. destruct (AF (r_y r) (r_x r) ltac:(lia) ltac:(lia)) as (p & Hp & Cp). exact (F1 (fst p) (in_map fst ps p Hp) Cp). }
    assert (Cov : forall y x, 0 <= y -> 0 <= x < Z.of_nat W -> y < Z.of_nat H -> before y x (r_y r) (r_x r) -> px d (Z.to_nat y) (Z.to_nat x) <> 0).
    { intros y x Hy Hx HyH B. destruct (F2 y x Hy Hx B) as (p0 & Hp0 & Cp0). apply in_map_iff in Hp0 as (p & <- & Hp).
      destruct (v_cov _ _ _ _ _ _ I (Z.to_nat y) (Z.to_nat x) p ltac:(lia) ltac:(lia) Hp ltac:(unfold pcovers; rewrite !Z2Nat.id by lia; exact Cp0)) as [Q _].
      pose proof (proj1 (Forall_forall _ _) (v_wf _ _ _ _ _ _ I) p Hp) as (Wt & _). lia. }
    assert (Fr : forall x, r_x r <= x < r_x r + r_w r -> px d (Z.to_nat (r_y r)) (Z.to_nat x) = 0).
    { intros x Hx. apply (v_free _ _ _ _ _ _ I); [lia|lia|]. intros p Hp Cp. rewrite !Z2Nat.id in Cp by lia. rewrite Forall_forall in Dr.
      apply (Dr (fst p) (in_map fst ps p Hp) _ _ Cp). unfold covers. lia. }
    assert (G : forall n y, lastY <= y -> y <= r_y r -> y + Z.of_nat n = Z.of_nat H -> scanRows n d (r_w r) y = Ok (r_y r, r_x r)).
    { pose proof (v_y _ _ _ _ _ _ I) as Vy. destruct (v_d _ _ _ _ _ _ I) as [Ld _].
      induction n as [|n IH]; intros y H1 H2 Hn; [lia|]. cbn [scanRows]. rewrite (slice_get_ok d y []) by lia. cbn [obind].
      assert (Lr : length (nth (Z.to_nat y) d []) = W) by (apply (rect_row H W d); [exact (v_d _ _ _ _ _ _ I)|lia]).
      destruct (Z.eq_dec y (r_y r)) as [->|N].
      - rewrite (scanRow_first (Z.to_nat (r_y r)) _ (r_w r) (r_x r) ltac:(lia) eq_refl ltac:(lia) ltac:(lia) ltac:(lia)); [reflexivity| |exact Fr|lia|lia|].
        + intros x Hx. apply Cov; try lia. right. lia.
        + intros p Hp Cp. pose proof (proj1 (Forall_forall _ _) (v_in _ _ _ _ _ _ I) p Hp) as Ip. unfold pcovers, covers in Cp. unfold inside in Ip. lia.
      - rewrite (scanRow_full (Z.to_nat y) _ (r_w r) ltac:(lia) eq_refl ltac:(lia)); [|intros x Hx; rewrite <- (Nat2Z.id x); apply Cov; try lia; left; lia|lia|lia].
        cbn [obind]. apply IH; lia. }
    apply G; lia.
  Qed.
End std.
Definition size_ok (tm : Z * Z) (r : Rect) : Prop := 0 <= fst tm <= 26 /\ (r_h r, r_w r) = cells (fst tm).
Lemma std_places H W : forall rs blocks ps lastY d m, pinv H W ps lastY d m -> above_full H W ps lastY -> lastY <= Z.of_nat H ->
  standard_packing (Z.of_nat H) (Z.of_nat W) (map fst ps) rs -> Forall2 size_ok blocks rs ->
  exists s', placeBlocks blocks lastY (d, m) = Ok (map (fun r => (r_y r, r_x r)) rs, s').
Proof.
  induction rs as [|r rs IH]; intros blocks ps lastY d m I AF HL SP F2; inversion F2 as [|[t mul] ? blocks' ? [Ht Hs] F2']; subst; [eexists; reflexivity|]. cbn [fst] in *.
  inversion SP as [|? ? ? Ir Dr FF SP']; subst. cbn [placeBlocks map]. replace ((26 <? t) || (t <? 0)) with false by lia.
  destruct (tt_props t Ht) as (tt & Et & _ & Ty & C & Bh & Bw). rewrite Et. cbn [obind].
  assert (Eh : r_h r = tt_dctSelectHeight tt) by congruence. assert (Ew : r_w r = tt_dctSelectWidth tt) by congruence.
  pose proof (place_ok H W ps lastY d m t (1 + mul) tt I Et Ht) as P.
  pose proof (scan_std H W ps lastY d m I r Ir ltac:(lia) ltac:(lia) Dr FF AF HL) as SC. rewrite Ew in SC.
  assert (PB1 : exists s', placeBlock lastY tt (1 + mul) (d, m) = Ok ((r_y r, r_x r), s')).
  { destruct (v_d _ _ _ _ _ _ I) as [Ld _]. unfold placeBlock in *. cbn [fst] in *. rewrite Ld in *. rewrite SC in *. cbn [obind fst snd] in *.
    destruct (fillBlock tt (r_y r) (r_x r) (1 + mul) (d, m)) as [s'| |] eqn:Ef; cbn [obind] in *; [eexists; reflexivity| |].
    - exfalso. destruct Ir as (J1 & J2 & J3 & J4).
      pose proof (fill_ok H W tt (r_y r) (r_x r) (1 + mul) d m (v_d _ _ _ _ _ _ I) (v_m _ _ _ _ _ _ I) J1 J3 ltac:(lia) ltac:(lia) ltac:(lia) ltac:(lia)) as F.
      rewrite (proj2 (Z.leb_le _ _)) in F by lia. destruct F as (? & ? & F & _). congruence.
    - exfalso. destruct P as (y & x & P1 & P2). injection P1 as <- <-. destruct Ir as (_ & J & _). lia. }
  destruct PB1 as ([d' m'] & EP). rewrite EP in P |- *. cbn [obind]. destruct P as [Hy I'].
  assert (Er : mkR (r_y r) (r_x r) (fst (cells t)) (snd (cells t)) = r) by (rewrite <- Hs; destruct r; reflexivity).
  destruct (IH blocks' (ps ++ [(r, (t, 1 + mul))]) (r_y r) d' m') as (s' & E).
  - rewrite Er in I'. exact I'.
  - intros y x Hyr Hx. destruct FF as [_ FF]. destruct (FF y x ltac:(lia) Hx ltac:(left; lia)) as (p0 & Hp0 & Cp0). apply in_map_iff in Hp0 as (p & <- & Hp). exists p. split; [apply in_app_iff; auto|exact Cp0].
  - destruct Ir as (_ & J & _). lia.
  - rewrite map_app. exact SP'.
  - exact F2'.
  - exists s'. rewrite E. reflexivity.
Qed.
