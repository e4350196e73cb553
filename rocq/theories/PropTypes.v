(* Properties of the transform types: C104. *)
From Coq Require Import ZArith List Bool Lia Reals.
From Verif Require Import GoBase GoLoop ModelDCT ModelHF ModelHFWeights ModelVarBlock SpecTypes.
Import ListNotations.
Open Scope Z_scope.

(* ---- C104: transform types ---- *)
(* Each of the 27 types has the size of the standard, the number of its scan
   order and of its table of weights; its coefficients are transposed if and
   only if it is taller than wide or a square DCT. *)
Definition type_ok (n : nat) (k : kind) (t : TransformType) : Prop :=
  tt_type t = Z.of_nat n /\ (tt_pixelHeight t, tt_pixelWidth t) = size k /\ (8 * tt_dctSelectHeight t, 8 * tt_dctSelectWidth t) = size k /\
  in_groups order_groups k (tt_orderID t) /\ in_groups weight_groups k (tt_parameterIndex t) /\
  tt_flip t = match k with Dct h w => w <=? h | _ => false end.
Lemma groups_spec gs k n : map (fun f => f k) gs = map (fun i => Z.of_nat i =? n) (seq 0 (length gs)) -> in_groups gs k n.
Proof.
  intros E i Hi. apply (f_equal (fun l => nth_error l i)) in E. cbv beta in E.
  rewrite (map_nth_error (fun f : kind -> bool => f k) i gs (nth_error_nth' gs (fun _ => false) Hi)) in E.
  assert (Hs : nth_error (seq 0 (length gs)) i = Some i) by (rewrite (nth_error_nth' _ 0%nat) by (rewrite seq_length; exact Hi); rewrite seq_nth by exact Hi; reflexivity).
  rewrite (map_nth_error (fun i => Z.of_nat i =? n) i _ Hs) in E. injection E as E. exact E.
Qed.
Theorem C104_types : length allDCT = 27%nat /\ forall n, (n < 27)%nat -> exists t, nth_error allDCT n = Some t /\ type_ok n (nth n kinds (Dct 0 0)) t.
Proof.
  split; [reflexivity|]. intros n Hn.
  do 27 (destruct n as [|n]; [eexists; split; [reflexivity|]; split; [reflexivity|]; split; [reflexivity|]; split; [reflexivity|]; split; [apply groups_spec; reflexivity|]; split; [apply groups_spec; reflexivity|reflexivity]|]). lia.
Qed.
Print Assumptions C104_types.
(* The type that stands for an order or a table is one of its group that is
   not taller than wide. *)
Theorem C104_representatives : forall n, 
  (0 <= n < 13 -> exists t k, getByOrderID n = Ok t /\ In k kinds /\ in_groups order_groups k n /\ (tt_pixelHeight t, tt_pixelWidth t) = size k /\ tt_pixelHeight t <= tt_pixelWidth t) /\
  (0 <= n < 17 -> exists t k, getHorizontalTransformType n = Ok t /\ In k kinds /\ in_groups weight_groups k n /\ (tt_pixelHeight t, tt_pixelWidth t) = size k /\ tt_pixelHeight t <= tt_pixelWidth t).
Proof.
  assert (K : forall (f : Z -> Outcome TransformType) gs n t, f n = Ok t -> nth_error allDCT (Z.to_nat (tt_type t)) = Some t -> (Z.to_nat (tt_type t) < 27)%nat ->
    map (fun f => f (nth (Z.to_nat (tt_type t)) kinds (Dct 0 0))) gs = map (fun i => Z.of_nat i =? n) (seq 0 (length gs)) -> (tt_pixelHeight t <=? tt_pixelWidth t) = true ->
    exists t k, f n = Ok t /\ In k kinds /\ in_groups gs k n /\ (tt_pixelHeight t, tt_pixelWidth t) = size k /\ tt_pixelHeight t <= tt_pixelWidth t).
  { intros f gs n t E1 E2 L G W. exists t, (nth (Z.to_nat (tt_type t)) kinds (Dct 0 0)). split; [exact E1|]. split; [apply nth_In; exact L|]. split; [apply groups_spec; exact G|].
    destruct (proj2 C104_types _ L) as (t' & E3 & _ & S & _). rewrite E2 in E3. injection E3 as <-. split; [exact S|]. apply Z.leb_le. exact W. }
  intros n. split; intros Hn.
  - assert (X : exists m, n = Z.of_nat m /\ (m < 13)%nat) by (exists (Z.to_nat n); lia). destruct X as (m & -> & Hm).
    do 13 (destruct m as [|m]; [eapply K; [reflexivity|reflexivity|cbn; lia|reflexivity|reflexivity]|]). lia.
  - assert (X : exists m, n = Z.of_nat m /\ (m < 17)%nat) by (exists (Z.to_nat n); lia). destruct X as (m & -> & Hm).
    do 17 (destruct m as [|m]; [eapply K; [reflexivity|reflexivity|cbn; lia|reflexivity|reflexivity]|]). lia.
Qed.
Print Assumptions C104_representatives.
(* The method of a type selects the inverse transform of its kind.  Missing:
   the 4x4 DCT, which is not implemented. *)
Definition inverse (k : kind) (tt : TTPtr) (height width : nat) (coeffs buffer : list (list R)) (ppg ppf : Z * Z) (s0 s1 s2 s3 : list (list R)) : Outcome (list (list R)) :=
  match k with
  | Dct _ _ => obind (InverseDCT2D coeffs buffer ppg ppf height width s0 s1 false) (fun r => Ok (fst (fst r)))
  | Dct8x4 => obind (invertDCT8_4 coeffs buffer ppg ppf s0 s1 s2) (fun r => Ok (fst (fst (fst r))))
  | Dct4x8 => obind (invertDCT4_8 coeffs buffer ppg ppf s0 s1 s2) (fun r => Ok (fst (fst (fst r))))
  | Afv _ => obind (invertAFV coeffs buffer tt ppg ppf s0 s1 s2 s3) (fun r => Ok (fst (fst (fst (fst r)))))
  | Dct2 => obind (invertDCT2 coeffs buffer ppg ppf s0 s1) (fun r => Ok (fst (fst r)))
  | Hornuss => obind (invertHornuss coeffs buffer ppg ppf s0 s1) (fun r => Ok (fst (fst r)))
  | Dct4 => Err
  end.
Theorem C104_methods_partial : forall n t, (n < 27)%nat -> n <> 3%nat -> nth_error allDCT n = Some t ->
  forall tt height width coeffs buffer ppg ppf s0 s1 s2 s3, invertBlock (tt_method t) tt height width coeffs buffer ppg ppf s0 s1 s2 s3 = inverse (nth n kinds (Dct 0 0)) tt height width coeffs buffer ppg ppf s0 s1 s2 s3.
Proof.
  intros n t Hn N3 E. do 27 (destruct n as [|n]; [injection E as <-; first [exfalso; apply N3; reflexivity|intros; reflexivity]|]). lia.
Qed.
Print Assumptions C104_methods_partial.
(* Finding: the 4x4 DCT panics. *)
Theorem C104_dct4_refuted : forall t, nth_error allDCT 3 = Some t -> nth 3 kinds (Dct 0 0) = Dct4 /\
  forall tt height width coeffs buffer ppg ppf s0 s1 s2 s3, invertBlock (tt_method t) tt height width coeffs buffer ppg ppf s0 s1 s2 s3 = Panic.
Proof. intros t E. injection E as <-. split; reflexivity. Qed.
Print Assumptions C104_dct4_refuted.
Example C104_example : exists t, nth_error allDCT 9 = Some t /\ tt_orderID t = 5 /\ tt_parameterIndex t = 7 /\ tt_flip t = false.
Proof. eexists. split; [reflexivity|]. repeat split. Qed.
