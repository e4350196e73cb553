(* Independent description of a pass of HF coefficients: the scan orders that
   are sent and the code of the coefficients. *)
From Coq Require Import ZArith List Bool Sorted.
From Verif Require Import SpecCodes SpecHF SpecToc SpecGrammar SpecDist SpecStream SpecSymbols.
Import ListNotations.
Open Scope Z_scope.

(* The natural order of positions (row, column) *)
Definition natural_order (o : Z) (l : list (Z * Z)) : Prop :=
  let h := fst (order_cells o) in let w := snd (order_cells o) in
  StronglySorted (natural_before h w) l /\ forall p, In p l <-> 0 <= fst p < 8 * h /\ 0 <= snd p < 8 * w.
(* Permutations are sent as Lehmer codes behind the LF corner, without zeros
   at the end; the context of a number is its predecessor's length. *)
Fixpoint lehmer_symbols (prev : Z) (cs : list Z) : list (Z * Z) :=
  match cs with [] => [] | c :: cs => (toc_ctx prev, c) :: lehmer_symbols c cs end.
Definition order_symbols (size : Z) (l : list (Z * Z)) (perm : list Z) : Prop :=
  exists cs, lehmer_ok (size - size / 64) cs /\ Z.of_nat (length cs) <= size - size / 64 /\
    l = (toc_ctx size, Z.of_nat (length cs)) :: lehmer_symbols 0 cs /\ perm = lehmer_decode (iota size) (full_code size (size / 64) cs).
Definition reorder (natural : list (Z * Z)) (perm : list Z) : list (Z * Z) := map (fun i => nth (Z.to_nat i) natural (0, 0)) perm.
(* Orders of the set used are sent for each channel, the others are natural. *)
Inductive orders_send (natural : Z -> list (Z * Z)) (used : Z) (order : Z -> nat -> list (Z * Z)) : list (Z * nat) -> list (Z * Z) -> Prop :=
| os_nil : orders_send natural used order [] []
| os_natural o c t l : Z.testbit used o = false -> order o c = natural o -> orders_send natural used order t l -> orders_send natural used order ((o, c) :: t) l
| os_sent o c t perm l l' : Z.testbit used o = true -> order_symbols (Z.of_nat (length (natural o))) l perm -> order o c = reorder (natural o) perm ->
    orders_send natural used order t l' -> orders_send natural used order ((o, c) :: t) (l ++ l').
Definition all_orders : list (Z * nat) := flat_map (fun o => [(o, 0); (o, 1); (o, 2)]%nat) [0; 1; 2; 3; 4; 5; 6; 7; 8; 9; 10; 11; 12].
(* contexts: how many contexts the coefficients have; h: their code *)
Definition pass_bits (natural : Z -> list (Z * Z)) (order : Z -> nat -> list (Z * Z)) (contexts : Z) (h : header) (c : list bool) : Prop :=
  exists used uc pc hc, c_u32 95 0 19 0 0 0 0 13 uc used /\
    (if used =? 0 then pc = [] /\ orders_send natural used order all_orders []
     else exists ph l sc x phc, header_code cluster_map proper_dist 8 true phc ph /\ described ph /\ orders_send natural used order all_orders l /\ Z.of_nat (length l) < 2 ^ 31 /\
       symbols ph 0 sst0 l sc x /\ (ss_x x = None \/ ss_x x = Some 1245184) /\ pc = phc ++ sc) /\
    header_code cluster_map proper_dist contexts true hc h /\ described h /\ c = uc ++ pc ++ hc.
