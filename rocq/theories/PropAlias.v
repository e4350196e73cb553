(* Properties of the alias tables: C95. *)
From Coq Require Import ZArith List Bool Lia ZifyBool ZifyNat.
From Verif Require Import GoBase GoLoop Bits ModelBitReader ModelEntropy SpecEntropy SpecAlias ProofAlias ProofANS ProofAliasStd.
Import ListNotations.
Open Scope Z_scope.

(* ---- C95: the alias tables of the standard ---- *)
(* Every distribution over several symbols, and every one described by its
   only symbol, gets the table of the standard.  Missing: a distribution
   described by frequencies that leave a single symbol (see below). *)
Theorem C95_table_partial : forall las a u fs, 0 <= las <= 12 -> Forall (fun f => 0 <= f) fs -> sumZ fs = 4096 ->
  (u = -1 /\ Z.of_nat (length fs) <= 2 ^ las /\ ~ In 4096 fs) \/ (0 <= u /\ nth_error fs (Z.to_nat u) = Some 4096) ->
  exists cut sym off, generateAliasMapping las a u fs = Ok (AnsDist (12 - las) fs cut sym off) /\
    alias_standard las fs (alias_slot (2 ^ (12 - las)) cut sym off).
Proof.
  intros las a u fs Hl Hf Hs [(-> & Hn & Hi)|[Hu Hn]]; [exact (standard_table las a fs Hl Hf Hs Hn Hi)|].
  rewrite <- (Z2Nat.id u Hu). apply single_table; assumption.
Qed.
Print Assumptions C95_table_partial.
(* The standard leaves no choice. *)
Theorem C95_one_table : forall las fs slot slot', 0 <= las <= 12 -> Forall (fun f => 0 <= f) fs -> sumZ fs = 4096 ->
  alias_standard las fs slot -> alias_standard las fs slot' -> forall k, 0 <= k < 4096 -> slot k = slot' k.
Proof. intros las fs s s' Hl Hf Hs A B. exact (standard_det las fs s s' Hl Hf Hs A B). Qed.
Print Assumptions C95_one_table.

(* Finding: the frequencies 0, 4096, 0, sent one by one, get another table
   than the standard has for a single symbol: slot 0 is offset 128 of it
   instead of 0, so that reading a symbol changes the state. *)
Theorem C95_single_refuted : exists d cut sym off,
  fst (NewANSSymbolDistribution 5 (NewBitStreamReader d)) = Ok (AnsDist 7 [0; 4096; 0] cut sym off) /\
  forall slot, alias_standard 5 [0; 4096; 0] slot -> alias_slot 128 cut sym off 0 <> slot 0.
Proof.
  exists [16; 3; 17; 0; 0]. eexists _, _, _. split; [lazy; reflexivity|]. intros slot [u Hu H|N]; [|exfalso; apply N; cbn; auto].
  rewrite (H 0) by lia. do 3 (destruct u as [|u]; [try discriminate Hu; lazy; discriminate|]). destruct u; discriminate Hu.
Qed.
Print Assumptions C95_single_refuted.

Example C95_example : let fs := [3000; 0; 1000; 96] in
  Forall (fun f => 0 <= f) fs /\ sumZ fs = 4096 /\ ~ In 4096 fs /\ forall slot, alias_standard 5 fs slot -> slot 300 = (2, 44).
Proof.
  cbv zeta. assert (A : Forall (fun f => 0 <= f) [3000; 0; 1000; 96]) by (repeat constructor; lia). assert (B : ~ In 4096 [3000; 0; 1000; 96]) by (cbn; lia).
  split; [exact A|]. split; [reflexivity|]. split; [exact B|]. intros slot H.
  destruct (C95_table_partial 5 4 (-1) [3000; 0; 1000; 96] ltac:(lia) A eq_refl) as (cut & sym & off & E & S); [left; cbn; repeat split; try lia; exact B|].
  rewrite <- (C95_one_table 5 _ _ slot ltac:(lia) A eq_refl S H 300 ltac:(lia)).
  assert (G : match generateAliasMapping 5 4 (-1) [3000; 0; 1000; 96] with Ok (AnsDist 7 _ cut sym off) => alias_slot 128 cut sym off 300 = (2, 44) | _ => False end) by (vm_compute; reflexivity).
  rewrite E in G. exact G.
Qed.
