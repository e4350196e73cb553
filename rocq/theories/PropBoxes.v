(* Theorems about the container scanner and the decoder entry. *)
From Coq Require Import ZArith List Bool Lia Arith ZifyBool.
From Verif Require Import GoBase ModelBitReader ModelBoxes SpecBitReader SpecBoxes ProofBoxes.
Import ListNotations.
Open Scope Z_scope.

(* C10.  Termination (the fuel, one more than the number of bytes, always
   suffices), offsets inside the input, in order, at least eight header bytes
   per box, sizes those declared by codestream headers (body_size gives the
   64-bit arithmetic of the scanner), level 5 or 10. *)
Theorem C10_scan_partial :
  forall d, Forall is_byte d ->
  exists o s, ReadBoxHeader (S (length d)) (NewBitStreamReader d) = Some (o, s) /\
    match o with
    | Ok (level, boxes) =>
        (level = 5 \/ level = 10) /\
        ((sub d 0 12 = signature /\ scan_order d 12 boxes) \/
         (sub d 0 12 <> signature /\ level = 5 /\ boxes = [mkBox (be t_jxlc) 0 true 0]))
    | _ => True
    end.
Proof.
  intros d Hd. destruct (scan_total d Hd) as (o & s & E & H). exists o, s. split; auto.
  destruct o as [[lv boxes]| |]; auto. destruct H as (H1 & _ & _ & _ & H2). auto.
Qed.
Print Assumptions C10_scan_partial.

(* In a scan order every offset lies in the input, at least 8 bytes after the
   previous one. *)
Theorem C10_offsets_partial :
  forall d l o, scan_order d o l ->
  forall i b, nth_error l i = Some b ->
    Z.of_nat o + 8 * (Z.of_nat i + 1) <= bh_offset b <= Z.of_nat (length d) /\
    (bh_type b = be t_jxlc \/ bh_type b = be t_jxlp).
Proof.
  intros d. induction l as [|c l IH]; intros o Hs i b Hn; [destruct i; discriminate|].
  destruct Hs as (h & Ho & Hd & Hs). pose proof (declared_offset _ _ _ Hd) as Hb.
  destruct i as [|i].
  - injection Hn as <-. split; [lia|]. destruct Hd; cbn [bh_type]; auto.
  - cbn [nth_error] in Hn. destruct (IH _ Hs i b Hn) as (H1 & H2). split; auto. lia.
Qed.
Print Assumptions C10_offsets_partial.

(* Finding: a "jxlp" box of declared size 8 is reported with size 2^64-4. *)
Theorem C10_positive_size_refuted :
  exists d s, Forall is_byte d /\
    ReadBoxHeader (S (length d)) (NewBitStreamReader d) =
      Some (Ok (5, [mkBox (be t_jxlp) (2 ^ 64 - 4) false 24]), s).
Proof.
  exists (signature ++ [0; 0; 0; 8] ++ t_jxlp ++ [0; 0; 0; 0] ++ [1]). eexists. split.
  - unfold is_byte. cbn. repeat constructor; lia.
  - lazy. reflexivity.
Qed.
Print Assumptions C10_positive_size_refuted.

(* Finding: a container without a codestream box makes the decoder panic
   (index 0 of an empty list), and so does an empty box of any other kind. *)
Theorem C10_no_codestream_refuted :
  decodeEntry signature = Some Panic /\
  decodeEntry (signature ++ [0; 0; 0; 8; 102; 114; 101; 101] ++ enc_box (BCode [255; 10; 1])) = Some Panic.
Proof. split; lazy; reflexivity. Qed.
Print Assumptions C10_no_codestream_refuted.

Definition ex_boxes : list box :=
  [BLevel 10; BOther [102; 116; 121; 112] [106; 120; 108; 32]; BPart [0; 0; 0; 0] [255; 10; 1; 2];
   BPart [128; 0; 0; 1] [3; 4; 5]].
Definition ex_container : list Z := signature ++ concat (map enc_box ex_boxes).
Example C10_example :
  Forall is_byte ex_container /\
  exists s, ReadBoxHeader (S (length ex_container)) (NewBitStreamReader ex_container) =
    Some (Ok (10, [mkBox (be t_jxlp) 4 false 45; mkBox (be t_jxlp) 3 false 61]), s).
Proof.
  split.
  - unfold is_byte. vm_compute. repeat constructor; discriminate.
  - eexists. lazy. reflexivity.
Qed.

(* C11 *)
Theorem C11_classification :
  forall d, Forall is_byte d ->
  ((length d < 12)%nat -> decodeEntry d = Some Err) /\
  ((12 <= length d)%nat -> ~ starts_with d signature -> starts_with d [255; 10] ->
     exists s, decodeEntry d = Some (Ok (EntryCodestream 0 5 s)) /\ reader_at s d 16) /\
  ((12 <= length d)%nat -> ~ starts_with d signature -> ~ starts_with d [255; 10] ->
     decodeEntry d = Some Err) /\
  (starts_with d signature -> forall off lv s, decodeEntry d = Some (Ok (EntryCodestream off lv s)) ->
     20 <= off /\ sub d (Z.to_nat off) 2 = [255; 10] /\ reader_at s d (8 * Z.to_nat off + 16)).
Proof. exact classify. Qed.
Print Assumptions C11_classification.

Example C11_example :
  let d := [255; 10; 1; 2; 3; 4; 5; 6; 7; 8; 9; 10] in
  Forall is_byte d /\ ~ starts_with d signature /\ starts_with d [255; 10] /\
  starts_with ex_container signature /\
  exists s, decodeEntry ex_container = Some (Ok (EntryCodestream 45 10 s)).
Proof.
  cbv zeta. split; [unfold is_byte; repeat constructor; lia|]. split; [intros [r H]; discriminate|].
  split; [eexists; reflexivity|]. split; [eexists; reflexivity|]. eexists. lazy. reflexivity.
Qed.

(* C12.  Proved when the codestream has at least nine bytes, starts with the
   codestream marker, bytes 4..7 are not a box tag the scanner knows, and the
   file is shorter than 2^28 bytes. *)
Theorem C12_open_ended_partial :
  forall bs tg c e p,
  let payload := [255; 10; c; e] ++ tg ++ p in
  let d := signature ++ concat (map enc_box bs) ++ [0; 0; 0; 0] ++ t_jxlc ++ payload in
  let o := (12 + length (concat (map enc_box bs)) + 8)%nat in
  Forall is_byte d -> Forall wf_box bs -> p <> [] -> length tg = 4%nat ->
  tg <> t_jxlc -> tg <> t_jxlp -> tg <> t_jxll -> Z.of_nat (length d) < 2 ^ 28 ->
  exists s, ReadBoxHeader (S (length d)) (NewBitStreamReader d) =
    Some (Ok (last_level 5 bs, code_boxes 12 bs ++ [mkBox (be t_jxlc) 0 false (Z.of_nat o)]), s) /\
    sub d o (length payload) = payload /\ (o + length payload)%nat = length d.
Proof.
  intros bs tg c e p payload d o Hd Hw Hp Ht N1 N2 N3 Hmax.
  assert (Hlen : (length d = o + length payload)%nat).
  { unfold d, o. rewrite !app_length. cbn. lia. }
  assert (Hbs : (length bs <= length (concat (map enc_box bs)))%nat).
  { clear - Hw. induction Hw as [|b bs Hb Hw IH]; cbn [map concat length]; [lia|]. rewrite app_length.
    pose proof (enc_box_length b Hb). lia. }
  assert (H12 : (12 <= length d)%nat) by (unfold o in Hlen; lia).
  rewrite (header_ok d _ Hd). destruct (Nat.ltb_spec (length d) 12); [lia|].
  assert (Hsig : sub d 0 12 = JPEGXL_CONTAINER_HEADER) by reflexivity.
  rewrite (proj2 (bytes_eqb_eq _ _) Hsig).
  pose proof (al_12 d Hd H12) as Ha.
  set (f := (length d - length bs - 2)%nat).
  replace (S (length d)) with (length bs + S (S (S f)))%nat.
  2:{ unfold f, o in *. assert ((9 <= length payload)%nat).
      { unfold payload. rewrite !app_length. cbn. destruct p; [congruence|cbn; lia]. } lia. }
  destruct (boxLoop_prefix d bs (S (S (S f))) 5 [] _ ([0; 0; 0; 0] ++ t_jxlc ++ payload) Ha eq_refl Hw) as
    (s1 & -> & Ha1 & Hd1 & Hp1 & Hr1).
  { cbn [br_pos]. reflexivity. }
  destruct (zero_box d (S (S f)) (last_level 5 bs) ([] ++ code_boxes 12 bs) s1 payload Ha1 Hd1 Hr1) as (s2 & E2 & Ha2 & Hd2 & Hp2).
  cbn [br_pos] in *. rewrite E2.
  assert (Hr2 : skipn (br_pos s2) d = payload).
  { rewrite Hp2. change ([0; 0; 0; 0] ++ t_jxlc ++ payload) with (([0; 0; 0; 0] ++ t_jxlc) ++ payload) in Hr1.
    exact (skipn_app_at _ _ _ _ Hr1). }
  destruct (zero_tail d f (last_level 5 bs) (([] ++ code_boxes 12 bs) ++ [mkBox (be t_jxlc) 0 false (Z.of_nat (br_pos s1 + 8))])
              s2 p 255 10 c e tg Ha2 Hd2 Hr2 Hp Ht N1 N2 N3 eq_refl eq_refl Hmax) as (s3 & ->).
  exists s3. split; [rewrite Hp1; reflexivity|]. split; auto.
  assert (Eo : o = br_pos s2) by (unfold o; lia). unfold sub. rewrite Eo, Hr2. apply firstn_all.
Qed.
Print Assumptions C12_open_ended_partial.

(* Finding: an 8-byte codestream in an open-ended box is scanned as if it
   were another box: the reader faults or fails although the codestream is
   complete. *)
Theorem C12_open_ended_refuted :
  decodeEntry (signature ++ [0; 0; 0; 0] ++ t_jxlc ++ [255; 10; 1; 2; 3; 4; 5; 6]) = Some Err /\
  decodeEntry (signature ++ [0; 0; 0; 0] ++ t_jxlc ++ [255; 10; 1; 2] ++ t_jxll ++ [1; 2]) = Some Err.
Proof. split; lazy; reflexivity. Qed.
Print Assumptions C12_open_ended_refuted.

Example C12_example :
  exists s, decodeEntry (signature ++ enc_box (BLevel 10) ++ [0; 0; 0; 0] ++ t_jxlc ++ [255; 10; 1; 2; 3; 4; 5; 6; 7]) =
    Some (Ok (EntryCodestream 29 10 s)).
Proof. eexists. lazy. reflexivity. Qed.

(* C51.  Containers built from boxes with 32-bit sizes report exactly their
   codestream boxes: type, size, offset, in order, and the last level. *)
Theorem C51_container_partial :
  forall bs, let d := signature ++ concat (map enc_box bs) in
  Forall wf_box bs ->
  exists s, ReadBoxHeader (S (length d)) (NewBitStreamReader d) =
    Some (Ok (last_level 5 bs, code_boxes 12 bs), s).
Proof.
  intros bs d Hw.
  assert (Hd : Forall is_byte d).
  { unfold d. apply Forall_app. split; [unfold is_byte; repeat constructor; lia|].
    clear d. induction Hw as [|b bs Hb Hw IH]; cbn [map concat]; [constructor|]. apply Forall_app. split; auto. apply Hb. }
  assert (H12 : (12 <= length d)%nat) by (unfold d; rewrite app_length; cbn; lia).
  rewrite (header_ok d _ Hd). destruct (Nat.ltb_spec (length d) 12); [lia|].
  rewrite (proj2 (bytes_eqb_eq (sub d 0 12) JPEGXL_CONTAINER_HEADER) eq_refl).
  destruct (boxLoop_wf d bs (S (length d)) 5 [] _ (al_12 d Hd H12) eq_refl Hw) as (s & -> & _ & _).
  - reflexivity.
  - assert (Hbs : (length bs <= length (concat (map enc_box bs)))%nat).
    { clear - Hw. induction Hw as [|b bs Hb Hw IH]; cbn [map concat length]; [lia|]. rewrite app_length.
      pose proof (enc_box_length b Hb). lia. }
    unfold d. rewrite app_length. lia.
  - exists s. reflexivity.
Qed.
Print Assumptions C51_container_partial.

(* Finding: a box in the 64-bit size form (size field 1, type, then an 8-byte
   size, as ISO/IEC 14496-12 and 18181-2 lay it out) is misread: the size is
   taken from the bytes before the type, so the codestream is missed. *)
Definition large_box (t p : list Z) : list Z :=
  [0; 0; 0; 1] ++ t ++ [0; 0; 0; 0] ++ be4 (16 + Z.of_nat (length p)) ++ p.
Theorem C51_large_size_refuted :
  decodeEntry (signature ++ large_box t_jxlc [255; 10; 1; 2; 3; 4]) <> None /\
  (forall off lv s, decodeEntry (signature ++ large_box t_jxlc [255; 10; 1; 2; 3; 4]) <>
     Some (Ok (EntryCodestream off lv s))).
Proof.
  assert (E : decodeEntry (signature ++ large_box t_jxlc [255; 10; 1; 2; 3; 4]) = Some Err) by (lazy; reflexivity).
  rewrite E. split; [discriminate|]. intros; discriminate.
Qed.
Print Assumptions C51_large_size_refuted.

(* Finding: an empty box of an unknown kind makes the scanner panic. *)
Theorem C51_empty_box_refuted :
  forall bs t r, let d := signature ++ concat (map enc_box bs) ++ [0; 0; 0; 8] ++ t ++ r in
  Forall is_byte d -> Forall wf_box bs -> length t = 4%nat ->
  t <> t_jxlc -> t <> t_jxlp -> t <> t_jxll -> decodeEntry d = Some Panic.
Proof.
  intros bs t r d Hd Hw H4 N1 N2 N3.
  assert (Hbs : (length bs <= length (concat (map enc_box bs)))%nat).
  { clear - Hw. induction Hw as [|b bs Hb Hw IH]; cbn [map concat length]; [lia|]. rewrite app_length.
    pose proof (enc_box_length b Hb). lia. }
  assert (Hl : (12 + length (concat (map enc_box bs)) <= length d)%nat).
  { unfold d. rewrite !app_length. cbn. lia. }
  rewrite decodeEntry_unfold, (header_ok d _ Hd). destruct (Nat.ltb_spec (length d) 12); [lia|].
  rewrite (proj2 (bytes_eqb_eq (sub d 0 12) JPEGXL_CONTAINER_HEADER) eq_refl).
  assert (H12 : (12 <= length d)%nat) by lia.
  replace (S (length d)) with (length bs + S (length d - length bs))%nat by lia.
  destruct (boxLoop_prefix d bs (S (length d - length bs)) 5 [] _ ([0; 0; 0; 8] ++ t ++ r) (al_12 d Hd H12) eq_refl Hw) as
    (s1 & -> & Ha1 & Hd1 & Hp1 & Hr1). { reflexivity. }
  edestruct (empty_other d (length d - length bs)) as (s2 & ->); [exact Ha1|exact Hd1|exact Hr1|auto..].
Qed.
Print Assumptions C51_empty_box_refuted.

Example C51_example :
  Forall wf_box ex_boxes /\ code_boxes 12 ex_boxes =
    [mkBox (be t_jxlp) 4 false 45; mkBox (be t_jxlp) 3 false 61] /\ last_level 5 ex_boxes = 10.
Proof.
  split; [|split; lazy; reflexivity].
  assert (B : forall b, (forallb (fun x => (0 <=? x) && (x <? 256)) (enc_box b) = true) -> Forall is_byte (enc_box b)).
  { intros b H. apply Forall_forall. intros x Hx. rewrite forallb_forall in H. specialize (H x Hx). unfold is_byte. lia. }
  assert (C : forall b, (Z.of_nat (length (enc_box b)) <? 2 ^ 29) = true -> Z.of_nat (length (enc_box b)) < 2 ^ 29) by (intros; lia).
  unfold ex_boxes. constructor; [|constructor; [|constructor; [|constructor; [|constructor]]]];
    (split; [apply B; reflexivity|split; [apply C; reflexivity|]]).
  - now right.
  - split; [reflexivity|]. split; [discriminate|]. split; [discriminate|]. split; discriminate.
  - reflexivity.
  - reflexivity.
Qed.

(* C52.  Finding: decode can return neither an image nor an error. *)
Theorem C52_no_result_refuted :
  exists d, Forall is_byte d /\ decodeEntry d = Some (Ok EntryNil).
Proof.
  exists (signature ++ enc_box (BCode [])). split; [|lazy; reflexivity].
  unfold is_byte. vm_compute. repeat constructor; discriminate.
Qed.
Print Assumptions C52_no_result_refuted.

(* It happens only for containers whose first codestream box begins exactly
   at the end of the file. *)
Theorem C52_no_result_partial :
  forall d, Forall is_byte d -> decodeEntry d = Some (Ok EntryNil) ->
  starts_with d signature /\
  exists level b bs s, ReadBoxHeader (S (length d)) (NewBitStreamReader d) = Some (Ok (level, b :: bs), s) /\
    bh_offset b = Z.of_nat (length d).
Proof.
  intros d Hd. rewrite decodeEntry_unfold. destruct (scan_total d Hd) as (o & s & E & Ho). rewrite E.
  destruct o as [[l boxes]| |]; try discriminate.
  destruct boxes as [|b t]; [discriminate|]. intros H.
  destruct Ho as (_ & Ha & Ed & Hl & [(Hs & Hsc)|(Hc & -> & Hb)]).
  - split; [apply starts_sub; exact Hs|]. exists l, b, t, s. split; auto.
    destruct Hsc as (h & Hh & Hdc & _). pose proof (declared_offset _ _ _ Hdc) as Hb.
    pose proof (entry_ok d l b _ Ha Ed ltac:(lia)) as K. cbv zeta in K.
    destruct (Nat.eqb_spec (Z.to_nat (bh_offset b)) (length d)); [lia|].
    destruct (bytes_eqb _ _); [destruct K as (s' & K & _)|]; rewrite K in H; discriminate.
  - assert (Eb : b = mkBox (be t_jxlc) 0 true 0) by congruence. subst b.
    pose proof (entry_ok d 5 (mkBox (be t_jxlc) 0 true 0) _ Ha Ed ltac:(cbn; lia)) as K. cbv zeta in K.
    cbn [bh_offset] in K. change (Z.to_nat 0) with 0%nat in K.
    destruct (Nat.eqb_spec 0 (length d)); [lia|].
    destruct (bytes_eqb _ _); [destruct K as (s' & K & _)|]; rewrite K in H; discriminate.
Qed.
Print Assumptions C52_no_result_partial.

Example C52_example : decodeEntry (signature ++ enc_box (BLevel 5) ++ enc_box (BCode [])) = Some (Ok EntryNil).
Proof. lazy. reflexivity. Qed.
