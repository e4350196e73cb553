(* Independent description of the ISO BMFF style container. *)
From Coq Require Import ZArith List Bool.
From Verif Require Import SpecBitReader ModelBoxes.
Import ListNotations.
Open Scope Z_scope.

(* Big-endian value of a byte string. *)
Fixpoint be (l : list Z) : Z :=
  match l with [] => 0 | b :: t => b * 256 ^ Z.of_nat (length t) + be t end.
(* n bytes of d from offset o. *)
Definition sub (d : list Z) (o n : nat) : list Z := firstn n (skipn o d).
(* Big-endian 32-bit encoding. *)
Definition be4 (n : Z) : list Z := [n / 2 ^ 24 mod 256; n / 2 ^ 16 mod 256; n / 2 ^ 8 mod 256; n mod 256].

Definition signature : list Z := [0; 0; 0; 12; 74; 88; 76; 32; 13; 10; 135; 10].
Definition t_jxlc : list Z := [106; 120; 108; 99].   (* "jxlc" *)
Definition t_jxlp : list Z := [106; 120; 108; 112].  (* "jxlp" *)
Definition t_jxll : list Z := [106; 120; 108; 108].  (* "jxll" *)

Definition starts_with (d p : list Z) : Prop := exists r, d = p ++ r.

(* Size the scanner derives from a size field n (8-byte header). *)
Definition body_size (n : Z) : Z := if n =? 0 then 0 else (n - 8) mod 2 ^ 64.

(* A codestream box whose header starts at h, whose body starts at off and
   has the given size, as far as the header bytes say. *)
Inductive declared (d : list Z) : nat -> BoxHeader -> Prop :=
| dc_c h sz tg : (h + 8 <= length d)%nat -> sub d (h + 4) 4 = t_jxlc -> tg = be t_jxlc ->
    be (sub d h 4) <> 1 -> sz = body_size (be (sub d h 4)) ->
    declared d h (mkBox tg sz false (Z.of_nat (h + 8)))
| dc_p h sz tg : (h + 12 <= length d)%nat -> sub d (h + 4) 4 = t_jxlp -> tg = be t_jxlp ->
    be (sub d h 4) <> 1 -> sz = (body_size (be (sub d h 4)) - 4) mod 2 ^ 64 ->
    declared d h (mkBox tg sz false (Z.of_nat (h + 12)))
| dc_c8 h sz tg : (h + 16 <= length d)%nat -> sub d (h + 12) 4 = t_jxlc -> tg = be t_jxlc ->
    be (sub d h 4) = 1 -> sz = body_size (body_size (be (sub d (h + 4) 8))) ->
    declared d h (mkBox tg sz false (Z.of_nat (h + 16)))
| dc_p8 h sz tg : (h + 20 <= length d)%nat -> sub d (h + 12) 4 = t_jxlp -> tg = be t_jxlp ->
    be (sub d h 4) = 1 -> sz = (body_size (body_size (be (sub d (h + 4) 8))) - 4) mod 2 ^ 64 ->
    declared d h (mkBox tg sz false (Z.of_nat (h + 20))).

(* The reported boxes in file order, headers not overlapping, from offset o. *)
Fixpoint scan_order (d : list Z) (o : nat) (l : list BoxHeader) : Prop :=
  match l with
  | [] => True
  | b :: t => exists h, (o <= h)%nat /\ declared d h b /\ scan_order d (Z.to_nat (bh_offset b)) t
  end.

(* Well-formed containers: boxes with 32-bit sizes. *)
Inductive box :=
| BCode (payload : list Z)
| BPart (index payload : list Z)
| BLevel (l : Z)
| BOther (tag payload : list Z).
Definition enc_body (b : box) : list Z * list Z :=
  match b with
  | BCode p => (t_jxlc, p)
  | BPart i p => (t_jxlp, i ++ p)
  | BLevel l => (t_jxll, [l])
  | BOther t p => (t, p)
  end.
Definition enc_box (b : box) : list Z :=
  let '(t, p) := enc_body b in be4 (8 + Z.of_nat (length p)) ++ t ++ p.
Definition wf_box (b : box) : Prop :=
  Forall is_byte (enc_box b) /\ Z.of_nat (length (enc_box b)) < 2 ^ 29 /\
  match b with
  | BCode _ => True
  | BPart i _ => length i = 4%nat
  | BLevel l => l = 5 \/ l = 10
  | BOther t p => length t = 4%nat /\ p <> [] /\ t <> t_jxlc /\ t <> t_jxlp /\ t <> t_jxll
  end.
(* What a reader of the container must report: the codestream boxes with
   type, body size and body offset; the last level. *)
Fixpoint code_boxes (o : nat) (l : list box) : list BoxHeader :=
  match l with
  | [] => []
  | b :: t =>
      match b with
      | BCode p => [mkBox (be t_jxlc) (Z.of_nat (length p)) false (Z.of_nat (o + 8))]
      | BPart _ p => [mkBox (be t_jxlp) (Z.of_nat (length p)) false (Z.of_nat (o + 12))]
      | _ => []
      end ++ code_boxes (o + length (enc_box b)) t
  end.
Fixpoint last_level (lv : Z) (l : list box) : Z :=
  match l with [] => lv | BLevel v :: t => last_level v t | _ :: t => last_level lv t end.
