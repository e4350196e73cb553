(* Property theorems C05-C09: writer/reader round trip, header integers, ICC
   varints, zig-zag, half floats. *)
From Coq Require Import ZArith List Bool Lia.
From Verif Require Import GoBase ModelBitReader ModelBitWriter SpecBitReader SpecCodes Bits
  ProofBitReader2 ProofReads ProofCodes ProofBitWriter.
Import ListNotations.
Open Scope Z_scope.

(* C05: any session of the bit writer is read back by the mirrored reads,
   which stop within the last byte. *)
Theorem C05_write_read_round_trip :
  forall l, Forall wop_ok l ->
  exists s' q, let d := Bytes (write_all l NewBitWriter) in
    read_all l (NewBitStreamReader d) = (Ok (map wop_value l), s') /\
    reader_at s' d q /\ (8 * length d < q + 8)%nat.
Proof. exact write_read_round_trip. Qed.
Print Assumptions C05_write_read_round_trip.

Example C05_example :
  let l := [WField 5 3; WByte 200; WField 1234567 21; WByte 0; WField 0 0; WByte 1] in
  Forall wop_ok l /\ Bytes (write_all l NewBitWriter) = [125; 228; 161; 181; 20] /\
  fst (read_all l (NewBitStreamReader [125; 228; 161; 181; 20])) = Ok [5; 200; 1234567; 0; 0; 1].
Proof. split; [repeat constructor; cbn; lia|]. split; vm_compute; reflexivity. Qed.

(* C06: header integers. *)
Theorem C06_u32 :
  forall c0 n0 c1 n1 c2 n2 c3 n3 i x, 0 <= i < 4 ->
  let c := nth (Z.to_nat i) [c0; c1; c2; c3] 0 in
  let n := nth (Z.to_nat i) [n0; n1; n2; n3] 0 in
  0 <= n <= 64 -> 0 <= x < 2 ^ n ->
  reads (ReadU32 c0 n0 c1 n1 c2 n2 c3 n3) (zbits 2 i ++ zbits (Z.to_nat n) x) ((c + x) mod 2 ^ 32).
Proof. exact ReadU32_reads. Qed.
Print Assumptions C06_u32.

Theorem C06_u64_decodes : forall c v, u64_code c v -> reads ReadU64 c v.
Proof. exact ReadU64_reads. Qed.
Print Assumptions C06_u64_decodes.

Theorem C06_u64_every_value :
  (forall v, 0 <= v < 2 ^ 64 -> exists c, u64_code c v) /\ yields ReadU64 (fun v => 0 <= v < 2 ^ 64).
Proof. split; [exact u64_code_exists|exact yields_u64]. Qed.
Print Assumptions C06_u64_every_value.

Theorem C06_u8 :
  (forall c v, u8_code c v -> reads ReadU8 c v) /\
  (forall v, 0 <= v <= 255 -> exists c, u8_code c v) /\ yields ReadU8 (fun v => 0 <= v <= 255).
Proof. split; [exact ReadU8_reads|]. split; [exact u8_code_exists|exact yields_u8]. Qed.
Print Assumptions C06_u8.

(* Enums: 2-bit selector, then 0, 1, 2 + 4 bits or 18 + 6 bits; values up to
   63 are returned, values above are an error. *)
Theorem C06_enum :
  reads ReadEnum (zbits 2 0) 0 /\ reads ReadEnum (zbits 2 1) 1 /\
  (forall x, 0 <= x < 16 -> reads ReadEnum (zbits 2 2 ++ zbits 4 x) (2 + x)) /\
  (forall x, 0 <= x < 64 -> 18 + x <= 63 -> reads ReadEnum (zbits 2 3 ++ zbits 6 x) (18 + x)) /\
  (forall x s d p, 0 <= x < 64 -> 63 < 18 + x -> reader_at s d p ->
     bits_at d p (zbits 2 3 ++ zbits 6 x) -> exists s', ReadEnum s = (Err, s')) /\
  yields ReadEnum (fun v => 0 <= v <= 63).
Proof.
  assert (R : forall i n x c, 0 <= i < 4 -> n = nth (Z.to_nat i) [0; 0; 4; 6] 0 ->
    c = nth (Z.to_nat i) [0; 1; 2; 18] 0 -> 0 <= x < 2 ^ n -> 
    reads (ReadU32 0 0 1 0 2 4 18 6) (zbits 2 i ++ zbits (Z.to_nat n) x) (u32 (c + x))).
  { intros i n x c Hi -> -> Hx. apply (ReadU32_reads 0 0 1 0 2 4 18 6); auto.
    assert (i = 0 \/ i = 1 \/ i = 2 \/ i = 3) as [->|[->|[->| ->]]] by lia; split; vm_compute; discriminate. }
  split; [|split; [|split; [|split; [|split]]]].
  - apply ReadEnum_reads; [lia|]. apply (R 0 0 0 0); cbn; auto; lia.
  - apply ReadEnum_reads; [lia|]. apply (R 1 0 0 1); cbn; auto; lia.
  - intros x Hx. apply ReadEnum_reads; [lia|]. rewrite <- (u32_small (2 + x)) by lia.
    apply (R 2 4 x 2); cbn; auto; lia.
  - intros x Hx H. apply ReadEnum_reads; [lia|]. rewrite <- (u32_small (18 + x)) by lia.
    apply (R 3 6 x 18); cbn; auto; lia.
  - intros x s d p Hx H Hr Hb.
    assert (HR : reads (ReadU32 0 0 1 0 2 4 18 6) (zbits 2 3 ++ zbits 6 x) (18 + x)).
    { rewrite <- (u32_small (18 + x)) by lia. apply (R 3 6 x 18); cbn; auto; lia. }
    destruct (HR s d p Hr Hb) as (s' & E & _). exists s'. unfold ReadEnum, rbind. rewrite E.
    destruct (Z.ltb_spec 63 (18 + x)); [reflexivity|lia].
  - exact yields_enum.
Qed.
Print Assumptions C06_enum.

Example C06_example :
  u64_code (zbits 2 3 ++ zbits 12 0xDEF ++ (true :: zbits 8 0xBC ++ (true :: zbits 8 0x9A ++ [false])))
           (0xDEF + (0xBC * 2 ^ Z.of_nat 12 + (0x9A * 2 ^ Z.of_nat 20 + 0))) /\
  fst (ReadU64 (NewBitStreamReader [0xBF; 0x77; 0xDE; 0x9A; 0])) = Ok 0x9ABCDEF /\
  u8_code (true :: zbits 3 (Z.of_nat 7) ++ zbits 7 72) (2 ^ Z.of_nat 7 + 72) /\
  fst (ReadU8 (NewBitStreamReader [143; 4])) = Ok 200.
Proof.
  split; [|split; [reflexivity|split; [|reflexivity]]].
  - constructor; [lia|]. constructor; [lia|lia|]. constructor; [cbn; lia|lia|]. constructor.
  - constructor; [lia|]. cbn. lia.
Qed.

(* C07: varints below 2^31 come back unchanged.  Missing from the full
   claim: larger values are altered without an error (refuted below). *)
Theorem C07_varint_partial :
  (forall l v, varint l v -> v < 2 ^ 31 -> reads ReadICCVarint (bytes_bits l) v) /\
  (forall v, 0 <= v -> exists l, varint l v).
Proof. split; [exact ReadICCVarint_reads|exact varint_exists]. Qed.
Print Assumptions C07_varint_partial.

(* Finding: the five-byte encoding of 2^32 + 5 is read as 5, and that of
   2^31 as a negative number; neither is reported. *)
Theorem C07_varint_refuted :
  varint [133; 128; 128; 128; 16] (2 ^ 32 + 5) /\
  fst (ReadICCVarint (NewBitStreamReader [133; 128; 128; 128; 16])) = Ok 5 /\
  varint [128; 128; 128; 128; 8] (2 ^ 31) /\
  fst (ReadICCVarint (NewBitStreamReader [128; 128; 128; 128; 8])) = Ok (- 2 ^ 31).
Proof.
  split; [|split; [reflexivity|split; [|reflexivity]]].
  - change [133; 128; 128; 128; 16] with [128 + 5; 128 + 0; 128 + 0; 128 + 0; 16].
    change (2 ^ 32 + 5) with (5 + 128 * (0 + 128 * (0 + 128 * (0 + 128 * 16)))).
    repeat (constructor; try lia).
  - change [128; 128; 128; 128; 8] with [128 + 0; 128 + 0; 128 + 0; 128 + 0; 8].
    change (2 ^ 31) with (0 + 128 * (0 + 128 * (0 + 128 * (0 + 128 * 8)))).
    repeat (constructor; try lia).
Qed.
Print Assumptions C07_varint_refuted.

Example C07_example :
  varint [128 + 44; 2] (44 + 128 * 2) /\
  fst (ReadICCVarint (NewBitStreamReader [172; 2])) = Ok 300.
Proof. split; [repeat (constructor; try lia)|reflexivity]. Qed.

(* C08: zig-zag, 32 and 64 bits.  Missing from the full claim: odd values
   with the top bit set. *)
Theorem C08_unpack_signed_partial :
  (forall u, 0 <= u < 2 ^ 32 -> Z.even u = true \/ u < 2 ^ 31 -> UnpackSigned u = unzigzag u) /\
  (forall u, 0 <= u < 2 ^ 64 -> Z.even u = true \/ u < 2 ^ 63 -> UnpackSigned64 u = unzigzag u).
Proof.
  split; intros u Hu H.
  - destruct (Z.even u) eqn:E; [now apply UnpackSigned_even|].
    rewrite UnpackSigned_odd by auto. destruct (Z.ltb_spec u (2 ^ 31)); auto. destruct H; [discriminate|lia].
  - destruct (Z.even u) eqn:E; [now apply UnpackSigned64_even|].
    rewrite UnpackSigned64_odd by auto. destruct (Z.ltb_spec u (2 ^ 63)); auto. destruct H; [discriminate|lia].
Qed.
Print Assumptions C08_unpack_signed_partial.

(* Finding: for every odd value with the top bit set the result is off by
   2^31 (2^63), so e.g. 0xFFFFFFFF and 0 both unpack to 0. *)
Theorem C08_unpack_signed_refuted :
  (forall u, 2 ^ 31 <= u < 2 ^ 32 -> Z.even u = false -> UnpackSigned u = unzigzag u + 2 ^ 31) /\
  (forall u, 2 ^ 63 <= u < 2 ^ 64 -> Z.even u = false -> UnpackSigned64 u = unzigzag u + 2 ^ 63) /\
  UnpackSigned 0xFFFFFFFF = UnpackSigned 0 /\ UnpackSigned64 0xFFFFFFFFFFFFFFFF = UnpackSigned64 0.
Proof.
  split; [|split; [|split; reflexivity]]; intros u Hu H.
  - rewrite UnpackSigned_odd by (auto; lia). destruct (Z.ltb_spec u (2 ^ 31)); auto. lia.
  - rewrite UnpackSigned64_odd by (auto; lia). destruct (Z.ltb_spec u (2 ^ 63)); auto. lia.
Qed.
Print Assumptions C08_unpack_signed_refuted.

Example C08_example : UnpackSigned 7 = -4 /\ UnpackSigned 0xFFFFFFFE = 0x7FFFFFFF /\
  unzigzag 7 = -4 /\ UnpackSigned64 0x7FFFFFFFFFFFFFFF = - 2 ^ 62.
Proof. repeat split. Qed.

(* C09: half floats. *)
Theorem C09_half_float :
  forall c, length c = 16%nat ->
  (half_exp_field (bz c) <> 31 ->
     exists r, reads ReadF16 c r /\ f_neg r = half_sign (bz c) /\
       same_value (f_mant r) (f_exp r) (half_mant (bz c)) (half_exp (bz c))) /\
  (half_exp_field (bz c) = 31 ->
     forall s d p, reader_at s d p -> bits_at d p c -> exists s', ReadF16 s = (Err, s')).
Proof.
  intros c Hc. split; [|now apply reads_err_bits16]. intros He.
  destruct (ReadF16_reads c Hc He) as (r & H1 & H2 & H3 & _). eauto.
Qed.
Print Assumptions C09_half_float.

(* -1.5 = 0xBE00; smallest subnormal = 0x0001; infinity = 0x7C00 *)
Example C09_example :
  fst (ReadF16 (NewBitStreamReader [0x00; 0xBE])) = Ok (mkF32 true (3 * 2 ^ 22) (-23)) /\
  half_mant 0xBE00 = 3 * 2 ^ 9 /\ half_exp 0xBE00 = -10 /\
  fst (ReadF16 (NewBitStreamReader [0x01; 0x00])) = Ok (mkF32 false 1 (-24)) /\
  fst (ReadF16 (NewBitStreamReader [0x00; 0x7C])) = Err.
Proof. repeat split. Qed.
