(* Independent specification: ICC profiles written as a list of tags and a
   list of data commands. *)
From Coq Require Import ZArith List Bool.
From Verif Require Import SpecCodes SpecICC.
Import ListNotations.
Open Scope Z_scope.

(* A number in four bytes, most significant first. *)
Definition bytes4 (v : Z) : list Z := [v / 2 ^ 24 mod 256; v / 2 ^ 16 mod 256; v / 2 ^ 8 mod 256; v mod 256].

(* The names that have a code of their own, codes 4 to 20: cprt wtpt bkpt
   rXYZ gXYZ bXYZ kXYZ rTRC gTRC bTRC kTRC chad desc chrm dmnd dmdd lumi *)
Definition known_names : list (list Z) :=
  [[99;112;114;116]; [119;116;112;116]; [98;107;112;116]; [114;88;89;90]; [103;88;89;90]; [98;88;89;90];
   [107;88;89;90]; [114;84;82;67]; [103;84;82;67]; [98;84;82;67]; [107;84;82;67]; [99;104;97;100];
   [100;101;115;99]; [99;104;114;109]; [100;109;110;100]; [100;109;100;100]; [108;117;109;105]].
Definition known (k : nat) : list Z := nth k known_names [].

(* Names of 20-byte tags: rXYZ gXYZ bXYZ kXYZ wtpt bkpt lumi *)
Definition twenty (name : list Z) : Prop := In name [known 3; known 4; known 5; known 6; known 1; known 2; known 16].

(* Code of a tag, its bytes in the data stream, the names of its entries. *)
Inductive tag_names : Z -> list Z -> list (list Z) -> Prop :=
| tn_own a b c d : tag_names 1 [a; b; c; d] [[a; b; c; d]]
| tn_curves : tag_names 2 [] [known 7; known 8; known 9]
| tn_primaries : tag_names 3 [] [known 3; known 4; known 5]
| tn_known k : (k < 17)%nat -> tag_names (4 + Z.of_nat k) [] [known k].

(* A number that is sent, or left out for its default. *)
Inductive given (dflt : Z) : bool -> list Z -> Z -> Prop :=
| given_not : given dflt false [] dflt
| given_here l v : varint l v -> v < 2 ^ 31 -> given dflt true l v.

(* Entries of the tag table.  The curves share their data, the data of the
   primaries stand one behind the other. *)
Definition entry (name : list Z) (start size : Z) : list Z := name ++ bytes4 start ++ bytes4 size.
Definition entries (code : Z) (names : list (list Z)) (start size : Z) : list Z :=
  concat (map (fun i => entry (nth i names []) (if code =? 3 then start + Z.of_nat i * size else start) size)
              (seq 0 (length names))).

(* Shuffled bytes: d is sent for r. *)
Inductive shuffled (d : list Z) : nat -> list Z -> Prop :=
| sh_1 : shuffled d 1 d
| sh_2 r : deinterleaved d r 2 ((length d + 1) / 2) -> shuffled d 2 r
| sh_4 r : (length d <= 4 \/ length d mod 4 = 0 \/ length d mod 4 = 3)%nat ->
    deinterleaved d r 4 ((length d + 3) / 4) -> shuffled d 4 r.

(* Prediction: the w-byte number standing k strides behind the end of the
   output, and the extrapolation of order 0, 1, 2 from three of them. *)
Definition number (l : list Z) : Z := fold_left (fun a b => 256 * a + b) l 0.
Definition behind (O : list Z) (w stride k : nat) : Z := number (firstn w (skipn (length O - k * stride) O)).
Definition extrapolated (order : nat) (v1 v2 v3 : Z) : Z :=
  match order with 0%nat => v1 | 1%nat => 2 * v1 - v2 | _ => 3 * v1 - 3 * v2 + v3 end.
Definition expected (O : list Z) (w stride order : nat) : Z :=
  extrapolated order (behind O w stride 1) (behind O w stride 2) (behind O w stride 3).
(* bytes of one number, from their residuals; the last number may be cut *)
Definition corrected (w : nat) (p : Z) (e : list Z) : list Z :=
  map (fun j => (nth j e 0 + p / 256 ^ Z.of_nat (w - 1 - j)) mod 256) (seq 0 (length e)).
Inductive predicted (w stride order : nat) : list Z -> list Z -> list Z -> Prop :=
| pr_end O : predicted w stride order O [] O
| pr_last O e : (0 < length e < w)%nat ->
    predicted w stride order O e (O ++ corrected w (expected O w stride order) e)
| pr_more O e r P : length e = w ->
    predicted w stride order (O ++ corrected w (expected O w stride order) e) r P ->
    predicted w stride order O (e ++ r) P.

(* Types that have a command of their own, 16 to 23: XYZ_ desc text mluc para
   curv sf32 gbd_; four zero bytes follow. *)
Definition known_types : list (list Z) :=
  [[88;89;90;32]; [100;101;115;99]; [116;101;120;116]; [109;108;117;99]; [112;97;114;97]; [99;117;114;118];
   [115;102;51;50]; [103;98;100;32]].

(* data_sent O cs ds P: behind the output O, the commands cs with the data ds
   lead to the profile P. *)
Inductive data_sent : list Z -> list Z -> list Z -> list Z -> Prop :=
| da_end P : data_sent P [] [] P
| da_raw O num x cs ds P : varint num (Z.of_nat (length x)) ->
    data_sent (O ++ x) cs ds P -> data_sent O (1 :: num ++ cs) (x ++ ds) P
| da_shuffled O w num x r cs ds P : (w = 1 \/ w = 2)%nat -> varint num (Z.of_nat (length x)) ->
    shuffled x (2 * w) r ->
    data_sent (O ++ r) cs ds P -> data_sent O (1 + Z.of_nat w :: num ++ cs) (x ++ ds) P
| da_predicted O w order with_stride sl stride num x r O' cs ds P :
    (order <= 2)%nat -> given (Z.of_nat w) with_stride sl (Z.of_nat stride) ->
    (w <= stride)%nat -> (4 * stride < length O)%nat ->
    varint num (Z.of_nat (length x)) -> shuffled x w r -> predicted w stride order O r O' ->
    data_sent O' cs ds P ->
    data_sent O (4 :: (Z.of_nat w - 1 + 4 * Z.of_nat order + (if with_stride : bool then 16 else 0)) :: sl ++ num ++ cs)
              (x ++ ds) P
| da_xyz O x cs ds P : length x = 12%nat ->
    data_sent (O ++ [88; 89; 90; 32] ++ [0; 0; 0; 0] ++ x) cs ds P -> data_sent O (10 :: cs) (x ++ ds) P
| da_type O k cs ds P : (k < 8)%nat ->
    data_sent (O ++ nth k known_types [] ++ [0; 0; 0; 0]) cs ds P -> data_sent O (16 + Z.of_nat k :: cs) ds P.

(* The same for the tag list and what follows, the previous tag having start
   ps and size pz.  The list ends with a byte of code 0, or with the
   commands. *)
Inductive tags_sent : list Z -> Z -> Z -> list Z -> list Z -> list Z -> Prop :=
| ta_none P ps pz : tags_sent P ps pz [] [] P
| ta_end O ps pz b cs ds P : In b [0; 64; 128; 192] -> data_sent O cs ds P -> tags_sent O ps pz (b :: cs) ds P
| ta_tag O ps pz code x names has_start has_size dsize sl zl start size cs ds P :
    tag_names code x names ->
    given (ps + pz) has_start sl start ->
    (twenty (hd [] names) -> dsize = 20) -> (~ twenty (hd [] names) -> dsize = pz) ->
    given dsize has_size zl size ->
    tags_sent (O ++ entries code names start size) start size cs ds P ->
    tags_sent O ps pz
      (code + (if has_start : bool then 64 else 0) + (if has_size : bool then 128 else 0) :: sl ++ zl ++ cs)
      (x ++ ds) P.

(* A profile with its tag count in the bytes behind the header *)
Inductive profile_sent (P : list Z) : list Z -> Prop :=
| ps_all size csize tc cs ds :
    varint size (Z.of_nat (length P)) -> varint csize (Z.of_nat (length (tc ++ cs))) ->
    varint tc (be32 (skipn 128 P) + 1) ->
    tags_sent (firstn 132 P) (128 + 12 * be32 (skipn 128 P)) 0 cs ds P ->
    profile_sent P (size ++ csize ++ (tc ++ cs) ++ residuals P 128 ++ ds).
