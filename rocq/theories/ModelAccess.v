(* Access to the channels of a decoded image: core/jxl_image.go:112-176.

   Slices of rows are values here: the row slices that Get returns and Set takes are
   shared with the image in Go. *)
From Coq Require Import ZArith List Bool.
From Verif Require Import GoBase ModelHeader ModelImage ModelWriters.
Import ListNotations.
Open Scope Z_scope.

(* c < 0 || c >= len(jxl.Buffer) *)
Definition noChannel (c : Z) (img : JXLImage) : bool := (c <? 0) || (c >=? Z.of_nat (length (im_buffer img))).

(* jxl.Buffer[c] = ib *)
Definition setChannel (c : Z) (ib : ImageBuffer) (img : JXLImage) : JXLImage :=
  set_buffer img (firstn (Z.to_nat c) (im_buffer img) ++ ib :: skipn (S (Z.to_nat c)) (im_buffer img)).

(* core/jxl_image.go:114-119 *)
Definition GetFloatChannelData (c : Z) (img : JXLImage) : Outcome (list (list Z)) :=
  if noChannel c img then Err else obind (slice_get (im_buffer img) c) (fun ib => Ok (ib_float ib)).

(* core/jxl_image.go:122-128 *)
Definition SetFloatChannelData (c : Z) (data : list (list Z)) (img : JXLImage) : Outcome JXLImage :=
  if noChannel c img then Err
  else obind (slice_get (im_buffer img) c) (fun ib => Ok (setChannel c (mkIB (ib_w ib) (ib_h ib) (ib_type ib) data (ib_int ib)) img)).

(* core/jxl_image.go:132-137 *)
Definition GetIntChannelData (c : Z) (img : JXLImage) : Outcome (list (list Z)) :=
  if noChannel c img then Err else obind (slice_get (im_buffer img) c) (fun ib => Ok (ib_int ib)).

(* core/jxl_image.go:140-146 *)
Definition SetIntChannelData (c : Z) (data : list (list Z)) (img : JXLImage) : Outcome JXLImage :=
  if noChannel c img then Err
  else obind (slice_get (im_buffer img) c) (fun ib => Ok (setChannel c (mkIB (ib_w ib) (ib_h ib) (ib_type ib) (ib_float ib) data) img)).

(* core/jxl_image.go:150-155, for the image header ih *)
Definition GetExtraChannelType (c : Z) (ih : ImageHeader) : Outcome Z :=
  if (c <? 0) || (c >=? Z.of_nat (length (ih_extra ih))) then Err
  else obind (slice_get (ih_extra ih) c) (fun e => Ok (ec_type e)).

(* core/jxl_image.go:158-160 and 163-165 *)
Definition IsIntBased (img : JXLImage) : Outcome bool := obind (slice_get (im_buffer img) 0) (fun ib => Ok (IsInt ib)).
Definition IsFloatBased (img : JXLImage) : Outcome bool := obind (slice_get (im_buffer img) 0) (fun ib => Ok (IsFloat ib)).

(* core/jxl_image.go:174-176 *)
Definition NumExtraChannels (ih : ImageHeader) : Z := Z.of_nat (length (ih_extra ih)).
