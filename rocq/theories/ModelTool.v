(* The program that converts files to PNG: tools/jxltopng/main.go, and the colour
   transform of the PNG writer, core/png_writer.go:25-166.

   Simplifications:
   - the input file can be read and the output file written; messages are left
     out;
   - the encoder of the standard library (image/png) is a parameter. *)
From Coq Require Import ZArith List Bool.
From Verif Require Import GoBase ModelImage ModelWriters ModelToImage ModelFile ModelReader.
Import ListNotations.
Open Scope Z_scope.

Local Notation "x <o- m ;; k" := (obind m (fun x => k)) (at level 60, m at next level, right associativity).

(* core/png_writer.go:25-166: lines 38-56 are those of ToImage, and the fields that
   lines 27-36 read are not changed by the transform *)
Definition WritePNGFile (deflate deflate1 : list Z -> list Z) (fromLinear : Z -> option (Z -> Z)) (writeSRGBICC matches : bool) (img : JXLImage) : Outcome (list Z) :=
  img <o- toTarget fromLinear matches img ;; WritePNG deflate deflate1 writeSRGBICC img.

(* core/jxl_image.go:170-172 *)
Definition HasICCProfile (img : JXLImage) : bool := (0 <? length (im_icc img))%nat.

(* tools/jxltopng/main.go:15-85; the bytes of the output file, None if there is
   none.  GetExtraChannelType of the nil image and Encode of the nil image
   panic; log.Fatalf ends the program. *)
Definition jxltopng (o : Rest) (fromLinear : Z -> option (Z -> Z)) (deflate deflate1 : list Z -> list Z) (encode : GoImage -> list Z)
    (d : list Z) : Outcome (option (list Z)) :=
  match decodeImage o d with
  | Err => Ok None
  | Panic | Ok None => Panic
  | Ok (Some (j, ih)) =>
      if HasICCProfile j then
        b <o- WritePNGFile deflate deflate1 fromLinear false (matchesTarget j ih) j ;; Ok (Some b)
      else
        match ToImage fromLinear (matchesTarget j ih) j with
        | Ok (g, _) => Ok (Some (encode g))
        | Err | Panic => Panic
        end
  end.
