(* Transcription of decode of core/jxl_codestream_decoder.go:84-312 from the
   bytes of a file to the oriented canvas: boxes, image header, and for each
   frame its header, the table of contents, its sections and its samples.

   Simplifications:
   - the samples of frames that are not plain modular ones (VarDCT, XYB,
     subsampled colour, a restoration filter) are a parameter, together with
     the position of the reader behind them; so are the samples of Upsample
     and of the colour transform, and the result of GetMatrix;
   - frames with a side above 2^30 are rejected (NewImageBuffer) before
     their first section is read, not after it;
   - the calls of InitializeNoise, RenderSplines and SynthesizeNoise fail if
     the flags of the frame say that there is noise, or that there are splines;
   - the loop over the frames ends at the latest when there are as many frames
     as bits: each header takes at least one. *)
From Coq Require Import ZArith List Bool.
From Verif Require Import GoBase GoLoop GoMatrix ModelBitReader ModelUtil ModelHeader ModelFrameHeader ModelBoxes ModelImage.
From Verif Require Import ModelEntropy ModelGroups ModelToc ModelModFrame ModelDecode.
Import ListNotations.
Open Scope Z_scope.

Local Notation "x <o- m ;; k" := (obind m (fun x => k)) (at level 60, m at next level, right associativity).

(* ---- what decodeModularFrame takes from the headers ---- *)
(* frame/FrameHeader.go:163 and frame/Frame.go:119-122, 507-530 *)
Definition geoOf (fh : FrameHeader) : Geo :=
  mkGeo (fh_bw fh) (fh_bh fh) (fh_gdim fh) (max3 (fh_jx fh)) (max3 (fh_jy fh)) (fh_enc fh =? VARDCT).
(* frame/Frame.go:362-373: integer or float *)
Definition floatOf (bd : BitDepth) : bool := negb (bd_exp bd =? 0).
Definition mfOf (ih : ImageHeader) (fh : FrameHeader) : MF :=
  mkMF (geoOf fh) (fh_flags fh) (bd_bits (ih_bd ih)) (fh_passes fh) (fh_ycbcr fh) (col_space (ih_colour ih) =? ModelHeader.CE_GRAY)
    (map ec_dimShift (ih_extra ih))
    (repeat (floatOf (ih_bd ih)) (Z.to_nat (ihColours ih)) ++ map (fun e => floatOf (ec_bd e)) (ih_extra ih)).
(* frame/Frame.go:351-379: a buffer of the padded size *)
Definition bufferOf (h w : Z) (b : bool * list (list Z)) : ImageBuffer :=
  if fst b then mkIB (i32 w) (i32 h) TYPE_FLOAT (snd b) [] else mkIB (i32 w) (i32 h) TYPE_INT [] (snd b).

(* The frames for which DecodeFrame ends with the samples of the modular
   channels: frame/Frame.go:410-478 *)
Definition plainModular (ih : ImageHeader) (fh : FrameHeader) : bool :=
  (fh_enc fh =? MODULAR) && negb (ih_xyb ih) && negb (fh_ycbcr fh) && negb (rf_gab (fh_rf fh)) && (rf_iters (fh_rf fh) =? 0).

(* what is not modelled *)
Record Rest := mkRest {
  o_decode : ImageHeader -> FrameHeader -> list Z -> option (list ImageBuffer) -> RM (list ImageBuffer);
  o_up : ImageHeader -> FrameHeader -> list ImageBuffer -> Outcome (list ImageBuffer);
  o_ct : ImageHeader -> FrameHeader -> list (list Z) -> list (list Z) -> list (list Z) -> Outcome (list (list Z) * list (list Z) * list (list Z));
  o_matrix : ImageHeader -> Outcome unit;
  o_icc : Z -> RM (list Z) }.

(* ---- frame/Frame.go:103-125 ---- *)
Definition ReadFrameHeader (ih : ImageHeader) : RM (FrameHeader * Z * Z) :=
  _ <- ZeroPadToByte ;;
  fh <- readFrameHeader ih ;;
  n <- rlift (numGroups (geoOf fh)) ;;
  nl <- rlift (numLFGroups (geoOf fh)) ;;
  rret (fh, n, nl).

(* ---- frame/Frame.go:324-478 ---- *)
(* The readers of the sections; FrameReader is the reader of the file *)
Definition sectionReader (s : BR) (x : Section_) : BR :=
  match x with FrameReader => s | Buffer b => NewBitStreamReader b end.
Definition decodeFrame (o : Rest) (ih : ImageHeader) (fh : FrameHeader) (lengths : list Z) (lf : option (list ImageBuffer)) : RM (list ImageBuffer) :=
  if negb (plainModular ih fh) then o_decode o ih fh lengths lf
  else
    secs <- setupBitReaders lengths ;;
    fun s =>
      match (ph <o- paddedHeight (geoOf fh) ;; pw <o- paddedWidth (geoOf fh) ;;
             if (2 ^ 30 <? i32 ph) || (i32 ph <? 0) || (2 ^ 30 <? i32 pw) || (i32 pw <? 0) then Err else Ok (ph, pw)) with
      | Ok (ph, pw) =>
          match decodeModularFrame (mfOf ih fh) (map (sectionReader s) secs) with
          | (Ok bufs, rs) => (Ok (map (bufferOf ph pw) bufs), if (length lengths =? 1)%nat then hd s rs else s)
          | (Err, _) => (Err, s)
          | (Panic, _) => (Panic, s)
          end
      | Err => (Err, s)
      | Panic => (Panic, s)
      end.

(* frame/Frame.go:1443-1475: all factors are 1 *)
Definition upsampleNothing (fh : FrameHeader) : bool := (fh_up fh =? 1) && forallb (Z.eqb 1) (fh_ecup fh).
(* frame/Frame.go:1419-1425, 1564-1577 *)
Definition extraOf (fh : FrameHeader) : Outcome unit :=
  if Z.testbit (fh_flags fh) 0 || Z.testbit (fh_flags fh) 4 then Err else Ok tt.

(* ---- core/jxl_codestream_decoder.go:159-280, one frame ---- *)
Definition asUnit {A} (o : Outcome A) : Outcome unit := _ <o- o ;; Ok tt.
Definition fileStep (o : Rest) (parseOnly renderVarblocks : bool) (ih : ImageHeader) (st : DState) : RM (DState * bool) :=
  r <- ReadFrameHeader ih ;;
  let '(fh, n, nl) := r in
  fun s =>
    let '(toc, s1) := ReadTOC (tocEntries n nl (ps_num (fh_passes fh))) s in
    let lengths := match toc with Ok (_, l) => l | _ => [] end in
    let lf := lfValue st (nth (Z.to_nat (fh_lflevel fh)) (d_lf st) None) in
    let '(skip, s2) := SkipFrameData lengths s1 in
    let '(buf, s3) := decodeFrame o ih fh lengths lf s1 in
    let fi := mkFI fh (asUnit toc) skip (fun _ => buf)
                (fun b => if upsampleNothing fh then Ok b else o_up o ih fh b) (extraOf fh) (o_ct o ih fh) in
    (frameStep parseOnly renderVarblocks ih fi st, if parseOnly then s2 else s3).
Fixpoint fileLoop (fuel : nat) (o : Rest) (parseOnly renderVarblocks : bool) (ih : ImageHeader) (st : DState) : RM DState :=
  match fuel with
  | O => rerr
  | S fuel =>
      r <- fileStep o parseOnly renderVarblocks ih st ;;
      if snd r : bool then rret (fst r) else fileLoop fuel o parseOnly renderVarblocks ih (fst r)
  end.

(* ---- core/jxl_codestream_decoder.go:84-312 ---- *)
(* 154-310: the first of the boxes that are looked at *)
Definition decodeBox (o : Rest) (parseOnly renderVarblocks : bool) (ih : ImageHeader) (fuel : nat) (s : BR) : Outcome (option (list ImageBuffer)) :=
  match AtEnd s with
  | (true, _) => Ok None
  | (false, s) =>
      fst ((st <- fileLoop fuel o parseOnly renderVarblocks ih (initState ih) ;;
            _ <- ZeroPadToByte ;;
            if parseOnly : bool then rret None
            else b <- rlift (orientAll (ih_orientation ih) (ModelDecode.rd (d_mem st) (d_canvas st))) ;; rret (Some b)) s)
  end.
Definition decodeFile (o : Rest) (parseOnly renderVarblocks : bool) (d : list Z) : Outcome (option (list ImageBuffer)) :=
  match ReadBoxHeader (S (length d)) (NewBitStreamReader d) with
  | None => Panic
  | Some (Ok (level, boxes), s) =>
      match boxes with
      | [] => Panic
      | box :: more =>
          match AtEnd (set_pos (Z.to_nat (bh_offset box)) s) with
          | (true, _) => Ok None
          | (false, s) =>
              match ParseImageHeader (o_icc o) level s with
              | (Ok ih, s) =>
                  match ih_preview ih with
                  | Some _ => Err
                  | None =>
                      _ <o- (if ih_xyb ih then o_matrix o ih else Ok tt) ;;
                      decodeBox o parseOnly renderVarblocks ih (S (8 * length d))
                        (match more with [] => s | box2 :: _ => set_pos (Z.to_nat (bh_offset box2)) s end)
                  end
              | (Err, _) => Err
              | (Panic, _) => Panic
              end
          end
      end
  | Some (Err, _) => Err
  | Some (Panic, _) => Panic
  end.
