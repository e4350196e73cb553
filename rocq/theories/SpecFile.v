(* Independent description of a lossless file: where in its bytes the image
   header, the headers of the frames, their tables of contents and their
   sections stand. *)
From Coq Require Import ZArith List Bool.
From Verif Require Import Bits GoMatrix ModelBitReader ModelHeader ModelFrameHeader SpecBitReader SpecCodes SpecGrammar SpecHeader SpecFrameHeader.
From Verif Require Import ModelModular ModelModStream SpecToc SpecStream SpecModular SpecModStream SpecModDecode SpecModFrame SpecDecode SpecBoxes.
Import ListNotations.
Open Scope Z_scope.

(* Integer samples of 3 to 24 bits, colours not transformed, extra channels
   of full size, no preview *)
Definition lossless_image (ih : ImageHeader) : Prop :=
  ih_xyb ih = false /\ ih_preview ih = None /\ bd_exp (ih_bd ih) = 0 /\ 3 <= bd_bits (ih_bd ih) <= 24 /\
  Forall (fun e => bd_exp (ec_bd e) = 0 /\ ec_dimShift e = 0) (ih_extra ih).
(* A modular frame of h by w samples in groups of side dim, with num passes:
   no subsampling, upsampling, filters, noise (flag 0), patches (1), splines
   (4) or LF frame (5) *)
Definition plain_frame (fh : FrameHeader) (h w dim num : nat) (ds : list (Z * Z)) : Prop :=
  fh_enc fh = 1 /\ fh_ycbcr fh = false /\ fh_jx fh = [0; 0; 0] /\ fh_jy fh = [0; 0; 0] /\ fh_up fh = 1 /\ Forall (eq 1) (fh_ecup fh) /\
  rf_gab (fh_rf fh) = false /\ rf_iters (fh_rf fh) = 0 /\ Forall (fun k => Z.testbit (fh_flags fh) k = false) [0; 1; 4; 5] /\
  fh_bh fh = Z.of_nat h /\ fh_bw fh = Z.of_nat w /\ Z.of_nat h <= 2 ^ 30 /\ Z.of_nat w <= 2 ^ 30 /\ (1 <= h)%nat /\ (1 <= w)%nat /\
  fh_gdim fh = Z.of_nat dim /\ (exists k, 0 <= k <= 3 /\ fh_gdim fh = 128 * 2 ^ k) /\
  (exists shift, fh_passes fh = passes_of num shift ds) /\ scales_ok num ds /\
  Z.of_nat (20 + 3 * (count h (8 * dim) * count w (8 * dim)) + num * (count h dim * count w dim)) < 2 ^ 31.
(* samples of a frame: all channels have its size *)
Definition samples_of (h w : nat) (P : list Plane) : Prop :=
  Forall (fun q => p_h q = h /\ p_w q = w /\ p_vs q = 0 /\ p_hs q = 0 /\ rect h w (p_px q) /\ samples_within (2 ^ 24) (p_px q)) P.

(* Sections behind each other from byte first on.  Two restrictions, see C17
   and C96: no section starts at the end of the data; a single section has no
   byte behind its bits, and two bytes follow it. *)
Definition sections_at (d : list Z) (first : nat) (lengths : list Z) (sections : list (list bool)) : Prop :=
  length lengths = length sections /\
  forall i c, nth_error sections i = Some c -> exists b len,
    section_start (Z.of_nat first) lengths i = Z.of_nat b /\ nth_error lengths i = Some (Z.of_nat len) /\
    (b < length d)%nat /\ (b + len <= length d)%nat /\ (length c <= 8 * len)%nat /\ bits_at d (8 * b) c /\
    (length sections = 1%nat -> (8 * len < length c + 8)%nat /\ (b + len + 2 <= length d)%nat).
(* A frame from byte start to byte next: header, table of contents, sections *)
Definition frame_bytes (ih : ImageHeader) (d : list Z) (start next : nat) (fh : FrameHeader) (P : list Plane) : Prop :=
  exists h w dim num ds c lengths codes sections first,
    plain_frame fh h w dim num ds /\ frame_code fhandled ih c fh /\ bits_at d (8 * start) (c ++ [false]) /\
    Forall2 toc_code lengths codes /\ bits_at d (byte_up (8 * start + length c + 1)) (concat codes) /\
    (8 * first = byte_up (byte_up (8 * start + length c + 1) + length (concat codes)))%nat /\
    samples_of h w P /\ length P = channel_count ih /\ frame_sent (bd_bits (ih_bd ih)) h w dim num ds P sections /\
    sections_at d first lengths sections /\ section_start (Z.of_nat first) lengths (length lengths) = Z.of_nat next.
Inductive frames_bytes (ih : ImageHeader) (d : list Z) : nat -> list (FrameHeader * list Plane) -> Prop :=
| fb_nil start : frames_bytes ih d start []
| fb_cons start next fh P t : frame_bytes ih d start next fh P -> frames_bytes ih d next t -> frames_bytes ih d start ((fh, P) :: t).
(* A codestream: the header, then the frames *)
Definition codestream (icc : Z -> code (list Z)) (level : Z) (d : list Z) (ih : ImageHeader) (frames : list (FrameHeader * list Plane)) : Prop :=
  Forall is_byte d /\ exists c start,
    SpecHeader.header_code iso_handled icc level c ih /\ bits_at d 0 c /\ (8 * start = byte_up (length c))%nat /\ (start < length d)%nat /\ frames_bytes ih d start frames.
(* A file without container *)
Definition file_bytes (icc : Z -> code (list Z)) (d : list Z) (ih : ImageHeader) (frames : list (FrameHeader * list Plane)) : Prop :=
  (12 <= length d)%nat /\ codestream icc 5 d ih frames.
(* A container with one codestream box, and boxes of other kinds around it *)
Definition not_code (b : box) : Prop := match b with BCode _ | BPart _ _ => False | _ => True end.
Definition container (before after : list box) (d : list Z) : list Z := signature ++ concat (map enc_box (before ++ BCode d :: after)).

(* The samples, and the frames that can be drawn: see C90.  The frame replaces
   or adds to what is there. *)
Definition empty_plane : Plane := mkPl 0 0 0 0 [].
Definition plane_layer (P : list Plane) : Layer := fun c y x => px (p_px (nth c P empty_plane)) y x.
Definition drawable (ih : ImageHeader) (H W : nat) (f : FrameHeader * list Plane) (P : list Plane) (saved : nat -> option Layer) : Prop :=
  let fh := fst f in
  0 <= fh_saveref fh < 4 /\ (fh_type fh = 2 -> fh_savect fh = true) /\
  (fh_savect fh = true -> fh_bh fh = Z.of_nat H /\ fh_bw fh = Z.of_nat W) /\
  (fh_type fh <> 2 ->
     (0 <= fh_ox fh /\ 0 <= fh_oy fh \/ fh_ox fh < 0 /\ fh_oy fh <= 0) /\ - 2 ^ 30 <= fh_ox fh /\ - 2 ^ 30 <= fh_oy fh /\
     fh_oy fh <= Z.of_nat H /\ fh_ox fh <= Z.of_nat W /\ 0 <= fh_oy fh + fh_bh fh /\ 0 <= fh_ox fh + fh_bw fh /\ fh_bw fh < 2 ^ 30 /\ fh_bh fh < 2 ^ 30 /\
     length (fh_ecblend fh) = length (ih_extra ih) /\
     forall c, (c < channel_count ih)%nat -> let b := blending_of ih fh c in
       0 <= bl_mode b <= 1 /\ 0 <= bl_source b < 4 /\ (has_alpha ih = true -> 0 <= bl_alpha b < Z.of_nat (length (ih_extra ih))) /\
       (fh_savect fh = true -> fh_last fh = false -> bl_source b <> fh_saveref fh \/ bl_mode b = 0)).
