(* Transcription of the group geometry of frame/Frame.go. *)
From Coq Require Import ZArith List Bool.
From Verif Require Import GoBase ModelUtil.
Import ListNotations.
Open Scope Z_scope.

(* The header fields the geometry depends on.  g_fx and g_fy are the maxima
   of jpegUpsamplingX and jpegUpsamplingY. *)
Record Geo := mkGeo { g_width : Z; g_height : Z; g_dim : Z; g_fx : Z; g_fy : Z; g_vardct : bool }.

(* frame/FrameHeader.go:163 *)
Definition groupDimOf (groupSizeShift : Z) : Z := u32 (Z.shiftl 128 groupSizeShift).
(* frame/FrameHeader.go:164 *)
Definition lfGroupDim (g : Geo) : Z := u32 (Z.shiftl (g_dim g) 3).

(* frame/Frame.go:119-122 (and 1456-1459) *)
Definition groupRowStride (g : Geo) : Outcome Z := CeilDiv (g_width g) (g_dim g).
Definition lfGroupRowStride (g : Geo) : Outcome Z := CeilDiv (g_width g) (u32 (Z.shiftl (g_dim g) 3)).
Definition numGroups (g : Geo) : Outcome Z :=
  obind (groupRowStride g) (fun s => obind (CeilDiv (g_height g) (g_dim g)) (fun r => Ok (u32 (s * r)))).
Definition numLFGroups (g : Geo) : Outcome Z :=
  obind (lfGroupRowStride g) (fun s => obind (CeilDiv (g_height g) (u32 (Z.shiftl (g_dim g) 3))) (fun r => Ok (u32 (s * r)))).

(* frame/Frame.go:508-538, GetPaddedFrameSize, per axis: the size and the
   upsampling shift of the axis *)
Definition paddedAxis (vardct : bool) (size shift : Z) : Outcome Z :=
  let factor := Z.shiftl 1 shift in
  let s := if vardct then Z.shiftr (u32 (size + 7)) 3 else size in
  obind (CeilDiv s (u32 factor)) (fun s =>
  if vardct then Ok (u32 (Z.shiftl (u32 (s * u32 factor)) 3)) else Ok (u32 (s * u32 factor))).
Definition paddedWidth (g : Geo) : Outcome Z := paddedAxis (g_vardct g) (g_width g) (g_fx g).
Definition paddedHeight (g : Geo) : Outcome Z := paddedAxis (g_vardct g) (g_height g) (g_fy g).

(* Go's truncated int32 division and remainder; a zero divisor panics *)
Definition div_i32 (a b : Z) : Outcome Z := if b =? 0 then Panic else Ok (i32 (Z.quot a b)).
Definition mod_i32 (a b : Z) : Outcome Z := if b =? 0 then Panic else Ok (Z.rem a b).

(* frame/Frame.go:1594-1600; the result is (Y, X) *)
Definition location (stride id : Z) : Outcome (Z * Z) :=
  obind (div_i32 id (i32 stride)) (fun y => obind (mod_i32 id (i32 stride)) (fun x => Ok (y, x))).
Definition getGroupLocation (g : Geo) (id : Z) : Outcome (Z * Z) := obind (groupRowStride g) (fun s => location s id).
Definition getLFGroupLocation (g : Geo) (id : Z) : Outcome (Z * Z) := obind (lfGroupRowStride g) (fun s => location s id).

(* frame/Frame.go:1618-1631 and 1579-1592, getGroupSize and getLFGroupSize;
   the result is (height, width) *)
Definition sizeAt (g : Geo) (dim : Z) (pos : Z * Z) : Outcome (Z * Z) :=
  obind (paddedHeight g) (fun ph => obind (paddedWidth g) (fun pw =>
  Ok (Z.min dim (u32 (ph - u32 (u32 (fst pos) * dim))), Z.min dim (u32 (pw - u32 (u32 (snd pos) * dim)))))).
Definition getGroupSize (g : Geo) (id : Z) : Outcome (Z * Z) := obind (getGroupLocation g id) (sizeAt g (g_dim g)).
Definition getLFGroupSize (g : Geo) (id : Z) : Outcome (Z * Z) := obind (getLFGroupLocation g id) (sizeAt g (lfGroupDim g)).

(* frame/Frame.go:1602-1606: the index of the LF group of a group *)
Definition lfGroupIndex (g : Geo) (id : Z) : Outcome Z :=
  obind (getGroupLocation g id) (fun pos =>
  obind (lfGroupRowStride g) (fun s => Ok (i32 (i32 (Z.shiftr (fst pos) 3 * i32 s) + Z.shiftr (snd pos) 3)))).

(* frame/Frame.go:1608-1616, groupPosInLFGroup; (Y, X) *)
Definition groupPosInLFGroup (g : Geo) (lfid id : Z) : Outcome (Z * Z) :=
  obind (getGroupLocation g id) (fun gr => obind (getLFGroupLocation g lfid) (fun lf =>
  Ok (i32 (fst gr - i32 (Z.shiftl (fst lf) 3)), i32 (snd gr - i32 (Z.shiftl (snd lf) 3))))).
