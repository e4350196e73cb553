(* Model of the numbering of sections and modular streams of a frame. *)
From Coq Require Import ZArith List Bool.
From Verif Require Import GoBase.
Open Scope Z_scope.

(* frame/Frame.go: the argument of getBitreader at :336 (LF global), :598 (LF
   group id), :386 (HF global), :692 (pass group).  int is 64 bits. *)
Definition lfGlobalEntry : Z := 0.
Definition lfGroupEntry (id : Z) : Z := i64 (1 + id).
Definition hfGlobalEntry (numLFGroups : Z) : Z := i64 (1 + numLFGroups).
Definition passGroupEntry (numLFGroups numGroups iPass iGroup : Z) : Z :=
  i64 (i64 (i64 (2 + numLFGroups) + i64 (iPass * numGroups)) + iGroup).

(* The stream indices of the modular streams: frame/LFGlobal.go:158,
   frame/lfcoefficients.go:66, frame/LFGroup.go:43, frame/hfmetadata.go:40,
   frame/HFGlobal.go:374, frame/PassGroup.go:92.  numLFGroups, numGroups, the
   pass and the group are uint32; lfGroupID and the table index are int32. *)
Definition globalStream : Z := 0.
Definition lfCoeffStream (lfGroupID : Z) : Z := i32 (1 + lfGroupID).
Definition lfModularStream (numLFGroups lfGroupID : Z) : Z := i64 (1 + u32 (numLFGroups + u32 lfGroupID)).
Definition hfMetadataStream (numLFGroups lfGroupID : Z) : Z := i64 (i64 (1 + i64 (2 * numLFGroups)) + lfGroupID).
Definition quantTableStream (numLFGroups index : Z) : Z := i32 (i32 (1 + i32 (3 * i32 numLFGroups)) + index).
Definition passStream (numLFGroups numGroups pass group : Z) : Z :=
  u32 (u32 (u32 (18 + u32 (3 * numLFGroups)) + u32 (numGroups * pass)) + group).
