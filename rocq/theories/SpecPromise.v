(** * Specification: structures without some of the views *)

From Verif Require Export Struct.

(** No dimension is split into blocks. *)
Fixpoint no_blocks (s : struct) : bool :=
  match s with
  | Scalar _ => true
  | Tuple _ ts | Union ts => forallb no_blocks ts
  | Vector _ t => no_blocks t
  | View v t => match v with VBlocks _ _ _ | VBlocksSta _ _ _ _ _ | VBlocksDyn _ _ _ _ => false | _ => true end && no_blocks t
  end.

(** No part of a dimension is selected by a start or an interval. *)
Fixpoint no_slices (s : struct) : bool :=
  match s with
  | Scalar _ => true
  | Tuple _ ts | Union ts => forallb no_slices ts
  | Vector _ t => no_slices t
  | View v t => match v with VShift _ _ | VSlice _ _ _ | VSpan _ _ _ => false | _ => true end && no_slices t
  end.
