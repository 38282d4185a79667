(** * Helpers for working with states: specification

    Definitions only. *)

From Verif Require Export SpecViews SpecTrav.

(** What fixing the indices of [st0] does to a state: they replace the indices and remove the lengths of their dimensions. *)
Definition fixes (st0 : state) : list (tag * option val) :=
  flat_map (fun x => match fst x with Idx d => [(Idx d, Some (snd x)); (Len d, None)] | _ => [] end) st0.
(** What setting the lengths of [st0] does to a state. *)
Definition sets (st0 : state) : list (tag * option val) :=
  flat_map (fun x => match fst x with Len d => [(Len d, Some (snd x))] | _ => [] end) st0.

(** [st'] is [st] with the indices of [st0] in place of its own; a dimension that [st0] fixes has no length any more. *)
Definition with_indices (st0 st st' : state) : Prop := forall d,
  get (Idx d) st' = match get (Idx d) st0 with Some i => Some i | None => get (Idx d) st end /\
  get (Len d) st' = match get (Idx d) st0 with Some _ => None | None => get (Len d) st end.

(** [st'] is [st] with the lengths of [st0] in place of its own. *)
Definition with_lengths (st0 st st' : state) : Prop := forall d,
  get (Idx d) st' = get (Idx d) st /\
  get (Len d) st' = match get (Len d) st0 with Some n => Some n | None => get (Len d) st end.
