(** * Specification: parts of a structure *)

From Verif Require Export Spec.

(** [part_of s st t st']: [t] is a part of [s], and an access to [s] in state [st] that reaches [t]
    reaches it in state [st']. *)
Inductive part_of : struct -> state -> struct -> state -> Prop :=
| in_here : forall s st, part_of s st s st
| in_tuple : forall d ts st k u t st',
    get (Idx d) st = Some (Sta k) -> nthz ts (u64 k) = Some u -> part_of u (remove [Idx d] st) t st' -> part_of (Tuple d ts) st t st'
| in_vector : forall d u st t st', part_of u (remove [Idx d; Len d] st) t st' -> part_of (Vector d u) st t st'
| in_view : forall v u st st1 t st', sub_state v u st = Some st1 -> part_of u st1 t st' -> part_of (View v u) st t st'.
