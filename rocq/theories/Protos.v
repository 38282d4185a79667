(** * Further proto-structures

    Definitions only. *)

From Verif Require Export Shortcuts.

(** structs/views.hpp 326-335: [hoist<Dims...>()]: the last dimension is hoisted first. *)
Definition p_hoist (ds : list dim) : proto := map (fun d => LView (VHoist d)) (rev ds).
