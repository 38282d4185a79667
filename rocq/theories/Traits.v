(** * Structure traits

    Model of extra/struct_traits.hpp, extra/struct_concepts.hpp and the conversion between dimension trees and sequences of
    base/utility.hpp.  Definitions only. *)

From Verif Require Export Struct.

(** extra/struct_traits.hpp 12-26: [sig_is_point], [is_point] *)
Definition sig_is_point (s : sig) : bool := match s with SScalar _ | SVoid => true | _ => false end.
Definition is_point (s : struct) : option bool := do sg <- signature s; Some (sig_is_point sg).

(** extra/struct_traits.hpp 28-37: [sig_is_cube] *)
Fixpoint sig_is_cube (s : sig) : bool := match s with SScalar _ | SVoid => true | SFun _ _ r => sig_is_cube r | SDep _ _ => false end.

(** extra/struct_traits.hpp 39-51: [is_cube]; the [requires] expression is false if [has_size<state<>>()] is not available. *)
Definition is_cube (s : struct) : option bool :=
  do sg <- signature s; Some (sig_is_cube sg && match has_size s [] with Some true => true | _ => false end).

(** extra/struct_concepts.hpp 11-27: [HasDims<T, Dims...>] *)
Definition has_dims (s : struct) (ds : list dim) : option bool :=
  do sg <- signature s; Some (forallb (fun d => dtree_contains d (sig_dim_tree sg)) ds).

(** base/utility.hpp 319-331: [dim_tree_from_sequence] *)
Fixpoint dtree_of_seq (ds : list dim) : dtree := match ds with [] => DLeaf | d :: r => DNode d [dtree_of_seq r] end.

(** base/utility.hpp 333-347: [dim_tree_to_sequence]; a node must have exactly one branch. *)
Fixpoint seq_of_dtree (t : dtree) : option (list dim) :=
  match t with
  | DLeaf => Some []
  | DNode d [b] => match seq_of_dtree b with Some r => Some (d :: r) | None => None end
  | DNode _ _ => None
  end.
