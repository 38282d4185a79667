(** * Model of the helpers for working with states (extra/shortcuts.hpp)

    Definitions only. *)

From Verif Require Export Shortcuts.

(** shortcuts.hpp 185-197: [get_index], [get_length_in]: not viable if the entry is missing. *)
Definition get_index (d : dim) (st : state) : option val := get (Idx d) st.
Definition get_length_in (d : dim) (st : state) : option val := get (Len d) st.

(** shortcuts.hpp 199-211: [get_indices], [get_lengths_in]: a tuple. *)
Definition get_indices (ds : list dim) (st : state) : option (list val) := omap (fun d => get (Idx d) st) ds.
Definition get_lengths_in (ds : list dim) (st : state) : option (list val) := omap (fun d => get (Len d) st) ds.

(** shortcuts.hpp 213-223: [filter_indices], [filter_lengths]. *)
Definition filter_indices (ds : list dim) (st : state) : state := filter_tags (map Idx ds) st.
Definition filter_lengths (ds : list dim) (st : state) : state := filter_tags (map Len ds) st.

(** shortcuts.hpp 231-238: [update_index]. *)
Definition update_index (d : dim) (f : val -> val) (st : state) : option state :=
  do i <- get (Idx d) st; Some (with_ [(Idx d, f i)] st).

(** shortcuts.hpp 240-250: [neighbor]: all indices must be run-time values. *)
Definition neighbor (l : list (dim * val)) (st : state) : option state :=
  do items <- omap (fun x => do i <- get (Idx (fst x)) st;
                             match i with Sta _ => None | _ => Some (Idx (fst x), vadd i (snd x)) end) l;
  Some (with_ items st).

(** shortcuts.hpp 252-257: [symmetric_span<Dims...>(structure, state, offset)], a fold of [^] that is not defined
    without dimensions.  The subtraction is the built-in one: its result is a run-time value. *)
Definition p_symmetric_span (ds : list dim) (s : struct) (st : state) (off : val) : option proto :=
  match ds with
  | [] => None
  | _ => omap (fun d => do n <- length_ s d st; Some (LView (VSpan d off (dyn2 Z.sub n off)))) ds
  end.

(** shortcuts.hpp 265-276: [symmetric_spans<Dims...>(structure, state, offsets...)] *)
Definition p_symmetric_spans (l : list (dim * val)) (s : struct) (st : state) : option proto :=
  match l with
  | [] => None
  | _ => do ps <- omap (fun x => p_symmetric_span [fst x] s st (snd x)) l; Some (concat ps)
  end.

(** shortcuts.hpp 85-100: [lengths_like<Dims...>(structure, state)] *)
Definition p_lengths_like (ds : list dim) (s : struct) (st : state) : option proto :=
  match ds with
  | [] => None
  | _ => do ps <- omap (fun d => p_length_like d s st) ds; Some (concat ps)
  end.

(** shortcuts.hpp 334-337 with setters.hpp 148-156: [fix<Dims...>(state)]: the first dimension innermost. *)
Definition p_fix_dims (ds : list dim) (st : state) : option proto :=
  omap (fun d => do i <- get_index d st; Some (LView (VFix d i))) ds.

(** shortcuts.hpp 361-364: [set_length<Dims...>(state)] *)
Definition p_set_length_dims (ds : list dim) (st : state) : option proto :=
  omap (fun d => do n <- get_length_in d st; Some (LView (VSetLength d n))) ds.

(** shortcuts.hpp 377-388: [fix_zeros(dim_tree, state)]: the index 0 for the dimensions along the first branches.  A sequence of
    dimensions is a tree with single branches; a node without branches matches neither overload. *)
Fixpoint fix_zeros (t : dtree) (st : state) : option state :=
  match t with
  | DLeaf => Some st
  | DNode d bs => match bs with [] => None | b :: _ => fix_zeros b (with_ [(Idx d, Sta 0)] st) end
  end.
