(** * Model of the shortcut functions (extra/shortcuts.hpp)

    Definitions only. *)

From Verif Require Export Struct.

(** base/structs_common.hpp 280-397.  A proto-structure is a list of layers, applied innermost
    first; composition with [^] is concatenation, [neutral_proto] is the empty list.  Each element of
    the list is what one [instantiate_and_construct] does.  Protos that look at the structure they are
    applied to (e.g. auto_step) are not of this form. *)
Inductive layer := LVector (d : dim) | LView (v : view).
Definition proto := list layer.
Definition apply_layer (t : struct) (p : layer) : struct :=
  match p with LVector d => Vector d t | LView v => View v t end.
Definition apply (p : proto) (t : struct) : struct := fold_left apply_layer p t.

(** shortcuts.hpp 32-35: [vector<Dim>(length)] *)
Definition p_vector (d : dim) (n : val) : proto := [LVector d; LView (VSetLength d n)].
Definition vec (d : dim) (n : val) (t : struct) : struct := View (VSetLength d n) (Vector d t).

(** shortcuts.hpp 26-30: [vectors<Dims...>()] *)
Definition p_vectors0 (ds : list dim) : proto := map LVector ds.

(** shortcuts.hpp 43-47: [vectors<Dims...>(lengths...)], a left fold of [^]: the first dimension is the
    innermost one. *)
Definition p_vectors (l : list (dim * val)) : proto := flat_map (fun x => p_vector (fst x) (snd x)) l.

(** shortcuts.hpp 55-72: [array<Dim, L>()] *)
Definition p_array (d : dim) (n : Z) : proto := [LVector d; LView (VSetLength d (Sta n))].

(** shortcuts.hpp 74-77, 102-105: [length_like], [vector_like]: fail to compile if the structure does
    not have the length. *)
Definition p_length_like (d : dim) (s : struct) (st : state) : option proto :=
  do n <- length_ s d st; Some [LView (VSetLength d n)].
Definition p_vector_like (d : dim) (s : struct) (st : state) : option proto :=
  do n <- length_ s d st; Some (p_vector d n).

(** shortcuts.hpp 112-116: [vectors_like<Dims...>(structure, state)] *)
Definition p_vectors_like (ds : list dim) (s : struct) (st : state) : option proto :=
  do ps <- omap (fun d => p_vector_like d s st) ds; Some (concat ps).

(** shortcuts.hpp 124-134: [vectors_like(structure, state)].  The sequence of dimensions (see Sig.v) is
    innermost first; a tuple dimension is only supported if the tuple has one component.  Without
    dimensions the call on line 131 finds only the function that is being defined (an error). *)
Definition p_vectors_like_all (s : struct) (st : state) : option proto :=
  do sg <- signature s; do ds <- sig_dim_seq sg;
  match ds with [] => None | _ => p_vectors_like ds s st end.

(** shortcuts.hpp 151-174 *)
Definition p_into_blocks (d M m : dim) (n : val) : proto := [LView (VBlocks d M m); LView (VSetLength m n)].
Definition p_into_blocks_dynamic (d M m p : dim) (n : val) : proto :=
  [LView (VBlocksDyn d M m p); LView (VSetLength m n)].
Definition p_merge_blocks (M m d : dim) (n : val) : proto := [LView (VSetLength m n); LView (VMerge M m d)].
Definition p_strip_mine (d M m : dim) (n : val) : proto := p_into_blocks d M m n ++ [LView (VHoist M)].
Definition p_strip_mine_dynamic (d M m p : dim) (n : val) : proto :=
  p_into_blocks_dynamic d M m p n ++ [LView (VHoist M)].

(** shortcuts.hpp 176-181: [bcast<Dims...>(lengths...)] *)
Definition p_bcast (l : list (dim * val)) : proto :=
  flat_map (fun x => [LView (VBcast (fst x)); LView (VSetLength (fst x) (snd x))]) l.

(** shortcuts.hpp 278-287, 329-332: [fix(state)]: one [fix] per index entry, in the order of the
    entries; other entries give [neutral_proto]. *)
Definition p_fix (st : state) : proto :=
  flat_map (fun x => match fst x with Idx d => [LView (VFix d (snd x))] | _ => [] end) st.

(** shortcuts.hpp 289-298, 351-354: [set_length(state)] *)
Definition p_set_length (st : state) : proto :=
  flat_map (fun x => match fst x with Len d => [LView (VSetLength d (snd x))] | _ => [] end) st.

(** shortcuts.hpp 225-229: [idx].  The other helpers for states are in StateTools.v. *)
Definition idx (l : list (dim * val)) : state := map (fun x => (Idx (fst x), snd x)) l.

(** shortcuts.hpp 300-325, 365-373: [index_space_size(structure)].  The result type is [std::size_t]: the
    arithmetic is the built-in one.  A fold of [+] over no branches does not compile. *)
Fixpoint iss_tree (s : struct) (t : dtree) : option val :=
  match t with
  | DLeaf => Some (Dyn 1)
  | DNode d bs =>
      match bs with
      | [b] => do n <- length_ s d []; do r <- iss_tree s b; Some (dyn2 Z.mul n r)
      | _ => do rs <- omap (iss_tree s) bs;
             match rs with [] => None | r :: l => Some (fold_left (dyn2 Z.add) l r) end
      end
  end.
Definition index_space_size (s : struct) : option val :=
  do sg <- signature s; iss_tree s (sig_dim_tree sg).
