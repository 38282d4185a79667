(** * C55: structure traits *)

From Verif Require Import SpecTraits TraitsFacts Shortcuts PropsLayout.

(** [is_point]: the structure has no dimensions, whatever the state. *)
Theorem C55_point : forall s, is_point s = Some true <-> signature s <> None /\ forall st, dims_of s st = Some [].
Proof. exact point_api. Qed.
Print Assumptions C55_point.

(** Traversing a point makes one call. *)
Theorem C55_point_trav : forall s, is_point s = Some true -> for_each (traverser [s]) [] = Done [[]].
Proof. exact point_trav. Qed.
Print Assumptions C55_point_trav.

(** "Any point is a cube", if its size is known. *)
Theorem C55_point_cube : forall s, is_point s = Some true -> has_size s [] = Some true -> is_cube s = Some true.
Proof. exact point_is_cube. Qed.
Print Assumptions C55_point_cube.

(** [is_cube]: the size is known, all elements have one type, and every element has the same dimensions, none of which is a
    tuple. *)
Theorem C55_cube : forall s, is_cube s = Some true ->
  has_size s [] = Some true /\ (forall st, scalar_t s st = scalar_t s []) /\
  exists ds, forall st, dims_of s st = Some (map (fun d => (d, None)) ds).
Proof. exact cube_api. Qed.
Print Assumptions C55_cube.

(** A structure whose element type needs no state is a cube if its size is known. *)
Theorem C55_cube_needs : forall s, scalar_t s [] <> None -> has_size s [] = Some true -> is_cube s = Some true.
Proof. exact cube_needs. Qed.
Print Assumptions C55_cube_needs.

(** "For a structure to not be a cube, it must have an unfixed tuple dimension", if its size is known. *)
Theorem C55_not_cube : forall s, is_cube s = Some false -> no_empty_tuple s -> has_size s [] = Some true ->
  exists p d n, element_dims s p /\ In (d, Some n) p.
Proof. exact not_cube_api. Qed.
Print Assumptions C55_not_cube.

(** [HasDims]: each of the dimensions is a dimension of some element. *)
Theorem C55_has_dims : forall s ds, distinct_dims s -> no_empty_tuple s ->
  (has_dims s ds = Some true <-> forall d, In d ds -> exists p, element_dims s p /\ In d (map fst p)).
Proof. exact has_dims_api. Qed.
Print Assumptions C55_has_dims.

(** [dim_tree_to_sequence] accepts exactly the trees that [dim_tree_from_sequence] makes, and gives back the sequence. *)
Theorem C55_sequence : forall ds t, seq_of_dtree t = Some ds <-> t = dtree_of_seq ds.
Proof. exact seq_of_dtree_iff. Qed.
Print Assumptions C55_sequence.

(** The tree of dimensions of a cube is the sequence of the dimensions of its elements. *)
Theorem C55_cube_sequence : forall s, is_cube s = Some true -> exists sg ds, signature s = Some sg /\
  (forall st, dims_of s st = Some (map (fun d => (d, None)) ds)) /\
  seq_of_dtree (sig_dim_tree sg) = Some ds /\ sig_dim_tree sg = dtree_of_seq ds /\ sig_dim_seq sg = Some (rev ds).
Proof. exact cube_sequence. Qed.
Print Assumptions C55_cube_sequence.

(** Fixing dimensions takes these dimensions from the elements, and no others. *)
Theorem C55_fix_dims : forall st0 t st st', distinct_dims t -> signature (apply (p_fix st0) t) <> None -> with_indices st0 st st' ->
  dims_of (apply (p_fix st0) t) st = option_map (filter (fun e => negb (has (Idx (fst e)) st0))) (dims_of t st').
Proof. exact fix_dims_api. Qed.
Print Assumptions C55_fix_dims.

(** "A point is any structure which has all its dimensions fixed." *)
Theorem C55_fix_point : forall st0 t, distinct_dims t -> signature (apply (p_fix st0) t) <> None ->
  (is_point (apply (p_fix st0) t) = Some true <-> exists p, dims_of t st0 = Some p /\ forall d, In d (map fst p) -> get (Idx d) st0 <> None).
Proof. exact fix_point_api. Qed.
Print Assumptions C55_fix_point.

(** A table of 3 rows of two columns, of which the second is an array. *)
Definition tr_s : struct := vec 1 (Dyn 3) (Tuple 2 [Scalar int4; vec 3 (Dyn 5) (Scalar int4)]).
Definition tr_st : state := [(Idx 1, Dyn 2); (Idx 2, Sta 1); (Idx 3, Dyn 4)].
Definition tr_st2 : state := [(Idx 2, Sta 1)].
Definition tr_col : struct := apply (p_fix tr_st2) tr_s.

Example C55_ex_tuple : distinct_dims tr_s /\ no_empty_tuple tr_s /\ has_size tr_s [] = Some true /\ is_point tr_s = Some false /\ is_cube tr_s = Some false /\
  has_dims tr_s [1; 2; 3] = Some true /\ has_dims tr_s [1; 4] = Some false.
Proof. repeat split; vm_compute; reflexivity. Qed.

Example C55_ex_cube : is_cube tr_col = Some true /\ is_point tr_col = Some false /\ dims_of tr_col [] = Some [(1, None); (3, None)] /\ scalar_t tr_col [] = Some int4 /\
  (do sg <- signature tr_col; seq_of_dtree (sig_dim_tree sg)) = Some [1; 3] /\ (do sg <- signature tr_s; seq_of_dtree (sig_dim_tree sg)) = None.
Proof. repeat split; vm_compute; reflexivity. Qed.

Example C55_ex_fix : signature (apply (p_fix tr_st) tr_s) <> None /\ is_point (apply (p_fix tr_st) tr_s) = Some true /\ is_cube (apply (p_fix tr_st) tr_s) = Some true /\
  with_indices tr_st2 [(Idx 1, Dyn 2)] [(Idx 1, Dyn 2); (Idx 2, Sta 1)] /\ signature tr_col <> None /\
  dims_of tr_s tr_st = Some [(1, None); (2, Some 2); (3, None)].
Proof.
  split; [vm_compute; discriminate|]. split; [vm_compute; reflexivity|]. split; [vm_compute; reflexivity|].
  split. { intros d. cbn. destruct (Z.eqb_spec d 1) as [->|]; [split; reflexivity|]. destruct (Z.eqb_spec d 2); split; reflexivity. }
  split; [vm_compute; discriminate|vm_compute; reflexivity].
Qed.

(** The documentation says that any point is a cube, and that only a structure with a tuple is not.  An element of an array
    whose length is not known is a point; the array itself has no tuple and its elements have offsets once the length is given.
    Neither is a cube, because [is_cube] wants a size. *)
Theorem C55_point_not_cube_refuted : exists s t, is_point s = Some true /\ is_cube s = Some false /\
  is_cube t = Some false /\ offset t [(Idx 1, Dyn 2); (Len 1, Dyn 5)] = Some (Dyn 8) /\ (forall p, element_dims t p -> p = [(1, None)]).
Proof.
  exists (View (VFix 1 (Dyn 2)) (Vector 1 (Scalar int4))), (Vector 1 (Scalar int4)).
  split; [vm_compute; reflexivity|]. split; [vm_compute; reflexivity|]. split; [vm_compute; reflexivity|]. split; [vm_compute; reflexivity|].
  intros p (sg & a & E & Ep). vm_compute in E. injection E as <-. cbn in Ep. injection Ep as <-. reflexivity.
Qed.
Print Assumptions C55_point_not_cube_refuted.
