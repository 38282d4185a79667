(** * C34, C37, C39: what the queries promise is available *)

From Verif Require Import Check SpecBag Avail Introspect LowerBound Striped SpecAvail SpecPromise Promises PropsLayout.

(** If [has_stride_along] says so, [stride_along] compiles, for structures whose size is available. *)
Theorem C37_stride_available : forall s, signature s <> None -> queries_ok s ->
  forall q st, size_ s st <> None -> has_stride_along s q st = Some true -> stride_along s q st <> None.
Proof. exact stride_promise. Qed.
Print Assumptions C37_stride_available.

(** If [has_offset_along] says so, [offset_along] compiles, for structures whose size is available and no dimension of which is
    split into blocks. *)
Theorem C37_offset_available : forall s, no_blocks s = true ->
  forall q st, size_ s st <> None -> has_offset_along s q st = Some true -> offset_along s q st <> None.
Proof. exact offset_promise. Qed.
Print Assumptions C37_offset_available.

(** If [has_lower_bound_along] says so, [lower_bound_along] compiles, for structures without blocks and slices. *)
Theorem C39_available : forall s, no_blocks s = true -> no_slices s = true ->
  forall q st, has_lower_bound s q st = Some true -> lower_bound s q st None <> None.
Proof. exact bound_promise. Qed.
Print Assumptions C39_available.

(** A matrix whose dimensions are joined, and one whose dimensions are merged. *)
Definition pm_m : struct := vec 1 (Dyn 4) (vec 2 (Dyn 4) (Scalar int4)).
Definition pm_j : struct := View (VJoin 1 2 3) pm_m.
Definition pm_g : struct := View (VMerge 1 2 3) pm_m.
Definition pm_b : struct := View (VSetLength 5 (Dyn 2)) (View (VBlocks 1 4 5) pm_m).

Example C37_available_ex :
  signature pm_j <> None /\ queries_ok pm_j /\ no_blocks pm_j = true /\ size_ pm_j [] = Some (Dyn 64) /\
  has_stride_along pm_j 3 [] = Some true /\ stride_along pm_j 3 [] = Some (Dyn 20) /\ has_stride_along pm_j 1 [] = Some false /\
  has_offset_along pm_j 3 [(Idx 3, Dyn 2)] = Some true /\ size_ pm_j [(Idx 3, Dyn 2)] = Some (Dyn 64) /\ offset_along pm_j 3 [(Idx 3, Dyn 2)] = Some (Dyn 40) /\
  signature pm_b <> None /\ queries_ok pm_b /\ size_ pm_b [] = Some (Dyn 64) /\
  has_stride_along pm_b 4 [] = Some true /\ stride_along pm_b 4 [] = Some (Dyn 32).
Proof. repeat split; try (vm_compute; reflexivity); vm_compute; discriminate. Qed.

Example C39_available_ex : no_blocks pm_g = true /\ no_slices pm_g = true /\ has_lower_bound pm_g 3 [] = Some true /\ lower_bound pm_g 3 [] None = Some (Sta 0) /\
  has_lower_bound pm_g 1 [] = Some false.
Proof. repeat split; vm_compute; reflexivity. Qed.

(** Without the size: a vector with a length over a vector without one has a stride by [has_stride_along], but it cannot be
    computed. *)
Theorem C37_stride_available_refuted : exists s q st, signature s <> None /\ swf s = true /\ has_stride_along s q st = Some true /\ stride_along s q st = None.
Proof.
  exists (Vector 1 (Vector 2 (Scalar int4))), 1, [(Len 1, Dyn 3)]. split; [vm_compute; discriminate|]. repeat split; vm_compute; reflexivity.
Qed.
Print Assumptions C37_stride_available_refuted.

(** With blocks: the positions in blocks of unknown length have a lower bound by [has_lower_bound_along], but it asks for the
    length of the blocks. *)
Theorem C39_available_refuted : exists s q st, signature s <> None /\ swf s = true /\ has_lower_bound s q st = Some true /\ lower_bound s q st None = None.
Proof.
  exists (View (VBlocks 1 2 3) (vec 1 (Dyn 6) (Scalar int4))), 3, []. split; [vm_compute; discriminate|]. repeat split; vm_compute; reflexivity.
Qed.
Print Assumptions C39_available_refuted.

(** [cuda_striped<N>()] without an element structure: the numbers are the given ones, and the elements are the scalars. *)
Theorem C34_scalar_striped : forall n b bw s p, scalar_striped n b bw s = Some p ->
  sp_num p = n /\ sp_banks p = b /\ sp_width p = bw /\ sp_sub p = s /\ exists c, scalar_t s [] = Some c /\ sp_elem p = Scalar c.
Proof. exact scalar_striped_is. Qed.
Print Assumptions C34_scalar_striped.

Example C34_scalar_striped_ex : exists p, scalar_striped 10 32 4 pm_m = Some p.
Proof. eexists. vm_compute. reflexivity. Qed.
