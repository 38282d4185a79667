(** * C50: helpers for working with states *)

From Verif Require Import Check PropsLayout ToolFacts.

(** [s ^ fix(state)] behaves like [s] with the indices of the state added. *)
Theorem C50_fix_state : forall st0 t st st', signature (apply (p_fix st0) t) <> None -> with_indices st0 st st' ->
  works_as (apply (p_fix st0) t) st t st' /\
  (forall q, get (Idx q) st0 = None -> get (Idx q) st = None -> length_as (apply (p_fix st0) t) q st t q st').
Proof. exact fix_state. Qed.
Print Assumptions C50_fix_state.

(** [s ^ fix<Dims...>(state)]: only the listed indices. *)
Theorem C50_fix_dims : forall ds st0 p t st st', p_fix_dims ds st0 = Some p -> signature (apply p t) <> None -> with_indices (filter_indices ds st0) st st' ->
  works_as (apply p t) st t st' /\ forall q, ~ In q ds -> get (Idx q) st = None -> length_as (apply p t) q st t q st'.
Proof. exact fix_dims. Qed.
Print Assumptions C50_fix_dims.

(** [s ^ set_length(state)] behaves like [s] with the lengths of the state added. *)
Theorem C50_set_length_state : forall st0 t st st', signature (apply (p_set_length st0) t) <> None -> with_lengths st0 st st' ->
  works_as (apply (p_set_length st0) t) st t st' /\
  (forall q, get (Idx q) st = None -> length_as (apply (p_set_length st0) t) q st t q st').
Proof. exact set_length_state. Qed.
Print Assumptions C50_set_length_state.

Theorem C50_set_length_dims : forall ds st0 p t st st', p_set_length_dims ds st0 = Some p -> signature (apply p t) <> None -> with_lengths (filter_lengths ds st0) st st' ->
  works_as (apply p t) st t st' /\ forall q, get (Idx q) st = None -> length_as (apply p t) q st t q st'.
Proof. exact set_length_dims. Qed.
Print Assumptions C50_set_length_dims.

(** [t ^ lengths_like<Dims...>(s, state)] behaves like [t] with the lengths that [s] has in those dimensions. *)
Theorem C50_lengths_like : forall ds s st0 p t lens st st', p_lengths_like ds s st0 = Some p -> signature (apply p t) <> None ->
  (forall d, get (Len d) lens = if mem d ds then length_ s d st0 else None) -> with_lengths lens st st' ->
  works_as (apply p t) st t st' /\ forall q, get (Idx q) st = None -> length_as (apply p t) q st t q st'.
Proof. exact lengths_like_dims. Qed.
Print Assumptions C50_lengths_like.

(** A 2 x 3 matrix, with and without the number of rows, and a state with a row, a column and the number of rows. *)
Definition tool_ex : struct := vec 1 (Dyn 2) (vec 2 (Dyn 3) (Scalar int4)).
Definition tool_open : struct := Vector 1 (vec 2 (Dyn 3) (Scalar int4)).
Definition tool_st : state := [(Len 1, Dyn 2); (Idx 2, Dyn 1); (Idx 1, Dyn 0)].

Example C50_ex :
  signature (apply (p_fix tool_st) tool_ex) <> None /\ with_indices tool_st [] [(Idx 2, Dyn 1); (Idx 1, Dyn 0)] /\
  (exists p, p_fix_dims [1] tool_st = Some p /\ signature (apply p tool_ex) <> None /\ with_indices (filter_indices [1] tool_st) [(Idx 2, Dyn 2)] [(Idx 1, Dyn 0); (Idx 2, Dyn 2)] /\
     offset (apply p tool_ex) [(Idx 2, Dyn 2)] = Some (Dyn 8)) /\
  signature (apply (p_set_length tool_st) tool_open) <> None /\ with_lengths tool_st [(Idx 2, Dyn 2)] [(Idx 2, Dyn 2); (Len 1, Dyn 2)] /\
  (exists p, p_set_length_dims [1] tool_st = Some p /\ size_ (apply p tool_open) [] = Some (Dyn 24)) /\
  (exists p, p_lengths_like [2; 1] (vec 1 (Dyn 4) (vec 2 (Dyn 3) (Scalar int4))) [] = Some p /\ size_ (apply p (Vector 1 (Vector 2 (Scalar int4)))) [] = Some (Dyn 48)).
Proof.
  split; [discriminate|]. split; [intros d; cbn [get tag_eqb tool_st]; destruct (d =? 2), (d =? 1); split; reflexivity|]. split.
  { eexists. split; [reflexivity|]. split; [discriminate|]. split; [|vm_compute; reflexivity]. intros d. cbn [get tag_eqb tool_st filter_indices filter_tags map]. vm_compute (filter_indices _ _). cbn [get tag_eqb].
    destruct (d =? 2) eqn:E, (d =? 1) eqn:E'; split; reflexivity. }
  split; [discriminate|]. split; [intros d; cbn [get tag_eqb tool_st]; destruct (d =? 2), (d =? 1); split; reflexivity|]. split.
  - eexists. split; [reflexivity|]. vm_compute. reflexivity.
  - eexists. split; [vm_compute; reflexivity|]. vm_compute. reflexivity.
Qed.

(** [get_indices] and [get_lengths_in] give the entries in the order of the dimensions asked for, and are only accepted if all exist. *)
Theorem C50_get_indices : forall ds st vs, get_indices ds st = Some vs <-> Forall2 (fun d v => get (Idx d) st = Some v) ds vs.
Proof. exact get_indices_nth. Qed.
Print Assumptions C50_get_indices.
Theorem C50_get_lengths : forall ds st vs, get_lengths_in ds st = Some vs <-> Forall2 (fun d v => get (Len d) st = Some v) ds vs.
Proof. exact get_lengths_nth. Qed.
Print Assumptions C50_get_lengths.

(** [filter_indices] and [filter_lengths] keep these indices (lengths) and nothing else. *)
Theorem C50_filter_indices : forall ds st, (forall d, get (Idx d) (filter_indices ds st) = if mem d ds then get (Idx d) st else None) /\
  forall t, (forall d, t <> Idx d) -> get t (filter_indices ds st) = None.
Proof. exact filter_indices_get. Qed.
Print Assumptions C50_filter_indices.
Theorem C50_filter_lengths : forall ds st, (forall d, get (Len d) (filter_lengths ds st) = if mem d ds then get (Len d) st else None) /\
  forall t, (forall d, t <> Len d) -> get t (filter_lengths ds st) = None.
Proof. exact filter_lengths_get. Qed.
Print Assumptions C50_filter_lengths.

(** [update_index] changes one index, which must exist, and nothing else. *)
Theorem C50_update_index : forall d f st,
  (get (Idx d) st = None -> update_index d f st = None) /\
  forall i, get (Idx d) st = Some i -> exists st', update_index d f st = Some st' /\ get (Idx d) st' = Some (f i) /\ forall t, t <> Idx d -> get t st' = get t st.
Proof. exact update_index_get. Qed.
Print Assumptions C50_update_index.

Example C50_read_ex : get_indices [1; 2] tool_st = Some [Dyn 0; Dyn 1] /\ get_lengths_in [1] tool_st = Some [Dyn 2] /\
  filter_indices [2] tool_st = [(Idx 2, Dyn 1)] /\ filter_lengths [1; 2] tool_st = [(Len 1, Dyn 2)] /\
  (exists st', update_index 2 (fun v => vadd v (Sta 1)) tool_st = Some st' /\ get (Idx 2) st' = Some (Dyn 2)) /\ update_index 3 vdyn tool_st = None.
Proof. repeat split. eexists. split; reflexivity. Qed.

(** [fix_zeros] over the dimensions of a structure gives index 0 to each dimension on the way to the first scalar and no lengths... *)
Theorem C50_zeros : forall s sg z, signature s = Some sg -> fix_zeros (sig_dim_tree sg) [] = Some z ->
  (exists p, dims_of s z = Some p /\ forall d, In d (map fst p) -> exists i, get (Idx d) z = Some i /\ vz i = Some 0) /\ forall d, get (Len d) z = None.
Proof. exact fix_zeros_zero. Qed.
Print Assumptions C50_zeros.

(** ... and if that names an element, it is the one a traversal visits first. *)
Theorem C50_zeros_first : forall s sg z p l, signature s = Some sg -> fix_zeros (sig_dim_tree sg) [] = Some z ->
  distinct_dims s -> lenok s nolens -> names_element s z p -> for_each (traverser [s]) [] = Done l ->
  exists st0 l', l = st0 :: l' /\ dims_of s st0 = dims_of s z /\ index_list s st0 = index_list s z.
Proof. exact fix_zeros_first. Qed.
Print Assumptions C50_zeros_first.

(** A pair of a 2 x 3 matrix with columns in blocks of 2 (one incomplete) and a vector of 2. *)
Definition zeros_ex : struct :=
  Tuple 1 [View (VSetLength 4 (Dyn 2)) (View (VBlocksDyn 3 5 4 6) (vec 3 (Dyn 3) (vec 2 (Dyn 2) (Scalar int4))));
           vec 2 (Dyn 2) (Scalar int4)].
Definition zeros_sig : sig := match signature zeros_ex with Some sg => sg | None => SVoid end.
Definition zeros_st : state := match fix_zeros (sig_dim_tree zeros_sig) [] with Some z => z | None => [] end.
Definition zeros_list : list state := match for_each (traverser [zeros_ex]) [] with Done l => l | _ => [] end.

Example C50_zeros_ex : signature zeros_ex = Some zeros_sig /\ fix_zeros (sig_dim_tree zeros_sig) [] = Some zeros_st /\
  distinct_dims zeros_ex /\ lenok zeros_ex nolens /\ (exists p, names_element zeros_ex zeros_st p) /\
  for_each (traverser [zeros_ex]) [] = Done zeros_list /\ List.length zeros_list = 8%nat.
Proof.
  split; [vm_compute; reflexivity|]. split; [vm_compute; reflexivity|]. split; [vm_compute; reflexivity|]. split; [apply lenokb_sound; vm_compute; reflexivity|].
  split; [|split; vm_compute; reflexivity]. eexists. apply names_element_check; vm_compute; reflexivity.
Qed.
