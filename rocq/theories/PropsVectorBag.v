(** * C33, C54: references to bags and bags whose data is a [std::vector] *)

From Verif Require Import Check Views SpecBag SpecViews BagView VectorBag VectorBagFacts PropsLayout PropsBag PropsBagView.

(** [get_ref()] is the same structure and the same memory: it reads what the bag reads, and it can be written where and only
    where the bag can, with the same effect on the memory. *)
Theorem C54_get_ref : forall b,
  bg_struct (get_ref b) = bg_struct b /\ bg_data (get_ref b) = bg_data b /\
  (forall st, bag_read (get_ref b) st = bag_read b st) /\
  (forall st v, out_map bg_data (bag_write (get_ref b) st v) = out_map bg_data (bag_write b st v)).
Proof. exact get_ref_same. Qed.
Print Assumptions C54_get_ref.

(** Views can be applied to the reference of every bag. *)
Theorem C54_get_ref_view : forall g b p, preserves_layout p = true -> signature (apply p (bg_struct b)) <> None ->
  exists b', bag_view g (get_ref b) p = Done b' /\ bg_struct b' = apply p (bg_struct b) /\ bg_data b' = bg_data b.
Proof. exact get_ref_view. Qed.
Print Assumptions C54_get_ref_view.

(** docs/BasicUsage.md 195-197 allow views of a bag that is a call to [make_bag] or a [std::move]; for a bag that owns its data
    through a [std::unique_ptr] they never compile. *)
Theorem C54_owned_refuted : forall g s b p, make_bag s = Done b -> bag_view g b p = Rejected.
Proof. exact owned_no_view. Qed.
Print Assumptions C54_owned_refuted.

Definition vb_s : struct := vec 1 (Dyn 2) (vec 2 (Dyn 5) (Scalar int4)).
Definition vb_b : bag := {| bg_struct := vb_s; bg_policy := Owned; bg_data := zseq 40 |}.
Definition vb_c : bag := {| bg_struct := vb_s; bg_policy := ConstRaw; bg_data := zseq 40 |}.

Example C54_get_ref_ex : (exists b, make_bag vb_s = Done b) /\ preserves_layout vw_p = true /\ signature (apply vw_p (bg_struct vb_b)) <> None /\
  bag_view true vb_b vw_p = Rejected /\ bag_view false (get_ref vb_b) vw_p = Done vw_b' /\
  bag_read (get_ref vb_b) vw_st = Done [28; 29; 30; 31] /\
  (exists b, bag_write (get_ref vb_b) vw_st [1; 2; 3; 4] = Done b) /\ bag_write (get_ref vb_c) vw_st [1; 2; 3; 4] = Rejected.
Proof.
  split; [eexists; vm_compute; reflexivity|]. split; [vm_compute; reflexivity|]. split; [vm_compute; discriminate|].
  split; [vm_compute; reflexivity|]. split; [vm_compute; reflexivity|]. split; [vm_compute; reflexivity|].
  split; [eexists; vm_compute; reflexivity|vm_compute; reflexivity].
Qed.

(** [make_vector_bag(s)] has as many bytes as [s] needs, all zero. *)
Theorem C33_make_vector_bag : forall s b, make_vector_bag s = Done b -> vb_struct b = s /\ enough_data (vb_ref b) /\ Forall (eq 0) (vb_data b).
Proof. exact make_vector_zero. Qed.
Print Assumptions C33_make_vector_bag.

(** Reading an element is defined and gives zero bytes. *)
Theorem C33_vector_read : forall s b st, make_vector_bag s = Done b -> sound_struct s -> element s st ->
  vb_read b st <> Undefined /\ (forall v, vb_read b st = Done v -> Forall (eq 0) v).
Proof. exact vector_reads_zero. Qed.
Print Assumptions C33_vector_read.

(** No element of such a bag can be assigned: the bag gives references to const only. *)
Theorem C33_vector_write_refuted : forall b st v, vb_write b st v = Rejected.
Proof. exact vector_no_write. Qed.
Print Assumptions C33_vector_write_refuted.

(** Only a bag that is given up can be seen through views; the new bag has the same bytes. *)
Theorem C54_vector_view : forall g b p b', vb_view g b p = Done b' ->
  g = true /\ vb_struct b' = apply p (vb_struct b) /\ vb_data b' = vb_data b /\ preserves_layout p = true.
Proof. exact vector_view. Qed.
Print Assumptions C54_vector_view.

Example C33_vector_ex : exists b b', make_vector_bag vb_s = Done b /\ sound_struct vb_s /\ element vb_s vw_st /\
  vb_read b vw_st = Done [0; 0; 0; 0] /\ vb_write b vw_st [1; 2; 3; 4] = Rejected /\
  vb_view true b vw_p = Done b' /\ vb_view false b vw_p = Rejected /\ vb_read b' vw_st = Done [0; 0; 0; 0].
Proof.
  eexists. eexists. split; [vm_compute; reflexivity|].
  split. { split; [vm_compute; reflexivity|]. split; [apply lenokb_sound; vm_compute; reflexivity|]. split; [|rewrite W_eq; vm_compute; reflexivity].
    intros a. unfold vb_s, vec. cbn. rewrite ?u64_small by (rewrite W_eq; lia). repeat split; try tauto; try lia. }
  split; [split; [exists [(1, None); (2, None)]; apply names_element_check; vm_compute; reflexivity|intros d; reflexivity]|].
  split; [vm_compute; reflexivity|]. split; [vm_compute; reflexivity|]. split; [vm_compute; reflexivity|]. split; vm_compute; reflexivity.
Qed.
