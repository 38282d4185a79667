(** * C54: a bag seen through views *)

From Verif Require Import Check Views SpecBag SpecViews BagView PropsLayout PropsBag.

(** [bag ^ proto] keeps the memory and the policy, and changes the structure only. *)
Theorem C54_view : forall g b p b', bag_view g b p = Done b' ->
  bg_struct b' = apply p (bg_struct b) /\ bg_data b' = bg_data b /\ bg_policy b' = bg_policy b /\ preserves_layout p = true.
Proof. exact bag_view_ok. Qed.
Print Assumptions C54_view.

(** The view reports the size of the original bag, if it reports one. *)
Theorem C54_size : forall g b p b' n n', bag_view g b p = Done b' -> swf (bg_struct b') = true -> lenok (bg_struct b') nolens ->
  get_size (bg_struct b) [] = Some n -> get_size (bg_struct b') [] = Some n' -> exists x, vz n = Some x /\ vz n' = Some x.
Proof. exact view_size_api. Qed.
Print Assumptions C54_size.

(** Every element of the view lies in the memory of the original bag. *)
Theorem C54_defined : forall g b p b' st v, bag_view g b p = Done b' -> enough_data b -> sound_struct (bg_struct b') -> element (bg_struct b') st ->
  bag_read b' st <> Undefined /\ bag_write b' st v <> Undefined.
Proof. exact view_defined_api. Qed.
Print Assumptions C54_defined.

(** Writing through the view changes one element of the view. *)
Theorem C54_write : forall g b p b' st v b2, bag_view g b p = Done b' -> enough_data b -> sound_struct (bg_struct b') -> element (bg_struct b') st ->
  bag_write b' st v = Done b2 ->
  (bg_struct b2 = bg_struct b' /\ bg_policy b2 = bg_policy b' /\ length (bg_data b2) = length (bg_data b)) /\
  bag_read b2 st = Done v /\
  (nobcast (bg_struct b') = true -> forall st', element (bg_struct b') st' -> ~ same_element (bg_struct b') st st' -> bag_read b2 st' = bag_read b' st').
Proof. exact view_write_api. Qed.
Print Assumptions C54_write.

(** Where the view works as the original structure does with another state (C13 to C25 say where), both bags read the same
    value, and writing to either changes the memory in the same way. *)
Theorem C54_same_memory : forall g b p b' st st', bag_view g b p = Done b' -> works_as (bg_struct b') st (bg_struct b) st' ->
  (forall v v', bag_read b' st = Done v -> bag_read b st' = Done v' -> v = v') /\
  (forall v b2 b2', bag_write b' st v = Done b2' -> bag_write b st' v = Done b2 -> bg_data b2' = bg_data b2).
Proof. exact view_same_api. Qed.
Print Assumptions C54_same_memory.

(** A matrix of 2 x 5 integers, of which the columns 1, 2 and 3 are seen. *)
Definition vw_b : bag := {| bg_struct := vec 1 (Dyn 2) (vec 2 (Dyn 5) (Scalar int4)); bg_policy := Raw; bg_data := zseq 40 |}.
Definition vw_p : proto := [LView (VSlice 2 (Dyn 1) (Dyn 3))].
Definition vw_b' : bag := {| bg_struct := View (VSlice 2 (Dyn 1) (Dyn 3)) (bg_struct vw_b); bg_policy := Raw; bg_data := zseq 40 |}.
Definition vw_st : state := [(Idx 1, Dyn 1); (Idx 2, Dyn 2)].
Definition vw_st2 : state := [(Idx 1, Dyn 1); (Idx 2, Dyn 3)].

Example C54_ex : bag_view true vw_b vw_p = Done vw_b' /\ bag_view false vw_b vw_p = Done vw_b' /\
  enough_data vw_b /\ sound_struct (bg_struct vw_b') /\ element (bg_struct vw_b') vw_st /\ nobcast (bg_struct vw_b') = true /\
  get_size (bg_struct vw_b) [] = Some (Dyn 40) /\ get_size (bg_struct vw_b') [] = Some (Dyn 40) /\
  works_as (bg_struct vw_b') vw_st (bg_struct vw_b) vw_st2 /\
  bag_read vw_b' vw_st = Done [32; 33; 34; 35] /\ bag_read vw_b vw_st2 = Done [32; 33; 34; 35] /\ bag_read vw_b' vw_st2 = Done [36; 37; 38; 39] /\
  exists b2, bag_write vw_b' vw_st [1; 2; 3; 4] = Done b2.
Proof.
  split; [vm_compute; reflexivity|]. split; [vm_compute; reflexivity|].
  split; [exists (Dyn 40), 40; split; [vm_compute; reflexivity|]; split; [vm_compute; reflexivity|vm_compute; discriminate]|].
  split. { split; [vm_compute; reflexivity|]. split; [apply lenokb_sound; vm_compute; reflexivity|]. split; [|rewrite W_eq; vm_compute; reflexivity].
    intros a. unfold vw_b', vw_b, vec. cbn. rewrite ?u64_small by (rewrite W_eq; lia). repeat split; try tauto; try lia. }
  split; [split; [exists [(1, None); (2, None)]; apply names_element_check; vm_compute; reflexivity|intros d; reflexivity]|].
  split; [vm_compute; reflexivity|]. split; [vm_compute; reflexivity|]. split; [vm_compute; reflexivity|].
  split. { apply slice_follows; [vm_compute; discriminate|]. intros u. destruct u as [q|q|q]; [|reflexivity|reflexivity]. cbn. destruct (q =? 1) eqn:E1; destruct (q =? 2) eqn:E2; try reflexivity.
    apply Z.eqb_eq in E1, E2. lia. }
  split; [vm_compute; reflexivity|]. split; [vm_compute; reflexivity|]. split; [vm_compute; reflexivity|]. eexists. vm_compute. reflexivity.
Qed.

(** A bag whose memory has no known size may be given a length later, that its memory does not have. *)
Theorem C54_set_length_refuted : exists b p b' st, bag_view false b p = Done b' /\ sound_struct (bg_struct b') /\ element (bg_struct b') st /\
  bg_struct b = View (VShift 1 (Dyn 2)) (Vector 1 (Scalar int4)) /\ length (bg_data b) = 40%nat /\ p = [LView (VSetLength 1 (Dyn 9))] /\
  bag_read b' st = Undefined.
Proof.
  exists {| bg_struct := View (VShift 1 (Dyn 2)) (Vector 1 (Scalar int4)); bg_policy := Raw; bg_data := zseq 40 |}, [LView (VSetLength 1 (Dyn 9))].
  eexists. exists [(Idx 1, Dyn 8)]. split; [vm_compute; reflexivity|]. cbn [bg_struct].
  split. { split; [vm_compute; reflexivity|]. split; [apply lenokb_sound; vm_compute; reflexivity|]. split; [|rewrite W_eq; vm_compute; reflexivity]. intros a. cbn. rewrite ?u64_small by (rewrite W_eq; lia). repeat split; try tauto; try lia. }
  split; [split; [exists [(1, None)]; apply names_element_check; vm_compute; reflexivity|intros d; reflexivity]|].
  repeat split; vm_compute; reflexivity.
Qed.
Print Assumptions C54_set_length_refuted.
