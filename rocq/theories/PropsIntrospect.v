(** * Properties of the introspection queries (C37) *)

From Verif Require Import IntrospectApi Shortcuts Check PropsLayout.

(** ** C37 *)

(** [stride_along<q>(s, state)]: moving the index in [q] from [i1] to [i2] moves the offset by exactly
    [(i2 - i1) * stride].  The query may be asked with any part of the indices, without that of [q]. *)
Theorem C37_stride : forall s st0 st1 st2 q p1 p2 v o1 o2,
  used_correctly s st1 -> used_correctly s st2 -> names_element s st1 p1 -> names_element s st2 p2 ->
  differ_in q st1 st2 -> with_fewer_indices q st0 st1 -> In (q, None) p1 -> steady q s = true -> own_steps q s = true ->
  offset s st1 = Some o1 -> offset s st2 = Some o2 -> stride_along s q st0 = Some v ->
  exists i1 i2 x1 x2 k, at_index st1 q i1 /\ at_index st2 q i2 /\ vz o1 = Some x1 /\ vz o2 = Some x2 /\ vz v = Some k /\
    same_word (x2 - x1) ((i2 - i1) * k).
Proof. exact stride_api. Qed.
Print Assumptions C37_stride.

(** [offset_along<q>(s, state)]: when only the index in [q] changes, it changes as much as the offset. *)
Theorem C37_offset : forall s st1 st2 q p1 p2 v1 v2 y1 y2 o1 o2,
  used_correctly s st1 -> used_correctly s st2 -> names_element s st1 p1 -> names_element s st2 p2 ->
  differ_in q st1 st2 -> In (q, None) p1 -> steady q s = true ->
  offset s st1 = Some o1 -> offset s st2 = Some o2 -> offset_along s q st1 = Some v1 -> offset_along s q st2 = Some v2 ->
  vz v1 = Some y1 -> vz v2 = Some y2 ->
  exists x1 x2, vz o1 = Some x1 /\ vz o2 = Some x2 /\ same_word (x2 - x1) (y2 - y1).
Proof. exact offset_along_api. Qed.
Print Assumptions C37_offset.

(** Along a dimension that is not merged from several ones the offset is affine: there is one number
    that every step adds.  So there the answer of [is_uniform_along] is never wrong. *)
Theorem C37_uniform : forall s st q p, used_correctly s st -> names_element s st p -> In (q, None) p -> steady q s = true ->
  exists k, forall st2 p2 o1 o2, used_correctly s st2 -> names_element s st2 p2 -> differ_in q st st2 ->
    offset s st = Some o1 -> offset s st2 = Some o2 ->
    exists i1 i2 x1 x2, at_index st q i1 /\ at_index st2 q i2 /\ vz o1 = Some x1 /\ vz o2 = Some x2 /\ same_word (x2 - x1) ((i2 - i1) * k).
Proof. exact uniform_api. Qed.
Print Assumptions C37_uniform.

(** Blocks (7: number, 8: element) of a reversed, stepped row. *)
Definition stride_ex : struct := vec 1 (Dyn 3) (View (VSetLength 8 (Dyn 2)) (View (VBlocks 2 7 8)
  (View (VReverse 2) (View (VStep 2 (Dyn 1) (Dyn 2)) (vec 2 (Dyn 12) (Scalar int4)))))).
Definition stride_st (i : Z) : state := [(Idx 1, Dyn 1); (Idx 7, Dyn i); (Idx 8, Dyn 1)].
Example C37_ex : used_correctly stride_ex (stride_st 0) /\ used_correctly stride_ex (stride_st 2) /\
  names_element stride_ex (stride_st 0) [(1, None); (7, None); (8, None)] /\
  names_element stride_ex (stride_st 2) [(1, None); (7, None); (8, None)] /\
  differ_in 7 (stride_st 0) (stride_st 2) /\ with_fewer_indices 7 [(Idx 1, Dyn 1)] (stride_st 0) /\
  steady 7 stride_ex = true /\ own_steps 7 stride_ex = true /\
  offset stride_ex (stride_st 0) = Some (Dyn 84) /\ offset stride_ex (stride_st 2) = Some (Dyn 52) /\
  (exists v, stride_along stride_ex 7 [(Idx 1, Dyn 1)] = Some v /\ vz v = Some (2 ^ 64 - 16)) /\
  (exists v1 v2 x1 x2, offset_along stride_ex 7 (stride_st 0) = Some v1 /\ offset_along stride_ex 7 (stride_st 2) = Some v2 /\
    vz v1 = Some x1 /\ vz v2 = Some x2) /\ uniform_along stride_ex 7 [(Idx 1, Dyn 1)] = Some true.
Proof.
  split; [apply used_correctly_check; vm_compute; reflexivity|]. split; [apply used_correctly_check; vm_compute; reflexivity|].
  split; [apply names_element_check; vm_compute; reflexivity|]. split; [apply names_element_check; vm_compute; reflexivity|].
  split. { intros t Ht. destruct t as [x|x|x]; try reflexivity. unfold stride_st. cbn [get fst snd tag_eqb]. destruct (x =? 1); [reflexivity|]. destruct (Z.eqb_spec x 7); [congruence|reflexivity]. }
  split. { split; [intros d; reflexivity|]. intros d v. cbn [get fst snd tag_eqb]. unfold stride_st. cbn [get fst snd tag_eqb]. destruct (Z.eqb_spec d 1) as [->|]; [|discriminate]. intros E. split; [lia|exact E]. }
  split; [vm_compute; reflexivity|]. split; [vm_compute; reflexivity|]. split; [vm_compute; reflexivity|]. split; [vm_compute; reflexivity|].
  split. { exists (Dyn 18446744073709551600). split; vm_compute; reflexivity. }
  split; [|vm_compute; reflexivity]. exists (Dyn 0), (Dyn 18446744073709551584), 0, 18446744073709551584.
  split; [vm_compute; reflexivity|]. split; [vm_compute; reflexivity|]. split; vm_compute; reflexivity.
Qed.

(** Without [own_steps] the stride is wrong: a [step] in one dimension multiplies the strides of all
    dimensions below it. *)
Theorem C37_step_refuted : exists s st0 st1 st2 q p v o1 o2,
  used_correctly s st1 /\ used_correctly s st2 /\ names_element s st1 p /\ names_element s st2 p /\
  differ_in q st1 st2 /\ with_fewer_indices q st0 st1 /\ In (q, None) p /\ steady q s = true /\
  offset s st1 = Some o1 /\ offset s st2 = Some o2 /\ stride_along s q st0 = Some v /\
  at_index st1 q 0 /\ at_index st2 q 1 /\ vz o1 = Some 0 /\ vz o2 = Some 4 /\ vz v = Some 12.
Proof.
  exists (View (VStep 1 (Dyn 0) (Dyn 3)) (vec 1 (Dyn 6) (vec 2 (Dyn 2) (Scalar int4)))), [],
    [(Idx 1, Dyn 0); (Idx 2, Dyn 0)], [(Idx 1, Dyn 0); (Idx 2, Dyn 1)], 2, [(1, None); (2, None)], (Dyn 12), (Dyn 0), (Dyn 4).
  split; [apply used_correctly_check; vm_compute; reflexivity|]. split; [apply used_correctly_check; vm_compute; reflexivity|].
  split; [apply names_element_check; vm_compute; reflexivity|]. split; [apply names_element_check; vm_compute; reflexivity|].
  split. { intros t Ht. destruct t as [x|x|x]; try reflexivity. cbn [get fst snd tag_eqb]. destruct (x =? 1); [reflexivity|]. destruct (Z.eqb_spec x 2); [congruence|reflexivity]. }
  split. { split; [intros d; reflexivity|]. intros d v E. discriminate. }
  split; [simpl; auto|]. split; [vm_compute; reflexivity|]. split; [vm_compute; reflexivity|]. split; [vm_compute; reflexivity|]. split; [vm_compute; reflexivity|].
  split. { exists (Dyn 0). split; vm_compute; reflexivity. } split. { exists (Dyn 1). split; vm_compute; reflexivity. }
  repeat split; vm_compute; reflexivity.
Qed.
Print Assumptions C37_step_refuted.

(** A dimension merged from two ones is reported as uniform, but if the inner one is stored outside, the
    steps are not all the same: from 0 to 1 and from 2 to 3. *)
Definition merge_ex : struct := View (VMerge 1 2 3) (View (VHoist 1) (vec 2 (Dyn 3) (vec 1 (Dyn 2) (Scalar int4)))).
Definition at3 (i : Z) : state := [(Idx 3, Dyn i)].
Theorem C37_merge_refuted : exists s q x0 x1 x2 x3, uniform_along s q [] = Some true /\
  (forall i, 0 <= i < 4 -> used_correctly s (at3 i) /\ names_element s (at3 i) [(q, None)]) /\
  offset s (at3 0) = Some x0 /\ offset s (at3 1) = Some x1 /\ offset s (at3 2) = Some x2 /\ offset s (at3 3) = Some x3 /\
  vz x0 = Some 0 /\ vz x1 = Some 8 /\ vz x2 = Some 16 /\ vz x3 = Some 4.
Proof.
  exists merge_ex, 3, (Dyn 0), (Dyn 8), (Dyn 16), (Dyn 4). split; [vm_compute; reflexivity|]. split.
  { intros i Hi. assert (E : i = 0 \/ i = 1 \/ i = 2 \/ i = 3) by lia.
    destruct E as [->|[->|[->| ->]]]; (split; [apply used_correctly_check; vm_compute; reflexivity|apply names_element_check; vm_compute; reflexivity]). }
  repeat (split; [vm_compute; reflexivity|]). vm_compute; reflexivity.
Qed.
Print Assumptions C37_merge_refuted.

(** The same for a Z-curve over a square. *)
Definition zcurve_ex : struct := View (VZCurve 0 4 3 [1; 2]) (vec 1 (Dyn 4) (vec 2 (Dyn 4) (Scalar int4))).
Theorem C37_zcurve_refuted : exists s q x0 x1 x2 x3, uniform_along s q [] = Some true /\
  (forall i, 0 <= i < 4 -> used_correctly s (at3 i) /\ names_element s (at3 i) [(q, None)]) /\
  offset s (at3 0) = Some x0 /\ offset s (at3 1) = Some x1 /\ offset s (at3 2) = Some x2 /\ offset s (at3 3) = Some x3 /\
  vz x0 = Some 0 /\ vz x1 = Some 4 /\ vz x2 = Some 16 /\ vz x3 = Some 20.
Proof.
  exists zcurve_ex, 3, (Dyn 0), (Dyn 4), (Dyn 16), (Dyn 20). split; [vm_compute; reflexivity|]. split.
  { intros i Hi. assert (E : i = 0 \/ i = 1 \/ i = 2 \/ i = 3) by lia.
    destruct E as [->|[->|[->| ->]]]; (split; [apply used_correctly_check; vm_compute; reflexivity|apply names_element_check; vm_compute; reflexivity]). }
  repeat (split; [vm_compute; reflexivity|]). vm_compute; reflexivity.
Qed.
Print Assumptions C37_zcurve_refuted.
