(** * C06, C07: memory accesses stay inside the allocation and do not overlap *)

From Verif Require Import Access Check Shortcuts.

(** ** C06 *)

(** If the state names an element (every index is below the reported length) of a structure used
    correctly, then its offset is a defined number, and the bytes of the element lie inside
    [get_size] bytes. *)
Theorem C06_in_bounds : forall s st p o n,
  used_correctly s st -> names_element s st p -> fits s st ->
  offset s st = Some o -> get_size s st = Some n ->
  exists ov nv c, vz o = Some ov /\ vz n = Some nv /\ scalar_t s st = Some c /\ ov + ct_size c <= nv.
Proof. exact access_in_bounds. Qed.
Print Assumptions C06_in_bounds.

(** ** C07 *)

(** Two states that name elements of a structure without broadcast either agree on all dimensions
    of that element, or their bytes do not overlap. *)
Theorem C07_no_alias : forall s st1 st2 p1 p2 o1 o2,
  nobcast s = true -> same_lengths st1 st2 -> used_correctly s st1 -> used_correctly s st2 -> fits s st1 ->
  names_element s st1 p1 -> names_element s st2 p2 -> offset s st1 = Some o1 -> offset s st2 = Some o2 ->
  (p1 = p2 /\ forall d, In d (map fst p1) -> asg_of st1 d = asg_of st2 d) \/
  exists c1 c2 x1 x2, scalar_t s st1 = Some c1 /\ scalar_t s st2 = Some c2 /\ vz o1 = Some x1 /\ vz o2 = Some x2 /\
    (x1 + ct_size c1 <= x2 \/ x2 + ct_size c2 <= x1).
Proof. exact access_no_alias. Qed.
Print Assumptions C07_no_alias.

(** ** A structure that meets the hypotheses

    Dimensions: 1 = x, 2 = tuple, 3 = y, 4 = Y (blocks), 5 = is-present, 6 = z.
    tuple(x-vector of 6 ints, int), in a vector y of 12, split into blocks of 5 (the last one
    incomplete), with x reversed and sliced, in a vector z of 3, hoisted y. *)
Definition int4 : cty := {| ct_id := 1; ct_size := 4; ct_align := 4 |}.
Definition ex_s : struct :=
  View (VHoist 3)
  (vec 6 (Sta 3)
    (View (VSetLength 3 (Dyn 5)) (View (VBlocksDyn 3 4 3 5)
      (vec 3 (Dyn 12)
        (Tuple 2 [View (VSlice 1 (Dyn 1) (Dyn 4)) (View (VReverse 1) (vec 1 (Dyn 6) (Scalar int4))); Scalar int4]))))).
Definition ex_st : state := [(Idx 6, Dyn 2); (Idx 4, Dyn 2); (Idx 3, Dyn 1); (Idx 5, Dyn 0); (Idx 2, Sta 0); (Idx 1, Dyn 3)].
Definition ex_st2 : state := [(Idx 6, Dyn 1); (Idx 4, Dyn 1); (Idx 3, Dyn 4); (Idx 5, Dyn 0); (Idx 2, Sta 1)].

Example C06_ex :
  used_correctly ex_s ex_st /\
  names_element ex_s ex_st [(3, None); (6, None); (4, None); (5, None); (2, Some 2); (1, None)] /\
  fits ex_s ex_st /\ offset ex_s ex_st = Some (Dyn 984) /\ get_size ex_s ex_st = Some (Dyn 1008).
Proof.
  refine (conj _ (conj _ (conj _ (conj _ _)))).
  - apply used_correctly_check. vm_compute. reflexivity.
  - apply names_element_check; vm_compute; reflexivity.
  - apply fits_check. vm_compute. reflexivity.
  - vm_compute. reflexivity.
  - vm_compute. reflexivity.
Qed.

Example C07_ex :
  nobcast ex_s = true /\ same_lengths ex_st ex_st2 /\ used_correctly ex_s ex_st2 /\
  names_element ex_s ex_st2 [(3, None); (6, None); (4, None); (5, None); (2, Some 2)] /\
  offset ex_s ex_st2 = Some (Dyn 612).
Proof.
  refine (conj _ (conj _ (conj _ (conj _ _)))).
  - vm_compute. reflexivity.
  - intros d. reflexivity.
  - apply used_correctly_check. vm_compute. reflexivity.
  - apply names_element_check; vm_compute; reflexivity.
  - vm_compute. reflexivity.
Qed.

(** ** Without the preconditions, accesses may leave the allocation

    In each case every index is below the length the structure itself reports. *)

(** A length set on top of a shift: vector(10) ^ shift(2) ^ set_length(100) reports length 100. *)
Theorem C06_set_length_refuted : exists s st p o n ov nv c,
  names_element s st p /\ fits s st /\ offset s st = Some o /\ get_size s st = Some n /\
  vz o = Some ov /\ vz n = Some nv /\ scalar_t s st = Some c /\ nv < ov + ct_size c.
Proof.
  exists (View (VSetLength 1 (Dyn 100)) (View (VShift 1 (Dyn 2)) (vec 1 (Dyn 10) (Scalar int4)))),
    [(Idx 1, Dyn 50)], [(1, None)], (Dyn 208), (Dyn 40), 208, 40, int4.
  split; [apply names_element_check; vm_compute; reflexivity|].
  split; [apply fits_check; vm_compute; reflexivity|].
  repeat split; vm_compute; reflexivity.
Qed.
Print Assumptions C06_set_length_refuted.

(** Reversing the block index of incomplete blocks: vector(10) in blocks of 4, reverse the blocks. *)
Theorem C06_reverse_refuted : exists s st p o n ov nv c,
  names_element s st p /\ fits s st /\ offset s st = Some o /\ get_size s st = Some n /\
  vz o = Some ov /\ vz n = Some nv /\ scalar_t s st = Some c /\ nv < ov + ct_size c.
Proof.
  exists (View (VReverse 2) (View (VSetLength 1 (Dyn 4)) (View (VBlocksDyn 1 2 1 3) (vec 1 (Dyn 10) (Scalar int4))))),
    [(Idx 2, Dyn 0); (Idx 1, Dyn 3); (Idx 3, Dyn 0)], [(2, None); (1, None); (3, None)], (Dyn 44), (Dyn 40), 44, 40, int4.
  split; [apply names_element_check; vm_compute; reflexivity|].
  split; [apply fits_check; vm_compute; reflexivity|].
  repeat split; vm_compute; reflexivity.
Qed.
Print Assumptions C06_reverse_refuted.

(** A z-curve with a generous maximal length: 1 x 512 x 512 elements, MaxLen = 2^48. *)
Theorem C06_zcurve_refuted : exists s st p o n ov nv c,
  names_element s st p /\ fits s st /\ offset s st = Some o /\ get_size s st = Some n /\
  vz o = Some ov /\ vz n = Some nv /\ scalar_t s st = Some c /\ nv < ov + ct_size c.
Proof.
  exists (View (VZCurve 0 48 4 [1; 2; 3]) (vec 3 (Dyn 512) (vec 2 (Dyn 512) (vec 1 (Dyn 1) (Scalar int4))))),
    [(Idx 4, Dyn 0)], [(4, None)], (Dyn 578712543510396928), (Dyn 1048576), 578712543510396928, 1048576, int4.
  split; [apply names_element_check; vm_compute; reflexivity|].
  split; [apply fits_check; vm_compute; reflexivity|].
  repeat split; vm_compute; reflexivity.
Qed.
Print Assumptions C06_zcurve_refuted.
