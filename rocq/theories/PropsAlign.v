(** * C57: alignment *)

From Verif Require Import Check SpecAlign SpecStriped AlignFacts Shortcuts PropsLayout PropsParts PropsStriped.

(** If the sizes of all scalars are multiples of [A], every part of the structure begins at a multiple of [A], in every state.
    Nothing has to fit: [A] is a power of two. *)
Theorem C57_multiple : forall A s x st o y, 0 < A -> W mod A = 0 -> real_types s = true -> sizes_by A s = true ->
  offset_of x s st (Sta 0) = Some o -> vz o = Some y -> y mod A = 0.
Proof. exact part_by. Qed.
Print Assumptions C57_multiple.

Theorem C57_size : forall A s st o y, 0 < A -> W mod A = 0 -> real_types s = true -> sizes_by A s = true ->
  size_ s st = Some o -> vz o = Some y -> y mod A = 0.
Proof. exact size_by. Qed.
Print Assumptions C57_size.

(** If the components of tuples and the elements of vectors can be placed one after another, every element is at an
    address its type allows, if the structure is. *)
Theorem C57_aligned : forall s st c o y base, real_types s = true -> laid_out s = true ->
  scalar_t s st = Some c -> offset s st = Some o -> vz o = Some y -> base mod ct_align c = 0 -> (base + y) mod ct_align c = 0.
Proof. exact element_aligned. Qed.
Print Assumptions C57_aligned.

(** Structures of scalars that are all aligned alike are such structures. *)
Theorem C57_uniform : forall A s, nounion s = true -> uniform A s = true -> laid_out s = true.
Proof. exact uniform_laid_out. Qed.
Print Assumptions C57_uniform.

(** The copies of a striped structure, if a row of banks and the banks of a stripe are multiples of [A]. *)
Theorem C57_striped : forall A p tid st v y, 0 < A -> W mod A = 0 -> real_types (sp_sub p) = true -> sizes_by A (sp_sub p) = true ->
  real_types (sp_elem p) = true -> sizes_by A (sp_elem p) = true -> 0 < sp_width p -> W mod sp_width p = 0 ->
  (sp_banks p * sp_width p) mod A = 0 -> (sp_banks p / sp_num p * sp_width p) mod A = 0 ->
  striped_offset p tid st = Some v -> vz v = Some y -> y mod A = 0.
Proof. exact striped_by. Qed.
Print Assumptions C57_striped.

(** ** Examples *)

(** A vector of doubles, then a vector of integers, then characters. *)
Definition dbl : cty := {| ct_id := 8; ct_size := 8; ct_align := 8 |}.
Definition al_ex : struct := Tuple 4 [vec 2 (Dyn 3) (Scalar dbl); View (VReverse 2) (vec 2 (Dyn 5) (Scalar int4)); vec 2 (Dyn 7) (Scalar char1)].
Example C57_ex : real_types al_ex = true /\ laid_out al_ex = true /\ sizes_by 4 al_ex = false /\
  offset al_ex [(Idx 4, Sta 1); (Idx 2, Dyn 1)] = Some (Dyn 36) /\ scalar_t al_ex [(Idx 4, Sta 1); (Idx 2, Dyn 1)] = Some int4 /\
  offset al_ex [(Idx 4, Sta 2); (Idx 2, Dyn 1)] = Some (Dyn 45) /\
  real_types str_s = true /\ nounion str_s = true /\ uniform 4 str_s = true /\ sizes_by 4 str_s = true /\ W mod 4 = 0 /\
  striped_offset str_p 5 (str_st 3) = Some (Dyn 172) /\ (sp_banks str_p / sp_num str_p * sp_width str_p) mod 4 = 0.
Proof. repeat (split; [vm_compute; reflexivity|]). vm_compute; reflexivity. Qed.

(** A vector of pairs of a double and an integer: the size of a pair is not rounded up, and the second double is misaligned. *)
Theorem C57_pairs_refuted : exists s st c o y, swf s = true /\ uswf s = true /\ real_types s = true /\ ct_size c mod ct_align c = 0 /\
  names_element s st [(1, None); (4, Some 2)] /\ scalar_t s st = Some c /\ offset s st = Some o /\ vz o = Some y /\ y mod ct_align c <> 0.
Proof.
  exists (vec 1 (Dyn 3) (Tuple 4 [Scalar dbl; Scalar int4])), [(Idx 1, Dyn 1); (Idx 4, Sta 0)], dbl, (Dyn 12), 12.
  split; [vm_compute; reflexivity|]. split; [vm_compute; reflexivity|]. split; [vm_compute; reflexivity|]. split; [vm_compute; reflexivity|].
  split; [apply names_element_check; vm_compute; reflexivity|].
  split; [vm_compute; reflexivity|]. split; [vm_compute; reflexivity|]. split; [reflexivity|]. vm_compute. discriminate.
Qed.
Print Assumptions C57_pairs_refuted.

(** Ten copies of a vector of doubles: each copy has three banks, which are twelve bytes, and the second copy is misaligned. *)
Theorem C57_striped_refuted : exists p w st c v y, widths_of p = Some w /\ reasonable p (w_elem w) /\ uniform 8 (sp_sub p) = true /\
  element (sp_sub p) (stripe_sub_state st) /\ scalar_t (sp_sub p) st = Some c /\ ct_align c = 8 /\
  striped_offset p 1 st = Some v /\ vz v = Some y /\ y mod 8 <> 0.
Proof.
  exists {| sp_num := 10; sp_elem := Scalar dbl; sp_banks := 32; sp_width := 4; sp_sub := vec 1 (Dyn 3) (Scalar dbl) |}.
  eexists. exists [(Idx 1, Dyn 0)], dbl, (Dyn 12), 12.
  split; [vm_compute; reflexivity|]. split; [unfold reasonable; rewrite W_eq; cbn; lia|]. split; [vm_compute; reflexivity|].
  split. { split; [exists [(1, None)]; apply names_element_check; vm_compute; reflexivity|]. intros d. reflexivity. }
  split; [vm_compute; reflexivity|]. split; [reflexivity|]. split; [vm_compute; reflexivity|]. split; [reflexivity|]. vm_compute. discriminate.
Qed.
Print Assumptions C57_striped_refuted.
