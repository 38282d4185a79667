(** * Properties of [lower_bound_along] and [lower_bound_at] (C39) *)

From Verif Require Import LowerAll AlongAll Shortcuts Check PropsLayout.

(** ** C39 *)

(** [lower_bound_at<q>(s, state)] and [lower_bound_at<q>(s, state, min, end)] answer an index of the interval
    (all indices, or from [min] below [end]), and the element there has the lowest offset among the elements
    of the interval.  This holds for whole dimensions, for block indices and for the indices of tuples, under any views for which
    [lows] holds.  What [lows] leaves out is refuted below, or [lower_bound_at] does not exist for it. *)
Theorem C39_lower_bound_at : forall s q k r st0 st p iv x y w i,
  used_correctly s st -> fits s st -> names_element s st p -> In (q, k) p ->
  steady q s = true -> lows true (given iv) r q s = true ->
  with_fewer_indices q st0 st -> interval s q st0 iv x y -> x < y ->
  lower_bound_at s q st0 iv = Some w -> vz w = Some i -> at_index st q i -> x <= i < y /\ lowest s q x y st.
Proof. exact low_at_api. Qed.
Print Assumptions C39_lower_bound_at.

(** [lower_bound_along<q>(s, state)] and [lower_bound_along<q>(s, state, min, end)] answer the [offset_along] of the
    element with the lowest offset: the first one of the interval, or the last one in a reversed dimension.  What
    [along] and [one_length] leave out is refuted below. *)
Theorem C39_lower_bound_along : forall s q k r st0 st p iv x y w o z z2,
  used_correctly s st -> fits s st -> names_element s st p -> In (q, k) p ->
  steady q s = true -> along (given iv) r q s = true -> (iv = None -> one_length r (has (Len q) st) q s = true) ->
  with_fewer_indices q st0 st -> interval s q st0 iv x y -> x < y -> at_index st q (if r then y - 1 else x) ->
  lower_bound s q st0 iv = Some w -> vz w = Some z -> offset_along s q st = Some o -> vz o = Some z2 ->
  z = z2 /\ lowest s q x y st.
Proof. exact along_api. Qed.
Print Assumptions C39_lower_bound_along.

(** In dimensions that are not reversed the answer is always a number. *)
Theorem C39_lower_bound_at_defined : forall s q st0 st p iv w,
  used_correctly s st -> names_element s st p -> In (q, None) p -> steady q s = true -> turns false q s = true ->
  with_fewer_indices q st0 st -> match iv with None => True | Some (mn, _) => vz mn <> None end ->
  lower_bound_at s q st0 iv = Some w -> vz w <> None.
Proof. exact lower_defined_api. Qed.
Print Assumptions C39_lower_bound_at_defined.

(** Blocks of a reversed vector: the last block lies first.  The index of a tuple: its first component lies first. *)
Definition lower_rev_blocks : struct := View (VSetLength 8 (Dyn 2)) (View (VBlocks 1 7 8) (View (VReverse 1) (vec 1 (Dyn 8) (Scalar int4)))).
Definition lower_tuple : struct := View (VSlice 3 (Sta 1) (Sta 2)) (Tuple 3 [Scalar int4; vec 1 (Dyn 5) (Scalar int4); Scalar int4]).
Example C39_at_ex :
  used_correctly lower_rev_blocks [(Idx 7, Dyn 2); (Idx 8, Dyn 1)] /\ fits lower_rev_blocks [(Idx 7, Dyn 2); (Idx 8, Dyn 1)] /\
  names_element lower_rev_blocks [(Idx 7, Dyn 2); (Idx 8, Dyn 1)] [(7, None); (8, None)] /\ steady 7 lower_rev_blocks = true /\
  lows true true true 7 lower_rev_blocks = true /\ with_fewer_indices 7 [] [(Idx 7, Dyn 2); (Idx 8, Dyn 1)] /\
  lower_bound_at lower_rev_blocks 7 [] (Some (Dyn 1, Dyn 3)) = Some (Dyn 2) /\
  used_correctly lower_tuple [(Idx 3, Sta 1)] /\ fits lower_tuple [(Idx 3, Sta 1)] /\ names_element lower_tuple [(Idx 3, Sta 1)] [(3, Some 2)] /\
  steady 3 lower_tuple = true /\ lows true false false 3 lower_tuple = true /\ lows true true false 3 lower_tuple = true /\
  with_fewer_indices 3 [] [(Idx 3, Sta 1)] /\ interval lower_tuple 3 [] (Some (Sta 1, Sta 2)) 1 2 /\ interval lower_tuple 3 [] None 0 2 /\
  lower_bound_at lower_tuple 3 [] (Some (Sta 1, Sta 2)) = Some (Sta 1) /\ lower_bound_at lower_tuple 3 [] None = Some (Sta 0).
Proof.
  split; [apply used_correctly_check; vm_compute; reflexivity|]. split; [apply fits_check; vm_compute; reflexivity|].
  split; [apply names_element_check; vm_compute; reflexivity|]. do 2 (split; [vm_compute; reflexivity|]).
  split; [split; [intros d; reflexivity|intros d v E; discriminate E]|].
  split; [vm_compute; reflexivity|]. split; [apply used_correctly_check; vm_compute; reflexivity|]. split; [apply fits_check; vm_compute; reflexivity|].
  split; [apply names_element_check; vm_compute; reflexivity|]. do 3 (split; [vm_compute; reflexivity|]).
  split; [split; [intros d; reflexivity|intros d v E; discriminate E]|]. split; [split; vm_compute; reflexivity|].
  split; [split; [reflexivity|exists (Sta 2); split; vm_compute; reflexivity]|]. split; vm_compute; reflexivity.
Qed.

(** A part of a reversed part of each row. *)
Definition lower_ex : struct := vec 1 (Dyn 3) (View (VSpan 2 (Dyn 1) (Dyn 9)) (View (VReverse 2)
  (View (VSlice 2 (Dyn 1) (Dyn 10)) (vec 2 (Dyn 12) (Scalar int4))))).
Definition row_st (i : Z) : state := [(Idx 1, Dyn 1); (Idx 2, Dyn i)].

Lemma row_differ i j : differ_in 2 (row_st i) (row_st j).
Proof.
  intros t Ht. destruct t as [x|x|x]; try reflexivity. unfold row_st. cbn [get fst snd tag_eqb]. destruct (x =? 1); [reflexivity|].
  destruct (Z.eqb_spec x 2); [congruence|reflexivity].
Qed.
Lemma row_fewer i : with_fewer_indices 2 [(Idx 1, Dyn 1)] (row_st i).
Proof.
  split; [intros d; reflexivity|]. intros d v. unfold row_st. cbn [get fst snd tag_eqb]. destruct (Z.eqb_spec d 1) as [->|]; [|discriminate].
  intros E. split; [lia|exact E].
Qed.

Example C39_ex : used_correctly lower_ex (row_st 5) /\ fits lower_ex (row_st 5) /\
  names_element lower_ex (row_st 5) [(1, None); (2, None)] /\ steady 2 lower_ex = true /\ turns true 2 lower_ex = true /\ lows true true true 2 lower_ex = true /\ lows true false true 2 lower_ex = true /\
  along true true 2 lower_ex = true /\ along false true 2 lower_ex = true /\ one_length true false 2 lower_ex = true /\ with_fewer_indices 2 [(Idx 1, Dyn 1)] (row_st 5) /\
  interval lower_ex 2 [(Idx 1, Dyn 1)] (Some (Dyn 2, Dyn 6)) 2 6 /\ interval lower_ex 2 [(Idx 1, Dyn 1)] None 0 8 /\
  lower_bound_at lower_ex 2 [(Idx 1, Dyn 1)] (Some (Dyn 2, Dyn 6)) = Some (Dyn 5) /\
  lower_bound lower_ex 2 [(Idx 1, Dyn 1)] (Some (Dyn 2, Dyn 6)) = Some (Dyn 16) /\
  lower_bound_at lower_ex 2 [(Idx 1, Dyn 1)] None = Some (Dyn 7) /\
  offset_along lower_ex 2 (row_st 5) = Some (Dyn 16) /\ offset lower_ex (row_st 5) = Some (Dyn 64) /\ offset lower_ex (row_st 2) = Some (Dyn 76) /\
  used_correctly lower_ex (row_st 2) /\ names_element lower_ex (row_st 2) [(1, None); (2, None)] /\ differ_in 2 (row_st 5) (row_st 2).
Proof.
  split; [apply used_correctly_check; vm_compute; reflexivity|]. split; [apply fits_check; vm_compute; reflexivity|].
  split; [apply names_element_check; vm_compute; reflexivity|]. do 7 (split; [vm_compute; reflexivity|]). split; [apply row_fewer|].
  split; [split; vm_compute; reflexivity|]. split; [split; [reflexivity|exists (Dyn 8); split; vm_compute; reflexivity]|].
  do 6 (split; [vm_compute; reflexivity|]).
  split; [apply used_correctly_check; vm_compute; reflexivity|]. split; [apply names_element_check; vm_compute; reflexivity|apply row_differ].
Qed.

Ltac lower_ref := repeat match goal with
  | |- _ /\ _ => split
  | |- used_correctly _ _ => apply used_correctly_check; vm_compute; reflexivity
  | |- names_element _ _ _ => apply names_element_check; vm_compute; reflexivity
  | |- differ_in _ _ _ =>
      intros t Ht; destruct t as [x|x|x]; try reflexivity; cbn [get fst snd tag_eqb];
      repeat match goal with |- context [?u =? ?v] => destruct (Z.eqb_spec u v); [try congruence; reflexivity|] end; reflexivity
  | |- with_fewer_indices _ _ _ => split; [intros d; reflexivity|intros d v E; discriminate E]
  | |- at_index _ _ ?i => exists (Dyn i); split; vm_compute; reflexivity
  | |- In _ _ => simpl; tauto
  | |- interval _ _ _ (Some _) _ _ => split; vm_compute; reflexivity
  | |- _ = _ => vm_compute; reflexivity
  | |- _ <= _ => lia
  | |- _ < _ => lia
  end.

(** Blocks of a part of a vector: the index in a block and the index of a block. *)
Definition lower_blocks : struct := View (VSetLength 8 (Dyn 3)) (View (VBlocks 1 7 8) (View (VSlice 1 (Dyn 2) (Dyn 9)) (vec 1 (Dyn 12) (Scalar int4)))).
Definition block_st (i j : Z) : state := [(Idx 7, Dyn i); (Idx 8, Dyn j)].

Example C39_blocks_ex : used_correctly lower_blocks (block_st 1 1) /\ fits lower_blocks (block_st 1 1) /\
  names_element lower_blocks (block_st 1 1) [(7, None); (8, None)] /\ steady 7 lower_blocks = true /\ steady 8 lower_blocks = true /\
  lows true false false 7 lower_blocks = true /\ lows true true false 7 lower_blocks = true /\ lows true true false 8 lower_blocks = true /\
  with_fewer_indices 8 [(Idx 7, Dyn 1)] (block_st 1 1) /\ with_fewer_indices 7 [] (block_st 1 1) /\
  interval lower_blocks 8 [(Idx 7, Dyn 1)] (Some (Dyn 1, Dyn 3)) 1 3 /\ interval lower_blocks 8 [(Idx 7, Dyn 1)] None 0 3 /\
  interval lower_blocks 7 [] (Some (Dyn 1, Dyn 3)) 1 3 /\
  lower_bound_at lower_blocks 8 [(Idx 7, Dyn 1)] (Some (Dyn 1, Dyn 3)) = Some (Dyn 1) /\
  lower_bound_at lower_blocks 8 [(Idx 7, Dyn 1)] None = Some (Dyn 0) /\
  lower_bound_at lower_blocks 7 [] (Some (Dyn 1, Dyn 3)) = Some (Dyn 1) /\
  offset lower_blocks (block_st 1 1) = Some (Dyn 24) /\ offset lower_blocks (block_st 2 1) = Some (Dyn 36) /\ offset lower_blocks (block_st 1 2) = Some (Dyn 28).
Proof.
  split; [apply used_correctly_check; vm_compute; reflexivity|]. split; [apply fits_check; vm_compute; reflexivity|].
  split; [apply names_element_check; vm_compute; reflexivity|]. do 5 (split; [vm_compute; reflexivity|]).
  split; [split; [intros d; reflexivity|intros d v; unfold block_st; cbn [get fst snd tag_eqb]; destruct (Z.eqb_spec d 7) as [->|]; [intros E; split; [lia|exact E]|discriminate]]|].
  split; [split; [intros d; reflexivity|intros d v E; discriminate E]|].
  split; [split; vm_compute; reflexivity|]. split; [split; [reflexivity|exists (Dyn 3); split; vm_compute; reflexivity]|].
  split; [split; vm_compute; reflexivity|]. repeat split; vm_compute; reflexivity.
Qed.

(** [lower_bound_along] for the blocks of a whole vector, for the index of a tuple and for a shifted reversed dimension without
    an interval. *)
Definition whole_blocks : struct := View (VSetLength 8 (Dyn 3)) (View (VBlocks 1 7 8) (vec 1 (Dyn 12) (Scalar int4))).
Definition shift_reverse : struct := View (VShift 1 (Dyn 1)) (View (VReverse 1) (vec 1 (Dyn 5) (Scalar int4))).
Example C39_along_ex :
  (used_correctly whole_blocks (block_st 1 2) /\ fits whole_blocks (block_st 1 2) /\
   names_element whole_blocks (block_st 1 2) [(7, None); (8, None)] /\ steady 7 whole_blocks = true /\ along true false 7 whole_blocks = true /\
   with_fewer_indices 7 [] (block_st 1 2) /\ interval whole_blocks 7 [] (Some (Dyn 1, Dyn 3)) 1 3 /\ at_index (block_st 1 2) 7 1 /\
   lower_bound whole_blocks 7 [] (Some (Dyn 1, Dyn 3)) = Some (Dyn 12) /\ offset_along whole_blocks 7 (block_st 1 2) = Some (Dyn 12)) /\
  (used_correctly lower_tuple [(Idx 3, Sta 1)] /\ fits lower_tuple [(Idx 3, Sta 1)] /\ names_element lower_tuple [(Idx 3, Sta 1)] [(3, Some 2)] /\
   steady 3 lower_tuple = true /\ along true false 3 lower_tuple = true /\ with_fewer_indices 3 [] [(Idx 3, Sta 1)] /\
   interval lower_tuple 3 [] (Some (Sta 1, Sta 2)) 1 2 /\
   lower_bound lower_tuple 3 [] (Some (Sta 1, Sta 2)) = Some (Dyn 24) /\ offset_along lower_tuple 3 [(Idx 3, Sta 1)] = Some (Dyn 24)) /\
  (used_correctly shift_reverse [(Idx 1, Dyn 3)] /\ fits shift_reverse [(Idx 1, Dyn 3)] /\ names_element shift_reverse [(Idx 1, Dyn 3)] [(1, None)] /\
   steady 1 shift_reverse = true /\ along false true 1 shift_reverse = true /\ one_length true false 1 shift_reverse = true /\
   with_fewer_indices 1 [] [(Idx 1, Dyn 3)] /\ interval shift_reverse 1 [] None 0 4 /\ at_index [(Idx 1, Dyn 3)] 1 3 /\
   lower_bound shift_reverse 1 [] None = Some (Dyn 0) /\ offset_along shift_reverse 1 [(Idx 1, Dyn 3)] = Some (Dyn 0)).
Proof.
  split; [|split]; (split; [apply used_correctly_check; vm_compute; reflexivity|]; split; [apply fits_check; vm_compute; reflexivity|]); lower_ref.
  split; [reflexivity|]. exists (Dyn 4). split; vm_compute; reflexivity.
Qed.

(** A dimension reversed twice: the interval is turned around wrongly, so that the answer is one too high.
    The elements 1 and 2 of five are asked for, element 1 has the lower offset, and the answer is 2. *)
Theorem C39_reverse_twice_refuted :
  not_lowest (View (VReverse 1) (View (VReverse 1) (vec 1 (Dyn 5) (Scalar int4)))) 1 [] (Some (Dyn 1, Dyn 3)) [(Idx 1, Dyn 2)] [(Idx 1, Dyn 1)] 2 1.
Proof. exists [(1, None)], 1, 3, (Dyn 2), (Dyn 8), (Dyn 4), 8, 4. lower_ref. Qed.
Print Assumptions C39_reverse_twice_refuted.

(** A reversed dimension that is shifted: without an interval the end is taken as too low.  Four elements are left, the last
    one (3) has the lowest offset, and the answer is 2. *)
Theorem C39_shift_refuted :
  not_lowest (View (VShift 1 (Dyn 1)) (View (VReverse 1) (vec 1 (Dyn 5) (Scalar int4)))) 1 [] None [(Idx 1, Dyn 2)] [(Idx 1, Dyn 3)] 2 3.
Proof.
  exists [(1, None)], 0, 4, (Dyn 2), (Dyn 4), (Dyn 0), 4, 0. lower_ref. split; [reflexivity|]. exists (Dyn 4). split; vm_compute; reflexivity.
Qed.
Print Assumptions C39_shift_refuted.

(** Blocks of a reversed dimension: without an interval the answer for the block index is 0, although block 4 is the lowest. *)
Theorem C39_blocks_refuted :
  not_lowest (View (VSetLength 8 (Sta 1)) (View (VBlocks 1 7 8) (View (VReverse 1) (vec 1 (Dyn 5) (Scalar int4))))) 7 [] None
    [(Idx 7, Dyn 0); (Idx 8, Dyn 0)] [(Idx 7, Dyn 4); (Idx 8, Dyn 0)] 0 4.
Proof.
  exists [(7, None); (8, None)], 0, 5, (Sta 0), (Dyn 16), (Dyn 0), 16, 0. lower_ref. split; [reflexivity|]. exists (Dyn 5). split; vm_compute; reflexivity.
Qed.
Print Assumptions C39_blocks_refuted.

(** Merged dimensions: the two partial answers are added, so that the answer lies outside of the interval. *)
Theorem C39_merge_refuted : exists s q mn en w i, 
  used_correctly s [(Idx q, mn)] /\ names_element s [(Idx q, mn)] [(q, None)] /\
  interval s q [] (Some (mn, en)) 2 4 /\ lower_bound_at s q [] (Some (mn, en)) = Some w /\ vz w = Some i /\ ~ (2 <= i < 4).
Proof.
  exists (View (VMerge 1 2 3) (vec 1 (Dyn 2) (vec 2 (Dyn 2) (Scalar int4)))), 3, (Dyn 2), (Dyn 4), (Dyn 1), 1. lower_ref. lia.
Qed.
Print Assumptions C39_merge_refuted.

(** [lower_bound_along] of a block index is not the [offset_along] of an element: if the blocked dimension is a part that does not
    begin at 0, the start of that part is counted although [offset_along] does not count it. *)
Theorem C39_block_offset_refuted : exists w o,
  used_correctly lower_blocks (block_st 1 0) /\ names_element lower_blocks (block_st 1 0) [(7, None); (8, None)] /\
  interval lower_blocks 8 [(Idx 7, Dyn 1)] None 0 3 /\ lower_bound_at lower_blocks 8 [(Idx 7, Dyn 1)] None = Some (Dyn 0) /\
  lower_bound lower_blocks 8 [(Idx 7, Dyn 1)] None = Some w /\ offset_along lower_blocks 8 (block_st 1 0) = Some o /\
  vz w = Some 8 /\ vz o = Some 0.
Proof.
  exists (Dyn 8), (Dyn 0). lower_ref. split; [reflexivity|]. exists (Dyn 3). split; vm_compute; reflexivity.
Qed.
Print Assumptions C39_block_offset_refuted.

(** [lower_bound_along] for a dimension reversed twice: the only element of the interval has the offset 4, and the answer is 8. *)
Theorem C39_along_reverse_twice_refuted :
  not_answered (View (VReverse 1) (View (VReverse 1) (vec 1 (Dyn 5) (Scalar int4)))) 1 [] (Some (Dyn 1, Dyn 2)) [(Idx 1, Dyn 1)] 1 8 4.
Proof. exists [(1, None)], None, 1, 2, (Dyn 8), (Dyn 4). lower_ref. left. reflexivity. Qed.
Print Assumptions C39_along_reverse_twice_refuted.

(** The index that chooses between the whole blocks and the rest: an interval is ignored, so that the answer for the
    rest alone is 0, the start of the whole blocks. *)
Theorem C39_along_static_blocks_refuted :
  not_answered (View (VBlocksSta 1 6 7 8 (Dyn 3)) (vec 1 (Dyn 8) (Scalar int4))) 6 [] (Some (Sta 1, Sta 2))
    [(Idx 6, Sta 1); (Idx 7, Dyn 0); (Idx 8, Dyn 1)] 1 0 24.
Proof.
  exists [(6, Some 2); (7, None); (8, None)], (Some 2), 1, 2, (Sta 0), (Dyn 24). lower_ref; [|right; lia].
  exists (Sta 1). split; vm_compute; reflexivity.
Qed.
Print Assumptions C39_along_static_blocks_refuted.

(** Merged dimensions: the answer is the offset of the first element of the interval, although the second one is lower. *)
Theorem C39_along_merge_refuted :
  not_answered (View (VMerge 1 2 3) (vec 2 (Dyn 2) (vec 1 (Dyn 2) (Scalar int4)))) 3 [] (Some (Dyn 1, Dyn 3)) [(Idx 3, Dyn 2)] 2 8 4.
Proof. exists [(3, None)], None, 1, 3, (Dyn 8), (Dyn 4). lower_ref. left. reflexivity. Qed.
Print Assumptions C39_along_merge_refuted.

(** A shifted reversed dimension whose length is set above the shift: the length that is asked for below it is the other one, so
    that the answer is the offset of an element that is cut off. *)
Theorem C39_along_two_lengths_refuted :
  not_answered (View (VSetLength 1 (Dyn 1)) (View (VShift 1 (Dyn 1)) (View (VReverse 1) (vec 1 (Dyn 5) (Scalar int4))))) 1 [] None
    [(Idx 1, Dyn 0)] 0 0 12.
Proof.
  exists [(1, None)], None, 0, 1, (Dyn 0), (Dyn 12). lower_ref; [|right; lia]. split; [reflexivity|]. exists (Dyn 1). split; vm_compute; reflexivity.
Qed.
Print Assumptions C39_along_two_lengths_refuted.
