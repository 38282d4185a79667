(** * C45: which threads may share the output of a reduction *)

From Verif Require Import Check PropsRange RaceOrder.
From Verif Require Import Spec SpecRace.

(** C45.  When [tbb_reduce] lets the threads share the output, calls on different pieces of the range write
    to different bytes, if the body writes to an element with the index it was called with in the outermost
    dimension, that index determines the outermost index of the traversal ([source]), and the elements of
    the output are distinct ([nobcast]).  The last two conditions are needed, see below. *)
Theorem C45_race_free : forall ss p out r tr works i j w1 w2 st1 st2 u1 u2 p1 p2 o1 o2, let t := order (traverser ss) p in
  uswf (top_struct t) = true -> lenok (top_struct t) nolens -> over respected (tr_struct t) (top_struct t) nolens -> range_of t = Done r ->
  source (top_struct t) (rg_dim r) = Some (rg_dim r) -> shares t out = Some true -> nobcast out = true ->
  Forall2 (fun piece w => rg_for_each piece = Done w) (pieces tr r) works ->
  nth_error works i = Some w1 -> nth_error works j = Some w2 -> i <> j -> In st1 w1 -> In st2 w2 ->
  get (Idx (rg_dim r)) u1 = get (Idx (rg_dim r)) st1 -> get (Idx (rg_dim r)) u2 = get (Idx (rg_dim r)) st2 -> same_lengths u1 u2 ->
  used_correctly out u1 -> used_correctly out u2 -> fits out u1 -> names_element out u1 p1 -> names_element out u2 p2 ->
  offset out u1 = Some o1 -> offset out u2 = Some o2 -> apart out u1 u2.
Proof. exact race_free_regrouped. Qed.
Print Assumptions C45_race_free.

(** The columns in blocks of two, which keep the name of the columns; two threads divide the blocks. *)
Definition state_in (i : Z) : state := [(Idx 1, Dyn 5); (Idx 2, Dyn i)].
Definition paired : proto := [LView (VBlocks 2 2 3); LView (VSetLength 3 (Dyn 2)); LView (VHoist 2)].
Definition pairs_t : trav := order (traverser [grid]) paired.
Definition pairs_range : range := {| rg_dim := 2; rg_trav := pairs_t; rg_begin := 0; rg_end := 2 |}.
Definition pairs_works : list (list state) := map (fun x => done_ (rg_for_each x)) (pieces (Split Keep Keep) pairs_range).
Example C45_pairs_ex :
  uswf (top_struct pairs_t) = true /\ lenok (top_struct pairs_t) nolens /\ over respected (tr_struct pairs_t) (top_struct pairs_t) nolens /\
  range_of pairs_t = Done pairs_range /\ source (top_struct pairs_t) 2 = Some 2 /\ order_keeps 2 paired = false /\
  shares pairs_t counts = Some true /\ nobcast counts = true /\
  Forall2 (fun piece w => rg_for_each piece = Done w) (pieces (Split Keep Keep) pairs_range) pairs_works /\
  map (map (fun st => asg_of st 2)) pairs_works = [[0; 1; 0; 1; 0; 1; 0; 1; 0; 1; 0; 1]; [2; 3; 2; 3; 2; 3; 2; 3; 2; 3; 2; 3]] /\
  same_lengths (state_in 1) (state_in 3) /\ used_correctly counts (state_in 1) /\ used_correctly counts (state_in 3) /\ fits counts (state_in 1) /\
  (exists p1 p2, names_element counts (state_in 1) p1 /\ names_element counts (state_in 3) p2) /\
  offset counts (state_in 1) = Some (Dyn 4) /\ offset counts (state_in 3) = Some (Dyn 12).
Proof.
  split; [vm_compute; reflexivity|]. split; [apply lenokb_sound; vm_compute; reflexivity|]. split.
  { change (top_struct pairs_t) with (View (VHoist 2) (View (VSetLength 3 (Dyn 2)) (View (VBlocks 2 2 3) (Union [grid])))).
    change (tr_struct pairs_t) with (Union [grid]).
    constructor; [intros c; exact I|]. constructor; [intros c; exact I|]. constructor; [intros c; vm_compute; discriminate|].
    constructor. intros d. cbn [view_lenv fupds]. unfold fupd, nolens. cbn [Z.eqb Pos.eqb]. repeat match goal with |- context [if ?c then _ else _] => destruct c end; reflexivity. }
  do 5 (split; [vm_compute; reflexivity|]). split; [repeat (constructor; [vm_compute; reflexivity|]); constructor|].
  split; [vm_compute; reflexivity|]. split; [intros d; reflexivity|].
  split; [apply used_correctly_check; vm_compute; reflexivity|].
  split; [apply used_correctly_check; vm_compute; reflexivity|].
  split; [apply fits_check; vm_compute; reflexivity|].
  split; [|split; vm_compute; reflexivity].
  exists [(2, None)], [(2, None)]. split; apply names_element_check; vm_compute; reflexivity.
Qed.

(** For orders that neither rename nor regroup the outermost dimension, nothing has to be assumed about the
    other dimensions: they may be joined, reversed tuples, and so on. *)
Theorem C45_race_free_kept : forall ss p out r tr works i j w1 w2 st1 st2 u1 u2 p1 p2 o1 o2, let t := order (traverser ss) p in
  distinct_dims (top_struct t) -> range_of t = Done r -> order_keeps (rg_dim r) p = true -> shares t out = Some true -> nobcast out = true ->
  Forall2 (fun piece w => rg_for_each piece = Done w) (pieces tr r) works ->
  nth_error works i = Some w1 -> nth_error works j = Some w2 -> i <> j -> In st1 w1 -> In st2 w2 ->
  get (Idx (rg_dim r)) u1 = get (Idx (rg_dim r)) st1 -> get (Idx (rg_dim r)) u2 = get (Idx (rg_dim r)) st2 -> same_lengths u1 u2 ->
  used_correctly out u1 -> used_correctly out u2 -> fits out u1 -> names_element out u1 p1 -> names_element out u2 p2 ->
  offset out u1 = Some o1 -> offset out u2 = Some o2 -> apart out u1 u2.
Proof. exact race_free. Qed.
Print Assumptions C45_race_free_kept.

(** Columns of the matrix, counted by two threads: elements of the counters written by both. *)
Example C45_race_ex : let works := map (fun x => done_ (rg_for_each x)) (pieces (Split Keep Keep) columns_range) in
  distinct_dims (top_struct columns) /\ range_of columns = Done columns_range /\ order_keeps (rg_dim columns_range) [LView (VHoist 2)] = true /\
  shares columns counts = Some true /\ nobcast counts = true /\
  Forall2 (fun piece w => rg_for_each piece = Done w) (pieces (Split Keep Keep) columns_range) works /\
  (exists w1 w2 st1 st2, nth_error works 0 = Some w1 /\ nth_error works 1 = Some w2 /\ In st1 w1 /\ In st2 w2 /\
     get (Idx 2) (state_in 1) = get (Idx 2) st1 /\ get (Idx 2) (state_in 3) = get (Idx 2) st2) /\
  same_lengths (state_in 1) (state_in 3) /\ used_correctly counts (state_in 1) /\ used_correctly counts (state_in 3) /\ fits counts (state_in 1) /\
  (exists p1 p2, names_element counts (state_in 1) p1 /\ names_element counts (state_in 3) p2) /\
  offset counts (state_in 1) = Some (Dyn 4) /\ offset counts (state_in 3) = Some (Dyn 12).
Proof.
  cbv zeta. do 5 (split; [vm_compute; reflexivity|]). split; [repeat (constructor; [vm_compute; reflexivity|]); constructor|].
  split.
  { exists (nth 0 (map (fun x => done_ (rg_for_each x)) (pieces (Split Keep Keep) columns_range)) []), (nth 1 (map (fun x => done_ (rg_for_each x)) (pieces (Split Keep Keep) columns_range)) []).
    exists [(Idx 1, Dyn 0); (Idx 2, Dyn 1)], [(Idx 1, Dyn 0); (Idx 2, Dyn 3)]. do 2 (split; [vm_compute; reflexivity|]).
    split; [apply (nth_error_In _ 6%nat); vm_compute; reflexivity|]. split; [apply (nth_error_In _ 6%nat); vm_compute; reflexivity|]. split; vm_compute; reflexivity. }
  split; [intros d; reflexivity|].
  split; [apply used_correctly_check; vm_compute; reflexivity|].
  split; [apply used_correctly_check; vm_compute; reflexivity|].
  split; [apply fits_check; vm_compute; reflexivity|].
  split; [|split; vm_compute; reflexivity].
  exists [(2, None)], [(2, None)]. split; apply names_element_check; vm_compute; reflexivity.
Qed.

(** tbb.hpp 48 says that parallel writes go to different offsets.  They do not, if the order exchanges the
    names of the dimensions: the threads divide the rows, but the output is indexed by columns. *)
Definition swapped : trav := order (traverser [grid]) [LView (VRename [(1, 2); (2, 1)])].
Definition works_of (t : trav) (tr : splits) : list (list state) :=
  match range_of t with Done r => map (fun x => done_ (rg_for_each x)) (pieces tr r) | _ => [] end.
Definition range_in (t : trav) : range := match range_of t with Done r => r | _ => columns_range end.

Theorem C45_swapped_refuted : exists t out, shares t out = Some true /\ nobcast out = true /\ distinct_dims (top_struct t) /\ conflict t out.
Proof.
  exists swapped, counts. do 3 (split; [vm_compute; reflexivity|]).
  exists (range_in swapped), (Split Keep Keep), (works_of swapped (Split Keep Keep)), 0%nat, 1%nat,
    (nth 0 (works_of swapped (Split Keep Keep)) []), (nth 1 (works_of swapped (Split Keep Keep)) []),
    [(Idx 2, Dyn 1); (Idx 1, Dyn 0)], [(Idx 2, Dyn 1); (Idx 1, Dyn 3)], (Dyn 4), 4.
  split; [vm_compute; reflexivity|]. split; [repeat (constructor; [vm_compute; reflexivity|]); constructor|].
  do 2 (split; [vm_compute; reflexivity|]). split; [discriminate|]. split; [apply (nth_error_In _ 1%nat); vm_compute; reflexivity|]. split; [apply (nth_error_In _ 1%nat); vm_compute; reflexivity|]. repeat split; vm_compute; reflexivity.
Qed.
Print Assumptions C45_swapped_refuted.

(** Nor if the order merges dimensions under the name of one of them: several merged indices belong to
    one row. *)
Definition merged : trav := order (traverser [grid]) [LView (VMerge 1 2 1)].
Definition rows : struct := vec 1 (Dyn 6) (Scalar int4).
Theorem C45_merged_refuted : exists t out, shares t out = Some true /\ nobcast out = true /\ distinct_dims (top_struct t) /\ conflict t out.
Proof.
  exists merged, rows. do 3 (split; [vm_compute; reflexivity|]).
  exists (range_in merged), (Split (Split Keep Keep) Keep), (works_of merged (Split (Split Keep Keep) Keep)), 0%nat, 1%nat,
    (nth 0 (works_of merged (Split (Split Keep Keep) Keep)) []), (nth 1 (works_of merged (Split (Split Keep Keep) Keep)) []),
    (nth 4 (nth 0 (works_of merged (Split (Split Keep Keep) Keep)) []) []), (nth 0 (nth 1 (works_of merged (Split (Split Keep Keep) Keep)) []) []), (Dyn 4), 4.
  split; [vm_compute; reflexivity|]. split; [repeat (constructor; [vm_compute; reflexivity|]); constructor|].
  do 2 (split; [vm_compute; reflexivity|]). split; [discriminate|]. split; [apply (nth_error_In _ 4%nat); vm_compute; reflexivity|]. split; [apply (nth_error_In _ 0%nat); vm_compute; reflexivity|]. repeat split; vm_compute; reflexivity.
Qed.
Print Assumptions C45_merged_refuted.

(** Nor if the output structure repeats its elements along the outermost dimension. *)
Definition one_for_all : struct := View (VSetLength 2 (Dyn 4)) (View (VBcast 2) (Scalar int4)).
Theorem C45_repeated_refuted : exists p out, let t := order (traverser [grid]) p in order_keeps 2 p = true /\ top_dim (top_struct t) = Some 2 /\
  shares t out = Some true /\ distinct_dims (top_struct t) /\ conflict t out.
Proof.
  exists [LView (VHoist 2)], one_for_all. cbv zeta. do 4 (split; [vm_compute; reflexivity|]).
  exists columns_range, (Split Keep Keep), (works_of columns (Split Keep Keep)), 0%nat, 1%nat,
    (nth 0 (works_of columns (Split Keep Keep)) []), (nth 1 (works_of columns (Split Keep Keep)) []),
    [(Idx 1, Dyn 0); (Idx 2, Dyn 1)], [(Idx 1, Dyn 0); (Idx 2, Dyn 3)], (Sta 0), 0.
  split; [vm_compute; reflexivity|]. split; [repeat (constructor; [vm_compute; reflexivity|]); constructor|].
  do 2 (split; [vm_compute; reflexivity|]). split; [discriminate|]. split; [apply (nth_error_In _ 6%nat); vm_compute; reflexivity|]. split; [apply (nth_error_In _ 6%nat); vm_compute; reflexivity|]. repeat split; vm_compute; reflexivity.
Qed.
Print Assumptions C45_repeated_refuted.
