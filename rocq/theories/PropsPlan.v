(** * C31: planners *)

From Verif Require Import PlanSec PropsLayout PropsSections.

(** [planner(ss...).for_each(f).order(o)()], if accepted, makes the calls of
    [(traverser(ss...) ^ o).for_each(f)], in the same order with the same states. *)
Theorem C31_for_each : forall ss o f p, let t := order (traverser ss) o in
  over hands_on (Union ss) (top_struct t) nolens -> uswf (top_struct t) = true ->
  pl_for_each (plan ss) f = Some p -> execute (pl_order p o) <> Rejected ->
  execute (pl_order p o) = out_map (map (CallBody f)) (for_each t []).
Proof. exact plan_for_each. Qed.
Print Assumptions C31_for_each.

(** Sections, each running its inner planner once, change neither the calls of [f] nor their order. *)
Theorem C31_calls : forall ss o f p secs q n evs sts, let t := order (traverser ss) o in
  over hands_on (Union ss) (top_struct t) nolens -> uswf (top_struct t) = true ->
  pl_for_each (plan ss) f = Some p -> add_sections p secs = Some q ->
  for_each t [] = Done sts -> execute_all n (pl_order q o) = Done evs ->
  body_calls evs = map (pair f) sts.
Proof. exact plan_calls. Qed.
Print Assumptions C31_calls.

(** The sections are run at distinct places in the loop nest, where the dimensions of the section are
    known; together, in order, they contain the traversal. *)
Theorem C31_sections : forall ss o f p secs q calls, let t := order (traverser ss) o in
  over hands_on (Union ss) (top_struct t) nolens -> uswf (top_struct t) = true ->
  pl_for_each (plan ss) f = Some p -> add_sections p secs = Some q -> execute (pl_order q o) = Done calls ->
  exists sts, NoDup sts /\ Forall2 (called_at t f secs) sts calls /\
    forall all ls, for_each t [] = Done all -> Forall2 (fun st l => for_each (order t (p_fix st)) [] = Done l) sts ls -> all = concat ls.
Proof. exact plan_sections. Qed.
Print Assumptions C31_sections.

(** ** Non-vacuity: the loops of a matrix multiplication (tests/planner_test.cpp) *)

Definition arr (d n : Z) (t : struct) : struct := View (VSetLength d (Sta n)) (Vector d t).
Definition mul_a : struct := arr 1 2 (arr 2 3 (Scalar int4)).
Definition mul_b : struct := arr 2 3 (arr 3 2 (Scalar int4)).
Definition mul_c : struct := arr 1 2 (arr 3 2 (Scalar int4)).
Definition mul_p : planner := match pl_for_each (plan [mul_a; mul_b; mul_c]) 7 with Some p => p | None => plan [] end.
Definition mul_q : planner := match add_sections mul_p [([1], 8); ([3], 9)] with Some p => p | None => plan [] end.
Definition mul_o : proto := [LView (VReorder [1; 3; 2])].
Definition mul_t : trav := order (traverser [mul_a; mul_b; mul_c]) mul_o.
Definition at_ (i j k : Z) : state := [(Idx 2, Dyn j); (Idx 3, Dyn k); (Idx 1, Dyn i)].

(** What each event is about: the function and the indices. *)
Definition seen (e : pevent) : Z * option state :=
  match e with ECall f s => (f, Some s) | EEnter f p => (f, tr_state (pl_trav p)) | ELeave f => (f, None) end.

Example C31_ex :
  over hands_on (Union [mul_a; mul_b; mul_c]) (top_struct mul_t) nolens /\ uswf (top_struct mul_t) = true /\
  pl_for_each (plan [mul_a; mul_b; mul_c]) 7 = Some mul_p /\ add_sections mul_p [([1], 8); ([3], 9)] = Some mul_q /\
  execute (pl_order mul_p mul_o) = Done (map (CallBody 7) [at_ 0 0 0; at_ 0 1 0; at_ 0 2 0; at_ 0 0 1; at_ 0 1 1; at_ 0 2 1; at_ 1 0 0; at_ 1 1 0; at_ 1 2 0; at_ 1 0 1; at_ 1 1 1; at_ 1 2 1]) /\
  out_map (map seen) (execute_all 3 (pl_order mul_q mul_o)) =
    Done (flat_map (fun i => (8, Some [(Idx 1, Dyn i)]) :: flat_map (fun k => (9, Some [(Idx 3, Dyn k); (Idx 1, Dyn i)]) :: map (fun j => (7, Some (at_ i j k))) [0; 1; 2] ++ [(9, None)]) [0; 1] ++ [(8, None)]) [0; 1]).
Proof.
  split; [apply over_view; [exact I|apply over_base; reflexivity]|].
  split; [vm_compute; reflexivity|]. split; [vm_compute; reflexivity|]. split; [vm_compute; reflexivity|]. split; vm_compute; reflexivity.
Qed.

(** ** Where it fails *)

(** Over a tuple a planner does not compile (the recursion over the components has no last case), while the
    traverser does. *)
Theorem C31_tuple_refuted : exists s f p sts, pl_for_each (plan [s]) f = Some p /\ execute p = Rejected /\ for_each (traverser [s]) [] = Done sts /\ List.length sts = 5%nat.
Proof.
  exists (Tuple 1 [arr 2 3 (Scalar int4); arr 2 2 (Scalar int4)]), 7. eexists. exists (done [] (for_each (traverser [Tuple 1 [arr 2 3 (Scalar int4); arr 2 2 (Scalar int4)]]) [])).
  split; [vm_compute; reflexivity|]. split; [vm_compute; reflexivity|]. split; vm_compute; reflexivity.
Qed.
Print Assumptions C31_tuple_refuted.

(** Inside a broadcast dimension: the function is called once per element instead of once per iteration. *)
Theorem C31_bcast_refuted : exists ss o f p calls sts, let t := order (traverser ss) o in
  uswf (top_struct t) = true /\ pl_for_each (plan ss) f = Some p /\ execute (pl_order p o) = Done (map (CallBody f) calls) /\ for_each t [] = Done sts /\
  List.length calls = 2%nat /\ List.length sts = 6%nat.
Proof.
  exists [arr 1 2 (Scalar int4)], [LView (VBcast 2); LView (VSetLength 2 (Dyn 3)); LView (VHoist 1)], 7. eexists.
  exists [[(Idx 1, Dyn 0)]; [(Idx 1, Dyn 1)]], [[(Idx 1, Dyn 0)]; [(Idx 1, Dyn 0)]; [(Idx 1, Dyn 0)]; [(Idx 1, Dyn 1)]; [(Idx 1, Dyn 1)]; [(Idx 1, Dyn 1)]]. cbv zeta.
  split; [vm_compute; reflexivity|]. split; [vm_compute; reflexivity|]. split; [vm_compute; reflexivity|]. split; [vm_compute; reflexivity|]. split; reflexivity.
Qed.
Print Assumptions C31_bcast_refuted.

(** With [into_blocks_dynamic]: the loop that skips the missing elements of the last block is not entered,
    so the function is called with an index outside of the array (here 3 in an array of 3). *)
Theorem C31_blocks_dynamic_refuted : exists n o f p calls, let t := order (traverser [arr 1 n (Scalar int4)]) o in
  uswf (top_struct t) = true /\ pl_for_each (plan [arr 1 n (Scalar int4)]) f = Some p /\ execute (pl_order p o) = Done calls /\
  for_each t [] = Done (map (fun i => [(Idx 1, Dyn i)]) (zseq n)) /\ In (CallBody f [(Idx 1, Dyn n)]) calls.
Proof.
  exists 3, [LView (VBlocksDyn 1 2 3 4); LView (VSetLength 3 (Dyn 2))], 7. eexists. exists (map (fun i => CallBody 7 [(Idx 1, Dyn i)]) [0; 1; 2; 3]). cbv zeta.
  split; [vm_compute; reflexivity|]. split; [vm_compute; reflexivity|]. split; [vm_compute; reflexivity|]. split; [vm_compute; reflexivity|]. right. right. right. left. reflexivity.
Qed.
Print Assumptions C31_blocks_dynamic_refuted.
