(** * C48: ranges over planners *)

From Verif Require Import PlanRangeFacts PropsPlan Check.
From Verif Require Import Spec SpecPlanRange.

(** The inner planners that [planner | planner_omp_execute()] runs make, together, the calls of the
    traversal: those of the first planner come first, and so on.  The inner planners may be run in any order
    and by any threads. *)
Theorem C48_inner : forall ss o f p l, let t := order (traverser ss) o in
  over hands_on (Union ss) (top_struct t) nolens -> uswf (top_struct t) = true ->
  pl_for_each (plan ss) f = Some p -> for_each t [] = Done l ->
  forall ps, inner_planners (pl_order p o) = Done ps -> (forall q, In q ps -> execute q <> Rejected) ->
  exists ls, Forall2 (fun q c => execute q = Done (map (CallBody f) c)) ps ls /\ Forall2 same_get l (concat ls).
Proof. exact inner_calls. Qed.
Print Assumptions C48_inner.

(** The same with sections, each running its inner planner once. *)
Theorem C48_sections : forall ss o f p l, let t := order (traverser ss) o in
  over hands_on (Union ss) (top_struct t) nolens -> uswf (top_struct t) = true ->
  pl_for_each (plan ss) f = Some p -> for_each t [] = Done l ->
  forall secs q n ps evss, add_sections p secs = Some q -> inner_planners (pl_order q o) = Done ps ->
  Forall2 (fun x evs => execute_all n x = Done evs) ps evss ->
  exists l', body_calls (concat evss) = map (pair f) l' /\ Forall2 same_get l l'.
Proof. exact inner_sections. Qed.
Print Assumptions C48_sections.

(** A part of the range of a planner makes the calls of that part of the range of the traverser (C29 says
    which these are). *)
Theorem C48_part : forall ss o f p l, let t := order (traverser ss) o in
  over hands_on (Union ss) (top_struct t) nolens -> uswf (top_struct t) = true ->
  pl_for_each (plan ss) f = Some p -> for_each t [] = Done l ->
  forall r b e, pl_range (pl_order p o) = Done r -> 0 <= b -> b <= e <= pr_end r -> execute (as_planner (pr_set r b e)) <> Rejected ->
  exists r' lm, range_of t = Done r' /\ rg_dim r' = pr_dim r /\ rg_end r' = pr_end r /\
    rg_for_each (rg_set r' b e) = Done lm /\ execute (as_planner (pr_set r b e)) = Done (map (CallBody f) lm).
Proof. exact part_planner. Qed.
Print Assumptions C48_part.

(** Iterators and ranges over a planner are those over its traverser (C30), and keep what the planner is to
    call. *)
Theorem C48_iterators : forall a b k, as_iter (pi_plus a k) = it_plus (as_iter a) k /\ as_iter (pi_minus a k) = it_minus (as_iter a) k /\
  pi_diff a b = it_diff (as_iter a) (as_iter b) /\ pi_eq a b = it_eq (as_iter a) (as_iter b) /\ pi_compare a b = it_compare (as_iter a) (as_iter b) /\
  pl_trav (pi_deref a) = it_deref (as_iter a) /\ pl_trav (pi_nth a k) = it_nth (as_iter a) k /\ pl_endings (pi_deref a) = pl_endings (pi_plan a) /\ pl_endings (pi_nth a k) = pl_endings (pi_plan a).
Proof. exact iter_same. Qed.
Print Assumptions C48_iterators.

Theorem C48_ranges : forall r k, as_iter (pr_begin_it r) = rg_begin_it (as_range r) /\ as_iter (pr_end_it r) = rg_end_it (as_range r) /\
  pr_size r = rg_size (as_range r) /\ pr_empty r = rg_empty (as_range r) /\ pr_divisible r = rg_divisible (as_range r) /\
  pl_trav (pr_nth r k) = rg_nth (as_range r) k /\ pl_trav (as_planner r) = as_traverser (as_range r) /\ pl_endings (pr_nth r k) = pl_endings (pr_plan r) /\ pl_endings (as_planner r) = pl_endings (pr_plan r).
Proof. exact range_same. Qed.
Print Assumptions C48_ranges.

Theorem C48_begin_end : forall p, out_map as_range (pl_range p) = range_of (pl_trav p) /\ out_map as_iter (pl_begin p) = begin_of (pl_trav p) /\ out_map as_iter (pl_end p) = end_of (pl_trav p).
Proof. exact planner_begin_end. Qed.
Print Assumptions C48_begin_end.

(** The rows of the matrix multiplication of PropsPlan.v, also with sections. *)
Definition got {A} (o : outcome (list A)) : list A := match o with Done l => l | _ => [] end.
Definition mul_inner : list planner := got (inner_planners (pl_order mul_p mul_o)).
Definition mul_sections : list planner := got (inner_planners (pl_order mul_q mul_o)).
Definition mul_range : prange := {| pr_dim := 1; pr_plan := pl_order mul_p mul_o; pr_begin := 0; pr_end := 2 |}.

Example C48_ex :
  over hands_on (Union [mul_a; mul_b; mul_c]) (top_struct mul_t) nolens /\ uswf (top_struct mul_t) = true /\
  pl_for_each (plan [mul_a; mul_b; mul_c]) 7 = Some mul_p /\ (exists l, for_each mul_t [] = Done l) /\
  inner_planners (pl_order mul_p mul_o) = Done mul_inner /\
  map execute mul_inner = map (fun i => Done (map (CallBody 7) [at_ i 0 0; at_ i 1 0; at_ i 2 0; at_ i 0 1; at_ i 1 1; at_ i 2 1])) [0; 1] /\
  add_sections mul_p [([1], 8); ([3], 9)] = Some mul_q /\ inner_planners (pl_order mul_q mul_o) = Done mul_sections /\
  Forall2 (fun x evs => execute_all 3 x = Done evs) mul_sections (map (fun x => got (execute_all 3 x)) mul_sections) /\
  pl_range (pl_order mul_p mul_o) = Done mul_range /\ execute (as_planner (pr_set mul_range 1 2)) <> Rejected.
Proof.
  split; [apply over_view; [exact I|apply over_base; reflexivity]|].
  split; [vm_compute; reflexivity|]. split; [vm_compute; reflexivity|]. split; [eexists; vm_compute; reflexivity|]. split; [vm_compute; reflexivity|].
  split; [vm_compute; reflexivity|]. split; [vm_compute; reflexivity|]. split; [vm_compute; reflexivity|].
  split; [change mul_sections with [nth 0 mul_sections (plan []); nth 1 mul_sections (plan [])]; repeat (constructor; [vm_compute; reflexivity|]); constructor|]. split; [vm_compute; reflexivity|].
  vm_compute. discriminate.
Qed.
