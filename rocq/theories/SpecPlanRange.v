(** * What ranges over planners should be

    Definitions only. *)

From Verif Require Export PlanRange SpecPlan SpecRange.

(** The iterator and the range over the traverser of the planner (Range.v). *)
Definition as_iter (a : piter) : iter := {| it_dim := pi_dim a; it_trav := pl_trav (pi_plan a); it_idx := pi_idx a |}.
Definition as_range (r : prange) : range := {| rg_dim := pr_dim r; rg_trav := pl_trav (pr_plan r); rg_begin := pr_begin r; rg_end := pr_end r |}.
