(** * What a planner over bags computes: specification (C63)

    Definitions only.  What the loops compute is said in SpecKernel.v. *)

From Coq Require Export Permutation.
From Verif Require Export SpecPlanRange PlanElem SpecKernel.

(** The ways to run a function on the elements of structures with a planner, and the states at which it takes the elements. *)
Inductive planned (ss : list struct) (o : proto) : list state -> Prop :=
(** [planner(ss...).for_each_elem(f).for_sections<ds1...>(g1)....order(o)()], every [g] running its inner planner once *)
| planned_sections : forall f p secs q n evs, pl_for_each (plan ss) f = Some p -> add_sections p secs = Some q ->
    execute_all n (pl_order q o) = Done evs -> planned ss o (elem_states evs)
(** [planner(ss...).for_sections<ds1...>([](auto inner) { inner.for_sections<ds2...>(... inner.for_each_elem(f)() ...)(); }).order(o)()] *)
| planned_nested : forall dss l, nested dss (plan ss) o = Done l -> planned ss o l.

(** The same with [| planner_omp_execute()] and the like: the calls are made in any order. *)
Inductive planned_parallel (ss : list struct) (o : proto) : list state -> Prop :=
| planned_inner : forall f p secs q n ps evss sched, pl_for_each (plan ss) f = Some p -> add_sections p secs = Some q ->
    inner_planners (pl_order q o) = Done ps -> Forall2 (fun x evs => execute_all n x = Done evs) ps evss ->
    Permutation (elem_states (concat evss)) sched -> planned_parallel ss o sched.

(** The order is one with which planners do what traversers do (C31). *)
Definition plans (ss : list struct) (o : proto) : Prop := over hands_on (Union ss) (top_struct (order (traverser ss) o)) nolens.

(** A planner over the bags, run in one of these ways, takes the elements at the states [calls]. *)
Definition runs (bags : list bag) (o : proto) (calls : list state) : Prop :=
  planned (map bg_struct bags) o calls \/ planned_parallel (map bg_struct bags) o calls.
