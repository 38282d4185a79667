(** * Planners over the elements of bags

    Definitions only.  [planner(bags...).for_each_elem(f)]: as [for_each], and the function is given the elements that the bags
    have at the state (extra/planner.hpp 33-78, 339-345).  [planner] takes the references of the bags (lines 430-434), so the
    elements are those of the bags themselves.  Simplifications: the function writes the last bag, once, as in Kernel.v; the bags
    do not share memory. *)

From Verif Require Export PlanRange Kernel.

(** planner.hpp 339-345, 430-434: [planner(bags...).for_each_elem(f)] *)
Definition plan_elems (bags : list bag) (f : Z) : option planner := pl_for_each (plan (map bg_struct bags)) f.

(** The states at which the elements are taken, in order (planner.hpp 63-77: [planner.state()] at each call). *)
Definition elem_states (tr : list pevent) : list state := map snd (body_calls tr).

(** Sections that complete the inner planner themselves, as in [planner(a, b, c).for_sections<'x', 'z'>([](auto inner) {
    inner.for_each_elem(f)(); }).order(o)()] (tests/planner_test.cpp 81-92): each list of dimensions is one more level of such
    sections, the innermost one calls [for_each_elem].  The order is that given to the outermost planner.
    [planner ^ for_dims<Dims...>(f)] is such a section with the order [hoist<Dims...>()] (lines 508-519). *)
Fixpoint nested (dss : list (list dim)) (p : planner) (o : proto) : outcome (list state) :=
  match dss with
  | [] => match pl_for_each p 0 with
          | Some q => out_map elem_states (execute_all 1 (pl_order q o))
          | None => Rejected
          end
  | ds :: r =>
      match pl_for_sections p ds 0 with
      | Some q => out_bind (execute (pl_order q o)) (fun calls => out_cat (map (fun c =>
                    match c with
                    | CallAround _ inner => nested r inner []
                    | CallBody _ _ => Rejected
                    end) calls))
      | None => Rejected
      end
  end.
