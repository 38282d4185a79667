(** * Model of ranges and iterators over planners

    interop/planner_iter.hpp and the parallel executions of interop/omp.hpp and interop/std_para.hpp.
    Definitions only. *)

From Verif Require Export Planner Range.

(** planner_iter.hpp 22-37, 59-63: an iterator.  As in Range.v, [ptrdiff_t] arguments are taken modulo 2^64. *)
Record piter := { pi_dim : dim; pi_plan : planner; pi_idx : Z }.

(** planner_iter.hpp 155-161, 188-189 *)
Record prange := { pr_dim : dim; pr_plan : planner; pr_begin : Z; pr_end : Z }.

Definition pi_at (a : piter) (i : Z) : piter := {| pi_dim := pi_dim a; pi_plan := pi_plan a; pi_idx := u64 i |}.
(** planner_iter.hpp 81-84 *)
Definition pi_diff (a b : piter) : Z := to_signed (u64 (pi_idx a - pi_idx b)).
(** planner_iter.hpp 86-89, 96-99, 106-109, 116-120, 148-151 *)
Definition pi_plus (a : piter) (k : Z) : piter := pi_at a (pi_idx a + k).
(** planner_iter.hpp 91-94, 101-104, 111-114, 122-126 *)
Definition pi_minus (a : piter) (k : Z) : piter := pi_at a (pi_idx a - k).
(** planner_iter.hpp 128-136 *)
Definition pi_eq (a b : piter) : bool := pi_idx a =? pi_idx b.
Definition pi_compare (a b : piter) : comparison := pi_idx a ?= pi_idx b.
(** planner_iter.hpp 138-141 *)
Definition pi_deref (a : piter) : planner := pl_order (pi_plan a) [LView (VFix (pi_dim a) (Dyn (pi_idx a)))].
(** planner_iter.hpp 143-146 *)
Definition pi_nth (a : piter) (k : Z) : planner := pl_order (pi_plan a) [LView (VFix (pi_dim a) (Dyn (u64 (pi_idx a + k))))].

(** planner_iter.hpp 266-270: [range<Dim>(planner)] *)
Definition pl_range_dim (p : planner) (d : dim) : outcome prange :=
  out_map (fun r => {| pr_dim := rg_dim r; pr_plan := p; pr_begin := 0; pr_end := rg_end r |}) (range_of_dim (pl_trav p) d).
(** planner_iter.hpp 272-276: [range(planner)] *)
Definition pl_range (p : planner) : outcome prange :=
  match top_dim (top_struct (pl_trav p)) with Some d => pl_range_dim p d | None => Rejected end.

(** planner_iter.hpp 278-289: [begin(planner)] and [end(planner)] *)
Definition pl_begin (p : planner) : outcome piter :=
  match top_dim (top_struct (pl_trav p)) with
  | Some d => Done {| pi_dim := d; pi_plan := p; pi_idx := 0 |}
  | None => Rejected end.
Definition pl_end (p : planner) : outcome piter :=
  out_map (fun r => {| pi_dim := pr_dim r; pi_plan := p; pi_idx := pr_end r |}) (pl_range p).

(** planner_iter.hpp 235-243, 255-258 *)
Definition pr_begin_it (r : prange) : piter := {| pi_dim := pr_dim r; pi_plan := pr_plan r; pi_idx := pr_begin r |}.
Definition pr_end_it (r : prange) : piter := {| pi_dim := pr_dim r; pi_plan := pr_plan r; pi_idx := pr_end r |}.
Definition pr_size (r : prange) : Z := u64 (pr_end r - pr_begin r).
(** planner_iter.hpp 217-225 *)
Definition pr_empty (r : prange) : bool := pr_end r =? pr_begin r.
Definition pr_divisible (r : prange) : bool := 1 <? pr_size r.
(** planner_iter.hpp 260-263 *)
Definition pr_nth (r : prange) (k : Z) : planner :=
  pl_order (pr_plan r) [LView (VFix (pr_dim r) (Dyn (u64 (pr_begin r + k))))].

(** planner_iter.hpp 208-213 *)
Definition as_planner (r : prange) : planner :=
  pl_order (pr_plan r) [LView (VSlice (pr_dim r) (Dyn (pr_begin r)) (Dyn (pr_size r)))].
(** planner_iter.hpp 193-200 *)
Definition pr_order (r : prange) (o : proto) : planner :=
  pl_order (pr_plan r) (LView (VSlice (pr_dim r) (Dyn (pr_begin r)) (Dyn (pr_size r))) :: o).
(** planner_iter.hpp 202-206 *)
Definition pr_for_each (r : prange) (f : Z) : option planner := pl_for_each (as_planner r) f.

(** The range with other bounds (the members [begin_idx] and [end_idx] are public). *)
Definition pr_set (r : prange) (b e : Z) : prange :=
  {| pr_dim := pr_dim r; pr_plan := pr_plan r; pr_begin := b; pr_end := e |}.

(** omp.hpp 37-43, std_para.hpp 28-32: the planners that the iterations of
    [for (auto inner : planner) inner.execute()] run, from [begin] to [end].  Which thread runs which one, and
    in which order, is open. *)
Definition inner_planners (p : planner) : outcome (list planner) :=
  out_bind (pl_begin p) (fun b => out_map (fun e => map (fun k => pi_deref (pi_plus b k)) (zseq (u64 (pi_idx e - pi_idx b)))) (pl_end p)).
