(** * C29, C48: empty ranges and ranges with an order *)

From Verif Require Import Range PlanRange RangeOrder SpecRange SpecReduce ReduceFacts PropsRange.

(** A range is empty exactly if it has no elements. *)
Theorem C29_empty : forall r, 0 <= rg_begin r <= rg_end r -> rg_end r < W -> (rg_empty r = true <-> rg_size r = 0).
Proof. exact empty_size. Qed.
Print Assumptions C29_empty.

(** Ordering a range is ordering the traverser of its part. *)
Theorem C29_order : forall r p, rg_order r p = order (as_traverser r) p.
Proof. exact range_order. Qed.
Print Assumptions C29_order.

(** Ordering a range over a planner is ordering the planner of its part. *)
Theorem C48_order : forall r o, pr_order r o = pl_order (as_planner r) o.
Proof. exact prange_order. Qed.
Print Assumptions C48_order.

(** Columns 1 and 2 of the matrix, row by row. *)
Example C29_ex_order :
  let r := rg_set columns_range 1 3 in 0 <= rg_begin r <= rg_end r /\ rg_end r < W /\ rg_empty r = false /\ rg_empty (rg_set r 3 3) = true /\
  map (index_list (Union [grid])) (done_ (for_each (rg_order r [LView (VHoist 1)]) [])) =
    [[0; 1]; [0; 2]; [1; 1]; [1; 2]; [2; 1]; [2; 2]; [3; 1]; [3; 2]; [4; 1]; [4; 2]; [5; 1]; [5; 2]].
Proof. cbv zeta. split; [simpl; lia|]. split; [simpl; rewrite W_eq; lia|]. repeat split; vm_compute; reflexivity. Qed.
