(** * Proofs about empty ranges and ranges with an order *)

From Verif Require Import Range PlanRange RangeThms PlanRangeFacts.

Lemma empty_size r : 0 <= rg_begin r <= rg_end r -> rg_end r < W -> (rg_empty r = true <-> rg_size r = 0).
Proof. intros H1 H2. unfold rg_empty, rg_size. rewrite Z.eqb_eq, u64_small by lia. lia. Qed.
Lemma range_order r p : rg_order r p = order (as_traverser r) p.
Proof. unfold rg_order, as_traverser, order. cbn [tr_struct tr_order]. rewrite <- app_assoc. reflexivity. Qed.
Lemma prange_order r o : pr_order r o = pl_order (as_planner r) o.
Proof. unfold pr_order, as_planner, pl_order, order. cbn [pl_trav pl_endings tr_struct tr_order]. rewrite <- app_assoc. reflexivity. Qed.
