(** * C35: step without a dimension and in thread groups *)

From Verif Require Import AutoStepFacts Shortcuts.

(** [n] workers, worker [k] with [order(step(k, n))] without a dimension: every call of the traversal is made by exactly one worker. *)
Theorem C35_auto_workers : forall ss p r n l, let t := order (traverser ss) p in
  distinct_dims (top_struct t) -> range_of t = Done r -> for_each t [] = Done l -> 0 < n < W -> rg_end r + n <= W ->
  exists ws, Forall2 (fun k w => auto_order t (Dyn k) (Dyn n) = Some w) (zseq n) ws /\ calls_once ws l.
Proof. exact auto_workers. Qed.
Print Assumptions C35_auto_workers.

(** The threads of a CUDA group, with the outermost dimension named or not. *)
Theorem C35_group : forall ss p r n l, let t := order (traverser ss) p in
  distinct_dims (top_struct t) -> range_of t = Done r -> for_each t [] = Done l -> 0 < n < W -> rg_end r + n <= W ->
  calls_once (map (fun k => order t (cuda_step (rg_dim r) k n)) (zseq n)) l /\
  Forall (fun k => cuda_auto_order t k n = Some (order t (cuda_step (rg_dim r) k n))) (zseq n).
Proof. exact group. Qed.
Print Assumptions C35_group.

Definition int4 : cty := {| ct_id := 1; ct_size := 4; ct_align := 4 |}.
Definition grid : struct := vec 1 (Dyn 6) (vec 2 (Dyn 4) (Scalar int4)).
Definition columns : trav := order (traverser [grid]) [LView (VHoist 2)].
Definition done_ {A} (o : outcome (list A)) : list A := match o with Done l => l | _ => [] end.

Example C35_auto_ex : distinct_dims (top_struct columns) /\ range_of columns = Done {| rg_dim := 2; rg_trav := columns; rg_begin := 0; rg_end := 4 |} /\
  (exists l, for_each columns [] = Done l /\ List.length l = 24%nat) /\
  omap (fun k => do w <- cuda_auto_order columns k 3; Some (map (index_list (Union [grid])) (done_ (for_each w [])))) [1; 2] =
    Some [[[0; 1]; [1; 1]; [2; 1]; [3; 1]; [4; 1]; [5; 1]]; [[0; 2]; [1; 2]; [2; 2]; [3; 2]; [4; 2]; [5; 2]]].
Proof.
  split; [vm_compute; reflexivity|]. split; [vm_compute; reflexivity|]. split; [exists (done_ (for_each columns [])); split; vm_compute; reflexivity|]. vm_compute. reflexivity.
Qed.
(** Over a tuple there is no such step. *)
Example C35_auto_tuple : auto_order (traverser [Tuple 1 [Scalar int4; Scalar int4]]) (Dyn 0) (Dyn 2) = None.
Proof. vm_compute. reflexivity. Qed.
