(** * C46: kernel launches over a traverser *)

From Verif Require Import CudaFacts Check PropsLayout PropsTrav.

(** All threads of the launch together make the calls of the traversal, each exactly once. *)
Theorem C46_launch : forall ss p ps l ts ls, let t := order (traverser ss) p in
  distinct_dims (top_struct t) -> lenok (top_struct t) nolens -> NoDup (cuda_order ps) ->
  (forall d, In d (cuda_order ps) -> every_element_has (top_struct t) d) -> lengths_fit t (cuda_order ps) ->
  for_each t [] = Done l -> cuda_launch t ps = Done ts -> Forall2 (fun x lx => for_each x [] = Done lx) ts ls ->
  exists l', Permutation l' (concat ls) /\ Forall2 same_get l l'.
Proof. exact launch_calls. Qed.
Print Assumptions C46_launch.

(** The launch may be made (there is a thread) exactly if the traverser converts to true. *)
Theorem C46_bool : forall t ps b ts, cuda_bool t ps = Done b -> cuda_launch t ps = Done ts -> lengths_fit t (cuda_order ps) ->
  (b = true <-> ts <> []).
Proof. exact launch_bool. Qed.
Print Assumptions C46_bool.

(** A 6 x 4 matrix; the rows in blocks of two, a thread for each row. *)
Definition cu_s : struct := vec 1 (Dyn 6) (vec 2 (Dyn 4) (Scalar int4)).
Definition cu_t : trav := order (traverser [cu_s]) [LView (VBlocks 1 11 12); LView (VSetLength 12 (Sta 2))].
Definition cu_out {A} (o : outcome (list A)) : list A := match o with Done l => l | _ => [] end.

Example C46_ex :
  distinct_dims (top_struct cu_t) /\ lenok (top_struct cu_t) nolens /\ NoDup (cuda_order [(11, 12)]) /\
  (forall d, In d (cuda_order [(11, 12)]) -> every_element_has (top_struct cu_t) d) /\ lengths_fit cu_t (cuda_order [(11, 12)]) /\
  for_each cu_t [] = Done (cu_out (for_each cu_t [])) /\ cuda_launch cu_t [(11, 12)] = Done (cu_out (cuda_launch cu_t [(11, 12)])) /\
  Forall2 (fun x lx => for_each x [] = Done lx) (cu_out (cuda_launch cu_t [(11, 12)])) (map (fun x => cu_out (for_each x [])) (cu_out (cuda_launch cu_t [(11, 12)]))) /\
  map (fun x => List.length (cu_out (for_each x []))) (cu_out (cuda_launch cu_t [(11, 12)])) = repeat 4%nat 6 /\
  cuda_bool cu_t [(11, 12)] = Done true.
Proof.
  split; [vm_compute; reflexivity|]. split; [apply lenokb_sound; vm_compute; reflexivity|].
  split. { repeat constructor; cbn; intuition lia. }
  split. { intros d Hd st p. unfold dims_of.
    replace (signature (top_struct cu_t)) with (Some (SFun 11 ADyn (SFun 12 (ASta 2) (SFun 2 ADyn (SScalar int4))))) by (vm_compute; reflexivity).
    cbn [obind spath option_map]. intros E. injection E as <-. cbn in Hd |- *. intuition (subst; auto). }
  split. { intros d v n Hd El En. cbn in Hd. destruct Hd as [<-|[<-|[]]]; vm_compute in El; injection El as <-; vm_compute in En; injection En as <-; reflexivity. }
  split; [vm_compute; reflexivity|]. split; [vm_compute; reflexivity|]. split; [|split; vm_compute; reflexivity].
  set (ts := cu_out (cuda_launch cu_t [(11, 12)])). vm_compute in ts. unfold ts. cbn [map].
  repeat (constructor; [vm_compute; reflexivity|]). constructor.
Qed.

(** Longer dimensions are truncated: the launch over 2^32 + 1 rows has one thread, and the last row is left out. *)
Theorem C46_truncated_refuted : exists s ps x st p lx, cuda_bool (traverser [s]) ps = Done true /\ cuda_launch (traverser [s]) ps = Done [x] /\
  names_element s st p /\ for_each x [] = Done lx /\ ~ In (index_list s st) (map (index_list s) lx).
Proof.
  exists (vec 1 (Dyn 4294967297) (vec 2 (Dyn 1) (Scalar int4))), [(1, 2)].
  exists (inner (traverser [vec 1 (Dyn 4294967297) (vec 2 (Dyn 1) (Scalar int4))]) [(Idx 2, Dyn 0); (Idx 1, Dyn 0)]).
  exists [(Idx 1, Dyn 4294967296); (Idx 2, Dyn 0)], [(1, None); (2, None)], [[(Idx 1, Dyn 0); (Idx 2, Dyn 0)]].
  split; [vm_compute; reflexivity|]. split; [vm_compute; reflexivity|].
  split; [apply names_element_check; vm_compute; reflexivity|]. split; [vm_compute; reflexivity|].
  vm_compute. intros [H|[]]. discriminate.
Qed.
Print Assumptions C46_truncated_refuted.
