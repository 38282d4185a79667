(** * C63: what planners over bags compute *)

From Verif Require Import Check PropsLayout PropsOrder PropsKernel PlanElemThms.
From Verif Require Import SpecPlanElem.

(** However it is cut into sections, a planner takes the elements at the states of the traversal, in the same order. *)
Theorem C63_same : forall ss o all l, plans ss o -> uswf (top_struct (order (traverser ss) o)) = true -> for_each (order (traverser ss) o) [] = Done all ->
  planned ss o l -> l = all.
Proof. intros ss o all l H1 H2 H3. exact (planned_same ss o all H1 H2 H3 l). Qed.
Print Assumptions C63_same.

(** In parallel: at the same states, in another order, each written possibly with its indices in another order. *)
Theorem C63_parallel : forall ss o all l, plans ss o -> uswf (top_struct (order (traverser ss) o)) = true -> for_each (order (traverser ss) o) [] = Done all ->
  planned_parallel ss o l -> exists sched, Permutation all sched /\ Forall2 same_get sched l.
Proof. intros ss o all l H1 H2 H3. exact (parallel_same ss o all H1 H2 H3 l). Qed.
Print Assumptions C63_parallel.

(** [planner(ins..., out).for_each_elem([](auto &&...ins, auto &&out) { out = f(out, ins...); })], with or without sections, in sequence or in parallel,
    with any order: no access is undefined behaviour, and each element of the output accumulates the inputs along the other dimensions. *)
Theorem C63_reduction : forall f ins out o lo lr all calls, any_order f -> loops rearranges (map bg_struct (ins ++ [out])) o (lo ++ lr) -> plans (map bg_struct (ins ++ [out])) o ->
  good_bags ins (lo ++ lr) -> good_bag out lo -> nobcast (bg_struct out) = true -> for_each (order (traverser (map bg_struct (ins ++ [out]))) o) [] = Done all ->
  runs (ins ++ [out]) o calls ->
  loop f ins out calls <> Undefined /\
  forall out', loop f ins out calls = Done out' ->
  forall vals x v, (forall y, in_box (lo ++ lr) y -> have_values ins y (vals y)) -> in_box lo x -> has_value out x v ->
  has_value out' x (fold_left (fun v js => f v (vals (along lr js x))) (all_indices lr) v).
Proof. exact plan_reduction. Qed.
Print Assumptions C63_reduction.

(** If the output has all the dimensions, each of its elements is updated once, for every function. *)
Theorem C63_pointwise : forall f ins out out' o lens all calls, loops rearranges (map bg_struct (ins ++ [out])) o lens -> plans (map bg_struct (ins ++ [out])) o ->
  good_bags ins lens -> good_bag out lens -> nobcast (bg_struct out) = true -> for_each (order (traverser (map bg_struct (ins ++ [out]))) o) [] = Done all ->
  runs (ins ++ [out]) o calls -> loop f ins out calls = Done out' ->
  forall vals x v, (forall y, in_box lens y -> have_values ins y (vals y)) -> in_box lens x -> has_value out x v -> has_value out' x (f v (vals x)).
Proof. exact plan_pointwise. Qed.
Print Assumptions C63_pointwise.

(** The product of matrices of unsigned integers of [w] bytes: [c += a * b] (tests/planner_test.cpp). *)
Theorem C63_matmul : forall w a b c c' o i j k ni nj nk A B C all calls, loops rearranges (map bg_struct [a; b; c]) o [(i, ni); (j, nj); (k, nk)] -> plans (map bg_struct [a; b; c]) o ->
  good_bag a [(i, ni); (k, nk)] -> good_bag b [(k, nk); (j, nj)] -> good_bag c [(i, ni); (j, nj)] -> nobcast (bg_struct c) = true ->
  for_each (order (traverser (map bg_struct [a; b; c])) o) [] = Done all -> runs [a; b; c] o calls -> loop (add_product w) [a; b] c calls = Done c' ->
  (forall y z, 0 <= y < ni -> 0 <= z < nk -> has_value a (at_ij i k y z) (uint w (A y z))) ->
  (forall y z, 0 <= y < nk -> 0 <= z < nj -> has_value b (at_ij k j y z) (uint w (B y z))) ->
  (forall y z, 0 <= y < ni -> 0 <= z < nj -> has_value c (at_ij i j y z) (uint w (C y z))) ->
  forall y z, 0 <= y < ni -> 0 <= z < nj -> has_value c' (at_ij i j y z) (uint w (C y z + sum nk (fun l => A y l * B l z))).
Proof. exact plan_matmul. Qed.
Print Assumptions C63_matmul.

(** ** The product of PropsKernel.v, with the loops over [i] and [j] outermost, and a section for each of them *)
Definition pe_o : proto := kn_p ++ [LView (VHoist 2); LView (VHoist 1)].
Definition pe_bags : list bag := [kn_ba; kn_bb; kn_bc].
Definition pe_p : planner := match plan_elems pe_bags 7 with Some p => p | None => plan [] end.
Definition pe_q : planner := match add_sections pe_p [([1], 8); ([2], 9)] with Some p => p | None => plan [] end.
Definition pe_all : list state := match for_each (order (traverser kn_ss) pe_o) [] with Done l => l | _ => [] end.
Definition pe_inner : list planner := match inner_planners (pl_order pe_q pe_o) with Done l => l | _ => [] end.
Definition pe_evss : list (list pevent) := map (fun q => match execute_all 3 q with Done l => l | _ => [] end) pe_inner.
(** The thread of the second row comes first. *)
Definition pe_sched : list state := elem_states (concat (rev pe_evss)).

Lemma pe_over : over rearranges (Union kn_ss) (top_struct (order (traverser kn_ss) pe_o)) nolens.
Proof.
  change (top_struct (order (traverser kn_ss) pe_o)) with (View (VHoist 1) (View (VHoist 2) (top_struct (order (traverser kn_ss) kn_p)))).
  constructor; [split; [split; [reflexivity|]|exact I]; intros c; exact I|].
  constructor; [split; [split; [reflexivity|]|exact I]; intros c; exact I|]. exact kn_over.
Qed.

Lemma pe_loops : loops rearranges (map bg_struct pe_bags) pe_o kn_lens.
Proof.
  change (map bg_struct pe_bags) with kn_ss.
  split; [exact kn_cubes|]. split; [vm_compute; reflexivity|]. split; [apply lenokb_sound; vm_compute; reflexivity|]. split; [exact pe_over|].
  intros calls r E. revert r. apply completeb_sound.
  assert (H : out_map (forallb (completeb (Union kn_ss))) (for_each (order (traverser kn_ss) pe_o) []) = Done true) by (vm_compute; reflexivity). rewrite E in H. cbn [out_map] in H. congruence.
Qed.

Lemma pe_plans : plans (map bg_struct pe_bags) pe_o.
Proof.
  unfold plans. change (top_struct (order (traverser (map bg_struct pe_bags)) pe_o)) with (View (VHoist 1) (View (VHoist 2) (View (VHoist 5) (View (VReverse 1) (View (VSetLength 5 (Dyn 2)) (View (VBlocks 3 4 5) (Union kn_ss))))))).
  do 3 (constructor; [exact I|]). constructor; [eexists; split; [vm_compute; reflexivity|vm_compute; tauto]|]. do 2 (constructor; [exact I|]).
  constructor; intros d; cbn [view_lenv fupds]; unfold fupd, nolens; cbn [Z.eqb Pos.eqb]; repeat match goal with |- context [if ?c then _ else _] => destruct c end; reflexivity.
Qed.

Lemma pe_sequential : runs pe_bags pe_o pe_all.
Proof.
  left. assert (H : exists evs, execute_all 3 (pl_order pe_q pe_o) = Done evs /\ elem_states evs = pe_all) by (eexists; split; vm_compute; reflexivity).
  destruct H as (evs & H1 & <-). eapply (planned_sections _ _ 7 pe_p [([1], 8); ([2], 9)] pe_q 3 evs); [vm_compute; reflexivity|vm_compute; reflexivity|exact H1].
Qed.

Lemma pe_nested : runs pe_bags pe_o pe_all.
Proof. left. apply (planned_nested _ _ [[1]; [2]]). vm_compute. reflexivity. Qed.

Lemma pe_parallel : runs pe_bags pe_o pe_sched.
Proof.
  right. apply (planned_inner _ _ 7 pe_p [([1], 8); ([2], 9)] pe_q 3 pe_inner pe_evss); [vm_compute; reflexivity|vm_compute; reflexivity|vm_compute; reflexivity| |].
  - assert (H : map (execute_all 3) pe_inner = map Done pe_evss) by (vm_compute; reflexivity). clear -H. revert H. generalize pe_evss. induction pe_inner as [|q l IH]; intros [|e es] H; try discriminate H; constructor; cbn [map] in H; [congruence|apply IH; congruence].
  - unfold pe_sched, elem_states, body_calls. apply Permutation_map, Permutation_flat_map. clear. induction pe_evss as [|e es IH]; [constructor|]. cbn [rev concat]. rewrite concat_app. cbn [concat]. rewrite app_nil_r.
    eapply Permutation_trans; [apply Permutation_app_comm|]. apply Permutation_app_tail. exact IH.
Qed.

Example C63_ex : loops rearranges (map bg_struct pe_bags) pe_o kn_lens /\ plans (map bg_struct pe_bags) pe_o /\ for_each (order (traverser kn_ss) pe_o) [] = Done pe_all /\ List.length pe_all = 16%nat /\
  runs pe_bags pe_o pe_all /\ runs pe_bags pe_o pe_sched /\ pe_sched <> pe_all /\
  exists c', loop (add_product 4) [kn_ba; kn_bb] kn_bc pe_sched = Done c' /\ loop (add_product 4) [kn_ba; kn_bb] kn_bc pe_all = Done c' /\
    bag_read c' [(Idx 1, Dyn 1); (Idx 2, Dyn 0)] = Done (uint 4 232) /\
    forall y z, 0 <= y < 2 -> 0 <= z < 2 -> has_value c' (at_ij 1 2 y z) (uint 4 (kn_C y z + sum 4 (fun l => kn_A y l * kn_B l z))).
Proof.
  destruct kn_good as (Ga & Gb & Gc). destruct kn_values as (Va & Vb & Vc). assert (Ha : for_each (order (traverser (map bg_struct [kn_ba; kn_bb; kn_bc])) pe_o) [] = Done pe_all) by (vm_compute; reflexivity).
  split; [exact pe_loops|]. split; [exact pe_plans|]. split; [exact Ha|]. split; [vm_compute; reflexivity|]. split; [exact pe_nested|]. split; [exact pe_parallel|]. split; [vm_compute; discriminate|].
  assert (H : exists c', loop (add_product 4) [kn_ba; kn_bb] kn_bc pe_sched = Done c' /\ loop (add_product 4) [kn_ba; kn_bb] kn_bc pe_all = Done c' /\ bag_read c' [(Idx 1, Dyn 1); (Idx 2, Dyn 0)] = Done (uint 4 232)) by (eexists; split; [vm_compute; reflexivity|]; split; vm_compute; reflexivity).
  destruct H as (c' & E1 & E2 & E3). exists c'. split; [exact E1|]. split; [exact E2|]. split; [exact E3|].
  exact (C63_matmul 4 kn_ba kn_bb kn_bc c' pe_o 1 2 3 2 2 4 kn_A kn_B kn_C pe_all pe_sched pe_loops pe_plans Ga Gb Gc eq_refl Ha pe_parallel E1 Va Vb Vc).
Qed.

(** ** Where it fails *)

(** With [into_blocks_dynamic] the planner reaches elements behind the end of the bag (the loop that leaves out the missing elements of the last block is
    not entered, C31), where the traverser does not. *)
Definition pe_row : struct := vec 1 (Dyn 3) (Scalar int4).
Definition pe_blocks : proto := [LView (VBlocksDyn 1 2 3 4); LView (VSetLength 3 (Dyn 2))].
Definition pe_zero (v : bytes) (xs : list bytes) : bytes := uint 4 0.

Theorem C63_blocks_dynamic_refuted : exists b o calls, good_bag b [(1, 3)] /\ uswf (top_struct (order (traverser [bg_struct b]) o)) = true /\
  runs [b] o calls /\ loop pe_zero [] b calls = Undefined /\ exists b', run_loop pe_zero [] b (order (traverser [bg_struct b]) o) = Done b'.
Proof.
  exists (kn_bag pe_row [1; 2; 3]), pe_blocks, (map (fun i => [(Idx 1, Dyn i)]) [0; 1; 2; 3]). split; [|split; [|split; [|split]]].
  - split; [apply kn_cube; vm_compute; reflexivity|]. split.
    + split; [vm_compute; reflexivity|]. split; [apply lenokb_sound; vm_compute; reflexivity|]. split; [intros a; cbn; tauto|rewrite W_eq; vm_compute; reflexivity].
    + exists (Dyn 12), 12. repeat split; vm_compute; try reflexivity. discriminate.
  - vm_compute. reflexivity.
  - left. apply (planned_nested _ _ []). vm_compute. reflexivity.
  - vm_compute. reflexivity.
  - eexists. vm_compute. reflexivity.
Qed.
Print Assumptions C63_blocks_dynamic_refuted.
