(** * C65: loops over bags in threads *)

From Verif Require Import Check PropsLayout PropsOrder PropsKernel PropsSectionKernel PropsPlanElem ThreadKernelThms.
From Verif Require Import SpecPlanElem SpecThreadKernel.

(** The calls of a traversal are cut into parts that update different elements of the output, and threads take the parts in any way, taking turns at every single
    read and write of an element: the result is always that of the parts one after another, and no access is undefined behaviour. *)
Theorem C65_loop : forall f ins out out' ss p lens lo calls works ths, loops documented ss p lens -> good_bag out lo -> within_lengths lens lo -> nobcast (bg_struct out) = true ->
  for_each (order (traverser ss) p) [] = Done calls -> make_calls works calls -> own_elements lo works -> Permutation (concat ths) works ->
  loop f ins out (concat works) = Done out' -> always_ends_in (map (map (part_body f ins)) ths) out out'.
Proof. exact loop_threads. Qed.
Print Assumptions C65_loop.

(** If the order of accumulation does not matter, it is the formula of the loop. *)
Theorem C65_result : forall f ins out out' ss p lo lr calls works ths, any_order f -> loops rearranges ss p (lo ++ lr) -> good_bags ins (lo ++ lr) -> good_bag out lo ->
  nobcast (bg_struct out) = true -> for_each (order (traverser ss) p) [] = Done calls -> make_calls works calls -> own_elements lo works -> Permutation (concat ths) works ->
  loop f ins out (concat works) = Done out' ->
  always_gives (map (map (part_body f ins)) ths) out (fun b => forall vals x v, (forall y, in_box (lo ++ lr) y -> have_values ins y (vals y)) -> in_box lo x -> has_value out x v ->
    has_value b x (fold_left (fun v js => f v (vals (along lr js x))) (all_indices lr) v)).
Proof. exact threads_reduction. Qed.
Print Assumptions C65_result.

(** The pieces into which the range of a traverser is split are such parts, if the index of the outermost dimension is determined
    by an index that the output has ([source], C45): the outermost dimension can be that of the blocks of a dimension of the output, say. *)
Theorem C65_pieces : forall ss p lens lo calls r tr works d, let t := order (traverser ss) p in loops documented ss p lens -> for_each t [] = Done calls ->
  range_of t = Done r -> source (top_struct t) (rg_dim r) = Some d -> In d (map fst lo) -> within_lengths lens lo ->
  Forall2 (fun piece w => rg_for_each piece = Done w) (pieces tr r) works ->
  make_calls works calls /\ own_elements lo works.
Proof. exact pieces_own. Qed.
Print Assumptions C65_pieces.

(** So are the iterations over the outermost dimension ([omp_for_each], and the standard parallel algorithms over the range). *)
Theorem C65_iterations : forall ss p lens lo calls r works d, let t := order (traverser ss) p in loops documented ss p lens -> for_each t [] = Done calls ->
  range_of t = Done r -> source (top_struct t) (rg_dim r) = Some d -> In d (map fst lo) -> within_lengths lens lo ->
  Forall2 (fun i w => for_each (rg_nth r i) [] = Done w) (zseq (rg_size r)) works ->
  make_calls works calls /\ own_elements lo works.
Proof. exact iterations_own. Qed.
Print Assumptions C65_iterations.

(** So are the planners that [planner | planner_omp_execute()] and the like run, whatever sections the planner has. *)
Theorem C65_planners : forall ss o lens lo all f p secs q n ps evss x d, let t := order (traverser ss) o in loops documented ss o lens -> plans ss o -> for_each t [] = Done all ->
  pl_for_each (plan ss) f = Some p -> add_sections p secs = Some q -> inner_planners (pl_order q o) = Done ps -> Forall2 (fun x evs => execute_all n x = Done evs) ps evss ->
  top_dim (top_struct t) = Some x -> source (top_struct t) x = Some d -> In d (map fst lo) -> within_lengths lens lo ->
  make_calls (map elem_states evss) all /\ own_elements lo (map elem_states evss).
Proof. exact planners_own. Qed.
Print Assumptions C65_planners.

(** The traversal is cut into sections (the threads of a CUDA launch, say), each with the indices of one element of the output, which accumulate locally and store once.
    They may run in any number of threads, which take turns at every single read and write of an element of the output. *)
Theorem C65_sections : forall f init ins out out' ss p lo lr us ths, any_order f -> loops rearranges ss p (lo ++ lr) -> good_bags ins (lo ++ lr) -> good_bag out lo ->
  nobcast (bg_struct out) = true -> (exists calls, for_each (order (traverser ss) p) [] = Done calls) -> cut_into (order (traverser ss) p) us ->
  one_section_each out lo us -> Permutation (concat ths) us -> store_sections f init ins out us = Done out' ->
  always_gives (map (map (section_body f init ins)) ths) out (fun b => forall vals x v u, (forall y, in_box (lo ++ lr) y -> have_values ins y (vals y)) -> in_box lo x -> has_value out x v ->
    In u us -> section_at out u x -> has_value b x (fold_left (fun v js => f v (vals (along lr js x))) (all_indices lr) (init v))).
Proof. exact threads_sections. Qed.
Print Assumptions C65_sections.

(** For any function, the result is that of the sections one after another. *)
Theorem C65_sections_same : forall f init ins out out' lo us ths, good_bag out lo -> nobcast (bg_struct out) = true -> one_section_each out lo us -> Permutation (concat ths) us ->
  store_sections f init ins out us = Done out' -> always_ends_in (map (map (section_body f init ins)) ths) out out'.
Proof. exact section_threads. Qed.
Print Assumptions C65_sections_same.

(** The programs of the threads do what the calls and the sections do: alone, they compute the same. *)
Theorem C65_alone : (forall f ins sts b r, loop f ins b sts = Done r -> run (part_body f ins sts) b = Done r) /\
  (forall f init ins u b r, store_section f init ins b u = Done r -> run (section_body f init ins u) b = Done r).
Proof.
  split; [intros f ins sts b r E; unfold part_body; rewrite run_in_turn; apply body_run, E|].
  intros f init ins u b r E. pose proof (section_run f init ins [u] b r) as H. cbn [store_sections map run_all] in H. rewrite E in H. specialize (H eq_refl).
  destruct (run (section_body f init ins u) b); [discriminate H|discriminate H|exact H].
Qed.
Print Assumptions C65_alone.

(** ** The matrices of C58, one thread for each column *)
Definition tk_p : proto := [LView (VHoist 2)].
Definition tk_t : trav := order (traverser kn_ss) tk_p.
Definition tk_r : range := {| rg_dim := 2; rg_trav := tk_t; rg_begin := 0; rg_end := 2 |}.
Definition tk_works : list (list state) := map (fun x => sk_done (rg_for_each x)) (pieces (Split Keep Keep) tk_r).
Definition tk_ths : list (list (list state)) := [[nth 1 tk_works []]; [nth 0 tk_works []]].

Lemma tk_loops : loops rearranges kn_ss tk_p kn_lens.
Proof.
  split; [exact kn_cubes|]. split; [vm_compute; reflexivity|]. split; [apply lenokb_sound; vm_compute; reflexivity|]. split.
  - change (top_struct (order (traverser kn_ss) tk_p)) with (View (VHoist 2) (Union kn_ss)). constructor; [split; [split; [reflexivity|]|exact I]; intros c; exact I|]. constructor; reflexivity.
  - intros calls r E. revert r. apply completeb_sound.
    assert (H : out_map (forallb (completeb (Union kn_ss))) (for_each tk_t []) = Done true) by (vm_compute; reflexivity). unfold tk_t in H. rewrite E in H. cbn [out_map] in H. congruence.
Qed.

Example C65_ex : loops rearranges kn_ss tk_p ([(1, 2); (2, 2)] ++ [(3, 4)]) /\ good_bag kn_bc [(1, 2); (2, 2)] /\ within_lengths kn_lens [(1, 2); (2, 2)] /\ nobcast (bg_struct kn_bc) = true /\
  distinct_dims (top_struct tk_t) /\ range_of tk_t = Done tk_r /\ source (top_struct tk_t) 2 = Some 2 /\ Forall2 (fun piece w => rg_for_each piece = Done w) (pieces (Split Keep Keep) tk_r) tk_works /\
  map (@length state) tk_works = [8%nat; 8%nat] /\ Permutation (concat tk_ths) tk_works /\
  exists calls out', for_each tk_t [] = Done calls /\ make_calls tk_works calls /\ own_elements [(1, 2); (2, 2)] tk_works /\
    loop (add_product 4) [kn_ba; kn_bb] kn_bc (concat tk_works) = Done out' /\ bag_read out' [(Idx 1, Dyn 1); (Idx 2, Dyn 0)] = Done (uint 4 232) /\
    always_ends_in (map (map (part_body (add_product 4) [kn_ba; kn_bb])) tk_ths) kn_bc out'.
Proof.
  destruct kn_good as (Ga & Gb & Gc). split; [exact tk_loops|]. split; [exact Gc|].
  assert (Hl : within_lengths kn_lens [(1, 2); (2, 2)]) by (intros q n Hq; exists n; split; [cbn in Hq |- *; tauto|lia]). split; [exact Hl|]. split; [reflexivity|].
  assert (Hd : distinct_dims (top_struct tk_t)) by (vm_compute; reflexivity). split; [exact Hd|]. assert (Hr : range_of tk_t = Done tk_r) by (vm_compute; reflexivity). split; [exact Hr|]. split; [vm_compute; reflexivity|].
  assert (Hw : Forall2 (fun piece w => rg_for_each piece = Done w) (pieces (Split Keep Keep) tk_r) tk_works) by (repeat (constructor; [vm_compute; reflexivity|]); constructor). split; [exact Hw|].
  split; [vm_compute; reflexivity|].
  assert (Pt : Permutation (concat tk_ths) tk_works) by (vm_compute; apply perm_swap). split; [exact Pt|].
  assert (HE : exists calls, for_each tk_t [] = Done calls) by (eexists; vm_compute; reflexivity). destruct HE as [calls E].
  assert (HL : out_bind (loop (add_product 4) [kn_ba; kn_bb] kn_bc (concat tk_works)) (fun c => bag_read c [(Idx 1, Dyn 1); (Idx 2, Dyn 0)]) = Done (uint 4 232)) by (vm_compute; reflexivity).
  destruct (loop (add_product 4) [kn_ba; kn_bb] kn_bc (concat tk_works)) as [| |out'] eqn:EL; [discriminate HL|discriminate HL|]. cbn [out_bind] in HL. rename HL into ER. exists calls, out'. split; [exact E|].
  destruct (C65_pieces kn_ss tk_p kn_lens [(1, 2); (2, 2)] calls tk_r (Split Keep Keep) tk_works 2 (loops_documented _ _ _ tk_loops) E Hr eq_refl) as [H1 H2]; [cbn; tauto|exact Hl|exact Hw|].
  split; [exact H1|]. split; [exact H2|]. split; [reflexivity|]. split; [exact ER|].
  exact (C65_loop _ _ _ out' kn_ss tk_p kn_lens [(1, 2); (2, 2)] calls tk_works tk_ths (loops_documented _ _ _ tk_loops) Gc Hl eq_refl E H1 H2 Pt EL).
Qed.

(** Each iteration over the columns. *)
Example C65_iterations_ex : Forall2 (fun i w => for_each (rg_nth tk_r i) [] = Done w) (zseq (rg_size tk_r)) (map (fun i => sk_done (for_each (rg_nth tk_r i) [])) [0; 1]) /\
  map (fun i => length (sk_done (for_each (rg_nth tk_r i) []))) [0; 1] = [8%nat; 8%nat].
Proof. split; [change (zseq (rg_size tk_r)) with [0; 1]; repeat (constructor; [vm_compute; reflexivity|]); constructor|vm_compute; reflexivity]. Qed.

(** The planner of C63, with sections: one thread for each row. *)
Example C65_planners_ex : loops documented kn_ss pe_o kn_lens /\ plans kn_ss pe_o /\ for_each (order (traverser kn_ss) pe_o) [] = Done pe_all /\
  pl_for_each (plan kn_ss) 7 = Some pe_p /\ add_sections pe_p [([1], 8); ([2], 9)] = Some pe_q /\ inner_planners (pl_order pe_q pe_o) = Done pe_inner /\
  Forall2 (fun x evs => execute_all 3 x = Done evs) pe_inner pe_evss /\ top_dim (top_struct (order (traverser kn_ss) pe_o)) = Some 1 /\ source (top_struct (order (traverser kn_ss) pe_o)) 1 = Some 1 /\
  map (@length state) (map elem_states pe_evss) = [8%nat; 8%nat].
Proof.
  split; [apply loops_documented; exact pe_loops|]. split; [exact pe_plans|]. split; [vm_compute; reflexivity|]. split; [vm_compute; reflexivity|]. split; [vm_compute; reflexivity|].
  split; [vm_compute; reflexivity|]. split; [|split; [vm_compute; reflexivity|split; vm_compute; reflexivity]].
  repeat (constructor; [vm_compute; reflexivity|]). constructor.
Qed.

(** The sections of C59: four threads of a CUDA launch, each computes one element. *)
Example C65_sections_ex : exists out', store_sections (add_product 4) (fun _ => uint 4 0) [kn_ba; kn_bb] kn_bc sk_us = Done out' /\ Permutation (concat (map (fun u => [u]) sk_us)) sk_us /\
  always_gives (map (map (section_body (add_product 4) (fun _ => uint 4 0) [kn_ba; kn_bb])) (map (fun u => [u]) sk_us)) kn_bc (fun b =>
    forall vals x v u, (forall y, in_box kn_lens y -> have_values [kn_ba; kn_bb] y (vals y)) -> in_box [(1, 2); (2, 2)] x -> has_value kn_bc x v -> In u sk_us -> section_at kn_bc u x ->
    has_value b x (fold_left (fun v js => add_product 4 v (vals (along [(3, 4)] js x))) (all_indices [(3, 4)]) (uint 4 0))).
Proof.
  assert (HE : exists out', store_sections (add_product 4) (fun _ => uint 4 0) [kn_ba; kn_bb] kn_bc sk_us = Done out').
  { assert (HE : (match store_sections (add_product 4) (fun _ => uint 4 0) [kn_ba; kn_bb] kn_bc sk_us with Done _ => true | _ => false end) = true) by (vm_compute; reflexivity).
    destruct (store_sections (add_product 4) (fun _ => uint 4 0) [kn_ba; kn_bb] kn_bc sk_us) as [| |o]; [discriminate HE|discriminate HE|exists o; reflexivity]. }
  destruct HE as [out' E]. exists out'. split; [exact E|].
  assert (P : forall us : list trav, concat (map (fun u => [u]) us) = us) by (induction us as [|u us IH]; [reflexivity|cbn [map concat app]; rewrite IH; reflexivity]).
  split; [rewrite P; reflexivity|]. destruct kn_good as (Ga & Gb & Gc).
  apply (C65_sections (add_product 4) (fun _ => uint 4 0) [kn_ba; kn_bb] kn_bc out' kn_ss sk_p [(1, 2); (2, 2)] [(3, 4)] sk_us); try assumption.
  - apply add_product_any.
  - exact sk_loops.
  - intros b [<-|[<-|[]]]; eexists; (split; [eassumption|]); intros q n Hq; exists n; (split; [cbn in Hq |- *; tauto|lia]).
  - reflexivity.
  - eexists. vm_compute. reflexivity.
  - exact sk_cut.
  - exact sk_each.
  - rewrite P. reflexivity.
Qed.

(** ** What the hypotheses are for *)

(** Parts that update the same element: a thread can read the element before the other writes it, and the other's update is lost. *)
Definition tk_row : list state := sk_done (for_each (order (traverser [kn_row]) []) []).
Definition tk_parts : list (list state) := map (fun st => [st]) tk_row.
Theorem C65_lost_refuted : exists f ins out out' ss p lo lr calls works ths' lost, any_order f /\ loops rearranges ss p (lo ++ lr) /\ good_bags ins (lo ++ lr) /\ good_bag out lo /\
  nobcast (bg_struct out) = true /\ for_each (order (traverser ss) p) [] = Done calls /\ make_calls works calls /\ loop f ins out (concat works) = Done out' /\
  steps (map (fun w => [part_body f ins w]) works) out ths' lost /\ finished ths' /\ lost <> out'.
Proof.
  exists (add_product 4), [kn_in], kn_out. eexists. exists [kn_row], [], [], [(3, 2)], tk_row, tk_parts, [[]; []]. exists (kn_bag (Scalar int4) [9]).
  split; [apply add_product_any|]. split; [apply kn_row_loops; left; reflexivity|].
  split; [intros b [<-|[]]; exists [(3, 2)]; split; [apply kn_row_good|]; intros q n Hq; exists n; split; [exact Hq|lia]|]. split; [apply kn_row_good|]. split; [reflexivity|]. split; [vm_compute; reflexivity|].
  split. { exists tk_row. split; [reflexivity|]. set (l := tk_row). vm_compute in l. unfold l. repeat (constructor; [intros d; split; reflexivity|]). constructor. }
  split; [vm_compute; reflexivity|]. split; [|split; [repeat constructor|vm_compute; discriminate]].
  set (ps := map _ tk_parts).
  assert (Eps : ps = [[Load [(Idx 3, Dyn 0)] (fun v => Store [(Idx 3, Dyn 0)] (add_product 4 v [uint 4 7]) Stop)]; [Load [(Idx 3, Dyn 1)] (fun v => Store [(Idx 3, Dyn 1)] (add_product 4 v [uint 4 9]) Stop)]]) by reflexivity.
  rewrite Eps. clear ps Eps.
  eapply steps_first; [apply (step_acts [] [_]); apply acts_load; vm_compute; reflexivity|].
  eapply steps_first; [apply (step_acts [_] []); apply acts_load; vm_compute; reflexivity|].
  eapply steps_first; [apply (step_acts [] [_]); apply acts_store; vm_compute; reflexivity|].
  eapply steps_first; [apply (step_acts [_] []); apply acts_store; vm_compute; reflexivity|].
  eapply steps_first; [apply (step_next [] [_])|]. eapply steps_first; [apply (step_next [_] [])|]. apply steps_refl.
Qed.
Print Assumptions C65_lost_refuted.
