(** * C59: loops over bags, section by section *)

From Coq Require Import Permutation.
From Verif Require Import Check PropsLayout PropsOrder PropsKernel SectionKernelFacts.
From Verif Require Import SpecSectionKernel.

(** Sections of sections are sections. *)
Theorem C59_nested : forall t us vss, cut_into t us -> Forall2 cut_into us vss -> cut_into t (concat vss).
Proof. exact cut_each. Qed.
Print Assumptions C59_nested.

(** A traversal is cut into sections, each of which has the indices of one element of the output, no two of the same.  Each section accumulates over its
    own elements and stores the result once, in any order of the sections.  Then the element at [x] has accumulated the inputs along all the
    remaining dimensions. *)
Theorem C59_store : forall f init ins out out' ss p lo lr us us', any_order f -> loops rearranges ss p (lo ++ lr) -> good_bags ins (lo ++ lr) -> good_bag out lo ->
  nobcast (bg_struct out) = true -> (exists calls, for_each (order (traverser ss) p) [] = Done calls) -> cut_into (order (traverser ss) p) us -> Permutation us us' ->
  one_section_each out lo us -> store_sections f init ins out us' = Done out' ->
  forall vals x v u, (forall y, in_box (lo ++ lr) y -> have_values ins y (vals y)) -> in_box lo x -> has_value out x v -> In u us -> section_at out u x ->
  bg_struct out' = bg_struct out /\ good_bag out' lo /\
  has_value out' x (fold_left (fun v js => f v (vals (along lr js x))) (all_indices lr) (init v)).
Proof.
  intros f init ins out out' ss p lo lr us us' Hf H1 H2 H3 H4 H5 H6 H7 H8 H9 vals x v u Hv Hx H0.
  exact (sections_store f init ins out out' ss p lo lr us us' H1 H2 H3 H5 H6 H7 H8 H4 H9 Hf vals x v Hv Hx H0 u).
Qed.
Print Assumptions C59_store.

(** Unless a remaining dimension has length 0, every element of the output has a section. *)
Theorem C59_all_stored : forall f init ins out out' ss p lo lr us us', loops rearranges ss p (lo ++ lr) -> good_bag out lo ->
  (exists calls, for_each (order (traverser ss) p) [] = Done calls) -> cut_into (order (traverser ss) p) us -> Permutation us us' ->
  one_section_each out lo us -> store_sections f init ins out us' = Done out' ->
  forall x, all_indices lr <> [] -> in_box lo x -> exists u, In u us /\ section_at out u x.
Proof. exact section_exists. Qed.
Print Assumptions C59_all_stored.

(** No access is undefined behaviour. *)
Theorem C59_defined : forall f init ins out ss p lo lr us us', loops rearranges ss p (lo ++ lr) -> good_bags ins (lo ++ lr) -> good_bag out lo ->
  (exists calls, for_each (order (traverser ss) p) [] = Done calls) -> cut_into (order (traverser ss) p) us -> Permutation us us' ->
  one_section_each out lo us -> (forall u, In u us -> exists l, for_each u [] = Done l) -> nobcast (bg_struct out) = true ->
  store_sections f init ins out us' <> Undefined.
Proof. exact sections_defined. Qed.
Print Assumptions C59_defined.

(** The product of matrices as the documentation writes it for CUDA (docs/Traverser.md 560-607): every thread computes one element of [c]. *)
Theorem C59_matmul : forall w a b c c' ss p i j k ni nj nk A B us us', loops rearranges ss p [(i, ni); (j, nj); (k, nk)] ->
  good_bag a [(i, ni); (k, nk)] -> good_bag b [(k, nk); (j, nj)] -> good_bag c [(i, ni); (j, nj)] -> nobcast (bg_struct c) = true ->
  (exists calls, for_each (order (traverser ss) p) [] = Done calls) -> cut_into (order (traverser ss) p) us -> Permutation us us' -> one_section_each c [(i, ni); (j, nj)] us ->
  store_sections (add_product w) (fun _ => uint w 0) [a; b] c us' = Done c' ->
  (forall y z, 0 <= y < ni -> 0 <= z < nk -> has_value a (at_ij i k y z) (uint w (A y z))) ->
  (forall y z, 0 <= y < nk -> 0 <= z < nj -> has_value b (at_ij k j y z) (uint w (B y z))) ->
  (forall y z, 0 <= y < ni -> 0 <= z < nj -> exists v, has_value c (at_ij i j y z) v) ->
  forall y z, 0 < nk -> 0 <= y < ni -> 0 <= z < nj -> has_value c' (at_ij i j y z) (uint w (sum nk (fun l => A y l * B l z))).
Proof. exact matmul_sections. Qed.
Print Assumptions C59_matmul.

(** ** The matrices of C58: blocks of one row for each thread of a CUDA launch, backwards columns inside each thread *)
Definition sk_p : proto := [LView (VBlocks 1 11 12); LView (VSetLength 12 (Dyn 1)); LView (VReverse 2)].
Definition sk_t : trav := order (traverser kn_ss) sk_p.
Definition sk_done {A} (o : outcome (list A)) : list A := match o with Done l => l | _ => [] end.
Definition sk_threads : list trav := sk_done (cuda_launch sk_t [(11, 12)]).
Definition sk_us : list trav := concat (map (fun u => sk_done (for_dims u [2])) sk_threads).

Lemma sk_cut : cut_into sk_t sk_us.
Proof.
  apply (C59_nested sk_t sk_threads).
  - apply (cut_threads sk_t [(11, 12)]).
    + vm_compute. reflexivity.
    + repeat constructor; cbn; intuition lia.
    + intros d Hd. split; [cbn in Hd; destruct Hd as [<-|[<-|[]]]; vm_compute; reflexivity|]. intros st q. unfold dims_of.
      replace (signature (top_struct sk_t)) with (Some (SFun 2 ADyn (SFun 11 ADyn (SFun 12 ADyn (SFun 3 ADyn (SScalar int4)))))) by (vm_compute; reflexivity).
      cbn [obind spath option_map]. intros E. injection E as <-. cbn in Hd |- *. intuition (subst; auto).
    + intros d v n Hd El En. cbn in Hd. destruct Hd as [<-|[<-|[]]]; vm_compute in El; injection El as <-; vm_compute in En; injection En as <-; reflexivity.
    + vm_compute. reflexivity.
  - assert (H : forall u, In u sk_threads -> cut_into u (sk_done (for_dims u [2]))).
    { intros u Hu. apply (cut_dims u [2]).
      - revert u Hu. apply Forall_forall. set (us := sk_threads). vm_compute in us. unfold us. repeat (constructor; [vm_compute; reflexivity|]). constructor.
      - revert u Hu. apply Forall_forall. set (us := sk_threads). vm_compute in us. unfold us. repeat (constructor; [vm_compute; reflexivity|]). constructor.
      - revert u Hu. apply Forall_forall. set (us := sk_threads). vm_compute in us. unfold us. repeat (constructor; [vm_compute; reflexivity|]). constructor. }
    revert H. generalize sk_threads. intros l. induction l as [|u l IH]; intros H; [constructor|]. cbn [map]. constructor; [apply H; left; reflexivity|]. apply IH. intros u0 H0. apply H. right. exact H0.
Qed.

Lemma sk_over : over rearranges (Union kn_ss) (top_struct sk_t) nolens.
Proof.
  change (top_struct sk_t) with (View (VReverse 2) (View (VSetLength 12 (Dyn 1)) (View (VBlocks 1 11 12) (Union kn_ss)))).
  constructor; [split; [split; [reflexivity|]|exact I]; intros c; exact I|].
  constructor; [split; [split; [reflexivity|]|exact I]; intros c; exact I|].
  constructor; [|constructor; intros d; cbn [view_lenv fupds]; unfold fupd, nolens; cbn [Z.eqb Pos.eqb];
    repeat match goal with |- context [if ?c then _ else _] => destruct c end; reflexivity].
  split; [split; [reflexivity|]|].
  - intros c. vm_compute. discriminate.
  - exists 1. split; [left; split; reflexivity|]. intros c.
    match goal with |- on_len ?x _ => replace x with (Some 2) by (vm_compute; reflexivity) end. reflexivity.
Qed.

Lemma sk_loops : loops rearranges kn_ss sk_p kn_lens.
Proof.
  split; [exact kn_cubes|]. split; [vm_compute; reflexivity|]. split; [apply lenokb_sound; vm_compute; reflexivity|]. split; [exact sk_over|].
  intros calls r E. revert r. apply completeb_sound.
  assert (H : out_map (forallb (completeb (Union kn_ss))) (for_each sk_t []) = Done true) by (vm_compute; reflexivity). unfold sk_t in H. rewrite E in H. cbn [out_map] in H. congruence.
Qed.

Lemma sk_each : one_section_each kn_bc [(1, 2); (2, 2)] sk_us.
Proof.
  destruct kn_good as (_ & _ & Gc). apply (each_checked kn_bc [(1, 2); (2, 2)] sk_us [[0; 1]; [0; 0]; [1; 1]; [1; 0]] (proj1 Gc)).
  - repeat constructor; cbn; intuition discriminate.
  - repeat constructor; cbn; intuition discriminate.
  - set (us := sk_us). vm_compute in us. unfold us. repeat (constructor; [eexists; split; [vm_compute; reflexivity|]; split; [intros d; reflexivity|]; split; [vm_compute; tauto|vm_compute; reflexivity]|]). constructor.
Qed.

Example C59_ex : loops rearranges kn_ss sk_p ([(1, 2); (2, 2)] ++ [(3, 4)]) /\ cut_into sk_t sk_us /\ List.length sk_us = 4%nat /\ one_section_each kn_bc [(1, 2); (2, 2)] sk_us /\
  all_indices [(3, 4)] <> [] /\ (exists calls, for_each sk_t [] = Done calls) /\ (forall u, In u sk_us -> exists l, for_each u [] = Done l) /\
  exists c', store_sections (add_product 4) (fun _ => uint 4 0) [kn_ba; kn_bb] kn_bc (rev sk_us) = Done c' /\
    bag_read c' [(Idx 1, Dyn 1); (Idx 2, Dyn 0)] = Done (uint 4 132) /\
    forall y z, 0 <= y < 2 -> 0 <= z < 2 -> has_value c' (at_ij 1 2 y z) (uint 4 (sum 4 (fun l => kn_A y l * kn_B l z))).
Proof.
  destruct kn_good as (Ga & Gb & Gc). destruct kn_values as (Va & Vb & Vc). split; [exact sk_loops|]. split; [exact sk_cut|]. split; [vm_compute; reflexivity|]. split; [exact sk_each|].
  split; [vm_compute; discriminate|]. assert (Hcalls : exists calls, for_each sk_t [] = Done calls) by (eexists; vm_compute; reflexivity). split; [exact Hcalls|]. split.
  { apply Forall_forall. set (us := sk_us). vm_compute in us. unfold us. repeat (constructor; [eexists; vm_compute; reflexivity|]). constructor. }
  assert (HE : (match store_sections (add_product 4) (fun _ => uint 4 0) [kn_ba; kn_bb] kn_bc (rev sk_us) with Done _ => true | _ => false end) = true) by (vm_compute; reflexivity).
  destruct (store_sections (add_product 4) (fun _ => uint 4 0) [kn_ba; kn_bb] kn_bc (rev sk_us)) as [| |c'] eqn:E; [discriminate HE|discriminate HE|]. clear HE.
  exists c'. split; [reflexivity|]. split.
  - assert (H : out_bind (store_sections (add_product 4) (fun _ => uint 4 0) [kn_ba; kn_bb] kn_bc (rev sk_us)) (fun c => bag_read c [(Idx 1, Dyn 1); (Idx 2, Dyn 0)]) = Done (uint 4 132)) by (vm_compute; reflexivity).
    rewrite E in H. exact H.
  - intros y z Hy Hz. apply (C59_matmul 4 kn_ba kn_bb kn_bc c' kn_ss sk_p 1 2 3 2 2 4 kn_A kn_B sk_us (rev sk_us) sk_loops Ga Gb Gc eq_refl Hcalls sk_cut (Permutation_rev _) sk_each E Va Vb); auto; [|lia].
    intros y0 z0 H1 H2. exists (uint 4 (kn_C y0 z0)). apply Vc; assumption.
Qed.

(** ** What the hypotheses are for *)

(** Sections that also cut a dimension which the output does not have: each of them stores its own part, and only the last one is kept. *)
Theorem C59_lost_refuted : exists us o', cut_into (order (traverser [kn_row]) []) us /\ loops rearranges [kn_row] [] [(3, 2)] /\ good_bag kn_in [(3, 2)] /\ good_bag kn_out [] /\
  (forall u, In u us -> section_at kn_out u (fun _ => 0)) /\ store_sections (add_product 4) (fun _ => uint 4 0) [kn_in] kn_out us = Done o' /\
  (forall y, 0 <= y < 2 -> has_value kn_in (at_ij 3 0 y 0) (uint 4 (7 + 2 * y))) /\ sum 2 (fun y => 7 + 2 * y) = 16 /\ has_value o' (fun _ => 0) (uint 4 9).
Proof.
  exists (sk_done (for_dims (order (traverser [kn_row]) []) [3])). eexists. split; [apply (cut_dims _ [3]); vm_compute; reflexivity|]. split; [apply kn_row_loops; left; reflexivity|].
  split; [apply kn_row_good|]. split; [apply kn_row_good|].
  assert (Hn : forall st, (forall d, get (Len d) st = None) -> named (Scalar int4) (fun _ => 0) st).
  { intros st Hst. split; [exact Hst|]. intros d Hd. apply (proj1 (proj2 (proj1 (proj2 kn_row_good)))) in Hd. destruct Hd. }
  split.
  { apply Forall_forall. set (us := sk_done _). vm_compute in us. unfold us. repeat (constructor; [eexists; split; [vm_compute; reflexivity|apply Hn; intros d; reflexivity]|]). constructor. }
  split; [vm_compute; reflexivity|]. split; [|split; [vm_compute; reflexivity|exists []; split; [apply Hn; intros d; reflexivity|vm_compute; reflexivity]]].
  intros y Hy. exists [(Idx 3, Dyn y)]. split.
  - split; [intros d; reflexivity|]. intros d Hd. apply (proj1 (proj2 (proj1 (proj1 kn_row_good)))) in Hd. destruct Hd as [<-|[]]. exists (Dyn y). split; [reflexivity|].
    unfold at_ij, vz. cbn. f_equal. apply u64_small. rewrite W_eq. lia.
  - assert (Hc : y = 0 \/ y = 1) by lia. destruct Hc as [->| ->]; vm_compute; reflexivity.
Qed.
Print Assumptions C59_lost_refuted.
