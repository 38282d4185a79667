(** * C69: copying a bag into another layout *)

From Coq Require Import Permutation.
From Verif Require Import Check PropsLayout PropsOrder KernelThms PropsKernel CopyFacts.
From Verif Require Import SpecAgnostic SpecKernel SpecKnown.

(** Every element of the copy is the element of the original with the same indices, whatever the layouts, the order of the loops
    and the schedule, and whatever was in the destination. *)
Theorem C69_copy : forall from to to' ss p lens lf calls sched, loops rearranges ss p lens -> good_bag from lf -> within_lengths lens lf -> good_bag to lens -> nobcast (bg_struct to) = true ->
  for_each (order (traverser ss) p) [] = Done calls -> Permutation calls sched -> copy_calls from to sched = Done to' ->
  forall x v, in_box lens x -> (has_value from x v <-> has_value to' x v).
Proof. intros from to to' ss p lens lf calls sched H1 H2 H3 H4 H5 H6 H7 H8. exact (copy_same from to to' ss p lens lf calls sched H1 H2 H3 H4 H6 H7 H5 H8). Qed.
Print Assumptions C69_copy.

(** The copy is a bag with the structure and the kind of storage of the destination. *)
Theorem C69_keeps : forall from to to' ss p lens lt calls sched, loops documented ss p lens -> good_bag to lt -> within_lengths lens lt ->
  for_each (order (traverser ss) p) [] = Done calls -> Permutation calls sched -> copy_calls from to sched = Done to' ->
  bg_struct to' = bg_struct to /\ bg_policy to' = bg_policy to /\ good_bag to' lt.
Proof. intros from to to' ss p lens lt calls sched H1 H2 H3 H4 H5. exact (copy_keeps from to ss p lens lt calls sched H1 H2 H3 H4 H5 to'). Qed.
Print Assumptions C69_keeps.

(** Copying back, perhaps in another order, restores every byte of the original. *)
Theorem C69_back : forall from to to' from' ss p lens calls sched ss' p' lens' calls' sched' lf,
  loops rearranges ss p lens -> good_bag from lf -> within_lengths lens lf -> good_bag to lens -> nobcast (bg_struct to) = true ->
  for_each (order (traverser ss) p) [] = Done calls -> Permutation calls sched -> copy_calls from to sched = Done to' ->
  loops documented ss' p' lens' -> within_lengths lens' lens -> within_lengths lens' lf ->
  for_each (order (traverser ss') p') [] = Done calls' -> Permutation calls' sched' -> copy_calls to' from sched' = Done from' ->
  from' = from.
Proof. exact copy_back. Qed.
Print Assumptions C69_back.

(** No access of the copy is undefined behaviour. *)
Theorem C69_defined : forall from to ss p lens lf lt calls sched, loops documented ss p lens -> good_bag from lf -> within_lengths lens lf -> good_bag to lt -> within_lengths lens lt ->
  for_each (order (traverser ss) p) [] = Done calls -> Permutation calls sched -> copy_calls from to sched <> Undefined.
Proof. exact copy_defined. Qed.
Print Assumptions C69_defined.

(** The copy compiles if the lengths of both structures are known, the elements have the same size and the destination can be written. *)
Theorem C69_accepted : forall from to ss p lens lf lt calls sched cf ct, loops documented ss p lens -> good_bag from lf -> within_lengths lens lf -> good_bag to lt -> within_lengths lens lt ->
  for_each (order (traverser ss) p) [] = Done calls -> Permutation calls sched ->
  lengths_known (bg_struct from) -> lengths_known (bg_struct to) -> bg_policy to <> ConstRaw ->
  scalar_t (bg_struct from) [] = Some cf -> scalar_t (bg_struct to) [] = Some ct -> ct_size cf = ct_size ct ->
  exists to', copy_calls from to sched = Done to'.
Proof. intros from to ss p lens lf lt calls sched cf ct H1 H2 H3 H4 H5 H6 H7. exact (copy_accepted from to ss p lens lf lt calls sched H1 H2 H3 H4 H5 H6 H7 cf ct). Qed.
Print Assumptions C69_accepted.

(** ** Examples *)

(** A matrix whose rows are called 5, seen with rows called 1, and its transpose. *)
Definition cp_view : struct := View (VRename [(5, 1)]) (vec 5 (Dyn 2) (vec 3 (Dyn 4) (Scalar int4))).
Definition cp_from : bag := {| bg_struct := cp_view; bg_policy := Raw; bg_data := concat (map (uint 4) [1; 2; 3; 4; 5; 6; 7; 8]) |}.
Definition cp_to : bag := kn_bag kn_t [90; 91; 92; 93; 94; 95; 96; 97].
Definition cp_lens : list (dim * Z) := [(3, 4); (1, 2)].

Lemma cp_good : good_bag cp_from [(1, 2); (3, 4)] /\ good_bag cp_to cp_lens.
Proof.
  split; (split; [apply kn_cube; vm_compute; reflexivity|]; split;
    [split; [vm_compute; reflexivity|]; split; [apply lenokb_sound; vm_compute; reflexivity|]; split; [|rewrite W_eq; vm_compute; reflexivity]|exists (Dyn 32), 32; repeat split; vm_compute; try reflexivity; discriminate]).
  - intros a. cbn. tauto.
  - intros a. cbn. tauto.
Qed.

Lemma cp_within : within_lengths cp_lens [(1, 2); (3, 4)].
Proof. intros q n Hq. exists n. split; [cbn in Hq |- *; tauto|lia]. Qed.

Lemma cp_loops : loops rearranges [kn_t; cp_view] [] cp_lens.
Proof.
  split; [|split; [vm_compute; reflexivity|split; [apply lenokb_sound; vm_compute; reflexivity|split; [constructor; reflexivity|]]]].
  - split; [repeat constructor; cbn; intuition discriminate|]. split.
    + intros s [<-|[<-|[]]]; [exists [(3, 4); (1, 2)]|exists [(1, 2); (3, 4)]]; (split; [apply kn_cube; vm_compute; reflexivity|intros e He; cbn in He |- *; tauto]).
    + intros q [<-|[<-|[]]]; exists kn_t; (split; [cbn; tauto|vm_compute; reflexivity]).
  - intros calls r E. revert r. apply completeb_sound.
    assert (H : out_map (forallb (completeb (Union [kn_t; cp_view]))) (for_each (order (traverser [kn_t; cp_view]) []) []) = Done true) by (vm_compute; reflexivity). rewrite E in H. cbn [out_map] in H. congruence.
Qed.

Lemma cp_known : lengths_known cp_view /\ lengths_known kn_t.
Proof. split; (split; [vm_compute; reflexivity|split; [vm_compute; discriminate|vm_compute; reflexivity]]). Qed.

(** Copied in the reverse order, and back. *)
Example C69_copy_ex : loops rearranges [kn_t; cp_view] [] cp_lens /\ good_bag cp_from [(1, 2); (3, 4)] /\ within_lengths cp_lens [(1, 2); (3, 4)] /\ good_bag cp_to cp_lens /\ nobcast kn_t = true /\
  lengths_known cp_view /\ lengths_known kn_t /\
  exists calls to', for_each (order (traverser [kn_t; cp_view]) []) [] = Done calls /\ Permutation calls (rev calls) /\ copy_calls cp_from cp_to (rev calls) = Done to' /\
    bg_data to' = concat (map (uint 4) [1; 5; 2; 6; 3; 7; 4; 8]) /\ copy_calls to' cp_from calls = Done cp_from /\ copy_bag cp_from cp_to (order (traverser [kn_t; cp_view]) []) = Done to'.
Proof.
  split; [exact cp_loops|]. split; [apply cp_good|]. split; [exact cp_within|]. split; [apply cp_good|]. split; [reflexivity|]. split; [apply cp_known|]. split; [apply cp_known|].
  eexists. eexists. split; [vm_compute; reflexivity|]. split; [apply Permutation_rev|]. split; [vm_compute; reflexivity|]. split; [vm_compute; reflexivity|]. split; vm_compute; reflexivity.
Qed.

(** ** What the hypotheses are for *)

(** A destination that shares one element among several indices keeps only the last one copied. *)
Theorem C69_broadcast_refuted : exists from to to' calls x v, loops rearranges [kn_row] [] [(3, 2)] /\ good_bag from [(3, 2)] /\ good_bag to [(3, 2)] /\ nobcast (bg_struct to) = false /\
  for_each (order (traverser [kn_row]) []) [] = Done calls /\ copy_calls from to calls = Done to' /\ in_box [(3, 2)] x /\ has_value from x v /\ ~ has_value to' x v.
Proof.
  assert (Gs : forall z, good_bag (kn_bag (View (VSetLength 3 (Dyn 2)) (View (VBcast 3) (Scalar int4))) [z]) [(3, 2)]).
  { intros z. split; [apply kn_cube; vm_compute; reflexivity|]. split.
    - split; [vm_compute; reflexivity|]. split; [apply lenokb_sound; vm_compute; reflexivity|]. split; [intros a; cbn; tauto|rewrite W_eq; vm_compute; reflexivity].
    - exists (Sta 4), 4. split; [vm_compute; reflexivity|]. split; [vm_compute; reflexivity|]. cbn. lia. }
  exists kn_in, kn_shared, (kn_bag (View (VSetLength 3 (Dyn 2)) (View (VBcast 3) (Scalar int4))) [9]). eexists. exists (fun _ => 0), (uint 4 7).
  split; [apply kn_row_loops; left; reflexivity|]. split; [apply kn_row_good|]. split; [apply Gs|]. split; [reflexivity|]. split; [vm_compute; reflexivity|]. split; [vm_compute; reflexivity|].
  assert (Hx : in_box [(3, 2)] (fun _ => 0)) by (intros q n [H|[]]; injection H as <- <-; lia). split; [exact Hx|].
  assert (Hn : forall s, (forall d, has_dim s d -> d = 3) -> named s (fun _ => 0) [(Idx 3, Dyn 0)]) by (intros s Hs; split; [intros d; reflexivity|]; intros d Hd; rewrite (Hs d Hd); exists (Dyn 0); split; reflexivity).
  split.
  - exists [(Idx 3, Dyn 0)]. split; [|vm_compute; reflexivity]. apply Hn. intros d Hd. apply (proj1 (proj2 (proj1 (proj1 kn_row_good)))) in Hd. destruct Hd as [<-|[]]; reflexivity.
  - intros H. assert (H9 : has_value (kn_bag (View (VSetLength 3 (Dyn 2)) (View (VBcast 3) (Scalar int4))) [9]) (fun _ => 0) (uint 4 9)).
    { exists [(Idx 3, Dyn 0)]. split; [|vm_compute; reflexivity]. apply Hn. intros d Hd. apply (proj1 (proj2 (proj1 (Gs 9)))) in Hd. destruct Hd as [<-|[]]; reflexivity. }
    pose proof (value_once _ _ (Gs 9) _ _ _ Hx H H9) as X. vm_compute in X. discriminate.
Qed.
Print Assumptions C69_broadcast_refuted.
