(** * C58: what a loop over bags computes *)

From Coq Require Import Permutation.
From Verif Require Import Check PropsLayout PropsOrder KernelThms.
From Verif Require Import SpecKernel.

(** An element of a bag has one value, however the state that names it is written. *)
Theorem C58_one_value : forall b l x v v', good_bag b l -> in_box l x -> has_value b x v -> has_value b x v' -> v' = v.
Proof. intros b l x v v' Hg. exact (value_once b l Hg x v v'). Qed.
Print Assumptions C58_one_value.

(** Structures traversed together, in any order: the function is called exactly once with each combination of indices. *)
Theorem C58_each_once : forall ss p lens calls, loops rearranges ss p lens -> for_each (order (traverser ss) p) [] = Done calls ->
  Permutation (map (fun st => map (asg_of st) (map fst lens)) calls) (all_indices lens).
Proof.
  intros ss p lens calls (H1 & H2 & H3 & H4 & H5) E.
  exact (calls_box ss p lens calls H1 H2 H3 (over_mono _ _ _ _ _ rearranges_documented H4) E (fun r => H5 calls r E) H4).
Qed.
Print Assumptions C58_each_once.

(** No access of the loop is undefined behaviour. *)
Theorem C58_defined : forall f ins out ss p lens lo calls, loops documented ss p lens -> good_bags ins lens -> good_bag out lo -> within_lengths lens lo ->
  for_each (order (traverser ss) p) [] = Done calls -> run_loop f ins out (order (traverser ss) p) <> Undefined.
Proof.
  intros f ins out ss p lens lo calls H1 H2 H3 H4 H5. unfold run_loop. rewrite H5. exact (kernel_defined f ins out ss p lens lo calls calls H1 H2 H3 H4 H5 (Permutation_refl _)).
Qed.
Print Assumptions C58_defined.

(** Each element of the output is combined with the inputs of the calls that have its indices, in the order of the calls. *)
Theorem C58_calls : forall f ins out out' ss p lens lo calls, loops documented ss p lens -> good_bags ins lens -> good_bag out lo -> within_lengths lens lo ->
  for_each (order (traverser ss) p) [] = Done calls -> nobcast (bg_struct out) = true -> run_loop f ins out (order (traverser ss) p) = Done out' ->
  forall vals x v, (forall y, in_box lens y -> have_values ins y (vals y)) -> in_box lo x -> has_value out x v ->
  bg_struct out' = bg_struct out /\ good_bag out' lo /\
  has_value out' x (fold_left (fun v st => f v (vals (asg_of st))) (filter (fun st => agrees (map fst lo) x (asg_of st)) calls) v).
Proof.
  intros f ins out out' ss p lens lo calls H1 H2 H3 H4 H5 H6 H7. unfold run_loop in H7. rewrite H5 in H7.
  exact (kernel_calls f ins out out' ss p lens lo calls calls H1 H2 H3 H4 H5 (Permutation_refl _) H6 H7).
Qed.
Print Assumptions C58_calls.

(** If the order of accumulation does not matter, neither do the layouts nor the order of the loops: the element at [x] accumulates the inputs at all
    the combinations of indices that have the indices [x]. *)
Theorem C58_result : forall f ins out out' ss p lens lo, any_order f -> loops rearranges ss p lens -> good_bags ins lens -> good_bag out lo -> within_lengths lens lo ->
  nobcast (bg_struct out) = true -> run_loop f ins out (order (traverser ss) p) = Done out' ->
  forall vals x v, (forall y, in_box lens y -> have_values ins y (vals y)) -> in_box lo x -> has_value out x v ->
  has_value out' x (fold_left (fun v is => f v (vals (idx lens is))) (filter (fun is => agrees (map fst lo) x (idx lens is)) (all_indices lens)) v).
Proof.
  intros f ins out out' ss p lens lo Hf H1 H2 H3 H4 H6 H7 vals x v Hv Hx H0. unfold run_loop in H7.
  destruct (for_each (order (traverser ss) p) []) as [| |calls] eqn:E; try discriminate.
  exact (kernel_result f ins out out' ss p lens lo calls calls (loops_documented _ _ _ H1) H2 H3 H4 E (Permutation_refl _) H6 H7 vals x v Hv Hx H0 Hf (proj1 (proj2 (proj2 (proj2 H1))))).
Qed.
Print Assumptions C58_result.

(** The output has the dimensions [lo]: its element at [x] accumulates the inputs along the other dimensions [lr]. *)
Theorem C58_reduction : forall f ins out out' ss p lo lr, any_order f -> loops rearranges ss p (lo ++ lr) -> good_bags ins (lo ++ lr) -> good_bag out lo ->
  nobcast (bg_struct out) = true -> run_loop f ins out (order (traverser ss) p) = Done out' ->
  forall vals x v, (forall y, in_box (lo ++ lr) y -> have_values ins y (vals y)) -> in_box lo x -> has_value out x v ->
  has_value out' x (fold_left (fun v js => f v (vals (along lr js x))) (all_indices lr) v).
Proof.
  intros f ins out out' ss p lo lr Hf H1 H2 H3 H4 H5. unfold run_loop in H5. destruct (for_each (order (traverser ss) p) []) as [| |calls] eqn:E; try discriminate.
  exact (kernel_reduce f ins out out' ss p lo lr calls calls H1 H2 H3 H4 Hf E (Permutation_refl _) H5).
Qed.
Print Assumptions C58_reduction.

(** The calls may also be made in any other order, as parallel loops do: the result is the same, and no access is undefined behaviour. *)
Theorem C58_any_schedule : forall f ins out ss p lo lr calls sched, any_order f -> loops rearranges ss p (lo ++ lr) -> good_bags ins (lo ++ lr) -> good_bag out lo ->
  nobcast (bg_struct out) = true -> for_each (order (traverser ss) p) [] = Done calls -> Permutation calls sched ->
  loop f ins out sched <> Undefined /\
  forall out', loop f ins out sched = Done out' ->
  forall vals x v, (forall y, in_box (lo ++ lr) y -> have_values ins y (vals y)) -> in_box lo x -> has_value out x v ->
  has_value out' x (fold_left (fun v js => f v (vals (along lr js x))) (all_indices lr) v).
Proof.
  intros f ins out ss p lo lr calls sched Hf H1 H2 H3 H4 H5 H6. split; [|intros out' H7; exact (kernel_reduce f ins out out' ss p lo lr calls sched H1 H2 H3 H4 Hf H5 H6 H7)].
  apply (kernel_defined f ins out ss p (lo ++ lr) lo calls sched (loops_documented _ _ _ H1) H2 H3); [|exact H5|exact H6].
  intros q n Hq. exists n. split; [apply in_or_app; left; exact Hq|apply Z.le_refl].
Qed.
Print Assumptions C58_any_schedule.

(** The output has all the dimensions: each of its elements is updated once, with the inputs at the same indices.  This holds for every function and every
    order of the calls. *)
Theorem C58_pointwise : forall f ins out out' ss p lens calls sched, loops rearranges ss p lens -> good_bags ins lens -> good_bag out lens ->
  nobcast (bg_struct out) = true -> for_each (order (traverser ss) p) [] = Done calls -> Permutation calls sched -> loop f ins out sched = Done out' ->
  forall vals x v, (forall y, in_box lens y -> have_values ins y (vals y)) -> in_box lens x -> has_value out x v -> has_value out' x (f v (vals x)).
Proof. exact kernel_pointwise. Qed.
Print Assumptions C58_pointwise.

(** The product of matrices of unsigned integers of [w] bytes (docs/BasicUsage.md, docs/Traverser.md): [c[state] += a[state] * b[state]]. *)
Theorem C58_matmul : forall w a b c c' ss p i j k ni nj nk A B C, loops rearranges ss p [(i, ni); (j, nj); (k, nk)] ->
  good_bag a [(i, ni); (k, nk)] -> good_bag b [(k, nk); (j, nj)] -> good_bag c [(i, ni); (j, nj)] -> nobcast (bg_struct c) = true ->
  run_loop (add_product w) [a; b] c (order (traverser ss) p) = Done c' ->
  (forall y z, 0 <= y < ni -> 0 <= z < nk -> has_value a (at_ij i k y z) (uint w (A y z))) ->
  (forall y z, 0 <= y < nk -> 0 <= z < nj -> has_value b (at_ij k j y z) (uint w (B y z))) ->
  (forall y z, 0 <= y < ni -> 0 <= z < nj -> has_value c (at_ij i j y z) (uint w (C y z))) ->
  forall y z, 0 <= y < ni -> 0 <= z < nj -> has_value c' (at_ij i j y z) (uint w (C y z + sum nk (fun l => A y l * B l z))).
Proof. intros w a b c c' ss p i j k ni nj nk A B C H1 H2 H3 H4 H5 H6 H7 H8 H9. exact (matmul w a b c c' ss p i j k ni nj nk A B C H1 H2 H3 H7 H8 H4 H5 H6 H9). Qed.
Print Assumptions C58_matmul.

(** ** A 2 x 4 matrix by rows, a 4 x 2 matrix by columns, and their 2 x 2 product by columns with reversed rows; the loop over [k] is in blocks of 2,
    with the position in the block outermost, and [i] goes backwards. *)
Definition kn_a : struct := vec 1 (Dyn 2) (vec 3 (Dyn 4) (Scalar int4)).
Definition kn_b : struct := vec 2 (Dyn 2) (vec 3 (Dyn 4) (Scalar int4)).
Definition kn_c : struct := View (VReverse 1) (vec 2 (Dyn 2) (vec 1 (Dyn 2) (Scalar int4))).
Definition kn_A (y z : Z) : Z := 1 + 4 * y + z.
Definition kn_B (y z : Z) : Z := 10 * z + 3 * y + 2 ^ 31.
Definition kn_C (y z : Z) : Z := 100 * y + z.
Definition kn_bag (s : struct) (vs : list Z) : bag := {| bg_struct := s; bg_policy := Owned; bg_data := concat (map (uint 4) vs) |}.
Definition kn_ba : bag := kn_bag kn_a [1; 2; 3; 4; 5; 6; 7; 8].
Definition kn_bb : bag := kn_bag kn_b (map (fun l => kn_B l 0) [0; 1; 2; 3] ++ map (fun l => kn_B l 1) [0; 1; 2; 3]).
Definition kn_bc : bag := kn_bag kn_c [100; 0; 101; 1].
Definition kn_p : proto := [LView (VBlocks 3 4 5); LView (VSetLength 5 (Dyn 2)); LView (VReverse 1); LView (VHoist 5)].
Definition kn_ss : list struct := [kn_a; kn_b; kn_c].
Definition kn_lens : list (dim * Z) := [(1, 2); (2, 2); (3, 4)].

Lemma kn_cube s ls : nodep s = true -> (match signature s with Some sg => forallb (fun q => mem q (map fst ls)) (sdims sg) && forallb (fun q => mem q (sdims sg)) (map fst ls) | None => false end) = true ->
  forallb (fun e => match length_ s (fst e) [] with Some v => match vz v with Some n => n =? snd e | None => false end | None => false end) ls = true -> cube s ls.
Proof.
  intros H1 H2 H3. split; [exact H1|]. split.
  - intros q. unfold has_dim. destruct (signature s) as [sg|]; [|discriminate]. apply andb_prop in H2. destruct H2 as [A B]. rewrite forallb_forall in A, B. rewrite accept_sdims. split; intros H.
    + apply mem_In, A, H.
    + apply mem_In, B, H.
  - intros q n Hq. rewrite forallb_forall in H3. specialize (H3 _ Hq). cbn [fst snd] in H3. destruct (length_ s q []) as [v|]; [|discriminate]. destruct (vz v) as [m|] eqn:E; [|discriminate].
    exists v. split; [reflexivity|]. apply Z.eqb_eq in H3. congruence.
Qed.

Lemma kn_sound s : In s kn_ss -> sound_struct s.
Proof.
  intros Hs. assert (H : swf s = true /\ lenokb s nolens = true /\ isize s nolens < W /\ forall a, good s nolens a).
  { destruct Hs as [<-|[<-|[<-|[]]]]; (split; [vm_compute; reflexivity|]; split; [vm_compute; reflexivity|]; split; [rewrite W_eq; vm_compute; reflexivity|]; intros a; unfold kn_a, kn_b, kn_c, vec; cbn; tauto). }
  destruct H as (A & B & C & D). split; [exact A|]. split; [apply lenokb_sound, B|]. split; assumption.
Qed.

Lemma kn_good : good_bag kn_ba [(1, 2); (3, 4)] /\ good_bag kn_bb [(3, 4); (2, 2)] /\ good_bag kn_bc [(1, 2); (2, 2)].
Proof.
  split; [|split]; (split; [apply kn_cube; vm_compute; reflexivity|]; split; [apply kn_sound; cbn; tauto|]).
  - exists (Dyn 32), 32. repeat split; vm_compute; try reflexivity. discriminate.
  - exists (Dyn 32), 32. repeat split; vm_compute; try reflexivity. discriminate.
  - exists (Dyn 16), 16. repeat split; vm_compute; try reflexivity. discriminate.
Qed.

Lemma kn_cubes : cubes kn_ss kn_lens.
Proof.
  split; [repeat constructor; cbn; intuition discriminate|]. split.
  - intros s [<-|[<-|[<-|[]]]]; [exists [(1, 2); (3, 4)]|exists [(3, 4); (2, 2)]|exists [(1, 2); (2, 2)]];
      (split; [apply kn_cube; vm_compute; reflexivity|intros e He; cbn in He |- *; tauto]).
  - intros q [<-|[<-|[<-|[]]]]; [exists kn_a|exists kn_b|exists kn_a]; (split; [cbn; tauto|vm_compute; reflexivity]).
Qed.

Lemma kn_over : over rearranges (Union kn_ss) (top_struct (order (traverser kn_ss) kn_p)) nolens.
Proof.
  change (top_struct (order (traverser kn_ss) kn_p)) with (View (VHoist 5) (View (VReverse 1) (View (VSetLength 5 (Dyn 2)) (View (VBlocks 3 4 5) (Union kn_ss))))).
  constructor; [split; [split; [reflexivity|]|exact I]; intros c; exact I|].
  constructor; [split; [split; [reflexivity|]|exact I]; intros c; exact I|].
  constructor; [split; [split; [reflexivity|]|exact I]; intros c; exact I|].
  constructor; [|constructor; intros d; cbn [view_lenv fupds]; unfold fupd, nolens; cbn [Z.eqb Pos.eqb];
    repeat match goal with |- context [if ?c then _ else _] => destruct c end; reflexivity].
  split; [split; [reflexivity|]|].
  - intros c. vm_compute. discriminate.
  - exists 2. split; [left; split; reflexivity|]. intros c.
    match goal with |- on_len ?x _ => replace x with (Some 4) by (vm_compute; reflexivity) end. reflexivity.
Qed.

Lemma kn_loops : loops rearranges kn_ss kn_p kn_lens.
Proof.
  split; [exact kn_cubes|]. split; [vm_compute; reflexivity|]. split; [apply lenokb_sound; vm_compute; reflexivity|]. split; [exact kn_over|].
  intros calls r E. revert r. apply completeb_sound.
  assert (H : out_map (forallb (completeb (Union kn_ss))) (for_each (order (traverser kn_ss) kn_p) []) = Done true) by (vm_compute; reflexivity). rewrite E in H. cbn [out_map] in H. congruence.
Qed.

Lemma kn_value s vs q r n m g : (forall y z, In y (zseq n) -> In z (zseq m) -> bag_read (kn_bag s vs) [(Idx q, Dyn y); (Idx r, Dyn z)] = Done (uint 4 (g y z))) ->
  q <> r -> (forall d, has_dim s d -> d = q \/ d = r) -> n <= 4 -> m <= 4 ->
  forall y z, 0 <= y < n -> 0 <= z < m -> has_value (kn_bag s vs) (at_ij q r y z) (uint 4 (g y z)).
Proof.
  intros H Hqr Hd Hn Hm y z Hy Hz. exists [(Idx q, Dyn y); (Idx r, Dyn z)]. split; [|apply H; apply Lib.zseq_In; assumption]. split; [intros d; reflexivity|].
  assert (Hu : forall u, 0 <= u < 4 -> vz (Dyn u) = Some u) by (intros u Hu; unfold vz; f_equal; apply u64_small; pose proof W_pos; rewrite W_eq; lia).
  intros d Hs. unfold at_ij. destruct (Hd d Hs) as [->| ->].
  - exists (Dyn y). cbn [get tag_eqb]. rewrite Z.eqb_refl. split; [reflexivity|]. apply Hu. lia.
  - exists (Dyn z). cbn [get tag_eqb]. rewrite (proj2 (Z.eqb_neq r q)) by congruence. rewrite Z.eqb_refl. split; [reflexivity|]. apply Hu. lia.
Qed.

Lemma kn_values :
  (forall y z, 0 <= y < 2 -> 0 <= z < 4 -> has_value kn_ba (at_ij 1 3 y z) (uint 4 (kn_A y z))) /\
  (forall y z, 0 <= y < 4 -> 0 <= z < 2 -> has_value kn_bb (at_ij 3 2 y z) (uint 4 (kn_B y z))) /\
  (forall y z, 0 <= y < 2 -> 0 <= z < 2 -> has_value kn_bc (at_ij 1 2 y z) (uint 4 (kn_C y z))).
Proof.
  destruct kn_good as (Ga & Gb & Gc). assert (Z2 : zseq 2 = [0; 1]) by (vm_compute; reflexivity). assert (Z4 : zseq 4 = [0; 1; 2; 3]) by (vm_compute; reflexivity).
  split; [|split]; (apply kn_value; [|lia| |lia|lia]).
  - intros y z Hy Hz. rewrite ?Z2, ?Z4 in Hy. rewrite ?Z2, ?Z4 in Hz. repeat (destruct Hy as [<-|Hy]; [repeat (destruct Hz as [<-|Hz]; [vm_compute; reflexivity|]); destruct Hz|]). destruct Hy.
  - intros d Hd. apply (proj1 (proj2 (proj1 Ga))) in Hd. cbn in Hd. intuition.
  - intros y z Hy Hz. rewrite ?Z2, ?Z4 in Hy. rewrite ?Z2, ?Z4 in Hz. repeat (destruct Hy as [<-|Hy]; [repeat (destruct Hz as [<-|Hz]; [vm_compute; reflexivity|]); destruct Hz|]). destruct Hy.
  - intros d Hd. apply (proj1 (proj2 (proj1 Gb))) in Hd. cbn in Hd. intuition.
  - intros y z Hy Hz. rewrite ?Z2, ?Z4 in Hy. rewrite ?Z2, ?Z4 in Hz. repeat (destruct Hy as [<-|Hy]; [repeat (destruct Hz as [<-|Hz]; [vm_compute; reflexivity|]); destruct Hz|]). destruct Hy.
  - intros d Hd. apply (proj1 (proj2 (proj1 Gc))) in Hd. cbn in Hd. intuition.
Qed.

Example C58_ex : loops rearranges kn_ss kn_p kn_lens /\ good_bag kn_ba [(1, 2); (3, 4)] /\ good_bag kn_bb [(3, 4); (2, 2)] /\ good_bag kn_bc [(1, 2); (2, 2)] /\
  nobcast kn_c = true /\ good_bags [kn_ba; kn_bb] ([(1, 2); (2, 2)] ++ [(3, 4)]) /\ any_order (add_product 4) /\
  exists c', run_loop (add_product 4) [kn_ba; kn_bb] kn_bc (order (traverser kn_ss) kn_p) = Done c' /\
    bag_read c' [(Idx 1, Dyn 1); (Idx 2, Dyn 0)] = Done (uint 4 232) /\ bag_read c' [(Idx 1, Dyn 1); (Idx 2, Dyn 1)] = Done (uint 4 493) /\
    forall y z, 0 <= y < 2 -> 0 <= z < 2 -> has_value c' (at_ij 1 2 y z) (uint 4 (kn_C y z + sum 4 (fun l => kn_A y l * kn_B l z))).
Proof.
  destruct kn_good as (Ga & Gb & Gc). destruct kn_values as (Va & Vb & Vc). split; [exact kn_loops|]. repeat (split; [assumption|]). split; [reflexivity|]. split.
  { intros b [<-|[<-|[]]]; eexists; (split; [eassumption|]); intros q n Hq; exists n; (split; [cbn in Hq |- *; tauto|lia]). }
  split; [apply add_product_any|]. assert (HE : (match run_loop (add_product 4) [kn_ba; kn_bb] kn_bc (order (traverser kn_ss) kn_p) with Done _ => true | _ => false end) = true) by (vm_compute; reflexivity).
  destruct (run_loop (add_product 4) [kn_ba; kn_bb] kn_bc (order (traverser kn_ss) kn_p)) as [| |c'] eqn:E; [discriminate HE|discriminate HE|]. clear HE.
  exists c'. split; [reflexivity|]. split; [|split].
  - assert (H : out_bind (run_loop (add_product 4) [kn_ba; kn_bb] kn_bc (order (traverser kn_ss) kn_p)) (fun c => bag_read c [(Idx 1, Dyn 1); (Idx 2, Dyn 0)]) = Done (uint 4 232)) by (vm_compute; reflexivity).
    rewrite E in H. exact H.
  - assert (H : out_bind (run_loop (add_product 4) [kn_ba; kn_bb] kn_bc (order (traverser kn_ss) kn_p)) (fun c => bag_read c [(Idx 1, Dyn 1); (Idx 2, Dyn 1)]) = Done (uint 4 493)) by (vm_compute; reflexivity).
    rewrite E in H. exact H.
  - exact (C58_matmul 4 kn_ba kn_bb kn_bc c' kn_ss kn_p 1 2 3 2 2 4 kn_A kn_B kn_C kn_loops Ga Gb Gc eq_refl E Va Vb Vc).
Qed.

(** Copying a matrix into another layout, calls in reverse order. *)
Definition kn_copy (v : bytes) (xs : list bytes) : bytes := match xs with [x] => x | _ => v end.
Definition kn_t : struct := vec 3 (Dyn 4) (vec 1 (Dyn 2) (Scalar int4)).
Definition kn_bt : bag := kn_bag kn_t [0; 0; 0; 0; 0; 0; 0; 0].

Example C58_pointwise_ex : loops rearranges [kn_t; kn_a] [] [(3, 4); (1, 2)] /\ good_bags [kn_ba] [(3, 4); (1, 2)] /\ good_bag kn_bt [(3, 4); (1, 2)] /\ nobcast kn_t = true /\
  (forall y, in_box [(3, 4); (1, 2)] y -> have_values [kn_ba] y [uint 4 (kn_A (y 1) (y 3))]) /\
  exists calls out', for_each (order (traverser [kn_t; kn_a]) []) [] = Done calls /\ Permutation calls (rev calls) /\ loop kn_copy [kn_ba] kn_bt (rev calls) = Done out' /\
    bg_data out' = concat (map (uint 4) [1; 5; 2; 6; 3; 7; 4; 8]).
Proof.
  assert (Gt : good_bag kn_bt [(3, 4); (1, 2)]).
  { split; [apply kn_cube; vm_compute; reflexivity|]. split.
    - split; [vm_compute; reflexivity|]. split; [apply lenokb_sound; vm_compute; reflexivity|]. split; [intros a; cbn; tauto|rewrite W_eq; vm_compute; reflexivity].
    - exists (Dyn 32), 32. repeat split; vm_compute; try reflexivity. discriminate. }
  split; [|split; [|split; [exact Gt|split; [reflexivity|split]]]].
  - split; [|split; [vm_compute; reflexivity|split; [apply lenokb_sound; vm_compute; reflexivity|split; [constructor; reflexivity|]]]].
    + split; [repeat constructor; cbn; intuition discriminate|]. split.
      * intros s [<-|[<-|[]]]; [exists [(3, 4); (1, 2)]|exists [(1, 2); (3, 4)]]; (split; [apply kn_cube; vm_compute; reflexivity|intros e He; cbn in He |- *; tauto]).
      * intros q [<-|[<-|[]]]; exists kn_t; (split; [cbn; tauto|vm_compute; reflexivity]).
    + intros calls r E. revert r. apply completeb_sound.
      assert (H : out_map (forallb (completeb (Union [kn_t; kn_a]))) (for_each (order (traverser [kn_t; kn_a]) []) []) = Done true) by (vm_compute; reflexivity). rewrite E in H. cbn [out_map] in H. congruence.
  - intros b [<-|[]]. exists [(1, 2); (3, 4)]. split; [apply kn_good|]. intros q n Hq. exists n. split; [cbn in Hq |- *; tauto|lia].
  - intros y Hy. constructor; [|constructor]. destruct kn_values as (Va & _). destruct (Va (y 1) (y 3)) as (st & Hn & Er); [apply (Hy 1 2); cbn; tauto|apply (Hy 3 4); cbn; tauto|].
    exists st. split; [|exact Er]. eapply named_same; [|exact Hn]. intros d Hd. destruct kn_good as (Ga & _). apply (proj1 (proj2 (proj1 Ga))) in Hd. destruct Hd as [<-|[<-|[]]]; reflexivity.
  - eexists. eexists. split; [vm_compute; reflexivity|]. split; [apply Permutation_rev|]. split; vm_compute; reflexivity.
Qed.

(** ** What the hypotheses are for *)

(** If the order of accumulation matters, so does the order of the loops: [last[state] = in[state]] keeps the last value. *)
Definition kn_last (v : bytes) (xs : list bytes) : bytes := match xs with [x] => x | _ => v end.
Definition kn_row : struct := vec 3 (Dyn 2) (Scalar int4).
Definition kn_in : bag := kn_bag kn_row [7; 9].
Definition kn_out : bag := kn_bag (Scalar int4) [0].

Lemma kn_row_loops p : p = [] \/ p = [LView (VReverse 3)] -> loops rearranges [kn_row] p [(3, 2)].
Proof.
  intros Hp. split; [|split; [|split; [|split]]].
  - split; [repeat constructor; cbn; intuition discriminate|]. split.
    + intros s [<-|[]]. exists [(3, 2)]. split; [apply kn_cube; vm_compute; reflexivity|intros e He; exact He].
    + intros q [<-|[]]. exists kn_row. split; [left; reflexivity|vm_compute; reflexivity].
  - destruct Hp as [->| ->]; vm_compute; reflexivity.
  - destruct Hp as [->| ->]; apply lenokb_sound; vm_compute; reflexivity.
  - destruct Hp as [->| ->]; [constructor; reflexivity|].
    change (top_struct (order (traverser [kn_row]) [LView (VReverse 3)])) with (View (VReverse 3) (Union [kn_row])).
    constructor; [split; [split; [reflexivity|]|exact I]; intros c; exact I|]. constructor. intros d. reflexivity.
  - intros calls r E. revert r. apply completeb_sound. destruct Hp as [->| ->].
    + assert (H : out_map (forallb (completeb (Union [kn_row]))) (for_each (order (traverser [kn_row]) []) []) = Done true) by (vm_compute; reflexivity). rewrite E in H. cbn [out_map] in H. congruence.
    + assert (H : out_map (forallb (completeb (Union [kn_row]))) (for_each (order (traverser [kn_row]) [LView (VReverse 3)]) []) = Done true) by (vm_compute; reflexivity). rewrite E in H. cbn [out_map] in H. congruence.
Qed.

Lemma kn_row_good : good_bag kn_in [(3, 2)] /\ good_bag kn_out [].
Proof.
  split; (split; [apply kn_cube; vm_compute; reflexivity|]; split).
  - split; [vm_compute; reflexivity|]. split; [apply lenokb_sound; vm_compute; reflexivity|]. split; [intros a; cbn; tauto|rewrite W_eq; vm_compute; reflexivity].
  - exists (Dyn 8), 8. repeat split; vm_compute; try reflexivity. discriminate.
  - split; [vm_compute; reflexivity|]. split; [apply lenokb_sound; vm_compute; reflexivity|]. split; [intros a; cbn; tauto|rewrite W_eq; vm_compute; reflexivity].
  - exists (Sta 4), 4. repeat split; vm_compute; try reflexivity. discriminate.
Qed.

Theorem C58_order_matters_refuted : exists f i o ss p1 p2 lens o1 o2, loops rearranges ss p1 lens /\ loops rearranges ss p2 lens /\ good_bag i lens /\ good_bag o [] /\
  nobcast (bg_struct o) = true /\ run_loop f [i] o (order (traverser ss) p1) = Done o1 /\ run_loop f [i] o (order (traverser ss) p2) = Done o2 /\ bg_data o1 <> bg_data o2.
Proof.
  exists kn_last, kn_in, kn_out, [kn_row], [], [LView (VReverse 3)], [(3, 2)]. eexists. eexists. split; [apply kn_row_loops; left; reflexivity|]. split; [apply kn_row_loops; right; reflexivity|].
  split; [apply kn_row_good|]. split; [apply kn_row_good|]. split; [reflexivity|]. split; [vm_compute; reflexivity|]. split; [vm_compute; reflexivity|]. vm_compute. discriminate.
Qed.
Print Assumptions C58_order_matters_refuted.

(** A broadcast output: [out[state] += in[state]] where all the elements of [out] are the same memory.  Each of them gets the sum of all the inputs. *)
Definition kn_shared : bag := kn_bag (View (VSetLength 3 (Dyn 2)) (View (VBcast 3) (Scalar int4))) [0].

Theorem C58_broadcast_refuted : exists o o', good_bag o [(3, 2)] /\ nobcast (bg_struct o) = false /\ loops rearranges [kn_row] [] [(3, 2)] /\ good_bag kn_in [(3, 2)] /\
  run_loop (add_product 4) [kn_in] o (order (traverser [kn_row]) []) = Done o' /\
  has_value kn_in (at_ij 3 0 1 0) (uint 4 9) /\ has_value o (at_ij 3 0 1 0) (uint 4 0) /\ has_value o' (at_ij 3 0 1 0) (uint 4 16).
Proof.
  assert (Hn : forall s, (forall d, has_dim s d -> d = 3) -> named s (at_ij 3 0 1 0) [(Idx 3, Dyn 1)]).
  { intros s Hs. split; [intros d; reflexivity|]. intros d Hd. rewrite (Hs d Hd). exists (Dyn 1). split; [reflexivity|]. vm_compute. reflexivity. }
  assert (Hr : forall d, has_dim kn_row d -> d = 3) by (intros d Hd; apply (proj1 (proj2 (proj1 (proj1 kn_row_good)))) in Hd; destruct Hd as [<-|[]]; reflexivity).
  assert (Hg : good_bag kn_shared [(3, 2)]).
  { split; [apply kn_cube; vm_compute; reflexivity|]. split.
    - split; [vm_compute; reflexivity|]. split; [apply lenokb_sound; vm_compute; reflexivity|]. split; [intros a; cbn; tauto|rewrite W_eq; vm_compute; reflexivity].
    - exists (Sta 4), 4. repeat split; vm_compute; try reflexivity. discriminate. }
  assert (Hs : forall d, has_dim (bg_struct kn_shared) d -> d = 3) by (intros d Hd; apply (proj1 (proj2 (proj1 Hg))) in Hd; destruct Hd as [<-|[]]; reflexivity).
  exists kn_shared. eexists. split; [exact Hg|]. split; [reflexivity|]. split; [apply kn_row_loops; left; reflexivity|]. split; [apply kn_row_good|]. split; [vm_compute; reflexivity|].
  split; [|split]; (eexists; split; [apply Hn; assumption|vm_compute; reflexivity]).
Qed.
Print Assumptions C58_broadcast_refuted.
