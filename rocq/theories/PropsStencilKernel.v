(** * C60: what a loop that reads neighbouring elements computes *)

From Coq Require Import Permutation.
From Verif Require Import Check PropsLayout PropsOrder PropsKernel StencilKernelFacts.
From Verif Require Import SpecStencilKernel SpecKernel.

(** An order that starts with spans: the function is called exactly once with each combination of indices in the spans. *)
Theorem C60_calls : forall ss l q lens calls, inner_loops ss (p_spans l) q lens -> NoDup (map fst l) -> incl (map fst l) (map fst lens) ->
  for_each (order (order (traverser ss) (p_spans l)) q) [] = Done calls ->
  Permutation (map (fun st => map (asg_of st) (map fst lens)) calls) (filter (fun is => inside_spans l (idx lens is)) (all_indices lens)).
Proof. exact inner_box. Qed.
Print Assumptions C60_calls.

(** [symmetric_spans]: it is called with the elements that are at least the margins away from both ends. *)
Theorem C60_inner_calls : forall ss s m p q lens calls, In s ss -> margins s m -> p_symmetric_spans m s [] = Some p -> inner_loops ss p q lens ->
  for_each (order (order (traverser ss) p) q) [] = Done calls ->
  Permutation (map (fun st => map (asg_of st) (map fst lens)) calls) (filter (fun is => inner_part m lens (idx lens is)) (all_indices lens)).
Proof. exact symmetric_calls. Qed.
Print Assumptions C60_inner_calls.

(** A stencil: each call reads bags at differences within the margins and writes one element.  Whatever the layouts and the order
    of the loops and of the calls, nothing is undefined; the result has the formula applied in the inner part and is unchanged elsewhere. *)
Theorem C60_stencil : forall f ins out ss s m p q lens calls sched, In s ss -> margins s m -> p_symmetric_spans m s [] = Some p -> inner_loops ss p q lens ->
  for_each (order (order (traverser ss) p) q) [] = Done calls -> near_margins ins m lens -> Permutation calls sched -> good_bag out lens ->
  stencil_loop f ins out sched <> Undefined /\
  forall out', nobcast (bg_struct out) = true -> stencil_loop f ins out sched = Done out' ->
  forall vals x v, (forall y, in_box lens y -> inner_part m lens y = true -> near_values ins y (vals y)) -> in_box lens x -> has_value out x v ->
    has_value out' x (if inner_part m lens x then f v (vals x) else v).
Proof. exact symmetric_result. Qed.
Print Assumptions C60_stencil.

(** Accumulating what is around the elements in the spans into a bag that may have fewer dimensions. *)
Theorem C60_accumulate : forall f ins out out' ss l q lens lo calls sched, inner_loops ss (p_spans l) q lens -> NoDup (map fst l) -> incl (map fst l) (map fst lens) ->
  near_bags ins (inside_spans l) lens -> good_bag out lo -> within_lengths lens lo ->
  for_each (order (order (traverser ss) (p_spans l)) q) [] = Done calls -> Permutation calls sched -> nobcast (bg_struct out) = true ->
  stencil_loop f ins out sched = Done out' ->
  forall vals x v, (forall y, in_box lens y -> inside_spans l y = true -> near_values ins y (vals y)) -> in_box lo x -> has_value out x v -> any_order f ->
    has_value out' x (fold_left (fun v is => f v (vals (idx lens is)))
      (filter (fun is => inside_spans l (idx lens is) && agrees (map fst lo) x (idx lens is)) (all_indices lens)) v).
Proof. exact stencil_result. Qed.
Print Assumptions C60_accumulate.

(** Convolution of a matrix of unsigned integers of [w] bytes: weights [c] at the differences [(dy, dz)]. *)
Theorem C60_convolution : forall w a b b' ss s p q i j ni nj mi mj offs A B calls sched, In s ss -> margins s [(i, mi); (j, mj)] ->
  p_symmetric_spans [(i, mi); (j, mj)] s [] = Some p -> inner_loops ss p q [(i, ni); (j, nj)] ->
  (forall dy dz c, In (dy, dz, c) offs -> Z.abs dy <= vzd mi /\ Z.abs dz <= vzd mj) ->
  good_bag a [(i, ni); (j, nj)] -> good_bag b [(i, ni); (j, nj)] -> nobcast (bg_struct b) = true ->
  for_each (order (order (traverser ss) p) q) [] = Done calls -> Permutation calls sched ->
  stencil_loop (weigh w (map snd offs)) (around a i j (map fst offs)) b sched = Done b' ->
  (forall y z, 0 <= y < ni -> 0 <= z < nj -> has_value a (at_ij i j y z) (uint w (A y z))) ->
  (forall y z, 0 <= y < ni -> 0 <= z < nj -> has_value b (at_ij i j y z) (uint w (B y z))) ->
  forall y z, 0 <= y < ni -> 0 <= z < nj ->
    has_value b' (at_ij i j y z) (uint w (if (vzd mi <=? y) && (y <? ni - vzd mi) && ((vzd mj <=? z) && (z <? nj - vzd mj))
      then add_up (map (fun o => snd o * A (y + fst (fst o)) (z + snd (fst o))) offs) else B y z)).
Proof. exact convolution. Qed.
Print Assumptions C60_convolution.

(** ** A 6 x 4 matrix by rows and one by columns; the inner part in blocks of two rows, with the position in the block outermost *)
Definition sn_a : struct := vec 1 (Dyn 6) (vec 2 (Dyn 4) (Scalar int4)).
Definition sn_b : struct := vec 2 (Dyn 4) (vec 1 (Dyn 6) (Scalar int4)).
Definition sn_A (y z : Z) : Z := 5 * y + z * z * z.
Definition sn_B (y z : Z) : Z := 100.
Definition sn_ba : bag := kn_bag sn_a (flat_map (fun y => map (sn_A y) [0; 1; 2; 3]) [0; 1; 2; 3; 4; 5]).
Definition sn_bb : bag := kn_bag sn_b (repeat 100 24).
Definition sn_ss : list struct := [sn_a; sn_b].
Definition sn_lens : list (dim * Z) := [(1, 6); (2, 4)].
Definition sn_m : list (dim * val) := [(1, Dyn 1); (2, Sta 1)].
Definition sn_l : list (dim * (val * val)) := [(1, (Dyn 1, Dyn 5)); (2, (Sta 1, Dyn 3))].
Definition sn_q : proto := [LView (VBlocks 1 4 5); LView (VSetLength 5 (Dyn 2)); LView (VHoist 5)].
(** The four neighbours minus four times the element. *)
Definition sn_offs : list (Z * Z * Z) := [(-1, 0, 1); (1, 0, 1); (0, -1, 1); (0, 1, 1); (0, 0, -4)].

Lemma sn_good : good_bag sn_ba sn_lens /\ good_bag sn_bb sn_lens.
Proof.
  split; (split; [apply kn_cube; vm_compute; reflexivity|]; split; [|exists (Dyn 96), 96; repeat split; vm_compute; try reflexivity; discriminate]);
    (split; [vm_compute; reflexivity|]; split; [apply lenokb_sound; vm_compute; reflexivity|]; split; [intros a; unfold sn_ba, sn_bb, kn_bag, sn_a, sn_b, vec; cbn; tauto|rewrite W_eq; vm_compute; reflexivity]).
Qed.

Lemma sn_cubes : cubes sn_ss sn_lens.
Proof.
  split; [repeat constructor; cbn; intuition discriminate|]. split.
  - intros s [<-|[<-|[]]]; exists sn_lens; (split; [apply kn_cube; vm_compute; reflexivity|apply incl_refl]).
  - intros q [<-|[<-|[]]]; exists sn_a; (split; [cbn; tauto|vm_compute; reflexivity]).
Qed.

Lemma sn_over : over documented (Union sn_ss) (top_struct (order (traverser sn_ss) (p_spans sn_l))) nolens /\
  over rearranges (top_struct (order (traverser sn_ss) (p_spans sn_l))) (top_struct (order (order (traverser sn_ss) (p_spans sn_l)) sn_q)) nolens.
Proof.
  set (t1 := top_struct (order (traverser sn_ss) (p_spans sn_l))). split.
  - change t1 with (View (VSpan 2 (Sta 1) (Dyn 3)) (View (VSpan 1 (Dyn 1) (Dyn 5)) (Union sn_ss))).
    constructor; [split; [reflexivity|]; intros c; vm_compute; split; discriminate|].
    constructor; [split; [reflexivity|]; intros c; vm_compute; split; discriminate|]. constructor; intros d; reflexivity.
  - change (top_struct (order (order (traverser sn_ss) (p_spans sn_l)) sn_q)) with (View (VHoist 5) (View (VSetLength 5 (Dyn 2)) (View (VBlocks 1 4 5) t1))).
    constructor; [split; [split; [reflexivity|]|exact I]; intros c; exact I|].
    constructor; [split; [split; [reflexivity|]|exact I]; intros c; exact I|].
    constructor; [|constructor; intros d; cbn [view_lenv fupds]; unfold fupd, nolens; cbn [Z.eqb Pos.eqb];
      repeat match goal with |- context [if ?c then _ else _] => destruct c end; reflexivity].
    split; [split; [reflexivity|]|].
    + intros c. vm_compute. discriminate.
    + exists 2. split; [left; split; reflexivity|]. intros c.
      match goal with |- on_len ?x _ => replace x with (Some 4) by (vm_compute; reflexivity) end. reflexivity.
Qed.

Lemma sn_loops : inner_loops sn_ss (p_spans sn_l) sn_q sn_lens.
Proof.
  destruct sn_over as [H1 H2]. split; [|split; [exact H1|exact H2]].
  split; [exact sn_cubes|]. split; [vm_compute; reflexivity|]. split; [apply lenokb_sound; vm_compute; reflexivity|]. split; [exact (over_append _ _ _ H1 H2)|].
  intros calls r E. revert r. apply completeb_sound.
  assert (H : out_map (forallb (completeb (Union sn_ss))) (for_each (order (traverser sn_ss) (p_spans sn_l ++ sn_q)) []) = Done true) by (vm_compute; reflexivity). rewrite E in H. cbn [out_map] in H. congruence.
Qed.

Lemma sn_value s vs g : (forall y z, In y (zseq 6) -> In z (zseq 4) -> bag_read (kn_bag s vs) [(Idx 1, Dyn y); (Idx 2, Dyn z)] = Done (uint 4 (g y z))) ->
  (forall d, has_dim s d -> In d [1; 2]) -> forall y z, 0 <= y < 6 -> 0 <= z < 4 -> has_value (kn_bag s vs) (at_ij 1 2 y z) (uint 4 (g y z)).
Proof.
  intros H Hd y z Hy Hz. exists [(Idx 1, Dyn y); (Idx 2, Dyn z)]. split; [|apply H; apply Lib.zseq_In; assumption]. split; [intros d; reflexivity|].
  assert (Hu : forall u, 0 <= u < 6 -> vz (Dyn u) = Some u) by (intros u Hu; unfold vz; f_equal; apply u64_small; pose proof W_pos; rewrite W_eq; lia).
  intros d Hs. destruct (Hd d Hs) as [<-|[<-|[]]]; [exists (Dyn y); split; [reflexivity|apply (Hu y); lia]|exists (Dyn z); split; [reflexivity|apply (Hu z); lia]].
Qed.

Lemma sn_values : (forall y z, 0 <= y < 6 -> 0 <= z < 4 -> has_value sn_ba (at_ij 1 2 y z) (uint 4 (sn_A y z))) /\
  (forall y z, 0 <= y < 6 -> 0 <= z < 4 -> has_value sn_bb (at_ij 1 2 y z) (uint 4 (sn_B y z))).
Proof.
  destruct sn_good as (Ga & Gb). assert (Z6 : zseq 6 = [0; 1; 2; 3; 4; 5]) by (vm_compute; reflexivity). assert (Z4 : zseq 4 = [0; 1; 2; 3]) by (vm_compute; reflexivity).
  split; (apply sn_value; [intros y z Hy Hz; rewrite Z6 in Hy; rewrite Z4 in Hz;
    repeat (destruct Hy as [<-|Hy]; [repeat (destruct Hz as [<-|Hz]; [vm_compute; reflexivity|]); destruct Hz|]); destruct Hy|]).
  - intros d Hd. apply (proj1 (proj2 (proj1 Ga))) in Hd. exact Hd.
  - intros d Hd. apply (proj1 (proj2 (proj1 Gb))) in Hd. exact Hd.
Qed.

Example C60_ex : In sn_a sn_ss /\ margins sn_a sn_m /\ p_symmetric_spans sn_m sn_a [] = Some (p_spans sn_l) /\ inner_loops sn_ss (p_spans sn_l) sn_q sn_lens /\
  NoDup (map fst sn_l) /\ incl (map fst sn_l) (map fst sn_lens) /\ good_bag sn_ba sn_lens /\ good_bag sn_bb sn_lens /\ nobcast sn_b = true /\
  near_margins (around sn_ba 1 2 (map fst sn_offs)) sn_m sn_lens /\ near_bags (around sn_ba 1 2 (map fst sn_offs)) (inside_spans sn_l) sn_lens /\
  exists calls b', for_each (order (order (traverser sn_ss) (p_spans sn_l)) sn_q) [] = Done calls /\ List.length calls = 8%nat /\
    stencil_loop (weigh 4 (map snd sn_offs)) (around sn_ba 1 2 (map fst sn_offs)) sn_bb (rev calls) = Done b' /\
    (forall y z, 0 <= y < 6 -> 0 <= z < 4 -> has_value b' (at_ij 1 2 y z) (uint 4 (if (1 <=? y) && (y <? 6 - 1) && ((1 <=? z) && (z <? 4 - 1))
      then add_up (map (fun o => snd o * sn_A (y + fst (fst o)) (z + snd (fst o))) sn_offs) else 100))) /\
    bg_data b' = concat (map (uint 4) ([100; 100; 100; 100; 100; 100] ++ [100; 6; 6; 6; 6; 100] ++ [100; 12; 12; 12; 12; 100] ++ [100; 100; 100; 100; 100; 100])).
Proof.
  destruct sn_good as (Ga & Gb). destruct sn_values as (Va & Vb).
  assert (Hs : In sn_a sn_ss) by (left; reflexivity).
  assert (Hm : margins sn_a sn_m). { split; [repeat constructor; cbn; intuition discriminate|]. intros d b [X|[X|[]]]; injection X as <- <-; (split; [vm_compute; reflexivity|discriminate]). }
  assert (Hp : p_symmetric_spans sn_m sn_a [] = Some (p_spans sn_l)) by (vm_compute; reflexivity).
  assert (Hoffs : forall dy dz c, In (dy, dz, c) sn_offs -> Z.abs dy <= 1 /\ Z.abs dz <= 1).
  { intros dy dz c Hin. cbn in Hin. repeat (destruct Hin as [X|Hin]; [injection X as <- <- <-; split; discriminate|]). destruct Hin. }
  assert (Hnm : near_margins (around sn_ba 1 2 (map fst sn_offs)) sn_m sn_lens).
  { intros b ds Hin. unfold around in Hin. rewrite map_map in Hin. apply in_map_iff in Hin. destruct Hin as ([[dy dz] c] & Eb & Ho). cbn [fst snd] in Eb. injection Eb as <- <-.
    destruct (Hoffs dy dz c Ho) as [H1 H2]. split; [split; [repeat constructor; cbn; intuition discriminate|]|exists sn_lens; split; [exact Ga|apply incl_refl]].
    intros d x [X|[X|[]]]; injection X as <- <-; [exists (Dyn 1), dy|exists (Sta 1), dz]; (split; [cbn; tauto|split; [reflexivity|assumption]]). }
  assert (Hincl : incl (map fst sn_l) (map fst sn_lens)) by apply incl_refl.
  split; [exact Hs|]. split; [exact Hm|]. split; [exact Hp|]. split; [exact sn_loops|]. split; [apply Hm|]. split; [exact Hincl|]. split; [exact Ga|]. split; [exact Gb|]. split; [reflexivity|]. split; [exact Hnm|]. split.
  { apply (near_bags_same _ (inner_part sn_m sn_lens)); [|apply near_inner, Hnm]. intros x Hx. apply eq_true_iff_eq. rewrite inner_all, inside_all. split.
    - intros H d b e [X|[X|[]]]; injection X as <- <- <-; [apply (H 1 (Dyn 1) 6); cbn; tauto|apply (H 2 (Sta 1) 4); cbn; tauto].
    - intros H d b n [X|[X|[]]] [Y|[Y|[]]]; injection X as <- <-; injection Y; try discriminate; intros <-; [apply (H 1 (Dyn 1) (Dyn 5)); cbn; tauto|apply (H 2 (Sta 1) (Dyn 3)); cbn; tauto]. }
  assert (HE : out_bind (for_each (order (order (traverser sn_ss) (p_spans sn_l)) sn_q) []) (fun calls => out_map (fun b => (List.length calls, bg_data b))
    (stencil_loop (weigh 4 (map snd sn_offs)) (around sn_ba 1 2 (map fst sn_offs)) sn_bb (rev calls))) =
    Done (8%nat, concat (map (uint 4) ([100; 100; 100; 100; 100; 100] ++ [100; 6; 6; 6; 6; 100] ++ [100; 12; 12; 12; 12; 100] ++ [100; 100; 100; 100; 100; 100])))) by (vm_compute; reflexivity).
  destruct (for_each (order (order (traverser sn_ss) (p_spans sn_l)) sn_q) []) as [| |calls] eqn:E; try discriminate HE. cbn [out_bind] in HE.
  destruct (stencil_loop (weigh 4 (map snd sn_offs)) (around sn_ba 1 2 (map fst sn_offs)) sn_bb (rev calls)) as [| |b'] eqn:El; try discriminate HE. cbn [out_map] in HE.
  exists calls, b'. split; [reflexivity|]. split; [congruence|]. split; [exact El|]. split; [|congruence].
  exact (C60_convolution 4 sn_ba sn_bb b' sn_ss sn_a (p_spans sn_l) sn_q 1 2 6 4 (Dyn 1) (Sta 1) sn_offs sn_A sn_B calls (rev calls) Hs Hm Hp sn_loops Hoffs Ga Gb eq_refl E (Permutation_rev calls) El Va Vb).
Qed.
Print Assumptions C60_ex.

(** ** What the margins are for *)

(** Without a margin in the second dimension, the loop reads the end of the previous row instead of the element before the first one;
    without any margin, it is undefined behaviour. *)
Definition sn_ra : bag := kn_bag (vec 1 (Dyn 2) (vec 2 (Dyn 3) (Scalar int4))) [1; 2; 3; 4; 5; 6].
Definition sn_rb : bag := kn_bag (vec 1 (Dyn 2) (vec 2 (Dyn 3) (Scalar int4))) [0; 0; 0; 0; 0; 0].
Theorem C60_margins_refuted : exists f a b p out',
  let t := traverser [bg_struct a] in
  good_bag a [(1, 2); (2, 3)] /\ good_bag b [(1, 2); (2, 3)] /\ p_symmetric_spans [(1, Dyn 0); (2, Dyn 0)] (bg_struct a) [] = Some p /\
  run_stencil f [(a, [(2, Dyn (-1))])] b (order t p) = Undefined /\
  run_stencil f [(a, [(2, Dyn (-1))])] b (order t [LView (VSpan 1 (Dyn 1) (Dyn 2))]) = Done out' /\
  bag_read out' [(Idx 1, Dyn 1); (Idx 2, Dyn 0)] = bag_read a [(Idx 1, Dyn 0); (Idx 2, Dyn 2)] /\ bag_read a [(Idx 1, Dyn 0); (Idx 2, Dyn 2)] = Done (uint 4 3).
Proof.
  exists kn_copy, sn_ra, sn_rb. eexists _, _. cbv zeta.
  assert (Hg : forall vs, List.length (concat (map (uint 4) vs)) = 24%nat -> good_bag (kn_bag (vec 1 (Dyn 2) (vec 2 (Dyn 3) (Scalar int4))) vs) [(1, 2); (2, 3)]).
  { intros vs Hl. split; [apply kn_cube; vm_compute; reflexivity|]. split.
    - split; [vm_compute; reflexivity|]. split; [apply lenokb_sound; vm_compute; reflexivity|]. split; [intros x; cbn; tauto|rewrite W_eq; vm_compute; reflexivity].
    - exists (Dyn 24), 24. split; [vm_compute; reflexivity|]. split; [vm_compute; reflexivity|]. cbn [bg_data kn_bag]. rewrite Hl. discriminate. }
  split; [apply Hg; reflexivity|]. split; [apply Hg; reflexivity|]. split; [vm_compute; reflexivity|]. split; [vm_compute; reflexivity|]. split; [vm_compute; reflexivity|]. split; vm_compute; reflexivity.
Qed.
Print Assumptions C60_margins_refuted.
