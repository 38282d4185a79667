(** * C61: reductions into bags, in parallel *)

From Coq Require Import Permutation.
From Verif Require Import Check PropsLayout PropsOrder PropsKernel ReduceBagThms.
From Verif Require Import SpecReduceBag.

(** [tbb_reduce] into a bag, whatever TBB does: the element of the output at [x] gets the sum of what the calls add whose updates go to [x], each
    call counted once.  This covers both strategies: one shared output, and private copies that are joined. *)
Theorem C61_reduce : forall P op e g ins vals place dest ss p lens lo out out' l calls threads, let t := order (traverser ss) p in
  sums P op e -> loops rearranges ss p lens -> good_bags ins lens -> (forall y, in_box lens y -> have_values ins y (vals y)) -> (forall y, in_box lens y -> P (g (vals y))) ->
  good_bag out lo -> NoDup (map fst lo) -> nobcast (bg_struct out) = true -> updates vals place lens out lo dest ->
  for_each t [] = Done l -> some_run t (bg_struct out) calls threads ->
  tbb_reduce_bag op e (fun v xs => op v (g xs)) (reads ins) place t out calls threads = Done out' ->
  forall x v, in_box lo x -> has_value out x v -> P v ->
  bg_struct out' = bg_struct out /\ good_bag out' lo /\
  has_value out' x (fold_left (fun v is => op v (g (vals (idx lens is)))) (filter (fun is => agrees (map fst lo) x (dest (idx lens is))) (all_indices lens)) v).
Proof.
  intros P op e g ins vals place dest ss p lens lo out out' l calls threads t Hm Hd Hins Hvals Pg Hout Hlo Hnb Hup El Hrun Er x v Hx Hv Pv.
  exact (reduce_value P op e g ins vals place dest ss p lens lo out l calls threads Hd Hins Hvals Hout Hlo Hnb Hup El Hrun out' Er x v Hm Pg Hx Hv Pv).
Qed.
Print Assumptions C61_reduce.

(** No access is undefined behaviour. *)
Theorem C61_defined : forall op e g ins vals place dest ss p lens lo out l calls threads, let t := order (traverser ss) p in
  loops rearranges ss p lens -> good_bags ins lens -> (forall y, in_box lens y -> have_values ins y (vals y)) ->
  good_bag out lo -> NoDup (map fst lo) -> nobcast (bg_struct out) = true -> updates vals place lens out lo dest ->
  for_each t [] = Done l -> some_run t (bg_struct out) calls threads ->
  tbb_reduce_bag op e (fun v xs => op v (g xs)) (reads ins) place t out calls threads <> Undefined.
Proof. exact reduce_defined. Qed.
Print Assumptions C61_defined.

(** The same loop without threads, with the calls in any order. *)
Theorem C61_loop : forall P op e g ins vals place dest ss p lens lo out out' l sched,
  sums P op e -> loops rearranges ss p lens -> good_bags ins lens -> (forall y, in_box lens y -> have_values ins y (vals y)) -> (forall y, in_box lens y -> P (g (vals y))) ->
  good_bag out lo -> nobcast (bg_struct out) = true -> updates vals place lens out lo dest ->
  for_each (order (traverser ss) p) [] = Done l -> Permutation l sched -> add_all (fun v xs => op v (g xs)) (reads ins) place out sched = Done out' ->
  forall x v, in_box lo x -> has_value out x v -> P v ->
  bg_struct out' = bg_struct out /\ good_bag out' lo /\
  has_value out' x (fold_left (fun v is => op v (g (vals (idx lens is)))) (filter (fun is => agrees (map fst lo) x (dest (idx lens is))) (all_indices lens)) v).
Proof.
  intros P op e g ins vals place dest ss p lens lo out out' l sched Hm Hd Hins Hvals Pg Hout Hnb Hup El Ps Er x v Hx Hv Pv.
  exact (scatter_value P op e g ins vals place dest ss p lens lo out l Hd Hins Hvals Hout Hnb Hup El sched out' x v Ps Er Hm Pg Hx Hv Pv).
Qed.
Print Assumptions C61_loop.

(** So the parallel version stores what the sequential loop stores. *)
Theorem C61_same_as_sequential : forall P op e g ins vals place dest ss p lens lo out out1 out2 l calls threads, let t := order (traverser ss) p in
  sums P op e -> loops rearranges ss p lens -> good_bags ins lens -> (forall y, in_box lens y -> have_values ins y (vals y)) -> (forall y, in_box lens y -> P (g (vals y))) ->
  good_bag out lo -> NoDup (map fst lo) -> nobcast (bg_struct out) = true -> updates vals place lens out lo dest ->
  for_each t [] = Done l -> some_run t (bg_struct out) calls threads ->
  tbb_reduce_bag op e (fun v xs => op v (g xs)) (reads ins) place t out calls threads = Done out1 ->
  add_all (fun v xs => op v (g xs)) (reads ins) place out l = Done out2 ->
  forall x v, in_box lo x -> has_value out x v -> P v -> exists v', has_value out1 x v' /\ has_value out2 x v'.
Proof.
  intros P op e g ins vals place dest ss p lens lo out out1 out2 l calls threads t Hm Hd Hins Hvals Pg Hout Hlo Hnb Hup El Hrun E1 E2 x v Hx Hv Pv. eexists. split.
  - exact (proj2 (proj2 (reduce_value P op e g ins vals place dest ss p lens lo out l calls threads Hd Hins Hvals Hout Hlo Hnb Hup El Hrun out1 E1 x v Hm Pg Hx Hv Pv))).
  - exact (proj2 (proj2 (scatter_value P op e g ins vals place dest ss p lens lo out l Hd Hins Hvals Hout Hnb Hup El l out2 x v (Permutation_refl l) E2 Hm Pg Hx Hv Pv))).
Qed.
Print Assumptions C61_same_as_sequential.

(** The output has the dimensions [lo] and is indexed by the state of the call, as for row and column sums: each element gets the sum along the other
    dimensions. *)
Theorem C61_along : forall P op e g ins vals ss p lo lr out out' l calls threads x v,
  sums P op e -> loops rearranges ss p (lo ++ lr) -> good_bags ins (lo ++ lr) -> (forall y, in_box (lo ++ lr) y -> have_values ins y (vals y)) ->
  (forall y, in_box (lo ++ lr) y -> P (g (vals y))) -> good_bag out lo -> nobcast (bg_struct out) = true ->
  for_each (order (traverser ss) p) [] = Done l -> some_run (order (traverser ss) p) (bg_struct out) calls threads ->
  tbb_reduce_bag op e (fun v xs => op v (g xs)) (reads ins) (fun st _ => st) (order (traverser ss) p) out calls threads = Done out' ->
  in_box lo x -> has_value out x v -> P v -> has_value out' x (fold_left (fun v js => op v (g (vals (along lr js x)))) (all_indices lr) v).
Proof. exact reduce_along_dims. Qed.
Print Assumptions C61_along.

(** Addition of unsigned integers is such a sum. *)
Theorem C61_uint : forall w, sums (is_uint w) (uint_plus w) (uint w 0).
Proof. exact uint_sums. Qed.
Print Assumptions C61_uint.

(** [out[state] += matrix[state]] (docs/Traverser.md 477-502), for unsigned integers of [w] bytes. *)
Theorem C61_sums : forall w b A ss p lo lr out out' l calls threads x z,
  loops rearranges ss p (lo ++ lr) -> good_bags [b] (lo ++ lr) -> (forall y, in_box (lo ++ lr) y -> has_value b y (uint w (A y))) ->
  good_bag out lo -> nobcast (bg_struct out) = true ->
  for_each (order (traverser ss) p) [] = Done l -> some_run (order (traverser ss) p) (bg_struct out) calls threads ->
  tbb_reduce_bag (uint_plus w) (uint w 0) (fun v xs => uint_plus w v (hd [] xs)) (reads [b]) (fun st _ => st) (order (traverser ss) p) out calls threads = Done out' ->
  in_box lo x -> has_value out x (uint w z) ->
  has_value out' x (uint w (z + fold_right Z.add 0 (map (fun js => A (along lr js x)) (all_indices lr)))).
Proof.
  intros w b A ss p lo lr out out' l calls threads x z Hd Hins Hvals Hout Hnb El Hrun Er Hx Hv.
  rewrite <- (fold_uint w (fun js => A (along lr js x))).
  refine (reduce_along_dims (is_uint w) (uint_plus w) (uint w 0) (hd []) [b] (fun y => [uint w (A y)]) ss p lo lr out out' l calls threads x (uint w z) (uint_sums w) Hd Hins _ _ Hout Hnb El Hrun Er Hx Hv _).
  - intros y Hy. constructor; [apply Hvals, Hy|constructor].
  - intros y _. exists (A y). reflexivity.
  - exists z. reflexivity.
Qed.
Print Assumptions C61_sums.

(** The histogram of the documentation (docs/Traverser.md 517-548): afterwards each element counts how often its index occurs among the values.  The
    values are unsigned integers of [wi] bytes in any layout with any dimensions, the counters are unsigned integers of [w] bytes and wrap. *)
Theorem C61_histogram : forall w wi values_bag out ss p lens d n A l, let t := order (traverser ss) p in
  loops rearranges ss p lens -> good_bags [values_bag] lens -> (forall y, in_box lens y -> has_value values_bag y (uint wi (A y))) ->
  (forall y, in_box lens y -> 0 <= A y < n /\ A y < 256 ^ Z.of_nat wi) -> good_bag out [(d, n)] -> nobcast (bg_struct out) = true ->
  for_each t [] = Done l -> forall calls threads out' k z, some_run t (bg_struct out) calls threads ->
  tbb_reduce_bag (uint_plus w) (uint w 0) (add_one w) (reads [values_bag]) (by_value d) t out calls threads = Done out' ->
  0 <= k < n -> has_value out (fun _ => k) (uint w z) -> has_value out' (fun _ => k) (uint w (z + count lens (fun y => A y =? k))).
Proof. exact histogram. Qed.
Print Assumptions C61_histogram.

Theorem C61_histogram_defined : forall w wi values_bag out ss p lens d n A l, let t := order (traverser ss) p in
  loops rearranges ss p lens -> good_bags [values_bag] lens -> (forall y, in_box lens y -> has_value values_bag y (uint wi (A y))) ->
  (forall y, in_box lens y -> 0 <= A y < n /\ A y < 256 ^ Z.of_nat wi) -> good_bag out [(d, n)] -> nobcast (bg_struct out) = true ->
  for_each t [] = Done l -> forall calls threads, some_run t (bg_struct out) calls threads ->
  tbb_reduce_bag (uint_plus w) (uint w 0) (add_one w) (reads [values_bag]) (by_value d) t out calls threads <> Undefined.
Proof. exact histogram_defined. Qed.
Print Assumptions C61_histogram_defined.

(** ** The histogram of a 2 x 3 matrix of bytes, traversed by columns; two threads share the three columns, in memory with other contents. *)
Definition byte1 : cty := {| ct_id := 2; ct_size := 1; ct_align := 1 |}.
Definition hg_v : struct := vec 1 (Dyn 2) (vec 2 (Dyn 3) (Scalar byte1)).
Definition hg_values : bag := {| bg_struct := hg_v; bg_policy := ConstRaw; bg_data := [3; 0; 3; 1; 3; 0] |}.
Definition hg_A (y : asg) : Z := nth (Z.to_nat (3 * y 1 + y 2)) [3; 0; 3; 1; 3; 0] 0.
Definition hg_h : struct := vec 7 (Sta 4) (Scalar int4).
Definition hg_out : bag := kn_bag hg_h [10; 2 ^ 32 - 1; 0; 2 ^ 32 - 2].
Definition hg_p : proto := [LView (VHoist 2)].
Definition hg_t : trav := order (traverser [hg_v]) hg_p.
Definition hg_lens : list (dim * Z) := [(1, 2); (2, 3)].
Definition hg_tree := Split Keep (Split Keep Keep).
Definition hg_works : list (list state) := match range_of hg_t with Done r => map (fun x => match rg_for_each x with Done w => w | _ => [] end) (pieces hg_tree r) | _ => [] end.
Definition hg_threads : list (bytes * list (list state)) :=
  [(repeat 17 16, [nth 1 hg_works []]); (repeat 255 16, [nth 2 hg_works []; nth 0 hg_works []])].
Definition hg_calls : list state := rev (concat hg_works).

Lemma hg_good : good_bag hg_values hg_lens /\ good_bag hg_out [(7, 4)].
Proof.
  split.
  - split; [apply kn_cube; vm_compute; reflexivity|]. split.
    + split; [vm_compute; reflexivity|]. split; [apply lenokb_sound; vm_compute; reflexivity|]. split; [intros a; cbn; tauto|rewrite W_eq; vm_compute; reflexivity].
    + exists (Dyn 6), 6. repeat split; vm_compute; try reflexivity. discriminate.
  - split; [apply kn_cube; vm_compute; reflexivity|]. split.
    + split; [vm_compute; reflexivity|]. split; [apply lenokb_sound; vm_compute; reflexivity|]. split; [intros a; cbn; tauto|rewrite W_eq; vm_compute; reflexivity].
    + exists (Sta 16), 16. repeat split; vm_compute; try reflexivity. discriminate.
Qed.

Lemma hg_loops : loops rearranges [hg_v] hg_p hg_lens.
Proof.
  split; [|split; [vm_compute; reflexivity|split; [apply lenokb_sound; vm_compute; reflexivity|split]]].
  - split; [repeat constructor; cbn; intuition discriminate|]. split.
    + intros s [<-|[]]. exists hg_lens. split; [apply hg_good|intros e He; exact He].
    + intros q [<-|[<-|[]]]; exists hg_v; (split; [left; reflexivity|vm_compute; reflexivity]).
  - change (top_struct (order (traverser [hg_v]) hg_p)) with (View (VHoist 2) (Union [hg_v])).
    constructor; [split; [split; [reflexivity|]|exact I]; intros c; exact I|]. constructor. intros d. reflexivity.
  - intros calls r E. revert r. apply completeb_sound.
    assert (H : out_map (forallb (completeb (Union [hg_v]))) (for_each (order (traverser [hg_v]) hg_p) []) = Done true) by (vm_compute; reflexivity). rewrite E in H. cbn [out_map] in H. congruence.
Qed.

Lemma hg_box y : in_box hg_lens y -> In (y 1) [0; 1] /\ In (y 2) [0; 1; 2].
Proof. intros H. pose proof (H 1 2 (or_introl eq_refl)). pose proof (H 2 3 (or_intror (or_introl eq_refl))). cbn. lia. Qed.

Lemma hg_have y : in_box hg_lens y -> has_value hg_values y (uint 1 (hg_A y)) /\ 0 <= hg_A y < 4 /\ hg_A y < 256 ^ Z.of_nat 1.
Proof.
  intros H. destruct (hg_box y H) as [H1 H2]. split.
  - exists [(Idx 1, Dyn (y 1)); (Idx 2, Dyn (y 2))]. split.
    + split; [reflexivity|]. intros d Hd. apply (proj1 (proj2 (proj1 (proj1 hg_good)))) in Hd.
      assert (Hu : forall u, 0 <= u < 3 -> vz (Dyn u) = Some u) by (intros u Hu; unfold vz; f_equal; apply u64_small; rewrite W_eq; lia).
      destruct Hd as [<-|[<-|[]]]; eexists; (split; [reflexivity|]); apply Hu; cbn [fst In] in *; lia.
    + unfold hg_A. destruct H1 as [<-|[<-|[]]]; destruct H2 as [<-|[<-|[<-|[]]]]; vm_compute; reflexivity.
  - unfold hg_A. destruct H1 as [<-|[<-|[]]]; destruct H2 as [<-|[<-|[<-|[]]]]; vm_compute; intuition discriminate.
Qed.

Lemma hg_all rs : forallb (fun x => match rg_for_each x with Done _ => true | _ => false end) rs = true ->
  Forall2 (fun piece w => rg_for_each piece = Done w) rs (map (fun x => match rg_for_each x with Done w => w | _ => [] end) rs).
Proof.
  induction rs as [|x rs IH]; intros H; constructor; cbn [forallb] in H; apply andb_prop in H; destruct H as [H1 H2]; [|exact (IH H2)].
  destruct (rg_for_each x); [discriminate|discriminate|reflexivity].
Qed.

Lemma hg_run : some_run hg_t hg_h hg_calls hg_threads.
Proof.
  split.
  - assert (Hr : exists r, range_of hg_t = Done r) by (eexists; vm_compute; reflexivity). destruct Hr as (r & Er). exists r, hg_tree, hg_works. split; [exact Er|]. split; [|split].
    + assert (H : out_map (fun r => forallb (fun x => match rg_for_each x with Done _ => true | _ => false end) (pieces hg_tree r)) (range_of hg_t) = Done true) by (vm_compute; reflexivity).
      rewrite Er in H. cbn [out_map] in H. unfold hg_works. rewrite Er. apply hg_all. congruence.
    + apply Permutation_sym, Permutation_rev.
    + assert (Hw : hg_works = [nth 0 hg_works []; nth 1 hg_works []; nth 2 hg_works []]) by (vm_compute; reflexivity). rewrite Hw. cbn [hg_threads map snd concat app nth].
      etransitivity; [|apply perm_swap]. constructor. apply perm_swap.
  - intros th [<-|[<-|[]]]; exists (Sta 16), 16; (split; [vm_compute; reflexivity|]; split; [vm_compute; reflexivity|vm_compute; discriminate]).
Qed.

Example C61_ex : loops rearranges [hg_v] hg_p hg_lens /\ good_bags [hg_values] hg_lens /\ good_bag hg_out [(7, 4)] /\ nobcast hg_h = true /\
  (forall y, in_box hg_lens y -> has_value hg_values y (uint 1 (hg_A y)) /\ 0 <= hg_A y < 4 /\ hg_A y < 256 ^ Z.of_nat 1) /\
  (exists l, for_each hg_t [] = Done l /\ List.length l = 6%nat) /\ some_run hg_t hg_h hg_calls hg_threads /\ shares hg_t hg_h = Some false /\
  updates (fun y => [uint 1 (hg_A y)]) (by_value 7) hg_lens hg_out [(7, 4)] (fun y _ => hg_A y) /\
  exists out', tbb_reduce_bag (uint_plus 4) (uint 4 0) (add_one 4) (reads [hg_values]) (by_value 7) hg_t hg_out hg_calls hg_threads = Done out' /\
    bg_data out' = concat (map (uint 4) [12; 0; 0; 1]).
Proof.
  split; [exact hg_loops|]. split; [intros b [<-|[]]; exists hg_lens; split; [apply hg_good|intros q n Hq; exists n; split; [exact Hq|lia]]|]. split; [apply hg_good|]. split; [reflexivity|].
  split; [exact hg_have|]. split; [eexists; split; vm_compute; reflexivity|]. split; [exact hg_run|]. split; [vm_compute; reflexivity|]. split.
  - apply (histogram_updates 1 hg_values hg_out hg_lens 7 4 hg_A); [intros y Hy; apply (hg_have y Hy)|intros y Hy; apply (hg_have y Hy)|apply hg_good].
  - eexists. split; vm_compute; reflexivity.
Qed.

(** Column sums and row sums of the same matrix: the columns need private copies, the rows do not. *)
Definition hg_row : struct := vec 1 (Dyn 2) (Scalar byte1).
Definition hg_col : struct := vec 2 (Dyn 3) (Scalar byte1).
Definition hg_one (s : struct) (data : bytes) : bag := {| bg_struct := s; bg_policy := Raw; bg_data := data |}.
Definition hg_add (v : bytes) (xs : list bytes) : bytes := uint_plus 1 v (hd [] xs).

Example C61_sums_ex : loops rearranges [hg_v] [] ([(1, 2)] ++ [(2, 3)]) /\ good_bag (hg_one hg_row [250; 0]) [(1, 2)] /\
  some_run (order (traverser [hg_v]) []) hg_row (match for_each (traverser [hg_v]) [] with Done l => l | _ => [] end) [([1; 2], [match for_each (traverser [hg_v]) [] with Done l => l | _ => [] end])] /\
  out_map bg_data (tbb_reduce_bag (uint_plus 1) (uint 1 0) hg_add (reads [hg_values]) (fun st _ => st) (order (traverser [hg_v]) []) (hg_one hg_row [250; 0])
    (match for_each (traverser [hg_v]) [] with Done l => l | _ => [] end) [([1; 2], [match for_each (traverser [hg_v]) [] with Done l => l | _ => [] end])]) = Done [0; 4] /\
  out_map bg_data (tbb_reduce_bag (uint_plus 1) (uint 1 0) hg_add (reads [hg_values]) (fun st _ => st) (order (traverser [hg_v]) []) (hg_one hg_col [0; 100; 200])
    (match for_each (traverser [hg_v]) [] with Done l => l | _ => [] end) [([1; 2; 3], [match for_each (traverser [hg_v]) [] with Done l => l | _ => [] end])]) = Done [4; 103; 203] /\
  shares (order (traverser [hg_v]) []) hg_row = Some true /\ shares (order (traverser [hg_v]) []) hg_col = Some false.
Proof.
  split; [apply self_loops; [apply hg_good|apply hg_good|repeat constructor; cbn; intuition discriminate]|]. split; [|split; [|split; [vm_compute; reflexivity|split; [vm_compute; reflexivity|split; vm_compute; reflexivity]]]].
  - split; [apply kn_cube; vm_compute; reflexivity|]. split.
    + split; [vm_compute; reflexivity|]. split; [apply lenokb_sound; vm_compute; reflexivity|]. split; [intros a; cbn; tauto|rewrite W_eq; vm_compute; reflexivity].
    + exists (Dyn 2), 2. repeat split; vm_compute; try reflexivity. discriminate.
  - split.
    + eexists. exists Keep, [match for_each (traverser [hg_v]) [] with Done l => l | _ => [] end]. split; [vm_compute; reflexivity|]. split; [constructor; [vm_compute; reflexivity|constructor]|].
      split; [cbn [concat]; rewrite app_nil_r|]; apply Permutation_refl.
    + intros th [<-|[]]. exists (Dyn 2), 2. repeat split; vm_compute; try reflexivity. discriminate.
Qed.

(** ** What the hypotheses are for *)

(** A value that is not an index of the histogram is undefined behaviour. *)
Definition hg_short : bag := kn_bag (vec 7 (Sta 3) (Scalar int4)) [0; 0; 0].
Theorem C61_range_refuted : exists out, good_bag out [(7, 3)] /\ some_run hg_t (bg_struct out) hg_calls [(repeat 0 12, hg_works)] /\
  tbb_reduce_bag (uint_plus 4) (uint 4 0) (add_one 4) (reads [hg_values]) (by_value 7) hg_t out hg_calls [(repeat 0 12, hg_works)] = Undefined.
Proof.
  exists hg_short. split; [|split; [|vm_compute; reflexivity]].
  - split; [apply kn_cube; vm_compute; reflexivity|]. split.
    + split; [vm_compute; reflexivity|]. split; [apply lenokb_sound; vm_compute; reflexivity|]. split; [intros a; cbn; tauto|rewrite W_eq; vm_compute; reflexivity].
    + exists (Sta 12), 12. repeat split; vm_compute; try reflexivity. discriminate.
  - split.
    + destruct hg_run as ((r & tr & works & H1 & H2 & H3 & H4) & _). exists r, tr, works. repeat (split; [assumption|]). rewrite <- H4.
      assert (Hw : hg_works = [nth 0 hg_works []; nth 1 hg_works []; nth 2 hg_works []]) by (vm_compute; reflexivity). rewrite Hw. cbn [hg_threads map snd concat app nth].
      symmetry. etransitivity; [|apply perm_swap]. constructor. apply perm_swap.
    + intros th [<-|[]]. exists (Sta 12), 12. split; [vm_compute; reflexivity|]. split; [vm_compute; reflexivity|vm_compute; discriminate].
Qed.
Print Assumptions C61_range_refuted.

(** The strategy is chosen by the names of the dimensions only.  If the outermost dimension of the input is also a dimension of the output, the output is
    shared, although the histogram is not indexed by the state: two pieces of the range update the same element, and if both read it before either
    writes, one update is lost. *)
Definition hg_v7 : struct := vec 7 (Dyn 2) (Scalar byte1).
Definition hg_same : bag := {| bg_struct := hg_v7; bg_policy := Raw; bg_data := [1; 1] |}.
Definition hg_zero : bag := kn_bag hg_h [0; 0; 0; 0].
Theorem C61_shared_refuted : exists r w1 w2 st1 st2 pl v o1 o2,
  shares (traverser [hg_v7]) hg_h = Some true /\ range_of (traverser [hg_v7]) = Done r /\ map rg_for_each (pieces (Split Keep Keep) r) = [Done w1; Done w2] /\ In st1 w1 /\ In st2 w2 /\
  out_map (by_value 7 st1) (reads [hg_same] st1) = Done pl /\ out_map (by_value 7 st2) (reads [hg_same] st2) = Done pl /\
  bag_read hg_zero pl = Done v /\ bag_write hg_zero pl (add_one 4 v []) = Done o1 /\ bag_write o1 pl (add_one 4 v []) = Done o2 /\
  bag_read o2 pl = Done (uint 4 1) /\ count [(7, 2)] (fun y => nth (Z.to_nat (y 7)) [1; 1] 0 =? 1) = 2.
Proof.
  eexists. exists [[(Idx 7, Dyn 0)]], [[(Idx 7, Dyn 1)]], [(Idx 7, Dyn 0)], [(Idx 7, Dyn 1)], [(Idx 7, Dyn 1)]. do 3 eexists.
  split; [vm_compute; reflexivity|]. split; [vm_compute; reflexivity|]. split; [vm_compute; reflexivity|]. split; [left; reflexivity|]. split; [left; reflexivity|].
  split; [vm_compute; reflexivity|]. split; [vm_compute; reflexivity|]. split; [vm_compute; reflexivity|]. split; [vm_compute; reflexivity|]. split; [vm_compute; reflexivity|].
  split; vm_compute; reflexivity.
Qed.
Print Assumptions C61_shared_refuted.
