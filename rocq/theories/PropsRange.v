(** * C29, C30, C35, C42: ranges, iterators, workers and reductions *)

From Verif Require Import SpecRange SpecReduce ReduceFacts.

(** C29.  Cutting the range of a traverser at any points: traversing the parts in order makes the calls
    of the whole traversal in the same order.  Every traversal involved compiles and ends normally if the
    whole traversal does. *)
Theorem C29_cut : forall ss p r es l, let t := order (traverser ss) p in
  distinct_dims (top_struct t) -> range_of t = Done r -> for_each t [] = Done l ->
  ascending 0 es (rg_end r) -> calls_in_order (map as_traverser (cut r 0 es)) l.
Proof. exact cut_calls. Qed.
Print Assumptions C29_cut.

(** The same for the way TBB splits ranges, for every part of the range and every splitting pattern. *)
Theorem C29_split : forall ss p r tr b e l, let t := order (traverser ss) p in
  distinct_dims (top_struct t) -> range_of t = Done r -> for_each t [] = Done l -> 0 <= b -> b <= e <= rg_end r ->
  exists lm, rg_for_each (rg_set r b e) = Done lm /\ calls_in_order (map as_traverser (pieces tr (rg_set r b e))) lm /\
    (b = 0 -> e = rg_end r -> Forall2 same_get l lm).
Proof. exact split_calls. Qed.
Print Assumptions C29_split.

(** A range is divisible exactly if it has at least two elements; then both parts are nonempty, and their
    sizes differ by at most one. *)
Theorem C29_divisible : forall r, 0 <= rg_begin r <= rg_end r -> rg_end r < W ->
  (rg_divisible r = true <-> 2 <= rg_size r) /\
  (rg_divisible r = true -> rg_empty (fst (rg_split r)) = false /\ rg_empty (snd (rg_split r)) = false /\
     rg_size (fst (rg_split r)) < rg_size r /\ rg_size (snd (rg_split r)) < rg_size r /\
     rg_size (fst (rg_split r)) + rg_size (snd (rg_split r)) = rg_size r /\ Z.abs (rg_size (fst (rg_split r)) - rg_size (snd (rg_split r))) <= 1).
Proof. exact split_parts. Qed.
Print Assumptions C29_divisible.

(** C30.  Iterators are integers as long as they stay below 2^64. *)
Theorem C30_arithmetic : forall a k, 0 <= it_idx a < W -> 0 <= it_idx a + k < W ->
  it_idx (it_plus a k) = it_idx a + k /\ 0 <= it_idx (it_plus a k) < W /\ it_minus (it_plus a k) k = a /\ it_nth a k = it_deref (it_plus a k) /\
  (- (W / 2) <= k < W / 2 -> it_diff (it_plus a k) a = k).
Proof. exact iter_arith. Qed.
Print Assumptions C30_arithmetic.

Theorem C30_comparison : forall a b, it_dim a = it_dim b -> it_trav a = it_trav b ->
  (it_eq a b = true <-> a = b) /\ it_compare a b = (it_idx a ?= it_idx b).
Proof. exact iter_order. Qed.
Print Assumptions C30_comparison.

(** [begin + size = end]; the k-th element is the traverser with the outermost dimension fixed to
    [begin + k]. *)
Theorem C30_range : forall r, 0 <= rg_begin r <= rg_end r -> rg_end r < W ->
  rg_size r = rg_end r - rg_begin r /\ it_plus (rg_begin_it r) (rg_size r) = rg_end_it r /\
  (forall k, 0 <= k < rg_size r -> it_compare (it_plus (rg_begin_it r) k) (rg_end_it r) = Lt /\ it_deref (it_plus (rg_begin_it r) k) = rg_nth r k /\
     top_struct (rg_nth r k) = View (VFix (rg_dim r) (Dyn (rg_begin r + k))) (top_struct (rg_trav r))).
Proof. exact iter_range. Qed.
Print Assumptions C30_range.

Theorem C30_begin_end : forall t r, range_of t = Done r -> begin_of t = Done (rg_begin_it r) /\ end_of t = Done (rg_end_it r).
Proof. exact begin_end. Qed.
Print Assumptions C30_begin_end.

(** Iterating over a range and traversing each element makes the calls of the range in order (this is
    what omp_for_each and the range-based loops do). *)
Theorem C30_elements : forall ss p r b e l, let t := order (traverser ss) p in
  distinct_dims (top_struct t) -> range_of t = Done r -> for_each t [] = Done l -> 0 <= b -> b <= e <= rg_end r ->
  exists lm, rg_for_each (rg_set r b e) = Done lm /\
    calls_in_order (map (rg_nth (rg_set r b e)) (zseq (rg_size (rg_set r b e)))) lm.
Proof. exact element_calls. Qed.
Print Assumptions C30_elements.

(** C35.  [n] workers, worker [k] with [step(k, n)]: every call of the traversal is made by exactly one
    worker. *)
Theorem C35_workers : forall ss p r n l, let t := order (traverser ss) p in
  distinct_dims (top_struct t) -> range_of t = Done r -> for_each t [] = Done l -> 0 < n < W -> rg_end r + n <= W ->
  calls_once (map (fun k => order t [LView (VStep (rg_dim r) (Dyn k) (Dyn n))]) (zseq n)) l.
Proof. exact strided_calls. Qed.
Print Assumptions C35_workers.

(** The index sets: worker [k] has the indices congruent to [k]. *)
Theorem C35_indices : forall len n k x, 0 < n -> 0 <= k < n -> 0 <= len ->
  (exists j, 0 <= j < (len + n - k - 1) / n /\ x = j * n + k) <-> 0 <= x < len /\ x mod n = k.
Proof. exact step_count. Qed.
Print Assumptions C35_indices.

(** C42.  [tbb_reduce] with private buffers: any splitting, any distribution of the pieces over the
    threads, any order in which the threads work and are joined, and any contents of fresh memory. *)
Theorem C42_private : forall V op e (f_neut f_acc : state -> buffer V -> buffer V) f_join adds place t r tr outs l works threads buf x,
  comm_monoid op e -> reduces op e place outs adds f_neut f_acc f_join -> respects adds -> NoDup (map place outs) ->
  (forall v u, tr_struct t <> View v u) -> distinct_dims (top_struct t) -> range_of t = Done r -> for_each t [] = Done l ->
  Forall2 (fun piece w => rg_for_each piece = Done w) (pieces tr r) works -> Permutation (concat (map snd threads)) works ->
  In x (map place outs) -> reduce_private f_neut f_acc f_join outs threads buf x = all_calls f_acc l buf x.
Proof. exact reduce_private_correct. Qed.
Print Assumptions C42_private.

(** The branch with a shared buffer: any order of the calls. *)
Theorem C42_shared : forall V op e (f_neut f_acc : state -> buffer V -> buffer V) f_join adds place t r tr outs l works calls buf x,
  comm_monoid op e -> reduces op e place outs adds f_neut f_acc f_join -> respects adds ->
  (forall v u, tr_struct t <> View v u) -> distinct_dims (top_struct t) -> range_of t = Done r -> for_each t [] = Done l ->
  Forall2 (fun piece w => rg_for_each piece = Done w) (pieces tr r) works -> Permutation calls (concat works) ->
  In x (map place outs) -> reduce_shared f_acc calls buf x = all_calls f_acc l buf x.
Proof. exact reduce_shared_correct. Qed.
Print Assumptions C42_shared.

(** A matrix with 6 rows and 4 columns, traversed by columns. *)
Definition int4 : cty := {| ct_id := 1; ct_size := 4; ct_align := 4 |}.
Definition grid : struct := vec 1 (Dyn 6) (vec 2 (Dyn 4) (Scalar int4)).
Definition columns : trav := order (traverser [grid]) [LView (VHoist 2)].
Definition columns_range : range := {| rg_dim := 2; rg_trav := columns; rg_begin := 0; rg_end := 4 |}.
Definition done_ {A} (o : outcome (list A)) : list A := match o with Done l => l | _ => [] end.

Example C29_ex : distinct_dims (top_struct columns) /\ range_of columns = Done columns_range /\
  (exists l, for_each columns [] = Done l /\ List.length l = 24%nat) /\ ascending 0 [1; 1; 3] (rg_end columns_range) /\
  map (fun x => (rg_begin x, rg_end x)) (pieces (Split Keep (Split Keep (Split Keep Keep))) columns_range) = [(0, 2); (2, 3); (3, 4)] /\
  map (index_list (Union [grid])) (done_ (rg_for_each (rg_set columns_range 1 2))) = [[0; 1]; [1; 1]; [2; 1]; [3; 1]; [4; 1]; [5; 1]].
Proof.
  split; [vm_compute; reflexivity|]. split; [vm_compute; reflexivity|].
  split; [exists (done_ (for_each columns [])); split; vm_compute; reflexivity|]. split; [cbn; lia|]. split; vm_compute; reflexivity.
Qed.

Example C30_ex : let it := rg_begin_it columns_range in
  it_idx (it_plus it 3) = 3 /\ it_diff it (it_plus it 3) = -3 /\ it_compare (it_plus it 3) (rg_end_it columns_range) = Lt /\
  map (index_list (Union [grid])) (done_ (for_each (it_deref (it_plus it 3)) [])) = [[0; 3]; [1; 3]; [2; 3]; [3; 3]; [4; 3]; [5; 3]].
Proof. split; [vm_compute; reflexivity|]. split; [vm_compute; reflexivity|]. split; vm_compute; reflexivity. Qed.

Example C35_ex : 0 < 3 < W /\ rg_end columns_range + 3 <= W /\
  map (fun k => map (index_list (Union [grid])) (done_ (for_each (order (order (traverser [grid]) []) [LView (VStep 1 (Dyn k) (Dyn 4))]) []))) [1; 3] =
  [[[1; 0]; [1; 1]; [1; 2]; [1; 3]; [5; 0]; [5; 1]; [5; 2]; [5; 3]]; [[3; 0]; [3; 1]; [3; 2]; [3; 3]]].
Proof. rewrite W_eq. split; [lia|]. split; [cbn; lia|]. vm_compute. reflexivity. Qed.

(** Counting per column: the output has one element per column; two threads share three pieces. *)
Definition counts : struct := vec 2 (Dyn 4) (Scalar int4).
Definition place_of (s : struct) (st : state) : Z := match offset s st with Some v => vzd v | None => -1 end.
Definition count_at (st : state) (x : Z) : Z := if x =? 4 * asg_of st 2 then 1 else 0.
Definition set_at (s : struct) (v : Z -> Z) (st : state) (m : buffer Z) : buffer Z := fun x => if x =? place_of s st then v x else m x.

Lemma count_reduces s outs : reduces Z.add 0 (place_of s) outs count_at
  (fun st => set_at s (fun _ => 0) st) (fun st m x => m x + count_at st x) (fun st a b => set_at s (fun x => a x + b x) st a).
Proof. split; reflexivity. Qed.

Example C42_ex : let outs := done_ (for_each (traverser [counts]) []) in
  let works := map (fun x => done_ (rg_for_each x)) (pieces (Split Keep (Split Keep Keep)) columns_range) in
  comm_monoid Z.add 0 /\ respects count_at /\ NoDup (map (place_of counts) outs) /\ map (place_of counts) outs = [0; 4; 8; 12] /\
  Forall2 (fun piece w => rg_for_each piece = Done w) (pieces (Split Keep (Split Keep Keep)) columns_range) works /\
  map (fun w => List.length w) works = [12; 6; 6]%nat /\
  reduce_private (fun st => set_at counts (fun _ => 0) st) (fun st m x => m x + count_at st x) (fun st a b => set_at counts (fun x => a x + b x) st a)
    outs [(fun _ => 99, [nth 2 works []; nth 0 works []]); (fun _ => -7, [nth 1 works []])] (fun _ => 100) 8 = 106.
Proof.
  cbv zeta. split; [repeat split; intros; lia|]. split; [intros st st' x H; unfold count_at; rewrite (asg_same_get _ _ H 2); reflexivity|].
  assert (E : map (place_of counts) (done_ (for_each (traverser [counts]) [])) = [0; 4; 8; 12]) by (vm_compute; reflexivity).
  rewrite E. split; [repeat constructor; simpl; intuition discriminate|]. split; [reflexivity|].
  split; [repeat (constructor; [vm_compute; reflexivity|]); constructor|]. split; vm_compute; reflexivity.
Qed.

(** With an output structure that repeats its elements, every repetition is joined again: reducing the
    24 calls into a broadcast counter gives 48 more instead of 24. *)
Definition total_at (st : state) (x : Z) : Z := 1.
Definition repeated : struct := View (VSetLength 7 (Dyn 2)) (View (VBcast 7) (Scalar int4)).
Theorem C42_alias_refuted : exists threads, let outs := done_ (for_each (traverser [repeated]) []) in
  let acc := fun st (m : buffer Z) x => m x + total_at st x in let l := done_ (for_each columns []) in
  reduces Z.add 0 (place_of repeated) outs total_at
    (fun st => set_at repeated (fun _ => 0) st) acc (fun st a b => set_at repeated (fun x => a x + b x) st a) /\
  concat (map snd threads) = map (fun x => done_ (rg_for_each x)) (pieces Keep columns_range) /\
  reduce_private (fun st => set_at repeated (fun _ => 0) st) acc (fun st a b => set_at repeated (fun x => a x + b x) st a) outs threads (fun _ => 0) 0 = 48 /\
  all_calls acc l (fun _ => 0) 0 = 24.
Proof.
  exists [(fun _ => 5, [done_ (rg_for_each columns_range)])]. cbv zeta. split; [split; reflexivity|]. split; [reflexivity|]. split; vm_compute; reflexivity.
Qed.
Print Assumptions C42_alias_refuted.
