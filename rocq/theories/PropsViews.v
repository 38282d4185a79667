(** * C14 - C18, C23 - C25: what the single views do *)

From Coq Require Import Permutation.
From Verif Require Import Views5 Check PropsLayout PropsOrder.

(** [edited] can always be met. *)
Theorem edit_edited : forall st upd, edited st upd (edit st upd).
Proof.
  intros st upd u. induction upd as [|[t [v|]] r IH]; [reflexivity| |]; cbn [edit edit_look];
    [rewrite get_with; cbn [get fst map]|rewrite get_remove; cbn [tag_mem existsb]]; destruct (tag_eqb_spec u t); auto.
Qed.
Print Assumptions edit_edited.

(** A 6 x 4 matrix. *)
Definition mat : struct := vec 1 (Dyn 6) (vec 2 (Dyn 4) (Scalar int4)).
Definition at_ (i j : Z) : state := idx [(1, Dyn i); (2, Dyn j)].

(** ** C14: hoist and reorder *)

Theorem C14_hoist : forall ds t st p', NoDup ds -> distinct_dims t -> signature (apply (p_hoist ds) t) <> None -> dims_of t st = Some p' ->
  works_as (apply (p_hoist ds) t) st t st /\
  (forall q, get (Idx q) st = None -> length_as (apply (p_hoist ds) t) q st t q st) /\
  exists rest, dims_of (apply (p_hoist ds) t) st = Some (map (fun x => (x, None)) ds ++ rest) /\
    Permutation (map (fun x => (x, None)) ds ++ rest) p'.
Proof. exact hoists. Qed.
Print Assumptions C14_hoist.

(** A reorder that leaves out no dimension. *)
Theorem C14_reorder : forall ds t st, signature (View (VReorder ds) t) <> None -> view_complete (VReorder ds) t = true ->
  works_as (View (VReorder ds) t) st t st /\
  forall q, get (Idx q) st = None -> length_as (View (VReorder ds) t) q st t q st.
Proof. exact reorder_follows. Qed.
Print Assumptions C14_reorder.

Theorem C14_reorder_complete : forall ds t sg, signature t = Some sg -> sig_complete sg = true -> signature (View (VReorder ds) t) <> None ->
  (forall q, any_accept q sg = true -> In q ds) -> view_complete (VReorder ds) t = true.
Proof. exact reorder_complete. Qed.
Print Assumptions C14_reorder_complete.

Theorem C14_reorder_dims : forall ds t st p, distinct_dims t -> view_complete (VReorder ds) t = true ->
  dims_of (View (VReorder ds) t) st = Some p ->
  map fst p = ds /\ exists p', dims_of t st = Some p' /\ Permutation p p'.
Proof. exact reorder_path. Qed.
Print Assumptions C14_reorder_dims.

Definition cube : struct := vec 3 (Dyn 5) mat.
Example C14_ex :
  distinct_dims cube /\ dims_of cube [] = Some [(3, None); (1, None); (2, None)] /\
  signature (apply (p_hoist [2; 3]) cube) <> None /\
  dims_of (apply (p_hoist [2; 3]) cube) [] = Some [(2, None); (3, None); (1, None)] /\
  signature (View (VReorder [1; 2; 3]) cube) <> None /\ view_complete (VReorder [1; 2; 3]) cube = true /\
  dims_of (View (VReorder [1; 2; 3]) cube) [] = Some [(1, None); (2, None); (3, None)] /\
  (let st := with_ [(Idx 3, Dyn 2)] (at_ 1 3) in
   offset cube st = Some (Dyn 220) /\ offset (View (VReorder [1; 2; 3]) cube) st = Some (Dyn 220)).
Proof. repeat split; vm_compute; try reflexivity; discriminate. Qed.

(** ** C15: rename *)

Theorem C15_rename : forall ps t st st', signature (View (VRename ps) t) <> None -> renamed ps st st' ->
  works_as (View (VRename ps) t) st t st' /\
  forall d, mem d (map snd ps) && negb (mem d (map fst ps)) = false ->
    length_as (View (VRename ps) t) (rename_dim ps d) st t d st'.
Proof. exact rename_follows. Qed.
Print Assumptions C15_rename.

Theorem C15_rename_back : forall ps t st, signature (View (VRename (swap_pairs ps)) (View (VRename ps) t)) <> None ->
  (forall d, In d (map snd ps) -> ~ In d (map fst ps) -> unused d st) ->
  works_as (View (VRename (swap_pairs ps)) (View (VRename ps) t)) st t st /\
  forall d, ~ (In d (map snd ps) /\ ~ In d (map fst ps)) -> length_as (View (VRename (swap_pairs ps)) (View (VRename ps) t)) d st t d st.
Proof. exact Views2.rename_back. Qed.
Print Assumptions C15_rename_back.

(** Exchanging the two names, and a new name. *)
Example C15_ex :
  signature (View (VRename [(1, 2); (2, 1)]) mat) <> None /\ renamed [(1, 2); (2, 1)] (at_ 3 5) (at_ 5 3) /\
  offset (View (VRename [(1, 2); (2, 1)]) mat) (at_ 3 5) = Some (Dyn 92) /\ offset mat (at_ 5 3) = Some (Dyn 92) /\
  signature (View (VRename [(1, 7)]) mat) <> None /\ renamed [(1, 7)] (idx [(7, Dyn 5); (2, Dyn 3)]) (at_ 5 3) /\
  signature (View (VRename (swap_pairs [(1, 7)])) (View (VRename [(1, 7)]) mat)) <> None.
Proof.
  assert (Hr : forall (ps : list (dim * dim)) st st', (forall d : dim, In d (map fst ps ++ map snd ps ++ [1; 2; 7]) -> let hidden := mem d (map snd ps) && negb (mem d (map fst ps)) in
      get (Idx d) st' = (if hidden then None else get (Idx (rename_dim ps d)) st) /\ get (Len d) st' = (if hidden then None else get (Len (rename_dim ps d)) st)) ->
      (forall d, d <> 1 -> d <> 2 -> d <> 7 -> get (Idx d) st = None /\ get (Len d) st = None /\ get (Idx d) st' = None /\ get (Len d) st' = None) -> renamed ps st st').
  { intros ps st st' H1 H2 d. cbv zeta. destruct (in_dec Z.eq_dec d (map fst ps ++ map snd ps ++ [1; 2; 7])) as [Hi|Hi]; [apply H1, Hi|].
    rewrite !in_app_iff in Hi. assert (Hf : mem d (map fst ps) = false) by (apply mem_false; intuition). rewrite (rename_none ps d Hf).
    assert (Hs : mem d (map snd ps) = false) by (apply mem_false; intuition). 
    rewrite Hs. cbn [andb].
    assert (d <> 1 /\ d <> 2 /\ d <> 7) as (A & B & C) by (simpl in Hi; intuition). destruct (H2 d A B C) as (-> & -> & -> & ->). auto. }
  assert (Ho : forall a x b y d, d <> a -> d <> b -> get (Idx d) (idx [(a, x); (b, y)]) = None /\ get (Len d) (idx [(a, x); (b, y)]) = None).
  { intros a x b y d Ha Hb. unfold idx. cbn [map fst snd get]. destruct (tag_eqb_spec (Idx d) (Idx a)); [congruence|]. destruct (tag_eqb_spec (Idx d) (Idx b)); [congruence|].
    destruct (tag_eqb_spec (Len d) (Idx a)); [congruence|]. destruct (tag_eqb_spec (Len d) (Idx b)); [congruence|]. auto. }
  refine (conj _ (conj _ (conj _ (conj _ (conj _ (conj _ _)))))); try (vm_compute; congruence); try (vm_compute; reflexivity).
  - apply Hr; [|intros d H1 H2 H3; unfold at_; destruct (Ho 1 (Dyn 3) 2 (Dyn 5) d), (Ho 1 (Dyn 5) 2 (Dyn 3) d); auto].
    intros d Hd. simpl in Hd. intuition; subst; vm_compute; split; reflexivity.
  - apply Hr; [|intros d H1 H2 H3; unfold at_; destruct (Ho 7 (Dyn 5) 2 (Dyn 3) d), (Ho 1 (Dyn 5) 2 (Dyn 3) d); auto].
    intros d Hd. simpl in Hd. intuition; subst; vm_compute; split; reflexivity.
Qed.

(** ** C16: slice, span, shift *)

Theorem C16_slice : forall d b n t st st', signature (View (VSlice d b n) t) <> None ->
  edited st [moved d (fun i => vadd i b) st] st' ->
  works_as (View (VSlice d b n) t) st t st' /\
  (forall q, q <> d -> get (Idx q) st = None -> length_as (View (VSlice d b n) t) q st t q st') /\
  has_length (View (VSlice d b n) t) d st = has_length t d st' /\
  (has_length t d st' = Some true -> length_ (View (VSlice d b n) t) d st = Some n).
Proof. exact slice_follows. Qed.
Print Assumptions C16_slice.

Theorem C16_span : forall d b e t st st', signature (View (VSpan d b e) t) <> None ->
  edited st [moved d (fun i => vadd i b) st] st' ->
  works_as (View (VSpan d b e) t) st t st' /\
  (forall q, q <> d -> get (Idx q) st = None -> length_as (View (VSpan d b e) t) q st t q st') /\
  has_length (View (VSpan d b e) t) d st = has_length t d st' /\
  (has_length t d st' = Some true -> length_ (View (VSpan d b e) t) d st = Some (vsub e b)).
Proof. exact span_follows. Qed.
Print Assumptions C16_span.

(** A shift also moves a length that the state gives. *)
Theorem C16_shift : forall d b t st st', signature (View (VShift d b) t) <> None ->
  edited st [moved d (fun i => vadd i b) st; (Len d, option_map (fun l => vadd l b) (get (Len d) st))] st' ->
  works_as (View (VShift d b) t) st t st' /\
  (forall q, q <> d -> get (Idx q) st = None -> length_as (View (VShift d b) t) q st t q st') /\
  (get (Len d) st = None -> length_ (View (VShift d b) t) d st = option_map (fun l => vsub l b) (length_ t d st')) /\
  (forall l, get (Len d) st = Some l -> length_ (View (VShift d b) t) d st = Some l).
Proof. exact shift_follows. Qed.
Print Assumptions C16_shift.

(** The moved index and the length as numbers: no wrap-around inside the documented bounds, and a
    valid index of the view is a valid index of the original. *)
Theorem C16_index : forall i b x y n len, vz i = Some x -> vz b = Some y -> x < n -> y + n <= len -> len < W ->
  vz (vadd i b) = Some (y + x) /\ 0 <= y + x < len.
Proof. exact interval_index. Qed.
Print Assumptions C16_index.
Theorem C16_length : forall e b x y, vz e = Some x -> vz b = Some y -> y <= x -> vz (vsub e b) = Some (x - y).
Proof. exact interval_length. Qed.
Print Assumptions C16_length.

(** Compositions add up. *)
Theorem C16_compose : forall v1 v2 v3 d a b t st i,
  moves_by v1 d a -> moves_by v2 d b -> moves_by v3 d (vadd b a) ->
  signature (View v2 (View v1 t)) <> None -> signature (View v3 t) <> None ->
  get (Len d) st = None -> get (Idx d) st = Some i -> is_size i -> is_size a -> is_size b ->
  works_as (View v2 (View v1 t)) st (View v3 t) st.
Proof. exact moves_compose. Qed.
Print Assumptions C16_compose.
Theorem C16_compose_length : forall d a b t st l, signature (View (VShift d b) (View (VShift d a) t)) <> None ->
  signature (View (VShift d (vadd b a)) t) <> None ->
  unused d st -> length_ t d st = Some l -> is_size l -> is_size a -> is_size b ->
  length_ (View (VShift d b) (View (VShift d a) t)) d st = length_ (View (VShift d (vadd b a)) t) d st.
Proof. exact shift_shift_length. Qed.
Print Assumptions C16_compose_length.

(** A traversal of the view visits the elements of the interval; further views may rearrange it. *)
Theorem C16_traversal : forall ss v p2 l1 l2,
  let u := Union ss in let tv := order (traverser ss) [LView v] in let t2 := order tv p2 in
  selecting v = true -> documented v u nolens ->
  uswf (top_struct t2) = true -> lenok (top_struct t2) nolens -> over rearranges (top_struct tv) (top_struct t2) nolens ->
  for_each (traverser ss) [] = Done l1 -> for_each t2 [] = Done l2 -> (forall st, In st l2 -> complete u st) ->
  Permutation (map (index_list u) l2) (map (index_list u) (filter (selects v u) l1)).
Proof. exact select_plain. Qed.
Print Assumptions C16_traversal.

Definition done {A} (o : outcome (list A)) : list A := match o with Done l => l | _ => [] end.
Example C16_ex :
  signature (View (VSlice 1 (Dyn 2) (Dyn 3)) mat) <> None /\ signature (View (VSpan 1 (Dyn 2) (Dyn 5)) mat) <> None /\
  signature (View (VShift 1 (Dyn 2)) mat) <> None /\
  offset (View (VSlice 1 (Dyn 2) (Dyn 3)) mat) (at_ 1 3) = Some (Dyn 60) /\
  offset mat (edit (at_ 1 3) [moved 1 (fun i => vadd i (Dyn 2)) (at_ 1 3)]) = Some (Dyn 60) /\ offset mat (at_ 3 3) = Some (Dyn 60) /\
  length_ (View (VSlice 1 (Dyn 2) (Dyn 3)) mat) 1 [] = Some (Dyn 3) /\
  length_ (View (VSpan 1 (Dyn 2) (Dyn 5)) mat) 1 [] = Some (Dyn 3) /\
  length_ (View (VShift 1 (Dyn 2)) mat) 1 [] = Some (Dyn 4) /\
  moves_by (VSlice 1 (Dyn 2) (Dyn 3)) 1 (Dyn 2) /\ moves_by (VShift 1 (Dyn 1)) 1 (Dyn 1) /\ moves_by (VShift 1 (Dyn 3)) 1 (vadd (Dyn 1) (Dyn 2)) /\
  signature (View (VShift 1 (Dyn 1)) (View (VSlice 1 (Dyn 2) (Dyn 3)) mat)) <> None /\
  offset (View (VShift 1 (Dyn 1)) (View (VSlice 1 (Dyn 2) (Dyn 3)) mat)) (at_ 1 3) = offset (View (VShift 1 (Dyn 3)) mat) (at_ 1 3).
Proof.
  repeat split; try (vm_compute; congruence); try (vm_compute; reflexivity).
  - right. left. eexists. reflexivity.
  - left. reflexivity.
  - left. vm_compute. reflexivity.
Qed.

Definition cut : trav := order (order (traverser [mat]) [LView (VSlice 1 (Dyn 2) (Dyn 3))]) [LView (VReverse 2)].
Example C16_traversal_ex : let v := VSlice 1 (Dyn 2) (Dyn 3) in
  selecting v = true /\ documented v (Union [mat]) nolens /\ uswf (top_struct cut) = true /\ lenok (top_struct cut) nolens /\
  over rearranges (top_struct (order (traverser [mat]) [LView v])) (top_struct cut) nolens /\
  for_each (traverser [mat]) [] = Done (done (for_each (traverser [mat]) [])) /\
  for_each cut [] = Done (done (for_each cut [])) /\ (forall st, In st (done (for_each cut [])) -> complete (Union [mat]) st) /\
  map (index_list (Union [mat])) (done (for_each cut [])) =
    [[2; 3]; [2; 2]; [2; 1]; [2; 0]; [3; 3]; [3; 2]; [3; 1]; [3; 0]; [4; 3]; [4; 2]; [4; 1]; [4; 0]].
Proof.
  cbv zeta. refine (conj _ (conj _ (conj _ (conj _ (conj _ (conj _ (conj _ (conj _ _)))))))).
  - reflexivity.
  - split; [reflexivity|]. intros c. cbn [view_good view_lenv].
    match goal with |- on_len ?x _ => replace x with (Some 6) by (vm_compute; reflexivity) end. vm_compute. discriminate.
  - vm_compute. reflexivity.
  - apply lenokb_sound. vm_compute. reflexivity.
  - change (top_struct cut) with (View (VReverse 2) (View (VSlice 1 (Dyn 2) (Dyn 3)) (Union [mat]))). constructor.
    + split; [split; [reflexivity|]|exact I]. intros c. exact I.
    + constructor. intros d. reflexivity.
  - vm_compute. reflexivity.
  - vm_compute. reflexivity.
  - apply completeb_sound. vm_compute. reflexivity.
  - vm_compute. reflexivity.
Qed.

(** ** C17: step *)

Theorem C17_step : forall d b r t st st', signature (View (VStep d b r) t) <> None ->
  edited st [moved d (fun i => vadd (vmul i r) b) st] st' ->
  works_as (View (VStep d b r) t) st t st' /\
  (forall q, q <> d -> get (Idx q) st = None -> length_as (View (VStep d b r) t) q st t q st') /\
  (get (Idx d) st = None ->
   length_ (View (VStep d b r) t) d st = option_map (fun l => vdiv (vsub (vsub (vadd l r) b) (Sta 1)) r) (length_ t d st)).
Proof. exact step_follows. Qed.
Print Assumptions C17_step.

Theorem C17_index : forall i b r x n k, vz i = Some x -> vz b = Some k -> vz r = Some n -> x * n + k < W ->
  vz (vadd (vmul i r) b) = Some (x * n + k).
Proof. exact step_index. Qed.
Print Assumptions C17_index.

Theorem C17_length : forall d b r t st l len n k, signature (View (VStep d b r) t) <> None -> get (Idx d) st = None ->
  length_ t d st = Some l -> vz l = Some len -> vz r = Some n -> vz b = Some k -> 0 < n -> k < n -> len + n <= W ->
  exists w, length_ (View (VStep d b r) t) d st = Some w /\ vz w = Some ((len + n - k - 1) / n).
Proof. exact step_length_num. Qed.
Print Assumptions C17_length.

(** The lengths of step(0,n), ..., step(n-1,n) add up. *)
Theorem C17_lengths : forall d r t st l len n starts lens, get (Idx d) st = None ->
  length_ t d st = Some l -> vz l = Some len -> vz r = Some n -> 0 < n -> len + n <= W ->
  map vz starts = map Some (zseq n) ->
  Forall2 (fun b x => signature (View (VStep d b r) t) <> None /\ exists w, length_ (View (VStep d b r) t) d st = Some w /\ vz w = Some x) starts lens ->
  fold_right Z.add 0 lens = len.
Proof. exact step_lengths. Qed.
Print Assumptions C17_lengths.

(** Every index is reached from exactly one view at exactly one index. *)
Theorem C17_once : forall len n x, 0 < n -> 0 <= x < len ->
  exists! kj : Z * Z, let (k, j) := kj in 0 <= k < n /\ 0 <= j < (len + n - k - 1) / n /\ j * n + k = x.
Proof. exact step_index_unique. Qed.
Print Assumptions C17_once.

(** Traversing the n views one after another visits the same elements as traversing the original. *)
Theorem C17_partition : forall ss d r n l1 starts ls,
  let u := Union ss in
  vz r = Some n -> 0 < n -> map vz starts = map Some (zseq n) ->
  (forall c, on_len (plen u nolens c d) (fun len => len + n <= W)) ->
  for_each (traverser ss) [] = Done l1 ->
  (forall st, In st l1 -> exists p, dims_of u st = Some p /\ In d (map fst p)) ->
  Forall2 (fun b l => let t := order (traverser ss) [LView (VStep d b r)] in
     uswf (top_struct t) = true /\ lenok (top_struct t) nolens /\ for_each t [] = Done l /\ (forall st, In st l -> complete u st)) starts ls ->
  Permutation (map (index_list u) l1) (concat (map (map (index_list u)) ls)).
Proof. exact step_partition. Qed.
Print Assumptions C17_partition.

Definition stepped (k : Z) : trav := order (traverser [mat]) [LView (VStep 1 (Dyn k) (Dyn 4))].
Example C17_ex :
  map vz [Dyn 0; Dyn 1; Dyn 2; Dyn 3] = map Some (zseq 4) /\
  map (fun k => length_ (View (VStep 1 (Dyn k) (Dyn 4)) mat) 1 []) [0; 1; 2; 3] = [Some (Dyn 2); Some (Dyn 2); Some (Dyn 1); Some (Dyn 1)] /\
  (forall c, on_len (plen (Union [mat]) nolens c 1) (fun len => len + 4 <= W)) /\
  (forall st, In st (done (for_each (traverser [mat]) [])) -> exists p, dims_of (Union [mat]) st = Some p /\ In 1 (map fst p)) /\
  Forall2 (fun b l => let t := order (traverser [mat]) [LView (VStep 1 b (Dyn 4))] in
     uswf (top_struct t) = true /\ lenok (top_struct t) nolens /\ for_each t [] = Done l /\ (forall st, In st l -> complete (Union [mat]) st))
    [Dyn 0; Dyn 1; Dyn 2; Dyn 3] (map (fun k => done (for_each (stepped k) [])) [0; 1; 2; 3]) /\
  map (index_list (Union [mat])) (done (for_each (stepped 1) [])) = [[1; 0]; [1; 1]; [1; 2]; [1; 3]; [5; 0]; [5; 1]; [5; 2]; [5; 3]].
Proof.
  refine (conj _ (conj _ (conj _ (conj _ (conj _ _))))).
  - vm_compute. reflexivity.
  - vm_compute. reflexivity.
  - intros c. match goal with |- on_len ?x _ => replace x with (Some 6) by (vm_compute; reflexivity) end. vm_compute. discriminate.
  - intros st _. exists [(1, None); (2, None)]. split; [reflexivity|]. left. reflexivity.
  - cbn [map]. repeat apply Forall2_cons; try apply Forall2_nil; cbv zeta;
      (split; [vm_compute; reflexivity|split; [apply lenokb_sound; vm_compute; reflexivity|split; [vm_compute; reflexivity|apply completeb_sound; vm_compute; reflexivity]]]).
  - vm_compute. reflexivity.
Qed.

(** ** C18: reverse *)

Theorem C18_reverse : forall d t st cs i l st', signature (View (VReverse d) t) <> None ->
  get (Idx d) st = Some i -> edited st [(Idx d, None)] cs -> length_ t d cs = Some l ->
  edited st [(Idx d, Some (vsub (vsub l (Sta 1)) i))] st' ->
  works_as (View (VReverse d) t) st t st'.
Proof. exact reverse_follows. Qed.
Print Assumptions C18_reverse.

(** Without an index of [d], in particular for all lengths. *)
Theorem C18_lengths : forall d t st, signature (View (VReverse d) t) <> None -> get (Idx d) st = None ->
  works_as (View (VReverse d) t) st t st /\ forall q, length_as (View (VReverse d) t) q st t q st.
Proof. exact reverse_none. Qed.
Print Assumptions C18_lengths.

Theorem C18_index : forall i l x n, vz i = Some x -> vz l = Some n -> x < n -> vz (vsub (vsub l (Sta 1)) i) = Some (n - 1 - x).
Proof. exact reverse_index. Qed.
Print Assumptions C18_index.

(** A run-time index, or an index and a length that are constants. *)
Theorem C18_twice : forall d t st cs i l, signature (View (VReverse d) (View (VReverse d) t)) <> None ->
  get (Idx d) st = Some i -> edited st [(Idx d, None)] cs -> length_ t d cs = Some l ->
  is_size l -> is_size i -> ((exists x, i = Dyn x) \/ (exists x y, i = Sta x /\ l = Sta y)) ->
  works_as (View (VReverse d) (View (VReverse d) t)) st t st.
Proof. exact reverse_twice. Qed.
Print Assumptions C18_twice.

Example C18_ex :
  signature (View (VReverse 1) mat) <> None /\ signature (View (VReverse 1) (View (VReverse 1) mat)) <> None /\
  edit (at_ 1 3) [(Idx 1, None)] = idx [(2, Dyn 3)] /\ length_ mat 1 (idx [(2, Dyn 3)]) = Some (Dyn 6) /\
  offset (View (VReverse 1) mat) (at_ 1 3) = Some (Dyn 76) /\ offset mat (at_ 4 3) = Some (Dyn 76) /\
  offset (View (VReverse 1) (View (VReverse 1) mat)) (at_ 1 3) = offset mat (at_ 1 3).
Proof. repeat split; vm_compute; congruence. Qed.

(** The lengths of the other dimensions are those of the unreversed index: wrong below a tuple. *)
Theorem C18_other_lengths_refuted : exists d t st cs i l st' q,
  signature (View (VReverse d) t) <> None /\ get (Idx d) st = Some i /\ edited st [(Idx d, None)] cs /\ length_ t d cs = Some l /\
  edited st [(Idx d, Some (vsub (vsub l (Sta 1)) i))] st' /\ q <> d /\ get (Idx q) st = None /\
  length_ (View (VReverse d) t) q st = Some (Dyn 3) /\ length_ t q st' = Some (Dyn 5).
Proof.
  exists 1, (Tuple 1 [vec 2 (Dyn 3) (Scalar int4); vec 2 (Dyn 5) (Scalar int4)]), (idx [(1, Sta 0)]), (edit (idx [(1, Sta 0)]) [(Idx 1, None)]),
    (Sta 0), (Sta 2), (edit (idx [(1, Sta 0)]) [(Idx 1, Some (vsub (vsub (Sta 2) (Sta 1)) (Sta 0)))]), 2.
  repeat split; try apply edit_edited; vm_compute; congruence.
Qed.
Print Assumptions C18_other_lengths_refuted.

(** ** C23: fix and set_length *)

Theorem C23_fix : forall d i t st st', signature (View (VFix d i) t) <> None ->
  edited st [(Idx d, Some i); (Len d, None)] st' ->
  works_as (View (VFix d i) t) st t st' /\
  (forall q, q <> d -> get (Idx q) st = None -> length_as (View (VFix d i) t) q st t q st') /\
  has_length (View (VFix d i) t) d st = Some false.
Proof. exact fix_follows. Qed.
Print Assumptions C23_fix.

Theorem C23_set_length : forall d n t st st', signature (View (VSetLength d n) t) <> None ->
  edited st [(Len d, Some n)] st' ->
  works_as (View (VSetLength d n) t) st t st' /\
  (forall q, get (Idx q) st = None -> length_as (View (VSetLength d n) t) q st t q st').
Proof. exact set_length_follows. Qed.
Print Assumptions C23_set_length.

Theorem C23_commute : forall v w d e t st, setter v d -> setter w e -> d <> e ->
  signature (View v (View w t)) <> None -> signature (View w (View v t)) <> None ->
  works_as (View v (View w t)) st (View w (View v t)) st /\
  (forall q, q <> d -> q <> e -> get (Idx q) st = None -> length_as (View v (View w t)) q st (View w (View v t)) q st).
Proof. exact setters_commute. Qed.
Print Assumptions C23_commute.

Example C23_ex :
  signature (View (VFix 1 (Dyn 4)) mat) <> None /\ setter (VFix 1 (Dyn 4)) 1 /\ setter (VSetLength 3 (Dyn 9)) 3 /\
  (let t := Vector 3 mat in signature (View (VFix 1 (Dyn 4)) (View (VSetLength 3 (Dyn 9)) t)) <> None /\
     signature (View (VSetLength 3 (Dyn 9)) (View (VFix 1 (Dyn 4)) t)) <> None) /\
  offset (View (VFix 1 (Dyn 4)) mat) (idx [(2, Dyn 3)]) = Some (Dyn 76) /\
  offset mat (edit (idx [(2, Dyn 3)]) [(Idx 1, Some (Dyn 4)); (Len 1, None)]) = Some (Dyn 76).
Proof. repeat split; try (vm_compute; congruence); [left|right]; eexists; reflexivity. Qed.

(** docs/structs/set_length.md: setting a length that is already set is a compile-time error.  It is
    not: the program compiles and the inner length stays. *)
Theorem C23_set_twice_refuted : exists d n n' t, n <> n' /\
  signature (View (VSetLength d n') (View (VSetLength d n) t)) <> None /\
  length_ (View (VSetLength d n') (View (VSetLength d n) t)) d [] = Some n.
Proof. exists 1, (Dyn 6), (Dyn 7), (Vector 1 (Scalar int4)). repeat split; vm_compute; congruence. Qed.
Print Assumptions C23_set_twice_refuted.

(** ** C24: join *)

Theorem C24_join : forall a b d t st cs h i st', signature (View (VJoin a b d) t) <> None ->
  edited st (dropped [d; a; b]) cs -> has_length t a cs = Some h -> has_length t b cs = Some h ->
  get (Idx d) st = Some i -> (get (Len d) st = None \/ h = false) ->
  edited st ([(Idx a, Some i); (Idx b, Some i); (Len a, get (Len d) st); (Len b, get (Len d) st)] ++ dropped [d]) st' ->
  works_as (View (VJoin a b d) t) st t st' /\
  (forall q, get (Idx q) st = None -> length_as (View (VJoin a b d) t) q st t q st').
Proof. exact join_follows. Qed.
Print Assumptions C24_join.

Definition square : struct := vec 1 (Dyn 4) (vec 2 (Dyn 4) (Scalar int4)).
Example C24_ex : let st := idx [(3, Dyn 2)] in
  signature (View (VJoin 1 2 3) square) <> None /\ has_length square 1 (edit st (dropped [3; 1; 2])) = Some true /\
  has_length square 2 (edit st (dropped [3; 1; 2])) = Some true /\ get (Len 3) st = None /\
  offset_of (Scalar int4) (View (VJoin 1 2 3) square) st (Sta 0) = Some (Dyn 40) /\
  offset_of (Scalar int4) square (at_ 2 2) (Sta 0) = Some (Dyn 40).
Proof. cbv zeta. repeat split; vm_compute; congruence. Qed.

(** The joined dimension has no length, so that the diagonal cannot be traversed. *)
Theorem C24_traversal_refuted : exists a b d t n,
  signature (View (VJoin a b d) t) <> None /\ length_ t a [] = Some (Dyn n) /\ length_ t b [] = Some (Dyn n) /\
  has_length (View (VJoin a b d) t) d [] = Some false /\ for_each (traverser [View (VJoin a b d) t]) [] = Rejected.
Proof. exists 1, 2, 3, square, 4. repeat split; vm_compute; congruence. Qed.
Print Assumptions C24_traversal_refuted.

(** ** C25: bcast *)

Theorem C25_bcast : forall d t st st', signature (View (VBcast d) t) <> None -> edited st (dropped [d]) st' ->
  works_as (View (VBcast d) t) st t st' /\
  (forall q, q <> d -> get (Idx q) st = None -> length_as (View (VBcast d) t) q st t q st') /\
  (get (Idx d) st = None -> length_ (View (VBcast d) t) d st = get (Len d) st).
Proof. exact bcast_follows. Qed.
Print Assumptions C25_bcast.

Theorem C25_independent : forall d t st st', signature (View (VBcast d) t) <> None ->
  (forall q, q <> d -> get (Idx q) st = get (Idx q) st' /\ get (Len q) st = get (Len q) st') ->
  works_as (View (VBcast d) t) st (View (VBcast d) t) st'.
Proof. exact bcast_independent. Qed.
Print Assumptions C25_independent.

Example C25_ex : let s := View (VSetLength 3 (Dyn 8)) (View (VBcast 3) mat) in
  signature (View (VBcast 3) mat) <> None /\ length_ s 3 [] = Some (Dyn 8) /\
  offset s (with_ [(Idx 3, Dyn 5)] (at_ 2 1)) = offset mat (at_ 2 1) /\ offset mat (at_ 2 1) = Some (Dyn 36).
Proof. cbv zeta. repeat split; vm_compute; congruence. Qed.
