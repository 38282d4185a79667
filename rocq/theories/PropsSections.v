(** * C13 and C28: several structures together, and sections of a traversal *)

From Coq Require Import Permutation.
From Verif Require Import UnionTrav SpecSections Sections3 Check PropsLayout PropsTrav.

(** ** C13 *)

(** The states of [traverser(s...).for_each] name an element of each of the structures. *)
Theorem C13_in_range : forall ss l st s,
  distinct_dims (Union ss) -> lenok (Union ss) nolens -> no_tuples ss -> consistent ss ->
  for_each (traverser ss) [] = Done l -> In st l -> In s ss -> exists p, names_element s st p.
Proof. exact union_names. Qed.
Print Assumptions C13_in_range.

(** The dimensions are the dimensions of all the structures. *)
Theorem C13_dims : forall ss st p, no_tuples ss -> dims_of (Union ss) st = Some p ->
  forall q, In q (map fst p) <-> exists s, In s ss /\ has_dim s q.
Proof. exact union_dims. Qed.
Print Assumptions C13_dims.

(** A 4 x 3 matrix together with a 3 x 2 matrix. *)
Definition uni_a : struct := vec 2 (Dyn 4) (vec 3 (Dyn 3) (Scalar int4)).
Definition uni_b : struct := vec 5 (Dyn 2) (vec 3 (Dyn 3) (Scalar int4)).
Definition uni_l : list state := match for_each (traverser [uni_a; uni_b]) [] with Done l => l | _ => [] end.

Example C13_ex :
  distinct_dims (Union [uni_a; uni_b]) /\ lenok (Union [uni_a; uni_b]) nolens /\ no_tuples [uni_a; uni_b] /\ consistent [uni_a; uni_b] /\
  for_each (traverser [uni_a; uni_b]) [] = Done uni_l /\ List.length uni_l = 24%nat.
Proof.
  split; [vm_compute; reflexivity|]. split; [apply lenokb_sound; vm_compute; reflexivity|].
  split; [intros s [<-|[<-|[]]]; reflexivity|].
  split; [|split; vm_compute; reflexivity].
  intros s q st len n Hs Hq _ El En.
  assert (Ha : forall z, has_dim uni_a z -> z = 2 \/ z = 3).
  { intros z H. unfold has_dim in H. replace (signature uni_a) with (Some (SFun 2 ADyn (SFun 3 ADyn (SScalar int4)))) in H by (vm_compute; reflexivity).
    cbn [any_accept] in H. destruct (Z.eqb_spec 2 z); [auto|]. destruct (Z.eqb_spec 3 z); [auto|discriminate]. }
  assert (Hb : forall z, has_dim uni_b z -> z = 5 \/ z = 3).
  { intros z H. unfold has_dim in H. replace (signature uni_b) with (Some (SFun 5 ADyn (SFun 3 ADyn (SScalar int4)))) in H by (vm_compute; reflexivity).
    cbn [any_accept] in H. destruct (Z.eqb_spec 5 z); [auto|]. destruct (Z.eqb_spec 3 z); [auto|discriminate]. }
  exists len, n. split; [|split; [exact En|lia]]. rewrite <- El.
  destruct Hs as [<-|[<-|[]]]; [destruct (Ha q Hq) as [->| ->]|destruct (Hb q Hq) as [->| ->]];
    unfold length_; simpl; repeat rewrite ?has_with, ?has_remove, ?get_with, ?get_remove; simpl;
    repeat match goal with |- context [has ?t st] => destruct (has t st) end; reflexivity.
Qed.

(** Without consistent lengths it fails: the length of the first structure is used, and a vector of 3 is read at index 3. *)
Theorem C13_first_length : exists s1 s2 l st, for_each (traverser [s1; s2]) [] = Done l /\ In st l /\ ~ (exists p, names_element s2 st p).
Proof.
  exists (vec 2 (Dyn 4) (Scalar int4)), (vec 2 (Dyn 3) (Scalar int4)), (map (fun i => [(Idx 2, Dyn i)]) [0; 1; 2; 3]), [(Idx 2, Dyn 3)].
  split; [vm_compute; reflexivity|]. split; [cbn; auto|]. intros (p & E & H).
  replace (dims_of (vec 2 (Dyn 3) (Scalar int4)) [(Idx 2, Dyn 3)]) with (Some [(2, @None Z)]) in E by (vm_compute; reflexivity). injection E as <-.
  destruct (H 2 None (or_introl eq_refl)) as (ds & len & n & i & x & Hin & El & En & Ei & Ex & Hlt).
  cbn in Ei. injection Ei as <-. cbn in Ex.
  assert (Hn : len = Dyn 3).
  { revert El. unfold length_. simpl. repeat rewrite ?has_with, ?has_remove, ?get_with, ?get_remove. simpl.
    destruct (tag_mem (Idx 2) (map Idx ds)); simpl; congruence. }
  subst len. vm_compute in Ex, En. injection Ex as <-. injection En as <-. lia.
Qed.
Print Assumptions C13_first_length.

(** ** C28 *)

(** [t.for_sections<Dims...>] with an inner [for_each] passes the states of [t.for_each], each once, in some order. *)
Theorem C28_sections : forall ss p ds l us ls, let t := order (traverser ss) p in
  distinct_dims (top_struct t) -> lenok (top_struct t) nolens ->
  for_each t [] = Done l -> for_sections t ds = Done us -> Forall2 (fun x lx => for_each x [] = Done lx) us ls ->
  exists l', Permutation l' (concat ls) /\ Forall2 same_get l l'.
Proof. exact for_sections_perm. Qed.
Print Assumptions C28_sections.

(** The same for [t.for_dims<Dims...>]. *)
Theorem C28_dims : forall ss p ds l us ls, let t := order (traverser ss) p in
  distinct_dims (top_struct t) -> lenok (top_struct t) nolens -> no_empty_tuple (top_struct t) ->
  for_each t [] = Done l -> for_dims t ds = Done us -> Forall2 (fun x lx => for_each x [] = Done lx) us ls ->
  exists l', Permutation l' (concat ls) /\ Forall2 same_get l l'.
Proof. exact for_dims_perm. Qed.
Print Assumptions C28_dims.

(** The order: the elements sorted by the indices of the dimensions of the sections, then by the other indices. *)
Theorem C28_sections_order : forall ss p ds l us ls, let t := order (traverser ss) p in
  distinct_dims (top_struct t) -> lenok (top_struct t) nolens ->
  for_each t [] = Done l -> for_sections t ds = Done us -> Forall2 (fun x lx => for_each x [] = Done lx) us ls ->
  visited_in_order (sections_first ds) t (concat ls).
Proof. exact for_sections_order. Qed.
Print Assumptions C28_sections_order.

(** With [for_dims] the loops outside are nested in the order in which the dimensions are listed. *)
Theorem C28_dims_order : forall ss p ds l us ls, let t := order (traverser ss) p in
  distinct_dims (top_struct t) -> lenok (top_struct t) nolens -> no_empty_tuple (top_struct t) -> NoDup ds ->
  for_each t [] = Done l -> for_dims t ds = Done us -> Forall2 (fun x lx => for_each x [] = Done lx) us ls ->
  visited_in_order (dims_first ds) t (concat ls).
Proof. exact for_dims_order. Qed.
Print Assumptions C28_dims_order.

(** Sections by the outermost dimensions visit the elements in the order of the traversal itself. *)
Theorem C28_outermost : forall ss p ds l us ls, let t := order (traverser ss) p in
  distinct_dims (top_struct t) -> lenok (top_struct t) nolens -> outermost_dims ds (top_struct t) ->
  for_each t [] = Done l -> for_sections t ds = Done us -> Forall2 (fun x lx => for_each x [] = Done lx) us ls ->
  Forall2 same_get l (concat ls).
Proof. exact for_sections_outer. Qed.
Print Assumptions C28_outermost.

Definition done {A} (d : A) (o : outcome A) : A := match o with Done x => x | _ => d end.

(** Sections by the tuple dimension; the inner loops of the two components differ. *)
Definition sec_t : trav := order (traverser [trav_ex]) [].
Definition sec_us : list trav := done [] (for_sections sec_t [1]).
Definition sec_ls : list (list state) := map (fun x => done [] (for_each x [])) sec_us.

Example C28_sections_ex :
  distinct_dims (top_struct sec_t) /\ lenok (top_struct sec_t) nolens /\ for_each sec_t [] = Done (done [] (for_each sec_t [])) /\
  for_sections sec_t [1] = Done sec_us /\ Forall2 (fun x lx => for_each x [] = Done lx) sec_us sec_ls /\
  map (@List.length state) sec_ls = [6; 2]%nat /\ outermost_dims [1] (top_struct sec_t).
Proof.
  split; [vm_compute; reflexivity|]. split; [apply lenokb_sound; vm_compute; reflexivity|].
  split; [vm_compute; reflexivity|]. split; [vm_compute; reflexivity|]. split; [|split; vm_compute; reflexivity].
  repeat (constructor; [vm_compute; reflexivity|]). constructor.
Qed.

(** The columns of a 4 x 3 matrix outside: the sections visit the elements in another order. *)
Definition dim_t : trav := order (traverser [uni_a]) [LView (VReverse 2)].
Definition dim_us : list trav := done [] (for_dims dim_t [3]).
Definition dim_ls : list (list state) := map (fun x => done [] (for_each x [])) dim_us.

Example C28_dims_ex :
  distinct_dims (top_struct dim_t) /\ lenok (top_struct dim_t) nolens /\ no_empty_tuple (top_struct dim_t) /\
  for_each dim_t [] = Done (done [] (for_each dim_t [])) /\
  for_dims dim_t [3] = Done dim_us /\ Forall2 (fun x lx => for_each x [] = Done lx) dim_us dim_ls /\
  map (index_list uni_a) (concat dim_ls) = [[3; 0]; [2; 0]; [1; 0]; [0; 0]; [3; 1]; [2; 1]; [1; 1]; [0; 1]; [3; 2]; [2; 2]; [1; 2]; [0; 2]].
Proof.
  split; [vm_compute; reflexivity|]. split; [apply lenokb_sound; vm_compute; reflexivity|]. split; [vm_compute; reflexivity|].
  split; [vm_compute; reflexivity|]. split; [vm_compute; reflexivity|]. split; [|vm_compute; reflexivity].
  repeat (constructor; [vm_compute; reflexivity|]). constructor.
Qed.

(** [for_dims<z, x>] of a 2 x 3 x 2 cube [x], [y], [z]: sorted by [z], then [x], then [y]. *)
Definition cube_s : struct := vec 2 (Dyn 2) (vec 3 (Dyn 3) (vec 4 (Dyn 2) (Scalar int4))).
Definition cube_t : trav := order (traverser [cube_s]) [].
Definition cube_us : list trav := done [] (for_dims cube_t [4; 2]).
Definition cube_ls : list (list state) := map (fun x => done [] (for_each x [])) cube_us.

Example C28_dims_order_ex :
  distinct_dims (top_struct cube_t) /\ lenok (top_struct cube_t) nolens /\ no_empty_tuple (top_struct cube_t) /\ NoDup [4; 2] /\
  for_each cube_t [] = Done (done [] (for_each cube_t [])) /\
  for_dims cube_t [4; 2] = Done cube_us /\ Forall2 (fun x lx => for_each x [] = Done lx) cube_us cube_ls /\
  map (index_list_by (dims_first [4; 2]) cube_s) (concat cube_ls) =
    [[0; 0; 0]; [0; 0; 1]; [0; 0; 2]; [0; 1; 0]; [0; 1; 1]; [0; 1; 2]; [1; 0; 0]; [1; 0; 1]; [1; 0; 2]; [1; 1; 0]; [1; 1; 1]; [1; 1; 2]] /\
  map (index_list cube_s) (concat cube_ls) =
    [[0; 0; 0]; [0; 1; 0]; [0; 2; 0]; [1; 0; 0]; [1; 1; 0]; [1; 2; 0]; [0; 0; 1]; [0; 1; 1]; [0; 2; 1]; [1; 0; 1]; [1; 1; 1]; [1; 2; 1]].
Proof.
  split; [vm_compute; reflexivity|]. split; [apply lenokb_sound; vm_compute; reflexivity|]. split; [vm_compute; reflexivity|].
  split; [repeat constructor; cbn; lia|]. split; [vm_compute; reflexivity|]. split; [vm_compute; reflexivity|].
  split; [|split; vm_compute; reflexivity].
  repeat (constructor; [vm_compute; reflexivity|]). constructor.
Qed.
