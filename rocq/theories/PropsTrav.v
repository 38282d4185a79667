(** * C11: a traverser visits every element exactly once, in order *)

From Coq Require Import Sorted.
From Verif Require Import TravDef Check PropsLayout.

(** [traverser(s...).for_each(f)]: the states passed to [f] list the elements of the structures, in
    the lexicographic order of their indices, the outermost dimension being the most significant. *)
Theorem C11_for_each : forall ss l,
  distinct_dims (Union ss) -> lenok (Union ss) nolens ->
  for_each (traverser ss) [] = Done l -> enumerates (Union ss) l.
Proof. exact for_each_enumerates. Qed.
Print Assumptions C11_for_each.

Theorem C11_for_each_one : forall s l,
  distinct_dims s -> lenok s nolens ->
  for_each (traverser [s]) [] = Done l -> enumerates s l.
Proof. exact for_each_one. Qed.
Print Assumptions C11_for_each_one.

(** With any order: the loops list the elements of the reordered structure. *)
Theorem C11_ordered : forall t l,
  distinct_dims (top_struct t) -> lenok (top_struct t) nolens -> for_sections t [] = Done l ->
  exists sts, enumerates (top_struct t) sts /\ l = map (fun st => order t (p_fix st)) sts.
Proof. exact sections_enumerate. Qed.
Print Assumptions C11_ordered.

(** No loop bound is undefined. *)
Theorem C11_defined : forall t,
  uswf (top_struct t) = true -> distinct_dims (top_struct t) -> no_empty_tuple (top_struct t) ->
  lenok (top_struct t) nolens -> (forall a, good (top_struct t) nolens a) -> for_sections t [] <> Undefined.
Proof. exact sections_defined. Qed.
Print Assumptions C11_defined.

(** What [enumerates] says about repetitions. *)
Theorem C11_once : forall s l, enumerates s l -> NoDup (map (index_list s) l).
Proof. exact enumerates_nodup. Qed.
Print Assumptions C11_once.

(** A pair of a 2 x 3 matrix with columns in blocks of 2 (one incomplete) and a vector of 2. *)
Definition trav_ex : struct :=
  Tuple 1 [View (VSetLength 4 (Dyn 2)) (View (VBlocksDyn 3 5 4 6) (vec 3 (Dyn 3) (vec 2 (Dyn 2) (Scalar int4))));
           vec 2 (Dyn 2) (Scalar int4)].

Definition trav_list : list state := match for_each (traverser [trav_ex]) [] with Done l => l | _ => [] end.

Example C11_ex :
  distinct_dims trav_ex /\ lenok trav_ex nolens /\ for_each (traverser [trav_ex]) [] = Done trav_list /\
  map (index_list trav_ex) trav_list =
    [[0; 0; 0; 0; 0]; [0; 0; 0; 0; 1]; [0; 0; 1; 0; 0]; [0; 0; 1; 0; 1]; [0; 1; 0; 0; 0]; [0; 1; 0; 0; 1]; [1; 0]; [1; 1]].
Proof.
  split; [vm_compute; reflexivity|]. split; [apply lenokb_sound; vm_compute; reflexivity|].
  split; vm_compute; reflexivity.
Qed.

Example C11_defined_ex : let t := traverser [trav_ex] in
  uswf (top_struct t) = true /\ distinct_dims (top_struct t) /\ no_empty_tuple (top_struct t) /\
  lenok (top_struct t) nolens /\ (forall a, good (top_struct t) nolens a).
Proof.
  cbv zeta. change (top_struct (traverser [trav_ex])) with (Union [trav_ex]).
  split; [vm_compute; reflexivity|]. split; [vm_compute; reflexivity|]. split; [vm_compute; reflexivity|].
  split; [apply lenokb_sound; vm_compute; reflexivity|]. intros a. apply good_one. unfold trav_ex. cbn [good map nthz].
  destruct (a 1 =? 0); [|destruct (a 1 - 1 =? 0); [|exact I]].
  - split; [exact I|]. split; [|exact I]. cbn [view_good view_lenv]. split; [|split; [|exact I]].
    + split; [vm_compute; discriminate|].
      match goal with |- on_len ?x _ => replace x with (Some 3) by (vm_compute; reflexivity) end. vm_compute. discriminate.
    + repeat (split; [exact I|]). cbn. auto.
  - repeat split.
Qed.
