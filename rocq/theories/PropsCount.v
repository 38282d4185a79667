(** * C36 and C43: counting iterations, copying an index space *)

From Verif Require Import Count Like Check PropsLayout PropsTrav.

(** ** C36 *)

(** [index_space_size(s)] is the number of states [traverser(s).for_each] visits, modulo 2^64. *)
Theorem C36_index_space_size : forall s v n l,
  distinct_dims s -> lenok s nolens -> singles_ok s ->
  index_space_size s = Some v -> vz v = Some n -> for_each (traverser [s]) [] = Done l ->
  n = u64 (Z.of_nat (List.length l)).
Proof. exact index_space_count. Qed.
Print Assumptions C36_index_space_size.

(** A 3 x 5 array of pairs, of which columns 1, 2 and 3 are selected. *)
Definition cnt_ex : struct := vec 2 (Dyn 3) (View (VSpan 3 (Dyn 1) (Dyn 4)) (vec 3 (Dyn 5) (Tuple 4 [Scalar int4; Scalar int4]))).
Definition cnt_l : list state := match for_each (traverser [cnt_ex]) [] with Done l => l | _ => [] end.

Example C36_ex :
  distinct_dims cnt_ex /\ lenok cnt_ex nolens /\ singles_ok cnt_ex /\ for_each (traverser [cnt_ex]) [] = Done cnt_l /\
  List.length cnt_l = 18%nat /\ exists v, index_space_size cnt_ex = Some v /\ vz v = Some 18.
Proof.
  split; [vm_compute; reflexivity|]. split; [apply lenokb_sound; vm_compute; reflexivity|].
  split; [|split; [vm_compute; reflexivity|split; [vm_compute; reflexivity|exists (Dyn 18); split; vm_compute; reflexivity]]].
  intros sg d st d' r len n Es E El En.
  replace (signature cnt_ex) with (Some (SFun 2 ADyn (SFun 3 ADyn (SDep 4 [SScalar int4; SScalar int4])))) in Es by (vm_compute; reflexivity).
  injection Es as <-. cbn [sig_find_dim] in E. destruct (2 =? d); [discriminate|]. destruct (3 =? d); [discriminate|]. destruct (4 =? d); [discriminate|].
  destruct (get (Idx 4) st) as [v|]; [|discriminate]. destruct (vstatic v) as [k|]; [|discriminate].
  cbn [map sig_find_dim nthz] in E. destruct (k =? 0); [discriminate|]. destruct (k - 1 =? 0); discriminate.
Qed.

(** For a tuple with dimensions inside its components the query does not compile, although the traversal does. *)
Theorem C36_tuple_refuted : exists s l, distinct_dims s /\ for_each (traverser [s]) [] = Done l /\ index_space_size s = None.
Proof.
  exists (Tuple 4 [vec 2 (Dyn 3) (Scalar int4); Scalar int4]),
    (match for_each (traverser [Tuple 4 [vec 2 (Dyn 3) (Scalar int4); Scalar int4]]) [] with Done l => l | _ => [] end).
  split; [vm_compute; reflexivity|]. split; vm_compute; reflexivity.
Qed.
Print Assumptions C36_tuple_refuted.

(** ** C43 *)

(** [scalar ^ vectors_like(s)] has the dimensions of [s], in the same order, with the same lengths. *)
Theorem C43_vectors_like : forall s st c p,
  nodep s = true -> distinct_dims s -> p_vectors_like_all s st = Some p ->
  (forall st', dims_of (apply p (Scalar c)) st' = dims_of s st') /\
  (forall q st' ds, dims_of s st' = Some ds -> In q (map fst ds) -> has (Idx q) st' = false ->
     length_ (apply p (Scalar c)) q st' = length_ s q st).
Proof. exact vectors_like_same. Qed.
Print Assumptions C43_vectors_like.

(** A matrix stored by columns, looked at through a hoist and a slice. *)
Definition like_ex : struct := View (VHoist 3) (View (VSpan 3 (Dyn 1) (Dyn 4)) (vec 2 (Dyn 3) (vec 3 (Dyn 5) (Scalar int4)))).
Example C43_ex : nodep like_ex = true /\ distinct_dims like_ex /\
  exists p, p_vectors_like_all like_ex [] = Some p /\ option_map (map fst) (dims_of (apply p (Scalar int4)) []) = Some [3; 2] /\
    length_ (apply p (Scalar int4)) 3 [] = Some (Dyn 3).
Proof. split; [vm_compute; reflexivity|]. split; [vm_compute; reflexivity|]. eexists.
  split; [vm_compute; reflexivity|]. split; vm_compute; reflexivity. Qed.
