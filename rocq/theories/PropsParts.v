(** * C40 and C41: parts of structures *)

From Verif Require Import Parts Shortcuts Check PropsLayout.

(** ** C40 *)

(** Of two components of a tuple the earlier one ends before the later one starts, and the later one
    ends inside the tuple. *)
Theorem C40_components : forall d ts st, swf (Tuple d ts) = true -> signature (Tuple d ts) <> None -> lenok (Tuple d ts) (lenv_of st) ->
  (forall q v, get (Len q) st = Some v -> vz v <> None) -> fits (Tuple d ts) st ->
  forall j k tj tk oj ok sj sk n, 0 <= j < k -> k < W -> nthz ts j = Some tj -> nthz ts k = Some tk ->
  offset_of tj (Tuple d ts) (with_ [(Idx d, Sta j)] st) (Sta 0) = Some oj ->
  offset_of tk (Tuple d ts) (with_ [(Idx d, Sta k)] st) (Sta 0) = Some ok ->
  size_ tj (remove [Idx d] st) = Some sj -> size_ tk (remove [Idx d] st) = Some sk -> size_ (Tuple d ts) st = Some n ->
  exists a x b y m, vz oj = Some a /\ vz sj = Some x /\ vz ok = Some b /\ vz sk = Some y /\ vz n = Some m /\ a + x <= b /\ b + y <= m.
Proof. exact components_disjoint. Qed.
Print Assumptions C40_components.

(** A pair of a vector of 3 characters and a vector of 5 integers. *)
Definition char1 : cty := {| ct_id := 7; ct_size := 1; ct_align := 1 |}.
Definition part_a : struct := vec 2 (Dyn 3) (Scalar char1).
Definition part_b : struct := vec 2 (Dyn 5) (Scalar int4).
Definition part_ex : struct := Tuple 4 [part_a; part_b].
Example C40_ex : swf part_ex = true /\ signature part_ex <> None /\ lenok part_ex (lenv_of []) /\ fits part_ex [] /\
  exists oa ob, offset_of part_a part_ex (with_ [(Idx 4, Sta 0)] []) (Sta 0) = Some oa /\
    offset_of part_b part_ex (with_ [(Idx 4, Sta 1)] []) (Sta 0) = Some ob /\ vz oa = Some 0 /\ vz ob = Some 3 /\
    size_ part_a (remove [Idx 4] []) = Some (Dyn 3) /\ size_ part_b (remove [Idx 4] []) = Some (Dyn 20) /\ size_ part_ex [] = Some (Dyn 24).
Proof.
  split; [vm_compute; reflexivity|]. split; [vm_compute; discriminate|]. split; [apply lenokb_sound; vm_compute; reflexivity|].
  split; [vm_compute; reflexivity|]. exists (Sta 0), (Dyn 3). repeat (split; [vm_compute; reflexivity|]). vm_compute; reflexivity.
Qed.

(** The components are not aligned: the start of a component is rounded up for the size of the tuple, but not for
    the offset of the component. *)
Theorem C40_alignment_refuted : exists d ts k t st o a x y, swf (Tuple d ts) = true /\ signature (Tuple d ts) <> None /\ nthz ts k = Some t /\
  offset_of t (Tuple d ts) (with_ [(Idx d, Sta k)] st) (Sta 0) = Some o /\ align_ t st = Some a /\
  vz o = Some x /\ vz a = Some y /\ x mod y <> 0.
Proof.
  exists 4, [part_a; part_b], 1, part_b, [], (Dyn 3), (Sta 4), 3, 4.
  repeat (split; [first [vm_compute; reflexivity | vm_compute; discriminate]|]). vm_compute. discriminate.
Qed.
Print Assumptions C40_alignment_refuted.

(** ** C41 *)

(** Offsets compose: the offset of [x], a part of [t], which is a part of [s]. *)
Theorem C41_composes : forall s st t st1 x st2 o b a m, part_of s st t st1 -> part_of t st1 x st2 ->
  offset_of t s st (Sta 0) = Some o -> offset_of x t st1 (Sta 0) = Some b -> vz o = Some a -> vz b = Some m ->
  exists v, offset_of x s st (Sta 0) = Some v /\ vz v = Some (u64 (a + m)).
Proof. intros s st t st1 x st2 o b a m. exact (part_offset s st t st1 x st2 o a b m). Qed.
Print Assumptions C41_composes.

(** With the same outcome at compile time. *)
Theorem C41_exact : forall s st t st1 x st2, part_of s st t st1 -> part_of t st1 x st2 -> forall start,
  offset_of x s st start = do o <- offset_of t s st start; offset_of x t st1 o.
Proof. exact offset_compose. Qed.
Print Assumptions C41_exact.

(** [state_at<t>(s, state)]: offsets in [t] at that state are offsets in [s] at the original one. *)
Theorem C41_state_at : forall t s st st', state_at t s st = Some st' -> exists u, part_of s st u st' /\ same_type t u = true /\
  forall x st2 v, part_of u st' x st2 -> offset_of x s st (Sta 0) = Some v -> offset_of x u st' (Sta 0) = Some v.
Proof. exact state_at_offset. Qed.
Print Assumptions C41_state_at.

(** A slice of a vector of pairs; the second vector of the pair, and one integer in it. *)
Definition deep_ex : struct := View (VShift 3 (Dyn 1)) (vec 3 (Dyn 10) part_ex).
Definition deep_st : state := [(Idx 3, Dyn 2); (Idx 4, Sta 1); (Idx 2, Dyn 4)].
Example C41_ex : exists st1 st2, part_of deep_ex deep_st part_b st1 /\ part_of part_b st1 (Scalar int4) st2 /\
  offset_of part_b deep_ex deep_st (Sta 0) = Some (Dyn 75) /\ offset_of (Scalar int4) part_b st1 (Sta 0) = Some (Dyn 16) /\
  offset_of (Scalar int4) deep_ex deep_st (Sta 0) = Some (Dyn 91) /\
  state_at (vec 3 (Dyn 10) part_ex) deep_ex deep_st = Some (with_ [(Idx 3, Dyn 3)] deep_st).
Proof.
  eexists. eexists. split.
  { eapply in_view; [vm_compute; reflexivity|]. eapply in_view; [vm_compute; reflexivity|]. eapply in_vector.
    eapply in_tuple; [vm_compute; reflexivity|vm_compute; reflexivity|]. apply in_here. }
  split.
  { eapply in_view; [vm_compute; reflexivity|]. eapply in_vector. apply in_here. }
  split; [vm_compute; reflexivity|]. split; [vm_compute; reflexivity|]. split; vm_compute; reflexivity.
Qed.
