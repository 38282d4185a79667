(** * C10, C27: which parts of a state matter *)

From Verif Require Import Foreign Shortcuts PropsLayout.

(** C10.  A structure is written with certain dimension names ([mentions]).  Two states that have
    the same entries for those names get the same answers, including whether the query compiles:
    entries for other dimensions, and the order of the entries, are ignored.  ([signature s <> None]:
    the structure itself compiles.)  For [length<q>] the entries for [q] matter as well. *)
Theorem C10_foreign_ignored : forall s st st',
  signature s <> None -> same_entries (mentions s) st st' ->
  has_size s st = has_size s st' /\ size_ s st = size_ s st' /\ align_ s st = align_ s st' /\
  has_offset s st = has_offset s st' /\ offset s st = offset s st' /\
  (forall x, has_offset_of x s st = has_offset_of x s st' /\ offset_of x s st (Sta 0) = offset_of x s st' (Sta 0)) /\
  (forall q, same_entries (eq q) st st' -> has_length s q st = has_length s q st' /\ length_ s q st = length_ s q st').
Proof. exact foreign_ignored. Qed.
Print Assumptions C10_foreign_ignored.

(** C10 for one added entry. *)
Theorem C10_add_foreign : forall s st d v,
  signature s <> None -> ~ mentions s d ->
  offset s (with_ [(Idx d, v)] st) = offset s st /\ offset s (with_ [(Len d, v)] st) = offset s st /\
  size_ s (with_ [(Idx d, v)] st) = size_ s st /\ size_ s (with_ [(Len d, v)] st) = size_ s st.
Proof. exact add_foreign. Qed.
Print Assumptions C10_add_foreign.

(** A state with two foreign entries in front. *)
Example C10_ex :
  mentions ex_s 1 /\ ~ mentions ex_s 77 /\ signature ex_s <> None /\
  same_entries (mentions ex_s) ex_st (with_ [(Idx 77, Dyn 5); (Len 78, Sta 3)] ex_st) /\
  (exists o, offset ex_s ex_st = Some o).
Proof.
  refine (conj _ (conj _ (conj _ (conj _ _)))).
  - unfold mentions. vm_compute. tauto.
  - unfold mentions. vm_compute. intuition discriminate.
  - vm_compute. discriminate.
  - intros d Hd. split; symmetry; unfold mentions in Hd; vm_compute in Hd;
      intuition (subst; vm_compute; reflexivity).
  - eexists. vm_compute. reflexivity.
Qed.

(** The same is not true of all dimensions missing from the signature: a length of a dimension in a
    tuple component that [fix] has discarded is still needed for the size.
    Here: tuple<t>(vector<x>, vector<y>) ^ fix<t>(0), whose signature has [x] only. *)
Definition C10_fixed := View (VFix 9 (Sta 0)) (Tuple 9 [Vector 1 (Scalar int4); Vector 2 (Scalar int4)]).
Theorem C10_signature_refuted : exists sg st,
  signature C10_fixed = Some sg /\ any_accept 2 sg = false /\
  has_size C10_fixed st = Some false /\ has_size C10_fixed (with_ [(Len 2, Dyn 4)] st) = Some true.
Proof. exists (SFun 1 ADyn (SScalar int4)), [(Len 1, Dyn 3)]. repeat split; vm_compute; reflexivity. Qed.
Print Assumptions C10_signature_refuted.

(** C27.  [s] and [s'] differ at most in run-time parameters ([struct_rel same_vtype]), and the states
    have entries of the same types for the dimensions mentioned: constants are equal, run-time values
    are arbitrary.  Then availability is the same, the same queries compile, and their results have
    the same types. *)
Theorem C27_compile_time : forall s s' st st',
  struct_rel same_vtype s s' -> signature s <> None -> same_entry_types (mentions s) st st' ->
  has_size s st = has_size s' st' /\ orel same_vtype (size_ s st) (size_ s' st') /\ orel same_vtype (align_ s st) (align_ s' st') /\
  has_offset s st = has_offset s' st' /\ orel same_vtype (offset s st) (offset s' st') /\
  (forall x, has_offset_of x s st = has_offset_of x s' st' /\ orel same_vtype (offset_of x s st (Sta 0)) (offset_of x s' st' (Sta 0))) /\
  (forall q, same_entry_types (eq q) st st' -> has_length s q st = has_length s' q st' /\ orel same_vtype (length_ s q st) (length_ s' q st')).
Proof. exact compile_time. Qed.
Print Assumptions C27_compile_time.

(** Two matrices with different run-time lengths. *)
Example C27_ex :
  let s n m := vec 2 (Dyn n) (vec 1 (Dyn m) (Scalar int4)) in
  let st i j := [(Idx 1, Dyn i); (Idx 2, Dyn j)] in
  struct_rel same_vtype (s 3 4) (s 30 1) /\ signature (s 3 4) <> None /\
  same_entry_types (mentions (s 3 4)) (st 1 2) (st 0 17) /\ has_offset (s 3 4) (st 1 2) = Some true.
Proof.
  refine (conj _ (conj _ (conj _ _))).
  - repeat constructor.
  - vm_compute. discriminate.
  - intros d Hd. unfold mentions in Hd. vm_compute in Hd. intuition (subst; vm_compute; auto).
  - vm_compute. reflexivity.
Qed.
