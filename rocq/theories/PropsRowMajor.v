(** * C08: scalar<T>() ^ vectors<D1, .., Dn>(L1, .., Ln) is the usual dense array *)

From Verif Require Import RowMajor PropsLayout.

(** [l] lists the dimensions with their lengths, [indexed st l]: the state gives each of them an index
    below its length.  [position] is i1 + L1 * (i2 + L2 * ...), [pairs] the (index, length) pairs. *)
Theorem C08_row_major : forall c l st, NoDup (map fst l) -> indexed st l ->
  0 <= ct_size c -> volume (lens l) * ct_size c < W ->
  exists o, offset (apply (p_vectors l) (Scalar c)) st = Some o /\ vz o = Some (position (pairs st l) * ct_size c).
Proof. exact vectors_offset. Qed.
Print Assumptions C08_row_major.

Theorem C08_size : forall c l st, Forall (fun x => vz (snd x) <> None) l ->
  0 <= ct_size c -> volume (lens l) * ct_size c < W ->
  exists n, get_size (apply (p_vectors l) (Scalar c)) st = Some n /\ vz n = Some (volume (lens l) * ct_size c).
Proof. exact vectors_size. Qed.
Print Assumptions C08_size.

(** vectors<x, y, z>(5, 1, 7) with a compile-time length of 1. *)
Example C08_ex :
  let l := [(1, Dyn 5); (2, Sta 1); (3, Dyn 7)] in
  let st := [(Idx 3, Dyn 6); (Idx 1, Sta 4); (Idx 2, Dyn 0)] in
  NoDup (map fst l) /\ indexed st l /\ volume (lens l) * ct_size int4 < W /\
  position (pairs st l) = 34 /\ offset (apply (p_vectors l) (Scalar int4)) st = Some (Dyn 136).
Proof.
  refine (conj _ (conj _ (conj _ (conj _ _)))).
  - repeat constructor; simpl; intuition discriminate.
  - repeat constructor; simpl; do 3 eexists; repeat split; vm_compute; reflexivity.
  - vm_compute. reflexivity.
  - vm_compute. reflexivity.
  - vm_compute. reflexivity.
Qed.
