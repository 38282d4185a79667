(** * Accumulating section by section: specification (C59)

    Definitions only. *)

From Coq Require Export Permutation.
From Verif Require Export SpecCuda Range SectionKernel SpecKernel.

(** The ways to cut a traversal into sections; a section may be cut again. *)
Inductive cut_into (t : trav) : list trav -> Prop :=
| cut_sections : forall ds us, distinct_dims (top_struct t) -> for_sections t ds = Done us -> cut_into t us
| cut_dims : forall ds us, distinct_dims (top_struct t) -> no_empty_tuple (top_struct t) -> for_dims t ds = Done us -> cut_into t us
| cut_threads : forall ps us, distinct_dims (top_struct t) -> NoDup (cuda_order ps) ->
    (forall d, In d (cuda_order ps) -> has_dim (top_struct t) d /\ every_element_has (top_struct t) d) -> lengths_fit t (cuda_order ps) ->
    cuda_launch t ps = Done us -> cut_into t us
| cut_iterate : forall r, distinct_dims (top_struct t) -> range_of t = Done r -> cut_into t (map (rg_nth r) (zseq (rg_size r)))
| cut_again : forall us1 u us2 vs, cut_into t (us1 ++ u :: us2) -> cut_into u vs -> cut_into t (us1 ++ vs ++ us2).

(** The section has the indices [x] of the output. *)
Definition section_at (out : bag) (u : trav) (x : asg) : Prop := exists st, tr_state u = Some st /\ named (bg_struct out) x st.

(** Each section has the indices of one element of the output, and no two of them have the same. *)
Definition one_section_each (out : bag) (lo : list (dim * Z)) (us : list trav) : Prop :=
  (forall u, In u us -> exists x, in_box lo x /\ section_at out u x) /\
  forall us1 u us2 u' x, us = us1 ++ u :: us2 -> In u' (us1 ++ us2) -> section_at out u x -> section_at out u' x -> False.
