(** * Specification: what the structure traits should say

    Definitions only. *)

From Verif Require Export SpecTrav SpecTools Traits Traverser.

(** For some choice of tuple indices the elements of [s] have the dimensions of [p], outermost first: with [None] for
    a dimension whose index may be any number, and with the number of components for a tuple. *)
Definition element_dims (s : struct) (p : list (dim * option Z)) : Prop :=
  exists sg a, signature s = Some sg /\ spath sg a = Some p.
