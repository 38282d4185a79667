(** * Specification: tuples of one component *)

From Verif Require Export Spec.

(** Every one-component tuple dimension reports length 1. *)
Definition singles_ok (s : struct) : Prop :=
  forall sg d st d' r len n, signature s = Some sg -> sig_find_dim d st sg = Some (SDep d' [r]) ->
    length_ s d [] = Some len -> vz len = Some n -> n = 1.
