(** * Several structures traversed together: specification (C13) *)

From Verif Require Export SpecTrav.

(** The structure has the dimension. *)
Definition has_dim (s : struct) (q : dim) : Prop :=
  match signature s with Some sg => any_accept q sg = true | None => False end.

(** Whenever the structures together report a length of a dimension, each structure that has the dimension
    reports a length of it too, and it is not smaller (in particular: all the lengths may be equal). *)
Definition consistent (ss : list struct) : Prop :=
  forall s q st len n, In s ss -> has_dim s q -> (forall d, get (Len d) st = None) ->
    length_ (Union ss) q st = Some len -> vz len = Some n ->
    exists len' n', length_ s q st = Some len' /\ vz len' = Some n' /\ n <= n'.

(** No structure has a tuple dimension (the library traverses tuples alone, traverser.hpp 44-47). *)
Definition no_tuples (ss : list struct) : Prop := forall s, In s ss -> nodep s = true.
