(** * What launches should do

    Definitions only. *)

From Coq Require Export Permutation.
From Verif Require Export SpecTrav Cuda.

(** Every element has an index in [d], and [d] is not the dimension of a tuple. *)
Definition every_element_has (s : struct) (d : dim) : Prop :=
  forall st p, dims_of s st = Some p -> In (d, None) p.

(** The lengths of the dimensions used for blocks and threads are below 2^32. *)
Definition lengths_fit (t : trav) (ds : list dim) : Prop :=
  forall d v n, In d ds -> length_ (top_struct t) d [] = Some v -> vz v = Some n -> n < 2 ^ 32.
