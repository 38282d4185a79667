(** * Model of step without a dimension and of the steps of CUDA thread groups (structs/slice.hpp, interop/cuda_step.cuh)

    Definitions only. *)

From Verif Require Export Range.

(** slice.hpp 659-679: [step(start, stride)].  The dimension is the outermost one of the structure it is applied to, which must not
    be a tuple's. *)
Definition auto_step (b r : val) (s : struct) : option proto := do d <- top_dim s; Some [LView (VStep d b r)].

(** [traverser.order(step(start, stride))] *)
Definition auto_order (t : trav) (b r : val) : option trav := do p <- auto_step b r (top_struct t); Some (order t p).

(** cuda_step.cuh 10-33: [cuda_step<Dim>(group)], [cuda_step_block<Dim>()], [cuda_step_grid<Dim>()] in the thread with the number [rank]
    of a group of [n] threads; cuda_step.cuh 35-48: without a dimension.  The numbers become [std::size_t] (slice.hpp 655, 678). *)
Definition cuda_step (d : dim) (rank n : Z) : proto := [LView (VStep d (Dyn rank) (Dyn n))].
Definition cuda_auto_order (t : trav) (rank n : Z) : option trav := auto_order t (Dyn rank) (Dyn n).
