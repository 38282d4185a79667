(** * Model of CUDA launches over a traverser (interop/cuda_traverser.cuh)

    Definitions only. *)

From Verif Require Export Traverser.

(** cuda_traverser.cuh 182, 188: the conversion of a length to [uint]. *)
Definition u32 (x : Z) : Z := x mod 2 ^ 32.

(** The dimensions given to [cuda_threads], a pair (block dimension, thread dimension) for each of x, y, z
    (cuda_traverser.cuh 222-241; the code has overloads for one, two and three pairs). *)
Definition cuda_pairs := list (dim * dim).

(** The order in which [get_fixes] applies the fixes (cuda_traverser.cuh 145-157, 173-176): for each
    pair the thread dimension first. *)
Definition cuda_order (ps : cuda_pairs) : list dim := flat_map (fun x => [snd x; fst x]) ps.

(** cuda_traverser.cuh 178-188: one component of [grid_dim] or [block_dim]. *)
Definition launch_dim (t : trav) (d : dim) : outcome (dim * Z) :=
  match length_ (top_struct t) d [] with
  | Some v => match vz v with Some n => Done (d, u32 n) | None => Undefined end
  | None => Rejected
  end.

Fixpoint out_list {A} (l : list (outcome A)) : outcome (list A) :=
  match l with
  | [] => Done []
  | o :: r => out_bind o (fun x => out_map (cons x) (out_list r))
  end.

(** [grid_dim()] and [block_dim()].  The components of [dim3] that are not given are 1. *)
Definition launch_dims (t : trav) (ps : cuda_pairs) : outcome (list (dim * Z)) :=
  out_list (map (launch_dim t) (cuda_order ps)).

(** The threads of a launch: all combinations of [blockIdx] and [threadIdx].  A launch with an extent of
    zero starts no thread (CUDA reports an error).  Limits of the device on the extents are not modelled. *)
Fixpoint launch_threads (ds : list (dim * Z)) : list state :=
  match ds with
  | [] => [[]]
  | (d, n) :: r => flat_map (fun i => map (cons (Idx d, Dyn i)) (launch_threads r)) (zseq n)
  end.

(** cuda_traverser.cuh 198-210: [simple_run] starts the kernel with [inner()]; in each thread the
    dimensions are fixed to the thread's indices.  [cuda_fix_t] (50-141) is [fix_t] with a run-time index,
    except that it does not answer [has_length] for its own dimension, which a traversal does not ask. *)
Definition cuda_launch (t : trav) (ps : cuda_pairs) : outcome (list trav) :=
  out_map (fun ds => map (inner t) (launch_threads ds)) (launch_dims t ps).

(** cuda_traverser.cuh 190-194: [operator bool], the lengths are not converted here. *)
Definition cuda_bool (t : trav) (ps : cuda_pairs) : outcome bool :=
  out_map (forallb (fun n => negb (n =? 0)))
    (out_list (map (fun d => match length_ (top_struct t) d [] with
                             | Some v => match vz v with Some n => Done n | None => Undefined end
                             | None => Rejected end) (map snd ps ++ map fst ps))).
