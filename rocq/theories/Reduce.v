(** * Model of the parallel algorithms over ranges (interop/tbb.hpp, omp.hpp, std_para.hpp)

    Definitions only.  TBB splits the range, runs the body on the pieces on several threads in some order,
    and hands the thread-local objects to [combine_each] in some order; the schedule is a parameter.
    Simplification: the calls of the user's functions are atomic. *)

From Verif Require Export Range.

(** What is in a buffer, by offset. *)
Definition buffer (V : Type) := Z -> V.

Section Reduce.
  Variable V : Type.
  (** tbb.hpp 43-45: the functions passed by the user.  [f_join st to from] changes [to]. *)
  Variables (f_neut f_acc : state -> buffer V -> buffer V) (f_join : state -> buffer V -> buffer V -> buffer V).

  (** The calls [f(state, buffer)] of a traversal. *)
  Definition all_calls (f : state -> buffer V -> buffer V) (sts : list state) (m : buffer V) : buffer V :=
    fold_left (fun m st => f st m) sts m.

  (** tbb.hpp 68-76: what one thread does; [works] are the calls of its pieces, [garbage] is what [malloc]
      returned, [outs] are the states of the traversal of the output structure. *)
  Definition thread_result (outs : list state) (garbage : buffer V) (works : list (list state)) : buffer V :=
    fold_left (fun m w => all_calls f_acc w m) works (all_calls f_neut outs garbage).

  (** tbb.hpp 78-82: joining one private buffer. *)
  Definition join_into (outs : list state) (to from : buffer V) : buffer V :=
    fold_left (fun m st => f_join st m from) outs to.

  (** tbb.hpp 54-83: the private branch.  [threads] lists, in the order of [combine_each], what [malloc]
      gave the thread and the works it did. *)
  Definition reduce_private (outs : list state) (threads : list (buffer V * list (list state))) (out : buffer V) : buffer V :=
    fold_left (fun m th => join_into outs m (thread_result outs (fst th) (snd th))) threads out.

  (** tbb.hpp 48-53: the shared branch; [calls] is the order in which the calls happen to be made. *)
  Definition reduce_shared (calls : list state) (out : buffer V) : buffer V := all_calls f_acc calls out.

  (** tbb.hpp 47: which branch. *)
  Definition shares (t : trav) (out : struct) : option bool :=
    match top_dim (top_struct t), signature out with
    | Some d, Some sg => Some (all_accept d sg)
    | _, _ => None end.
End Reduce.
Arguments all_calls {V}. Arguments thread_result {V}. Arguments join_into {V}. Arguments reduce_private {V}. Arguments reduce_shared {V}.
