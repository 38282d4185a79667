(** * Reductions into bags, in parallel

    Definitions only.  [tbb_reduce] with a bag as the output (interop/tbb.hpp 43-105, docs/Traverser.md 460-550).  The functions of the user are of the
    documented form: [f_neut] stores one value, [f_acc] reads input bags at its state and updates one element of the output, which may depend on what
    it read, and [f_join] combines two elements.  Simplifications: each call is atomic; the bags do not share memory. *)

From Verif Require Export Kernel Reduce.

(** docs/Traverser.md 488-491 and 536-540: [out[place] = f(out[place], values)]; [place] depends on the state and on the values read. *)
Definition add_at (f : bytes -> list bytes -> bytes) (read : state -> outcome (list bytes)) (place : state -> list bytes -> state) (out : bag) (st : state) : outcome bag :=
  out_bind (read st) (fun xs => out_bind (bag_read out (place st xs)) (fun v => bag_write out (place st xs) (f v xs))).
Fixpoint add_all (f : bytes -> list bytes -> bytes) (read : state -> outcome (list bytes)) (place : state -> list bytes -> state) (out : bag) (sts : list state) : outcome bag :=
  match sts with
  | [] => Done out
  | st :: r => out_bind (add_at f read place out st) (fun out' => add_all f read place out' r)
  end.

(** docs/Traverser.md 483-486: [out[state] = e], for all the elements of the output (tbb.hpp 73). *)
Fixpoint fill (e : bytes) (b : bag) (sts : list state) : outcome bag :=
  match sts with
  | [] => Done b
  | st :: r => out_bind (bag_write b st e) (fun b' => fill e b' r)
  end.

(** docs/Traverser.md 493-496: [left[state] = op(left[state], right[state])], for all the elements of the output (tbb.hpp 79-81).  The right operand of an
    assignment is evaluated first. *)
Fixpoint join_all (op : bytes -> bytes -> bytes) (left right : bag) (sts : list state) : outcome bag :=
  match sts with
  | [] => Done left
  | st :: r => out_bind (bag_read right st) (fun w => out_bind (bag_read left st) (fun v => out_bind (bag_write left st (op v w)) (fun l => join_all op l right r)))
  end.

Section ReduceBag.
  Variables (op : bytes -> bytes -> bytes) (e : bytes) (f : bytes -> list bytes -> bytes).
  Variables (read : state -> outcome (list bytes)) (place : state -> list bytes -> state).

  (** tbb.hpp 67-76, 92-99: a thread allocates its copy ([fresh] is what [malloc] returned), fills it, and makes its calls. *)
  Definition thread_bag (s : struct) (outs : list state) (fresh : bytes) (calls : list state) : outcome bag :=
    out_bind (fill e (make_bag_at s false fresh) outs) (fun b => add_all f read place b calls).

  (** tbb.hpp 78-82, 100-104: the copies are joined into the output one after another; a copy is read through a [const void *]. *)
  Fixpoint join_threads (outs : list state) (threads : list (bytes * list (list state))) (out : bag) : outcome bag :=
    match threads with
    | [] => Done out
    | th :: r => out_bind (thread_bag (bg_struct out) outs (fst th) (concat (snd th))) (fun b =>
        out_bind (join_all op out (make_bag_at (bg_struct out) true (bg_data b)) outs) (join_threads outs r))
    end.

  (** tbb.hpp 43-105.  The schedule: [calls] is the order of the calls if the output is shared, [threads] lists the pieces of work done by each thread
      if it is not.  The data of the output must be writable ([out_bag.data()] is converted to [void *]). *)
  Definition tbb_reduce_bag (t : trav) (out : bag) (calls : list state) (threads : list (bytes * list (list state))) : outcome bag :=
    match bg_policy out, shares t (bg_struct out) with
    | ConstRaw, _ | _, None => Rejected
    | _, Some true => add_all f read place out calls
    | _, Some false => out_bind (for_each (traverser [bg_struct out]) []) (fun outs => join_threads outs threads out)
    end.
End ReduceBag.
