(** * Loops over bags

    Definitions only.  The loops that the documentation shows: a traverser calls a function with every state, and the function
    combines the elements that several bags have at the state (docs/Traverser.md 464-475 and 567-574, docs/BasicUsage.md 249-253,
    docs/structs/rename.md 42-44).  Simplifications: the function writes one bag, once, and does not look at the state
    otherwise; the bags do not share memory. *)

From Verif Require Export Bag.

(** The elements of the bags at the state. *)
Fixpoint reads (ins : list bag) (st : state) : outcome (list bytes) :=
  match ins with
  | [] => Done []
  | b :: r => out_bind (bag_read b st) (fun v => out_map (cons v) (reads r st))
  end.

(** One call: [out[state] = f(out[state], read(state))] (interop/bag.hpp 172-190). *)
Definition update_with (f : bytes -> list bytes -> bytes) (read : state -> outcome (list bytes)) (out : bag) (st : state) : outcome bag :=
  out_bind (bag_read out st) (fun v => out_bind (read st) (fun xs => bag_write out st (f v xs))).

(** The calls one after another. *)
Fixpoint loop_with (f : bytes -> list bytes -> bytes) (read : state -> outcome (list bytes)) (out : bag) (sts : list state) : outcome bag :=
  match sts with
  | [] => Done out
  | st :: r => out_bind (update_with f read out st) (fun out' => loop_with f read out' r)
  end.

(** The function reads the bags at the state: [out[state] = f(out[state], in1[state], in2[state], ...)].  For example
    [row_sums[state] += matrix[state]] or [c[state] += a[state] * b[state]]. *)
Definition loop (f : bytes -> list bytes -> bytes) (ins : list bag) (out : bag) (sts : list state) : outcome bag :=
  loop_with f (reads ins) out sts.

(** [t.for_each([&](auto state) { ... })] (extra/traverser.hpp 197-201). *)
Definition run_loop (f : bytes -> list bytes -> bytes) (ins : list bag) (out : bag) (t : trav) : outcome bag :=
  out_bind (for_each t []) (loop f ins out).
