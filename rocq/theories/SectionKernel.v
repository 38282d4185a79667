(** * Loops over bags, section by section

    Definitions only.  The nested loops that the documentation shows: each section of a traversal (or each thread of a CUDA launch)
    accumulates a value over its own elements and then stores it once, at the indices of the section (docs/Traverser.md 560-580 and 590-607,
    docs/Traverser.md 345-352).  Simplifications: as in [Kernel]; the sections run one after another, in any order. *)

From Verif Require Export Kernel Cuda.

(** [trav.for_each([&](auto state) { result = f(result, in1[state], in2[state], ...); })]. *)
Fixpoint accumulate (f : bytes -> list bytes -> bytes) (ins : list bag) (v : bytes) (sts : list state) : outcome bytes :=
  match sts with
  | [] => Done v
  | st :: r => out_bind (reads ins st) (fun xs => accumulate f ins (f v xs) r)
  end.

(** The body of a section: [result = init(out[trav])], the loop, and [out[trav] = result].  A traverser used as an index stands for its state
    (interop/bag.hpp 181-190, extra/traverser.hpp 190-194). *)
Definition store_section (f : bytes -> list bytes -> bytes) (init : bytes -> bytes) (ins : list bag) (out : bag) (u : trav) : outcome bag :=
  match tr_state u with
  | None => Rejected
  | Some st => out_bind (bag_read out st) (fun v => out_bind (for_each u []) (fun sts => out_bind (accumulate f ins (init v) sts) (bag_write out st)))
  end.

(** The sections one after another. *)
Fixpoint store_sections (f : bytes -> list bytes -> bytes) (init : bytes -> bytes) (ins : list bag) (out : bag) (us : list trav) : outcome bag :=
  match us with
  | [] => Done out
  | u :: r => out_bind (store_section f init ins out u) (fun out' => store_sections f init ins out' r)
  end.
