(** * Loops over bags as programs of threads

    Definitions only.  The calls of the loops in Kernel.v and SectionKernel.v as sequences of single reads and writes of the output, so that
    threads can take turns between them (extra/traverser.hpp 270-300, interop/omp.hpp 12-45, interop/std_para.hpp 12-34, interop/tbb.hpp 17-62,
    interop/cuda_traverser.cuh 198-210: each runs the calls of a traversal, or the calls of its parts, in several threads).
    Simplification: the input bags do not change, so what is read from them is part of the program. *)

From Verif Require Export SpecPar Kernel SectionKernel.

(** [out[state] = f(out[state], in1[state], in2[state], ...)]: read the inputs, read the element, write it. *)
Definition call_body (f : bytes -> list bytes -> bytes) (ins : list bag) (st : state) : prog :=
  match reads ins st with
  | Done xs => Load st (fun v => Store st (f v xs) Stop)
  | _ => Stop
  end.

(** The calls of a part of the traversal one after another. *)
Definition part_body (f : bytes -> list bytes -> bytes) (ins : list bag) (sts : list state) : prog := in_turn (map (call_body f ins) sts).

(** A section (a thread of a CUDA launch): [result = init(out[trav])], the loop over the section, and [out[trav] = result]. *)
Definition section_body (f : bytes -> list bytes -> bytes) (init : bytes -> bytes) (ins : list bag) (u : trav) : prog :=
  match tr_state u, for_each u [] with
  | Some st, Done sts => Load st (fun v => match accumulate f ins (init v) sts with Done w => Store st w Stop | _ => Stop end)
  | _, _ => Stop
  end.
