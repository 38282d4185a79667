(** * Loops that read neighbouring elements

    Definitions only.  Stencils: a function called with every state of a traversal of the inner part of a structure combines the
    elements around it (extra/shortcuts.hpp 240-250, tests/traverser_test.cpp 513-541).  Simplifications as in [Kernel]. *)

From Verif Require Export Kernel StateTools.

(** A bag and the differences at which it is read: [in[neighbor<dims...>(state, differences...)]] (shortcuts.hpp 240-250). *)
Definition bag_near := (bag * list (dim * val))%type.

Definition read_near (n : bag_near) (st : state) : outcome bytes :=
  match neighbor (snd n) st with Some st' => bag_read (fst n) st' | None => Rejected end.

(** The elements of the bags around the state. *)
Fixpoint reads_near (ins : list bag_near) (st : state) : outcome (list bytes) :=
  match ins with
  | [] => Done []
  | n :: r => out_bind (read_near n st) (fun v => out_map (cons v) (reads_near r st))
  end.

(** [out[state] = f(out[state], in1[neighbor(state)], in2[neighbor(state)], ...)], one call after another. *)
Definition stencil_loop (f : bytes -> list bytes -> bytes) (ins : list bag_near) (out : bag) (sts : list state) : outcome bag :=
  loop_with f (reads_near ins) out sts.

(** [t.for_each([&](auto state) { ... })] (extra/traverser.hpp 197-201). *)
Definition run_stencil (f : bytes -> list bytes -> bytes) (ins : list bag_near) (out : bag) (t : trav) : outcome bag :=
  out_bind (for_each t []) (stencil_loop f ins out).

(** [span<Dim1>(begin1, end1) ^ span<Dim2>(begin2, end2) ^ ...] (structs/slice.hpp 498-501). *)
Definition p_spans (l : list (dim * (val * val))) : proto := map (fun x => LView (VSpan (fst x) (fst (snd x)) (snd (snd x)))) l.
