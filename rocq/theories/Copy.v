(** * Copying a bag element by element

    Definitions only. *)

From Verif Require Export Bag.

(** [to[state] = from[state]] (docs/structs/rename.md 42-44; interop/bag.hpp 172-190). *)
Definition copy_one (from to : bag) (st : state) : outcome bag := out_bind (bag_read from st) (fun v => bag_write to st v).

(** The calls one after another. *)
Fixpoint copy_calls (from to : bag) (sts : list state) : outcome bag :=
  match sts with
  | [] => Done to
  | st :: r => out_bind (copy_one from to st) (fun to' => copy_calls from to' r)
  end.

(** [t.for_each([&](auto state) { to[state] = from[state]; })] (extra/traverser.hpp 197-201). *)
Definition copy_bag (from to : bag) (t : trav) : outcome bag := out_bind (for_each t []) (copy_calls from to).
