(** * What it means to use a structure correctly

    Definitions only; the theorems about memory are stated with these. *)

From Verif Require Export Good.

(** The dimensions that need an index in state [st], outermost first.  A tuple's index decides
    which dimensions follow.  [(d, Some n)]: the dimension of a tuple with [n] components;
    [(d, None)]: any other dimension. *)
Definition dims_of (s : struct) (st : state) : option (list (dim * option Z)) :=
  do sg <- signature s; spath sg (asg_of st).

(** The index of [q] is below the length that the structure reports for [q].  The length is asked
    for in a state from which the index of [q] (and possibly others) has been removed, since
    [length] is only available for dimensions without an index. *)
Definition index_below_length (s : struct) (st : state) (q : dim) : Prop :=
  exists ds len n i x,
    In q ds /\ length_ s q (remove (map Idx ds) st) = Some len /\ vz len = Some n /\
    get (Idx q) st = Some i /\ vz i = Some x /\ x < n.

(** The state names one element: every dimension has an index, and it is in range. *)
Definition names_element (s : struct) (st : state) (p : list (dim * option Z)) : Prop :=
  dims_of s st = Some p /\
  forall d k, In (d, k) p ->
    match k with
    | Some n => exists i x, get (Idx d) st = Some i /\ vz i = Some x
    | None => index_below_length s st d
    end.

(** The preconditions of the documentation hold (Good.v), lengths are defined values and merged
    dimensions are not given a length through the state. *)
Definition used_correctly (s : struct) (st : state) : Prop :=
  swf s = true /\ lenok s (lenv_of st) /\ good s (lenv_of st) (asg_of st) /\
  (forall d v, get (Len d) st = Some v -> vz v <> None).

(** The memory of the whole structure fits the address space: its size as an exact number. *)
Definition fits (s : struct) (st : state) : Prop := isize s (lenv_of st) < W.

(** The two states give the same lengths. *)
Definition same_lengths (st1 st2 : state) : Prop := forall d, get (Len d) st1 = get (Len d) st2.
