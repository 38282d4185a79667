(** * Model of ranges and iterators over traversers

    interop/traverser_iter.hpp, and the functions of interop/tbb.hpp that run over a range.
    Definitions only. *)

From Verif Require Export Traverser.

(** traverser_iter.hpp 19-26: an iterator.  [ptrdiff_t] arguments are converted to [size_t] before the
    arithmetic, so they are taken modulo 2^64. *)
Record iter := { it_dim : dim; it_trav : trav; it_idx : Z }.

(** traverser_iter.hpp 132-138 *)
Record range := { rg_dim : dim; rg_trav : trav; rg_begin : Z; rg_end : Z }.

Definition it_at (it : iter) (i : Z) : iter := {| it_dim := it_dim it; it_trav := it_trav it; it_idx := u64 i |}.
(** The conversion of a [size_t] to [ptrdiff_t]. *)
Definition to_signed (z : Z) : Z := if z <? W / 2 then z else z - W.

(** traverser_iter.hpp 60-63 *)
Definition it_diff (a b : iter) : Z := to_signed (u64 (it_idx a - it_idx b)).
(** traverser_iter.hpp 65-68, 75-78, 85-88, 95-99 *)
Definition it_plus (a : iter) (k : Z) : iter := it_at a (it_idx a + k).
(** traverser_iter.hpp 70-73, 80-83, 90-93, 101-105 *)
Definition it_minus (a : iter) (k : Z) : iter := it_at a (it_idx a - k).
(** traverser_iter.hpp 107-115 *)
Definition it_eq (a b : iter) : bool := it_idx a =? it_idx b.
Definition it_compare (a b : iter) : comparison := it_idx a ?= it_idx b.
(** traverser_iter.hpp 117-120 *)
Definition it_deref (a : iter) : trav := order (it_trav a) [LView (VFix (it_dim a) (Dyn (it_idx a)))].
(** traverser_iter.hpp 122-125 *)
Definition it_nth (a : iter) (k : Z) : trav := order (it_trav a) [LView (VFix (it_dim a) (Dyn (u64 (it_idx a + k))))].

(** traverser_iter.hpp 234-256: the outermost dimension, if it is an ordinary one. *)
Definition top_dim (s : struct) : option dim :=
  match signature s with Some (SFun d _ _) => Some d | _ => None end.

(** traverser_iter.hpp 259-264: [range<Dim>()].  The length is converted to [size_t]. *)
Definition range_of_dim (t : trav) (d : dim) : outcome range :=
  match length_ (top_struct t) d [] with
  | Some v => match vz v with
              | Some n => Done {| rg_dim := d; rg_trav := t; rg_begin := 0; rg_end := n |}
              | None => Undefined end
  | None => Rejected end.
(** traverser_iter.hpp 266-271: [range()] *)
Definition range_of (t : trav) : outcome range :=
  match top_dim (top_struct t) with Some d => range_of_dim t d | None => Rejected end.

(** traverser_iter.hpp 274-288: [begin()] and [end()] of a traverser. *)
Definition begin_of (t : trav) : outcome iter :=
  match top_dim (top_struct t) with
  | Some d => Done {| it_dim := d; it_trav := t; it_idx := 0 |}
  | None => Rejected end.
Definition end_of (t : trav) : outcome iter :=
  out_map (fun r => {| it_dim := rg_dim r; it_trav := t; it_idx := rg_end r |}) (range_of t).

(** traverser_iter.hpp 190-208, 210-213 *)
Definition rg_begin_it (r : range) : iter := {| it_dim := rg_dim r; it_trav := rg_trav r; it_idx := rg_begin r |}.
Definition rg_end_it (r : range) : iter := {| it_dim := rg_dim r; it_trav := rg_trav r; it_idx := rg_end r |}.
Definition rg_size (r : range) : Z := u64 (rg_end r - rg_begin r).
(** traverser_iter.hpp 170-178 *)
Definition rg_empty (r : range) : bool := rg_end r =? rg_begin r.
Definition rg_divisible (r : range) : bool := 1 <? rg_size r.
(** traverser_iter.hpp 215-218 *)
Definition rg_nth (r : range) (k : Z) : trav :=
  order (rg_trav r) [LView (VFix (rg_dim r) (Dyn (u64 (rg_begin r + k))))].

(** traverser_iter.hpp 161-165 *)
Definition as_traverser (r : range) : trav :=
  order (rg_trav r) [LView (VSlice (rg_dim r) (Dyn (rg_begin r)) (Dyn (rg_size r)))].
(** traverser_iter.hpp 154-158 *)
Definition rg_for_each (r : range) : outcome (list state) := for_each (as_traverser r) [].
(** traverser_iter.hpp 145-152 *)
Definition rg_order (r : range) (p : proto) : trav :=
  order (rg_trav r) (LView (VSlice (rg_dim r) (Dyn (rg_begin r)) (Dyn (rg_size r))) :: p).

(** The range with other bounds (the members [begin_idx] and [end_idx] are public). *)
Definition rg_set (r : range) (b e : Z) : range :=
  {| rg_dim := rg_dim r; rg_trav := rg_trav r; rg_begin := b; rg_end := e |}.

(** tbb.hpp 20-28: the splitting constructor; the results are what is left of the original and the new
    range. *)
Definition rg_mid (r : range) : Z := u64 (rg_begin r + rg_size r / 2).
Definition rg_split (r : range) : range * range :=
  (rg_set r (rg_begin r) (rg_mid r), rg_set r (rg_mid r) (rg_end r)).

(** A way of splitting: which ranges are split again. *)
Inductive splits := Keep | Split (l r : splits).
(** The ranges on which the body of [tbb::parallel_for] is called, first to last.  TBB only splits
    divisible ranges. *)
Fixpoint pieces (t : splits) (r : range) : list range :=
  match t with
  | Keep => [r]
  | Split a b =>
      if rg_divisible r then pieces a (fst (rg_split r)) ++ pieces b (snd (rg_split r)) else [r]
  end.
