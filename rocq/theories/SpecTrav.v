(** * What a traversal should do

    Definitions only; the theorems about traversers are stated with these. *)

From Coq Require Import Sorted.
From Verif Require Export Spec Traverser.

(** No length is given through a state. *)
Definition nolens : lenv := fun _ => None.

(** The same indices and lengths (the order of the entries does not matter). *)
Definition same_get (st st' : state) : Prop :=
  forall d, get (Idx d) st = get (Idx d) st' /\ get (Len d) st = get (Len d) st'.

(** The indices in [st] of the dimensions of [s], outermost first. *)
Definition index_list (s : struct) (st : state) : list Z :=
  match dims_of s st with Some p => map (fun e => asg_of st (fst e)) p | None => [] end.

(** The lexicographic order: the outermost index decides first. *)
Fixpoint lexlt (a b : list Z) : Prop :=
  match a, b with
  | x :: a', y :: b' => x < y \/ (x = y /\ lexlt a' b')
  | _, _ => False
  end.

(** No dimension occurs twice on a path through the signature (and tuples have fewer than 2^64
    components). *)
Definition distinct_dims (s : struct) : Prop :=
  match signature s with Some sg => snodup sg = true | None => False end.

(** [sts] lists the elements of [s]: each state names an element, every element is listed, and the
    indices strictly increase, so nothing is listed twice. *)
Record enumerates (s : struct) (sts : list state) : Prop := {
  en_sound : forall st, In st sts -> exists p, names_element s st p;
  en_complete : forall st p, names_element s st p -> (forall d, get (Len d) st = None) ->
    exists st', In st' sts /\ dims_of s st' = dims_of s st /\ index_list s st' = index_list s st;
  en_sorted : StronglySorted lexlt (map (index_list s) sts)
}.

(** No tuple without components. *)
Fixpoint filled (s : sig) : bool :=
  match s with
  | SScalar _ | SVoid => true
  | SFun _ _ r => filled r
  | SDep _ rs => match rs with [] => false | _ => forallb filled rs end
  end.
Definition no_empty_tuple (s : struct) : Prop :=
  match signature s with Some sg => filled sg = true | None => False end.
