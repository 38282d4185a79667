(** * The order in which sections visit the elements (C28)

    Definitions only. *)

From Coq Require Import Sorted.
From Verif Require Export SpecTrav.

(** The dimensions of [s] at the state: those of the sections first, in the order of the structure, then the others. *)
Definition sections_first (ds : list dim) (p : list (dim * option Z)) : list dim :=
  filter (fun d => mem d ds) (map fst p) ++ filter (fun d => negb (mem d ds)) (map fst p).

(** The same with the dimensions of the sections in the order in which they are listed. *)
Definition dims_first (ds : list dim) (p : list (dim * option Z)) : list dim :=
  ds ++ filter (fun d => negb (mem d ds)) (map fst p).

(** The indices in [st] of the dimensions of [s], in the order [f]. *)
Definition index_list_by (f : list (dim * option Z) -> list dim) (s : struct) (st : state) : list Z :=
  match dims_of s st with Some p => map (asg_of st) (f p) | None => [] end.

(** [tops] lists the elements of [s] in the order of [f]: each state names an element, every element is listed, and the indices
    strictly increase. *)
Record enumerates_by (f : list (dim * option Z) -> list dim) (s : struct) (tops : list state) : Prop := {
  eb_sound : forall st, In st tops -> exists p, names_element s st p;
  eb_complete : forall st p, names_element s st p -> (forall d, get (Len d) st = None) ->
    exists st', In st' tops /\ dims_of s st' = dims_of s st /\ index_list s st' = index_list s st;
  eb_sorted : StronglySorted lexlt (map (index_list_by f s) tops)
}.

(** The states [sts] are visited in the order [f] of the dimensions of the ordered structure: [tops] are the states of the loops,
    and each is translated into the state of the traversed structures. *)
Definition visited_in_order (f : list (dim * option Z) -> list dim) (t : trav) (sts : list state) : Prop :=
  exists tops, enumerates_by f (top_struct t) tops /\
    Forall2 (fun m st => exists st', state_at (tr_struct t) (top_struct t) m = Some st' /\ same_get st' st) tops sts.

(** On every path the dimensions [ds] come before the others. *)
Fixpoint outermost (ds : list dim) (s : sig) : bool :=
  match s with
  | SScalar _ | SVoid => true
  | SFun d _ r => if mem d ds then outermost ds r else forallb (fun q => negb (any_accept q r)) ds
  | SDep d rs => if mem d ds then forallb (outermost ds) rs else forallb (fun r => forallb (fun q => negb (any_accept q r)) ds) rs
  end.
Definition outermost_dims (ds : list dim) (s : struct) : Prop :=
  match signature s with Some sg => outermost ds sg = true | None => False end.
