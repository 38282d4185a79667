(** * What an order should do to a traversal

    Definitions only. *)

From Verif Require Export SpecTrav.

(** The state has an index for every dimension of [s] that it needs. *)
Definition complete (s : struct) (st : state) : Prop :=
  exists p, dims_of s st = Some p /\
    forall d, In d (map fst p) -> exists i x, get (Idx d) st = Some i /\ vz i = Some x.

(** [over P u s l]: [s] consists of views placed over [u]; each view [v], over its sub-structure [t],
    meets [P v t l'], where [l'] are the lengths given by the views above it ([l] at the top).
    No length is left for [u] itself. *)
Inductive over (P : view -> struct -> lenv -> Prop) (u : struct) : struct -> lenv -> Prop :=
| over_base l : (forall d, l d = None) -> over P u u l
| over_view v t l : P v t l -> over P u t (view_lenv v l) -> over P u (View v t) l.

(** The documented preconditions of the view hold (for the lengths of [t]); it is not a broadcast. *)
Definition documented (v : view) (t : struct) (l : lenv) : Prop :=
  is_bcast v = false /\ forall c, view_good v (plen t (view_lenv v l) c) l.

(** Views that only rearrange the index space.  [into_blocks] must be given the block size or the
    number of blocks, and it must divide the length. *)
Definition rearranges (v : view) (t : struct) (l : lenv) : Prop :=
  documented v t l /\
  match v with
  | VHoist _ | VReorder _ | VRename _ | VReverse _ | VMerge _ _ _ | VZCurve _ _ _ _ | VSetLength _ _
  | VBlocksSta _ _ _ _ _ => True
  | VBlocksDyn _ M m _ => (l M = None /\ l m <> None) \/ (l M <> None /\ l m = None)
  | VBlocks d M m =>
      exists y, ((l M = None /\ l m = Some y) \/ (l M = Some y /\ l m = None)) /\
        forall c, on_len (plen t (view_lenv v l) c d) (fun n => n mod y = 0)
  | _ => False
  end.

(** The elements that a view selects, by the index of its dimension. *)
Definition on_dim (s : struct) (st : state) (d : dim) (f : Z -> bool) : bool :=
  match dims_of s st with
  | Some p => if mem d (map fst p) then f (asg_of st d) else true
  | None => true
  end.
Definition selects (v : view) (s : struct) (st : state) : bool :=
  match v with
  | VFix d i => on_dim s st d (fun x => x =? vzd i)
  | VShift d b => on_dim s st d (fun x => vzd b <=? x)
  | VSlice d b n => on_dim s st d (fun x => (vzd b <=? x) && (x <? vzd b + vzd n))
  | VSpan d b e => on_dim s st d (fun x => (vzd b <=? x) && (x <? vzd e))
  | VStep d b r => on_dim s st d (fun x => (vzd b <=? x) && ((x - vzd b) mod vzd r =? 0))
  | _ => true
  end.
(** The views described by [selects]. *)
Definition selecting (v : view) : bool :=
  match v with VFix _ _ | VShift _ _ | VSlice _ _ _ | VSpan _ _ _ | VStep _ _ _ => true | _ => false end.
