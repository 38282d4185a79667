(** * When the calls of different threads write to different elements

    Definitions only. *)

From Verif Require Export SpecReduce SpecOrder.

(** A view that does not rename or regroup the dimension [d]: indices of [d] above and below it differ by
    a constant. *)
Definition keeps_index (d : dim) (v : view) : bool :=
  match v with
  | VSetLength _ _ | VReorder _ | VHoist _ | VShift _ _ | VSlice _ _ _ | VSpan _ _ _ => true
  | VBcast e | VFix e _ | VStep e _ _ | VReverse e => negb (e =? d)
  | VBlocks e M m | VMerge M m e | VJoin M m e => negb (mem d [e; M; m])
  | VBlocksDyn e M m p => negb (mem d [e; M; m; p])
  | VBlocksSta e b M m _ => negb (mem d [e; b; M; m])
  | VZCurve _ _ e ds => negb (mem d (e :: ds))
  | VRename ps => negb (mem d (map fst ps ++ map snd ps))
  end.
Definition order_keeps (d : dim) (p : proto) : bool :=
  forallb (fun x => match x with LView v => keeps_index d v | LVector _ => false end) p.

(** The dimension below the view [v], over [t], whose index determines the index of [x] above it.  Merged
    dimensions have none: the index above depends on several indices below.  If lengths are used, they must
    not depend on other indices. *)
Definition alone (t : struct) (d : dim) : option dim := match ldeps t d with [] => Some d | _ => None end.
Definition under (v : view) (t : struct) (x : dim) : option dim :=
  match v with
  | VSetLength _ _ | VReorder _ | VHoist _ | VShift _ _ | VSlice _ _ _ | VSpan _ _ _ | VStep _ _ _ => Some x
  | VBcast d | VFix d _ => if x =? d then None else Some x
  | VReverse d => if x =? d then alone t d else Some x
  | VBlocks d M m => if mem x [M; m] then alone t d else if x =? d then None else Some x
  | VBlocksDyn d M m p => if mem x [M; m; p] then alone t d else if x =? d then None else Some x
  | VBlocksSta d b M m _ => if mem x [b; M; m] then alone t d else if x =? d then None else Some x
  | VMerge M m d => if mem x [d; M; m] then None else Some x
  | VZCurve _ _ d ds => if mem x (d :: ds) then None else Some x
  | VRename ps => Some (rename_dim (swap_pairs ps) x)
  | VJoin _ _ _ => None
  end.
(** The dimension below all views of [s]. *)
Fixpoint source (s : struct) (x : dim) : option dim :=
  match s with
  | View v t => do y <- under v t x; source t y
  | _ => Some x
  end.

(** The documented preconditions of the view hold. *)
Definition respected (v : view) (t : struct) (l : lenv) : Prop := forall c, view_good v (plen t (view_lenv v l) c) l.

(** The bytes of two elements do not overlap. *)
Definition apart (s : struct) (st1 st2 : state) : Prop :=
  exists o1 o2 c1 c2 x1 x2, offset s st1 = Some o1 /\ offset s st2 = Some o2 /\ scalar_t s st1 = Some c1 /\ scalar_t s st2 = Some c2 /\
    vz o1 = Some x1 /\ vz o2 = Some x2 /\ (x1 + ct_size c1 <= x2 \/ x2 + ct_size c2 <= x1).

(** Two calls on different pieces of the range name the same output element, with the states that the
    traversal passes to the body. *)
Definition conflict (t : trav) (out : struct) : Prop :=
  exists r tr works i j w1 w2 st1 st2 o x, range_of t = Done r /\ Forall2 (fun piece w => rg_for_each piece = Done w) (pieces tr r) works /\
    nth_error works i = Some w1 /\ nth_error works j = Some w2 /\ i <> j /\ In st1 w1 /\ In st2 w2 /\
    offset out st1 = Some o /\ offset out st2 = Some o /\ vz o = Some x.
