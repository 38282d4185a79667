(** * Views in the order of a traverser and views around the structure: specification (C68)

    Definitions only. *)

From Verif Require Export SpecUnion SpecViews Bag.

(** The dimensions of the structure below that a view names.  (A fixed dimension need not be there: then there is nothing to fix.  A
    broadcast dimension is new.  The dimension that join creates takes the place of one of the joined ones.) *)
Definition takes (v : view) : list dim :=
  match v with
  | VBcast _ | VFix _ _ | VRename _ => []
  | VSetLength d _ | VShift d _ | VSlice d _ _ | VSpan d _ _ | VStep d _ _ | VReverse d | VHoist d => [d]
  | VBlocks d _ _ | VBlocksDyn d _ _ _ | VBlocksSta d _ _ _ _ => [d]
  | VMerge M m _ => [M; m]
  | VZCurve _ _ _ ds | VReorder ds => ds
  | VJoin a b d => [a; b; d]
  end.

(** Views only, and each of them is applied to a structure that has the dimensions it names. *)
Fixpoint suits (p : proto) (s : struct) : Prop :=
  match p with
  | [] => True
  | LView v :: r => (forall d, In d (takes v) -> has_dim s d) /\ suits r (View v s)
  | LVector _ :: _ => False
  end.

(** The same outcome; the results of normal runs correspond one to one, in order. *)
Definition alike {A B} (R : A -> B -> Prop) (x : outcome (list A)) (y : outcome (list B)) : Prop :=
  match x, y with
  | Done l, Done m => Forall2 R l m
  | Undefined, Undefined | Rejected, Rejected => True
  | _, _ => False
  end.

(** What [st'] reaches in [s'], [st] reaches in [s]: the same place of the same sub-structure (the elements are sub-structures, too). *)
Definition reaches (s : struct) (st : state) (s' : struct) (st' : state) : Prop :=
  (forall x start o, (forall v u, x <> View v u) -> offset_of x s' st' start = Some o -> offset_of x s st start = Some o) /\
  (forall o o', offset s st = Some o -> offset s' st' = Some o' -> o = o').

(** Views that pass every state on, whether or not lengths are known. *)
Definition passes (l : layer) : Prop :=
  match l with
  | LView v => match v with
               | VBcast _ | VFix _ _ | VSetLength _ _ | VShift _ _ | VSlice _ _ _ | VSpan _ _ _ | VStep _ _ _ | VReorder _ | VHoist _ | VRename _ => True
               | _ => False
               end
  | LVector _ => False
  end.

(** [set_length<d>(n)] for each of these dimensions and lengths. *)
Definition set_lengths (ls : list (dim * val)) : proto := map (fun e => LView (VSetLength (fst e) (snd e))) ls.
(** These lengths in a state. *)
Definition lengths (ls : list (dim * val)) : list (tag * option val) := map (fun e => (Len (fst e), Some (snd e))) ls.
