(** * What a planner should do

    Definitions only. *)

From Verif Require Export SpecOrder Planner.

(** Views that hand every loop index on to the structure below, so that an element is known only when
    all loops around it have been entered.  A broadcast and the presence dimension of
    [into_blocks_dynamic] add loops that the structure below does not see. *)
Definition hands_on (v : view) (t : struct) (l : lenv) : Prop :=
  match v with
  | VBcast _ | VBlocksDyn _ _ _ _ | VJoin _ _ _ => False
  | VReverse d => exists sg, signature t = Some sg /\ ~ In d (sdep_dims sg)
  | _ => True
  end.

(** The order of the traverser consists of such views (and the structures are as in the other properties). *)
Definition plannable (t : trav) : Prop :=
  (forall v u, tr_struct t <> View v u) /\ over hands_on (tr_struct t) (top_struct t) nolens /\ uswf (top_struct t) = true.

(** [planner.for_sections<ds1...>(g1).for_sections<ds2...>(g2)...] *)
Fixpoint add_sections (p : planner) (secs : list (list dim * Z)) : option planner :=
  match secs with
  | [] => Some p
  | (ds, g) :: r => do q <- pl_for_sections p ds g; add_sections q r
  end.

(** The call [c] is made inside the loops with the indices [st] (and no others); a section is run
    when its dimensions are known. *)
Definition called_at (t : trav) (f : Z) (secs : list (list dim * Z)) (st : state) (c : pcall) : Prop :=
  exists s, tr_state (order t (p_fix st)) = Some s /\
    match c with
    | CallBody g s' => g = f /\ s' = s
    | CallAround g q => pl_trav q = order t (p_fix st) /\ exists ds, In (ds, g) secs /\ forall d, In d ds -> has (Idx d) s = true
    end.
