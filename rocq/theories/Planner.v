(** * Model of the planner (extra/planner.hpp)

    Definitions only.  What the functions given to the planner do is not part of the model: running a
    planner yields the calls that it makes, in order.  [for_each_elem] (lines 33-81) differs from
    [for_each] only in that the elements at the state are passed as well; PlanElem.v adds them. *)

From Verif Require Export Traverser.

(** planner.hpp 33-118, 239-275: an ending is a function (here: a number) with a signature; the function
    takes a state ([for_each]) or a planner ([for_sections]). *)
Inductive ekind := Body | Around.
Record ending := { en_sig : sig; en_kind : ekind; en_fun : Z }.

(** planner.hpp 283-310 *)
Record planner := { pl_trav : trav; pl_endings : list ending }.

(** planner.hpp 441-445, 467-470: [planner(structs...)] *)
Definition plan (ss : list struct) : planner := {| pl_trav := traverser ss; pl_endings := [] |}.

(** planner.hpp 318-322: [order(new_order)] *)
Definition pl_order (p : planner) (o : proto) : planner := {| pl_trav := order (pl_trav p) o; pl_endings := pl_endings p |}.

(** planner.hpp 56-61, 107-112, 263-268: the signature of an ending after [order(fix(state))].  The
    structure that holds the signature is used for its signature only. *)
Fixpoint sig_fix (st : state) (s : sig) : option sig :=
  match st with
  | [] => Some s
  | (Idx d, v) :: r => do s' <- view_sig (VFix d v) s; sig_fix r s'
  | _ :: r => sig_fix r s
  end.

(** base/signature.hpp 156-166 *)
Definition ground (s : sig) : bool := match s with SScalar _ | SVoid => true | _ => false end.

(** planner.hpp 134-137: the class does not compile with two activated endings. *)
Definition endings_ok (ss : list sig) : bool := Nat.leb (List.length (List.filter ground ss)) 1.

(** planner.hpp 143-153: the signatures after [order(fix(state))]. *)
Definition endings_fix (es : list ending) (st : state) : option (list sig) :=
  do ss <- omap (fun e => sig_fix st (en_sig e)) es;
  if endings_ok ss then Some ss else None.

(** planner.hpp 404-405, 424-425: is an ending activated by [fix(state_at<union>(top_struct(), state))]? *)
Definition activated (p : planner) (st : state) : option bool :=
  do s <- state_at (tr_struct (pl_trav p)) (top_struct (pl_trav p)) st;
  do ss <- endings_fix (pl_endings p) s; Some (existsb ground ss).

(** planner.hpp 330-337: [for_each(f)] needs a planner without endings. *)
Definition pl_for_each (p : planner) (f : Z) : option planner :=
  match pl_endings p with
  | [] => do sg <- signature (tr_struct (pl_trav p));
          Some {| pl_trav := pl_trav p; pl_endings := [{| en_sig := sg; en_kind := Body; en_fun := f |}] |}
  | _ => None
  end.

(** planner.hpp 362-370: [for_sections<Dims...>(f)] *)
Definition pl_for_sections (p : planner) (ds : list dim) (f : Z) : option planner :=
  do sg <- signature (tr_struct (pl_trav p)); do s <- view_sig (VReorder ds) sg;
  let es := pl_endings p ++ [{| en_sig := s; en_kind := Around; en_fun := f |}] in
  if endings_ok (map en_sig es) then Some {| pl_trav := pl_trav p; pl_endings := es |} else None.

(** A call of a user function. *)
Inductive pcall := CallBody (f : Z) (st : state) | CallAround (f : Z) (p : planner).

(** planner.hpp 155-177: the endings that are not activated. *)
Definition endings_next (es : list ending) (ss : list sig) : list ending :=
  map fst (List.filter (fun x => negb (ground (snd x))) (combine es ss)).

(** planner.hpp 213-222 with 324-328 ([pop_endings]) and 115-118, 270-274: calling the endings of a planner
    whose order fixes the loop indices. *)
Definition fire (p : planner) : option pcall :=
  do s <- tr_state (pl_trav p);
  do ss <- endings_fix (pl_endings p) s;
  match List.filter (fun x => ground (snd x)) (combine (pl_endings p) ss) with
  | [(e, _)] =>
      match en_kind e with
      | Body => Some (CallBody (en_fun e) s)
      | Around => Some (CallAround (en_fun e) {| pl_trav := pl_trav p; pl_endings := endings_next (pl_endings p) ss |})
      end
  | _ => None
  end.

(** planner.hpp 394-427: [for_each_impl]; as in Traverser.v, [pe_ok] is what the compiler checks and
    [pe_run] gives the states at which the endings are called. *)
Section Execute.
  Variables (top : struct) (sg : sig) (act : state -> option bool) (leaf_ok : state -> bool).

  Fixpoint pe_ok (t : dtree) (st : state) : bool :=
    match act st with
    | None => false
    | Some true => leaf_ok st
    | Some false =>
        match t with
        | DLeaf => false
        | DNode d bs =>
            match sig_find_dim d st sg with
            | Some (SDep _ _) => false      (* lines 394-398, 407-408: the recursion over the components has no last case *)
            | Some (SFun _ _ _) =>
                match length_ top d st, bs with
                | Some _, [b] => pe_ok b (with_ [(Idx d, Dyn 0)] st)
                | _, _ => false
                end
            | _ => false
            end
        end
    end.

  Fixpoint pe_run (t : dtree) (st : state) : outcome (list state) :=
    match act st with
    | None => Rejected
    | Some true => Done [st]
    | Some false =>
        match t with
        | DLeaf => Rejected
        | DNode d bs =>
            match sig_find_dim d st sg with
            | Some (SDep _ _) => Rejected   (* as above *)
            | Some (SFun _ _ _) =>
                match length_ top d st, bs with
                | Some len, [b] =>
                    match vz len with
                    | Some n => out_cat (map (fun i => pe_run b (with_ [(Idx d, Dyn i)] st)) (zseq n))
                    | None => Undefined
                    end
                | _, _ => Rejected
                end
            | _ => Rejected
            end
        end
    end.
End Execute.

(** The planner with the loop indices fixed, i.e. [order(fix(state))]. *)
Definition fixed (p : planner) (st : state) : planner := pl_order p (p_fix st).

Definition fire_ok (p : planner) (st : state) : bool :=
  inner_ok (pl_trav p) st && match fire (fixed p st) with Some _ => true | None => false end.

(** planner.hpp 372-384: [execute()]: the calls it makes. *)
Definition execute (p : planner) : outcome (list pcall) :=
  match pl_endings p, signature (top_struct (pl_trav p)) with
  | [], _ | _, None => Rejected
  | _, Some sg =>
      if pe_ok (top_struct (pl_trav p)) sg (activated p) (fire_ok p) (sig_dim_tree sg) []
      then out_bind (pe_run (top_struct (pl_trav p)) sg (activated p) (sig_dim_tree sg) [])
             (fun sts => match omap (fun st => fire (fixed p st)) sts with Some l => Done l | None => Rejected end)
      else Rejected
  end.

(** What happens if every function given to [for_sections] calls its planner once, in the middle
    (tests/planner_test.cpp).  The number bounds the nesting; the number of endings is enough. *)
Inductive pevent := ECall (f : Z) (st : state) | EEnter (f : Z) (p : planner) | ELeave (f : Z).
Fixpoint execute_all (n : nat) (p : planner) : outcome (list pevent) :=
  match n with
  | O => Rejected
  | S n => out_bind (execute p) (fun l => out_cat (map (fun c =>
      match c with
      | CallBody f st => Done [ECall f st]
      | CallAround f q => out_map (fun tr => EEnter f q :: tr ++ [ELeave f]) (execute_all n q)
      end) l))
  end.

Definition body_calls (tr : list pevent) : list (Z * state) :=
  flat_map (fun e => match e with ECall f st => [(f, st)] | _ => [] end) tr.
