(** * Model of the traverser (extra/traverser.hpp)

    Definitions only. *)

From Verif Require Export Shortcuts.

(** What a program does: it is rejected by the compiler, its behaviour is undefined (here: a loop
    bound is an undefined value), or it ends normally. *)
Inductive outcome (A : Type) := Rejected | Undefined | Done (x : A).
Arguments Rejected {A}.
Arguments Undefined {A}.
Arguments Done {A} x.

Definition out_map {A B} (f : A -> B) (o : outcome A) : outcome B :=
  match o with Rejected => Rejected | Undefined => Undefined | Done x => Done (f x) end.
Definition out_bind {A B} (o : outcome A) (f : A -> outcome B) : outcome B :=
  match o with Rejected => Rejected | Undefined => Undefined | Done x => f x end.

(** One after another; the results are the sequences of calls that were made. *)
Fixpoint out_cat {A} (l : list (outcome (list A))) : outcome (list A) :=
  match l with
  | [] => Done []
  | o :: r => out_bind o (fun x => out_map (app x) (out_cat r))
  end.

(** traverser.hpp 164-177: [traverser_t<Struct, Order>] *)
Record trav := { tr_struct : struct; tr_order : proto }.

(** traverser.hpp 278-287: [traverser(structs...)] *)
Definition traverser (ss : list struct) : trav := {| tr_struct := Union ss; tr_order := [] |}.

(** traverser.hpp 179-183: [order(new_order)] *)
Definition order (t : trav) (p : proto) : trav := {| tr_struct := tr_struct t; tr_order := tr_order t ++ p |}.

(** traverser.hpp 185-188 *)
Definition top_struct (t : trav) : struct := apply (tr_order t) (tr_struct t).

(** traverser.hpp 190-193 *)
Definition tr_state (t : trav) : option state := state_at (tr_struct t) (top_struct t) [].

(** The branches of a tree node with their positions. *)
Fixpoint numbered {A} (k : Z) (l : list A) : list (Z * A) :=
  match l with [] => [] | x :: r => (k, x) :: numbered (k + 1) r end.

(** traverser.hpp 242-275: [for_each_impl].  [fe_ok] is what the compiler checks: the loop bodies are
    instantiated once, with the type [std::size_t] for the index of an ordinary dimension (the
    representative value does not matter, see C27).  [fe_run] gives the states with which the bottom
    case is reached, in the order of the calls. *)
Section ForEach.
  Variables (top : struct) (sg : sig) (leaf_ok : state -> bool).

  Fixpoint fe_ok (t : dtree) (st : state) : bool :=
    match t with
    | DLeaf => leaf_ok st
    | DNode d bs =>
        match sig_find_dim d st sg with
        | Some (SDep _ _) =>
            (fix go (k : Z) (l : list dtree) : bool :=
               match l with
               | [] => true
               | b :: r => fe_ok b (with_ [(Idx d, Sta k)] st) && go (k + 1) r
               end) 0 bs
        | Some (SFun _ _ _) =>
            match length_ top d st, bs with
            | Some _, [b] => fe_ok b (with_ [(Idx d, Dyn 0)] st)
            | _, _ => false
            end
        | _ => false
        end
    end.

  Fixpoint fe_run (t : dtree) (st : state) : outcome (list state) :=
    match t with
    | DLeaf => Done [st]
    | DNode d bs =>
        match sig_find_dim d st sg with
        | Some (SDep _ _) =>
            out_cat ((fix go (k : Z) (l : list dtree) : list (outcome (list state)) :=
               match l with
               | [] => []
               | b :: r => fe_run b (with_ [(Idx d, Sta k)] st) :: go (k + 1) r
               end) 0 bs)
        | Some (SFun _ _ _) =>
            match length_ top d st, bs with
            | Some len, [b] =>
                match vz len with
                | Some n => out_cat (map (fun i => fe_run b (with_ [(Idx d, Dyn i)] st)) (zseq n))
                | None => Undefined
                end
            | _, _ => Rejected
            end
        | _ => Rejected
        end
    end.
End ForEach.

(** traverser.hpp 267-275: the traverser passed to the lambda.  The overload for the empty state passes
    the traverser itself; [p_fix []] is empty, so this is the same. *)
Definition inner (t : trav) (st : state) : trav := order t (p_fix st).

(** traverser.hpp 195: instantiating the type of a traverser needs its signature. *)
Definition inner_ok (t : trav) (st : state) : bool :=
  match signature (top_struct (inner t st)) with Some _ => true | None => false end.

Definition for_tree (t : trav) (leaf_ok : state -> bool) (tree : option dtree) : outcome (list trav) :=
  match signature (top_struct t), tree with
  | Some sg, Some tr =>
      if fe_ok (top_struct t) sg (fun st => inner_ok t st && leaf_ok st) tr []
      then out_map (map (inner t)) (fe_run (top_struct t) sg tr [])
      else Rejected
  | _, _ => Rejected
  end.

(** traverser.hpp 203-216: the tree of the loops of [for_sections<Dims...>]. *)
Definition sections_tree (sg : sig) (ds : list dim) : option dtree :=
  match ds with
  | [] => Some (sig_dim_tree sg)
  | _ => do t <- dtree_filter (fun d => mem d ds) (sig_dim_tree sg);
         if forallb (fun d => dtree_contains d t) ds then Some t else None
  end.

(** traverser.hpp 218-225: the same for [for_dims<Dims...>]. *)
Definition dims_tree (sg : sig) (ds : list dim) : option dtree :=
  do t <- dtree_filter (fun d => mem d ds) (sig_dim_tree sg);
  if forallb (fun d => dtree_contains d t) ds then dtree_reorder t ds else None.

Definition for_sections_with (leaf_ok : state -> bool) (t : trav) (ds : list dim) : outcome (list trav) :=
  for_tree t leaf_ok (do sg <- signature (top_struct t); sections_tree sg ds).

(** The traversers passed to the lambda. *)
Definition for_sections (t : trav) (ds : list dim) : outcome (list trav) :=
  for_sections_with (fun _ => true) t ds.
Definition for_dims (t : trav) (ds : list dim) : outcome (list trav) :=
  for_tree t (fun _ => true) (do sg <- signature (top_struct t); dims_tree sg ds).

(** traverser.hpp 197-201: the states passed to the lambda. *)
Definition state_ok (t : trav) (st : state) : bool :=
  match tr_state (inner t st) with Some _ => true | None => false end.
Definition for_each (t : trav) (ds : list dim) : outcome (list state) :=
  out_bind (for_sections_with (state_ok t) t ds)
    (fun l => match omap tr_state l with Some sts => Done sts | None => Rejected end).
