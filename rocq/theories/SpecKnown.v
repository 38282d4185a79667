(** * Structures whose lengths are known: specification (C67)

    Definitions only. *)

From Verif Require Export Good SpecUnion SpecKernel SpecAgnostic.

(** Which lengths the sub-structure of a view is given, if the view is given those of the dimensions in [h]. *)
Definition off (h : dim -> bool) (ds : list dim) : dim -> bool := fun q => h q && negb (mem q ds).
Definition given_below (v : view) (h : dim -> bool) : dim -> bool :=
  match v with
  | VBcast d | VFix d _ => off h [d]
  | VSetLength d _ => fun q => (q =? d) || h q
  | VBlocks d M m => off h [d; M; m]
  | VMerge M m d => off h [M; m; d]
  | VZCurve _ _ _ ds => off h ds
  | VRename ps => fun q => if mem q (map fst ps) then h (rename_dim ps q) else if mem q (map snd ps) then false else h q
  | _ => h
  end.

(** What a view needs: a broadcast dimension is given a length; a dimension that is split is given the number of blocks or their length, but
    not both (the other one follows); a merged dimension is not given a length (it follows as well); reversed, split and merged dimensions
    exist. *)
Definition view_known (v : view) (t : struct) (h : dim -> bool) : bool :=
  match signature t with
  | None => false
  | Some sg =>
    match v with
    | VBcast d => h d
    | VReverse d => any_accept d sg
    | VBlocks d M m => any_accept d sg && xorb (h M) (h m)
    | VMerge M m d => any_accept M sg && any_accept m sg && negb (h d)
    | VZCurve _ _ _ ds => forallb (fun q => any_accept q sg) ds
    | VBlocksDyn _ _ _ _ | VBlocksSta _ _ _ _ _ | VJoin _ _ _ => false
    | _ => true
    end
  end.

(** All the lengths that the structure needs are given to it by its own views, or from outside for the dimensions in [h].  (There are no
    tuples, and no blocks with a border or with bounds checks.) *)
Fixpoint known_with (s : struct) (h : dim -> bool) : bool :=
  match s with
  | Scalar _ => true
  | Vector d t => h d && known_with t (off h [d])
  | View v t => view_known v t h && known_with t (given_below v h)
  | Union ts => forallb (fun t => known_with t h) ts
  | Tuple _ _ => false
  end.
Definition lengths_known (s : struct) : Prop := uswf s = true /\ signature s <> None /\ known_with s (fun _ => false) = true.

(** The state gives no lengths. *)
Definition only_indices (st : state) : Prop := forall d, get (Len d) st = None.

(** The traverser orders its structures by views only (not by further vectors). *)
Definition by_views (t : trav) : Prop := (exists ss, tr_struct t = Union ss) /\ Forall (fun l => match l with LView _ => True | _ => False end) (tr_order t).

(** ** Programs that name elements by their indices (C66) *)

(** The lengths of the bag are known, and its data are not constant if the array is writable. *)
Definition usable (b : bag) (a : array) : Prop := lengths_known (bg_struct b) /\ (ar_writable a = true -> bg_policy b <> ConstRaw).

(** Written values have the size of the elements, and traversals have something to traverse. *)
Fixpoint sized {A} (p : program A) (bags : list bag) (xs : list array) : Prop :=
  match p with
  | Return _ => True
  | Read b st k => forall x is, nth_error xs b = Some x -> indices (ar_dims x) st = Some is -> sized (k (ar_at x is)) bags xs
  | Write b st v k =>
      (forall y c, nth_error bags b = Some y -> scalar_t (bg_struct y) [] = Some c -> Z.of_nat (length v) = ct_size c) /\
      forall x is, nth_error xs b = Some x -> indices (ar_dims x) st = Some is -> sized k bags (put b (update x is v) xs)
  | Length b d k => forall x n, nth_error xs b = Some x -> length_in d x = Some n -> sized (k n) bags xs
  | ForEach bs w ds k => bs <> [] /\ forall ys ls, omap (nth_error xs) bs = Some ys -> common ds ys = Some ls -> sized (k (all_indices ls)) bags xs
  end.
