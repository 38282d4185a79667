(** * When a structure addresses one block of memory

    Definitions only. *)

From Verif Require Export SpecIntrospect SpecOrder.

(** The indices of one dimension that are still reached: [None]: all of them, [Some (x, None)]: [x]
    and above, [Some (x, Some y)]: from [x] to [y - 1]. *)
Definition limit := option (Z * option Z).
Definition within (m : limit) (i : Z) : Prop :=
  match m with
  | None => True
  | Some (x, None) => x <= i
  | Some (x, Some y) => x <= i < y
  end.
Definition single (m : limit) : Prop := exists i, m = Some (i, Some (i + 1)).

Definition unlimited (lm : dim -> limit) : Prop := forall d, lm d = None.

(** [narrows v t l lm lm']: if the indices above the view [v] are limited by [lm], the indices that reach
    [t] are exactly those limited by [lm'] ([l]: the lengths given above).  Blocks must divide the length
    exactly.  Nothing is asked of the views about which [is_contiguous] makes no promise. *)
Definition moved (m : limit) (s : Z) (end_ : option Z) : limit :=
  match m with
  | None => Some (s, end_)
  | Some (x, None) => Some (x + s, end_)
  | Some (x, Some y) => Some (x + s, Some (y + s))
  end.
(** The limits lie inside [0, n). *)
Definition inside_of (m : limit) (n : option Z) : Prop :=
  match m with
  | None => True
  | Some (x, y) => 0 <= x /\ match y, n with Some y, Some n => y <= n | _, _ => True end
  end.

Definition narrows_blocks (l : lenv) (d M m : dim) (lm lm' : dim -> limit) : Prop :=
  (lm M = None /\ lm m = None /\ lm' d = None) \/
  (exists x h y, lm M = Some (x, Some h) /\ lm m = None /\ l m = Some y /\ lm' d = Some (x * y, Some (h * y))) \/
  (exists x u w y, lm M = Some (x, Some (x + 1)) /\ lm m = Some (u, Some w) /\ l m = Some y /\ 0 <= u /\ w <= y /\
     lm' d = Some (x * y + u, Some (x * y + w))).

Definition narrows (v : view) (t : struct) (l : lenv) (lm lm' : dim -> limit) : Prop :=
  let same_but d := forall q, q <> d -> lm' q = lm q in
  let without ds d := forall q, q <> d -> lm' q = if mem q ds then None else lm q in
  match v with
  | VBcast d => 0 < odef (l d) /\ lm d = None /\ forall q, lm' q = lm q
  | VFix d i => lm' d = Some (vzd i, Some (vzd i + 1)) /\ same_but d
  | VSetLength _ _ | VHoist _ | VReorder _ => forall q, lm' q = lm q
  | VRename ps => forall q, lm' q = if mem q (map snd ps) && negb (mem q (map fst ps)) then None else lm (rename_dim ps q)
  | VShift d s => l d = None /\ inside_of (lm d) None /\ lm' d = moved (lm d) (vzd s) None /\ same_but d
  | VSlice d s n => inside_of (lm d) (Some (vzd n)) /\ lm' d = moved (lm d) (vzd s) (Some (vzd s + vzd n)) /\ same_but d
  | VSpan d s e => inside_of (lm d) (Some (vzd e - vzd s)) /\ lm' d = moved (lm d) (vzd s) (Some (vzd e)) /\ same_but d
  | VStep d s r => forall x, lm d = Some (x, Some (x + 1)) -> 0 <= x /\
      lm' d = Some (x * vzd r + vzd s, Some (x * vzd r + vzd s + 1)) /\ same_but d
  | VReverse d => (lm d = None /\ forall q, lm' q = lm q) \/
      exists x h n, lm d = Some (x, Some h) /\ (forall a, ilen t (view_lenv v l) a d = n) /\
        lm' d = Some (n - h, Some (n - x)) /\ same_but d
  | VBlocks d M m => narrows_blocks l d M m lm lm' /\ without [M; m] d /\ rearranges v t l
  | VBlocksDyn d M m p => lm p = None /\ narrows_blocks l d M m lm lm' /\ without [M; m; p] d /\ rearranges v t l
  | VMerge _ _ _ | VZCurve _ _ _ _ | VBlocksSta _ _ _ _ _ | VJoin _ _ _ => True
  end.

(** Views that leave some elements out. *)
Definition leaves_out (v : view) : bool :=
  match v with VFix _ _ | VShift _ _ | VSlice _ _ _ | VSpan _ _ _ => true | _ => false end.
(** Views about which [is_contiguous] makes no promise. *)
Fixpoint promised (s : struct) : bool :=
  match s with
  | Scalar _ => true
  | Tuple _ ts => forallb promised ts
  | Vector _ t => promised t
  | View (VStep _ _ _ | VMerge _ _ _ | VZCurve _ _ _ _ | VBlocksSta _ _ _ _ _ | VJoin _ _ _) _ => false
  | View _ t => promised t
  | Union _ => false
  end.

(** The components of a tuple follow one another without padding. *)
Definition packed (ts : list struct) (l : lenv) : Prop :=
  forall k t, nthz ts k = Some t ->
    isize (Tuple 0 (firstn (S (Z.to_nat k)) ts)) l = isize (Tuple 0 (firstn (Z.to_nat k) ts)) l + isize t l.

(** [narrowed_outside false s l lm]: the views and the limits [lm] on the indices leave out elements only
    along the outermost stored dimension that still has several indices.  [narrowed_outside true s l lm]:
    they leave out nothing. *)
Fixpoint narrowed_outside (all : bool) (s : struct) (l : lenv) (lm : dim -> limit) : Prop :=
  match s with
  | Scalar _ => True
  | Tuple d ts =>
      let lm' := fupd lm d None in
      (all = false /\ exists k, lm d = Some (k, Some (k + 1)) /\
         match nthz (map (fun t => promised t = true /\ narrowed_outside false t l lm') ts) k with Some P => P | None => True end) \/
      (unlimited lm /\ packed ts l /\ fold_right and True (map (fun t => narrowed_outside true t l lm) ts))
  | Vector d t =>
      let lm' := fupd lm d None in
      (all = false /\ single (lm d) /\ narrowed_outside false t (fupd l d None) lm') \/
      (unlimited lm' /\ narrowed_outside true t (fupd l d None) lm')
  | View v t =>
      (all = true -> leaves_out v = false) /\
      exists lm', narrows v t l lm lm' /\ narrowed_outside all t (view_lenv v l) lm'
  | Union _ => False
  end.

(** The documented preconditions of every view hold, whatever the indices. *)
Fixpoint documented_all (s : struct) (l : lenv) : Prop :=
  match s with
  | Scalar _ => True
  | Tuple d ts => fold_right and True (map (fun t => documented_all t l) ts)
  | Vector d t => documented_all t (fupd l d None)
  | View v t => (forall c, view_good v (plen t (view_lenv v l) c) l) /\ documented_all t (view_lenv v l)
  | Union _ => False
  end.

(** The bytes of the element that state [st] names. *)
Definition element_at (s : struct) (st : state) (b : Z) : Prop :=
  exists o x c, offset s st = Some o /\ vz o = Some x /\ scalar_t s st = Some c /\ x <= b < x + ct_size c.
