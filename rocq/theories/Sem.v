(** * The integer reading of a structure

    A separate, type-free reading of structures, used to state and prove the properties: index
    assignments are functions from dimension names to integers, lengths and offsets are integers.
    Nothing here asks what is known at compile time.  The refinement theorems in Refine.v connect
    it with the model of the C++ code.  Definitions only. *)

From Verif Require Export Struct.

Definition asg := dim -> Z.            (* an index for every dimension *)
Definition lenv := dim -> option Z.    (* the lengths given through the state *)

Definition fupd {A} (f : dim -> A) (d : dim) (x : A) : dim -> A := fun q => if q =? d then x else f q.
Fixpoint fupds {A} (f : dim -> A) (l : list (dim * A)) : dim -> A :=
  match l with [] => f | (d, x) :: r => fupd (fupds f r) d x end.

Definition vzd (v : val) : Z := match vz v with Some x => x | None => 0 end.
Definition odef (o : option Z) : Z := match o with Some x => x | None => 0 end.

(** The readings of a state. *)
Definition asg_of (st : state) : asg :=
  fun d => match get (Idx d) st with Some v => vzd v | None => 0 end.
Definition lenv_of (st : state) : lenv :=
  fun d => match get (Len d) st with Some v => Some (vzd v) | None => None end.

(** Lengths given to the sub-structure of a view. *)
Definition view_lenv (v : view) (l : lenv) : lenv :=
  match v with
  | VBcast d | VFix d _ | VBlocksSta d _ _ _ _ => fupd l d None
  | VSetLength d n => fupd l d (Some (vzd n))
  | VShift d s => fupd l d (option_map (fun x => u64 (x + vzd s)) (l d))
  | VSlice _ _ _ | VSpan _ _ _ | VStep _ _ _ | VReverse _ | VReorder _ | VHoist _ => l
  | VBlocks d M m | VBlocksDyn d M m _ =>
      fupd (fupds l [(M, None); (m, None)]) d
        (match l M, l m with Some a, Some b => Some (u64 (a * b)) | _, _ => None end)
  | VMerge M m d => fupds l [(M, None); (m, None); (d, None)]
  | VZCurve _ _ d ds => fupds l (map (fun q => (q, None)) ds)
  | VRename ps => fun q => if mem q (map fst ps) then l (rename_dim ps q)
                           else if mem q (map snd ps) then None else l q
  | VJoin a b d => fupds l [(a, l d); (b, l d); (d, None)]
  end.

(** Number of elements of one block, given the length [L] of the blocked dimension. *)
Definition minor_len (l : lenv) (M m : dim) (L : Z) : Z :=
  match l m, l M with
  | Some b, _ => b
  | None, Some a => L / a
  | None, None => 0
  end.
Definition minor_len_up (l : lenv) (M m : dim) (L : Z) : Z :=
  match l m, l M with
  | Some b, _ => b
  | None, Some a => u64 (L + a - 1) / a
  | None, None => 0
  end.

(** The indices given to the sub-structure of a view; [il] reads the lengths of the
    sub-structure. *)
Definition view_asg (v : view) (il : lenv -> asg -> dim -> Z) (l : lenv) (s : asg) : asg :=
  let l' := view_lenv v l in
  match v with
  | VBcast _ | VSetLength _ _ | VReorder _ | VHoist _ => s
  | VFix d i => fupd s d (vzd i)
  | VShift d a | VSlice d a _ | VSpan d a _ => fupd s d (u64 (s d + vzd a))
  | VStep d a r => fupd s d (u64 (s d * vzd r + vzd a))
  | VReverse d => fupd s d (u64 (il l' s d - 1 - s d))
  | VBlocks d M m => fupd s d (u64 (s M * minor_len l M m (il l' s d) + s m))
  | VBlocksDyn d M m _ => fupd s d (u64 (s M * minor_len_up l M m (il l' s d) + s m))
  | VBlocksSta d b M m ml =>
      fupd s d (u64 ((if s b =? 0 then s M else il l' s d / vzd ml) * vzd ml + s m))
  | VMerge M m d =>
      let ml := il l' (fupds s [(M, 0); (m, 0)]) m in
      fupds s [(M, s d / ml); (m, s d mod ml)]
  | VZCurve sl gl d ds =>
      let s0 := fupds s (map (fun q => (q, 0)) ds) in
      fupds s (combine ds (map vzd (zc_indices sl gl (Dyn (s d)) (map (fun q => Dyn (il l' s0 q)) ds))))
  | VRename ps => fun q => s (rename_dim ps q)
  | VJoin a b d => fupds s [(a, s d); (b, s d)]
  end.

(** The length of dimension [q] seen through a view. *)
Definition view_ilen (v : view) (il : lenv -> asg -> dim -> Z) (l : lenv) (s : asg) (q : dim) : Z :=
  let l' := view_lenv v l in
  let s' := view_asg v il l s in
  match v with
  | VBcast d => if q =? d then odef (l d) else il l' s' q
  | VShift d a =>
      if q =? d then match l d with Some x => x | None => u64 (il l' s' d - vzd a) end else il l' s' q
  | VSlice d _ n => if q =? d then vzd n else il l' s' q
  | VSpan d a e => if q =? d then u64 (vzd e - vzd a) else il l' s' q
  | VStep d a r => if q =? d then u64 (il l' s d + vzd r - vzd a - 1) / vzd r else il l' s' q
  | VReverse _ => il l' s q
  | VBlocks d M m =>
      if q =? m then minor_len l M m (il l' s d)
      else if q =? M then match l M with Some x => x | None => il l' s d / odef (l m) end
      else il l' s' q
  | VBlocksDyn d M m p =>
      let full := match l m, l M with Some b, Some a => u64 (b * a) | _, _ => il l' s d end in
      let minor := minor_len_up l M m (il l' s d) in
      if q =? p then (if u64 (s M * minor + s m) <? full then 1 else 0)
      else if q =? m then minor
      else if q =? M then
        match l M with Some x => x | None => u64 (il l' s d + odef (l m) - 1) / odef (l m) end
      else il l' s' q
  | VBlocksSta d b M m ml =>
      if q =? b then 2
      else if q =? m then (if s b =? 0 then vzd ml else il l' s d mod vzd ml)
      else if q =? M then (if s b =? 0 then il l' s d / vzd ml else 1)
      else il l' s' q
  | VMerge M m d =>
      let s0 := fupds s [(M, 0); (m, 0)] in
      if q =? d then u64 (il l' s0 M * il l' s0 m) else il l' s' q
  | VZCurve _ _ d ds =>
      let s0 := fupds s (map (fun x => (x, 0)) ds) in
      if q =? d then u64 (fold_left Z.mul (map (il l' s0) ds) 1) else il l' s' q
  | VRename ps => il l' s' (rename_dim (swap_pairs ps) q)
  | VFix _ _ | VSetLength _ _ | VReorder _ | VHoist _ | VJoin _ _ _ => il l' s' q
  end.

Fixpoint ilen (s : struct) (l : lenv) (a : asg) (q : dim) : Z :=
  match s with
  | Scalar _ => 0
  | Tuple d ts =>
      if q =? d then u64 (Z.of_nat (List.length ts))
      else match nthz (map (fun t => ilen t l a q) ts) (a d) with Some n => n | None => 0 end
  | Vector d t => if q =? d then odef (l d) else ilen t (fupd l d None) a q
  | View v t => view_ilen v (ilen t) l a q
  | Union ts =>
      match first_match q (map (fun t => (signature t, ilen t l a q)) ts) with
      | Some (Some n) => n | _ => 0 end
  end.

(** Exact sizes (no wrap-around).  A tuple pads each component's start to its alignment. *)
Fixpoint ialign (s : struct) : Z :=
  match s with
  | Scalar c => ct_align c
  | Tuple _ ts => match ts with [] => 1 | t :: _ => ialign t end
  | Vector _ t | View _ t => ialign t
  | Union _ => 1
  end.

Definition pad_up (x a : Z) : Z := (x + a - 1) / a * a.
Fixpoint total (start : Z) (l : list (Z * Z)) : Z :=
  match l with [] => start | (a, sz) :: r => total (pad_up start a + sz) r end.

Fixpoint isize (s : struct) (l : lenv) : Z :=
  match s with
  | Scalar c => ct_size c
  | Tuple _ ts => total 0 (map (fun t => (ialign t, isize t l)) ts)
  | Vector d t => odef (l d) * isize t (fupd l d None)
  | View v t => isize t (view_lenv v l)
  | Union _ => 0
  end.

(** Exact offset of the element selected by an assignment. *)
Fixpoint ioff (s : struct) (l : lenv) (a : asg) : Z :=
  match s with
  | Scalar _ => 0
  | Tuple d ts =>
      total 0 (map (fun t => (ialign t, isize t l)) (firstn (Z.to_nat (a d)) ts))
      + match nthz (map (fun t => ioff t l a) ts) (a d) with Some o => o | None => 0 end
  | Vector d t => a d * isize t (fupd l d None) + ioff t (fupd l d None) a
  | View v t => ioff t (view_lenv v l) (view_asg v (ilen t) l a)
  | Union _ => 0
  end.

(** The dimensions an assignment must give, outermost first.  A tuple dimension comes with its
    number of components; the components chosen decide which dimensions follow. *)
Fixpoint spath (s : sig) (a : asg) : option (list (dim * option Z)) :=
  match s with
  | SScalar _ => Some []
  | SVoid => Some []
  | SFun d _ r => option_map (cons (d, None)) (spath r a)
  | SDep d rs =>
      option_map (cons (d, Some (Z.of_nat (List.length rs))))
                 (ojoin (nthz (map (fun r => spath r a) rs) (a d)))
  end.

(** Index [a d] is allowed: below the length (or, for a tuple, below the component count). *)
Definition in_range (s : struct) (l : lenv) (a : asg) (e : dim * option Z) : Prop :=
  match snd e with
  | None => 0 <= a (fst e) < ilen s l a (fst e)
  | Some n => 0 <= a (fst e) < n
  end.

(** The assignment names an element of the structure. *)
Definition ivalid (s : struct) (l : lenv) (a : asg) : Prop :=
  exists sg p, signature s = Some sg /\ spath sg a = Some p /\ Forall (in_range s l a) p.

(** A value agrees with a number unless it is the result of an undefined computation. *)
Definition vagree (v : val) (x : Z) : Prop := match vz v with Some y => y = x | None => True end.

(** A state agrees with lengths [l] and indices [a]: exactly the lengths of [l] are present, and
    the indices that are present have the values [a] gives. *)
Definition oagree (o : option val) (x : option Z) : Prop :=
  match o, x with Some v, Some z => vagree v z | None, None => True | _, _ => False end.

Record agree (st : state) (l : lenv) (a : asg) : Prop := {
  ag_len : forall d, oagree (get (Len d) st) (l d);
  ag_idx : forall d v, get (Idx d) st = Some v -> vagree v (a d) }.

(** Merged dimensions must not get their length from the state. *)
Fixpoint lenok (s : struct) (l : lenv) : Prop :=
  match s with
  | Scalar _ => True
  | Tuple _ ts => fold_right and True (map (fun t => lenok t l) ts)
  | Vector d t => lenok t (fupd l d None)
  | View v t => (match v with VMerge _ _ d => l d = None | _ => True end) /\ lenok t (view_lenv v l)
  | Union ts => fold_right and True (map (fun t => lenok t l) ts)
  end.

(** No dimension occurs twice along a path (and tuples have fewer than 2^64 components). *)
Fixpoint snodup (s : sig) : bool :=
  match s with
  | SScalar _ | SVoid => true
  | SFun d _ r => negb (any_accept d r) && snodup r
  | SDep d rs => (Z.of_nat (List.length rs) <? W)
                 && (forallb (fun r => negb (any_accept d r)) rs && forallb snodup rs)
  end.
