(** * Preconditions of the layout properties

    The documentation asks the user to respect a number of preconditions: a slice must lie inside
    the dimension, the block length must not be zero, and so on.  This file writes them down, on
    the integer reading of Sem.v.  Definitions only. *)

From Verif Require Export Sem.

(** ** Which indices a reported length may depend on *)

(** The view-level indices from which the index of sub-dimension [x] is computed; [ld] gives the
    dependencies of the lengths of the sub-structure. *)
Definition view_adep (v : view) (ld : dim -> list dim) (x : dim) : list dim :=
  match v with
  | VFix d _ => if x =? d then [] else [x]
  | VReverse d => if x =? d then d :: ld d else [x]
  | VBlocks d M m | VBlocksDyn d M m _ => if x =? d then M :: m :: ld d else [x]
  | VBlocksSta d b M m _ => if x =? d then b :: M :: m :: ld d else [x]
  | VMerge M m d => if (x =? M) || (x =? m) then d :: ld m else [x]
  | VZCurve _ _ d ds => if mem x ds then d :: flat_map ld ds else [x]
  | VRename ps => [rename_dim ps x]
  | _ => [x]
  end.

Definition view_ldeps (v : view) (ld : dim -> list dim) (q : dim) : list dim :=
  let up D := flat_map (view_adep v ld) D in
  match v with
  | VBcast d => if q =? d then [] else up (ld q)
  | VSlice d _ _ | VSpan d _ _ => if q =? d then [] else up (ld q)
  | VStep d _ _ => if q =? d then ld d else up (ld q)
  | VReverse _ => ld q
  | VBlocks d M m => if (q =? m) || (q =? M) then ld d else up (ld q)
  | VBlocksDyn d M m p =>
      if q =? p then M :: m :: ld d else if (q =? m) || (q =? M) then ld d else up (ld q)
  | VBlocksSta d b M m _ =>
      if q =? b then [] else if (q =? m) || (q =? M) then b :: ld d else up (ld q)
  | VMerge M m d => if q =? d then ld M ++ ld m else up (ld q)
  | VZCurve _ _ d ds => if q =? d then flat_map ld ds else up (ld q)
  | VRename ps => up (ld (rename_dim (swap_pairs ps) q))
  | VFix _ _ | VSetLength _ _ | VShift _ _ | VReorder _ | VHoist _ | VJoin _ _ _ => up (ld q)
  end.

Fixpoint ldeps (s : struct) (q : dim) : list dim :=
  match s with
  | Scalar _ => []
  | Tuple d ts => if q =? d then [] else d :: flat_map (fun t => ldeps t q) ts
  | Vector d t => if q =? d then [] else ldeps t q
  | View v t => view_ldeps v (ldeps t) q
  | Union ts => flat_map (fun t => ldeps t q) ts
  end.

(** All dimensions of a signature, and those that are tuple dimensions. *)
Fixpoint sdims (s : sig) : list dim :=
  match s with
  | SScalar _ | SVoid => []
  | SFun d _ r => d :: sdims r
  | SDep d rs => d :: flat_map sdims rs
  end.
Fixpoint sdep_dims (s : sig) : list dim :=
  match s with
  | SScalar _ | SVoid => []
  | SFun _ _ r => sdep_dims r
  | SDep d rs => d :: flat_map sdep_dims rs
  end.

(** How many of [ds] occur on the paths of a signature. *)
Fixpoint scounts (ds : list dim) (s : sig) : list nat :=
  match s with
  | SScalar _ | SVoid => [0%nat]
  | SFun d _ r => map (Nat.add (if mem d ds then 1 else 0)) (scounts ds r)
  | SDep d rs => map (Nat.add (if mem d ds then 1 else 0)) (flat_map (scounts ds) rs)
  end.
(** Every path has all of [ds] or none of them. *)
Definition together (ds : list dim) (s : sig) : bool :=
  forallb (fun c => Nat.eqb c 0 || Nat.eqb c (List.length ds)) (scounts ds s).

Definition disjointb (a b : list dim) : bool := forallb (fun x => negb (mem x b)) a.

(** ** Structures covered by the theorems

    - no union (it has no memory layout) and no join (see the separate results about join);
    - sizes are not negative and alignments are powers of two, as in C++;
    - a broadcast adds a new dimension;
    - a reorder mentions every dimension;
    - a reversed dimension is not a tuple dimension, and no other length depends on its index;
    - the length of a dimension that is split or merged does not depend on its own index;
    - dimensions that are merged occur together: a path has all of them or none;
    - a Z-curve merges 2 to 32 dimensions and its shifts fit 32 bits. *)
Definition view_swf (v : view) (t : struct) : bool :=
  match signature t with
  | None => false
  | Some sg =>
    match v with
    | VBcast d => negb (any_accept d sg)
    | VFix _ i => match vz i with Some _ => true | None => false end
    | VSetLength _ n => match vz n with Some _ => true | None => false end
    | VShift _ s => match vz s with Some _ => true | None => false end
    | VSlice _ s n | VSpan _ s n => match vz s, vz n with Some _, Some _ => true | _, _ => false end
    | VStep d s r => match vz s, vz r with Some _, Some n => 0 <? n | _, _ => false end
                     && negb (mem d (ldeps t d))
    | VReverse d => negb (mem d (sdep_dims sg)) && forallb (fun q => negb (mem d (ldeps t q))) (sdims sg)
    | VBlocks d _ _ | VBlocksDyn d _ _ _ => negb (mem d (ldeps t d))
    | VBlocksSta d _ _ _ n => match vz n with Some x => 0 <? x | _ => false end && negb (mem d (ldeps t d))
    | VMerge M m _ => disjointb [M; m] (ldeps t M ++ ldeps t m) && together [M; m] sg
    | VZCurve sl _ _ ds =>
        disjointb ds (flat_map (ldeps t) ds) && Nat.leb 2 (List.length ds) && Nat.leb (List.length ds) 32
        && Nat.ltb (sl * List.length ds) 32 && together ds sg
    | VReorder _ => match view_sig v sg with Some s' => sig_complete s' | None => false end
    | VHoist _ | VRename _ => true
    | VJoin _ _ _ => false
    end
  end.

Definition cty_ok (c : cty) : bool :=
  (0 <=? ct_size c) && (0 <? ct_align c) && (ct_align c <? W) && (W mod ct_align c =? 0).

Fixpoint swf (s : struct) : bool :=
  match s with
  | Scalar c => cty_ok c
  | Tuple _ ts => (Z.of_nat (List.length ts) <? W) && forallb swf ts
  | Vector _ t => swf t
  | View v t => view_swf v t && swf t
  | Union _ => false
  end.

(** The same for structures that are only traversed: a union of structures is allowed, but tuples only
    in a union of one structure (the library does not support the rest, traverser.hpp 44-47). *)
Definition nodep (t : struct) : bool :=
  match signature t with Some sg => match sdep_dims sg with [] => true | _ => false end | None => false end.
Fixpoint uswf (s : struct) : bool :=
  match s with
  | Scalar _ => true
  | Tuple _ ts => (Z.of_nat (List.length ts) <? W) && forallb uswf ts
  | Vector _ t => uswf t
  | View v t => view_swf v t && uswf t
  | Union ts => forallb uswf ts && match ts with [_] => true | _ => forallb nodep ts end
  end.

(** ** Preconditions on the values *)

(** The length of dimension [d] if it occurs on the path chosen by [a]. *)
Definition plen (t : struct) (l : lenv) (a : asg) (d : dim) : option Z :=
  match signature t with
  | Some sg =>
      match spath sg a with
      | Some p => match find (fun e => fst e =? d) p with
                  | Some (_, None) => Some (ilen t l a d)
                  | Some (_, Some n) => Some n
                  | None => None end
      | None => None end
  | None => None end.

Definition on_len (o : option Z) (P : Z -> Prop) : Prop := match o with Some L => P L | None => True end.

Definition prodl (l : list Z) : Z := fold_right Z.mul 1 l.

(** Conditions for the Z-curve: [ls] are the lengths of the merged dimensions. *)
Definition zc_good (sl gl : nat) (ls : list Z) : Prop :=
  Forall (fun x => x mod 2 ^ Z.of_nat sl = 0 /\ x <= 2 ^ Z.of_nat gl) ls /\
  prodl ls < W /\
  (* no overflow of the volume of half a tile; [take out] one length at a time *)
  forall a x b, ls = a ++ x :: b ->
    prodl (map (fun y => y / 2 ^ Z.of_nat sl) (a ++ b)) * 2 ^ (Z.of_nat (gl - sl) - 1) < W.

(** [L] gives the lengths of the sub-structure's dimensions on the chosen path, [l] the lengths
    given through the state.
    - fix: the index is below the length;
    - shift, slice, span: the selected part lies inside the dimension;
    - step: the start is at most one stride past the end;
    - blocks: the number of blocks or their length may not be zero; if both are given, the blocks
      lie inside the dimension; the round-up to whole blocks does not overflow;
    - merge: the merged length does not overflow;
    - Z-curve: see [zc_good]. *)
Definition view_good (v : view) (L : dim -> option Z) (l : lenv) : Prop :=
  match v with
  | VFix d i => on_len (L d) (fun n => vzd i < n)
  | VShift d s => on_len (L d) (fun n => match l d with Some x => x + vzd s <= n | None => vzd s <= n end)
  | VSlice d s k => on_len (L d) (fun n => vzd s + vzd k <= n)
  | VSpan d s e => on_len (L d) (fun n => vzd s <= vzd e <= n)
  | VStep d s r => on_len (L d) (fun n => vzd s < n + vzd r <= W)
  | VBlocks d M m =>
      match l M, l m with
      | Some x, Some y => on_len (L d) (fun n => x * y <= n)
      | Some x, None => x <> 0
      | None, Some y => y <> 0
      | None, None => True end
  | VBlocksDyn d M m _ =>
      match l M, l m with
      | Some x, Some y => on_len (L d) (fun n => x * y <= n)
      | Some x, None => x <> 0 /\ on_len (L d) (fun n => n + x <= W)
      | None, Some y => y <> 0 /\ on_len (L d) (fun n => n + y <= W)
      | None, None => True end
  | VMerge M m _ =>
      match L M, L m with
      | Some x, Some y => x * y < W
      | _, _ => True end
  | VZCurve sl gl d ds =>
      match omap L ds with
      | Some ls => zc_good sl gl ls
      | None => True
      end
  | _ => True
  end.

(** A broadcast: the only view for which different indices select the same element. *)
Definition is_bcast (v : view) : bool := match v with VBcast _ => true | _ => false end.

Fixpoint good (s : struct) (l : lenv) (a : asg) : Prop :=
  match s with
  | Scalar _ => True
  | Tuple d ts => match nthz (map (fun t => good t l a) ts) (a d) with Some P => P | None => True end
  | Vector d t => good t (fupd l d None) a
  | View v t =>
      let l' := view_lenv v l in
      let a' := view_asg v (ilen t) l a in
      view_good v (plen t l' a') l /\ good t l' a' /\
      match v with VReverse _ => good t l' a | _ => True end   (* the code also reads lengths unreversed *)
  | Union ts =>   (* the lengths come from the first structure, the other ones may not be shorter *)
      fold_right and True (map (fun t => good t l a) ts) /\
      Forall (fun t => forall q, on_len (plen (Union ts) l a q) (fun m => on_len (plen t l a q) (fun n => m <= n))) ts
  end.
