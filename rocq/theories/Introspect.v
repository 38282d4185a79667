(** * Model of the introspection queries

    include/noarr/structures/introspection/{uniform,offset,stride}_along.hpp and contiguous.hpp.
    Definitions only.  The class templates give [value] (may the query be asked?) and a function
    that is only available if [value] holds; as elsewhere [None] means that the compiler rejects the
    program. *)

From Verif Require Export Struct.

(** Does [rename_t] hide the name [q]: an internal name that is not an external one.
    (uniform_along.hpp 107, stride_along.hpp 181, offset_along.hpp 193) *)
Definition rename_hides (ps : list (dim * dim)) (q : dim) : bool := mem q (map fst ps) && negb (mem q (map snd ps)).
Definition rename_in (ps : list (dim * dim)) (q : dim) : dim := rename_dim (swap_pairs ps) q.

(** ** uniform_along.hpp *)

(** [is_uniform_along<Dim>(structure, state)]: 26 (default), 29-40, 43-80 (bcast, vector), 83-92
    (fix, set_length, hoist), 95-115 (rename), 119-139 (join), 142-158 (slices), 162-187
    (into_blocks), 192-243 (static, dynamic), 246-266 (merge), 271-290 (z-curve). *)
Fixpoint uniform_along (s : struct) (q : dim) (st : state) : option bool :=
  match s with
  | Scalar _ | Tuple _ _ | Union _ | View (VReorder _) _ => Some false
  | Vector d t =>
      if q =? d then Some (has (Len d) st && negb (has (Idx d) st))
      else uniform_along t q (remove [Idx d; Len d] st)
  | View v t =>
      let sub q' := do st' <- sub_state v t st; uniform_along t q' st' in
      match v with
      | VBcast d => if q =? d then Some (has (Len d) st && negb (has (Idx d) st)) else sub q
      | VRename ps => if rename_hides ps q then Some false else sub (rename_in ps q)
      | VJoin a b d =>
          if q =? d then oand (sub a) (sub b)
          else if (q =? a) || (q =? b) then Some false else sub q
      | VBlocks d M m =>
          if q =? m then sub d
          else if q =? M then
            do h <- has_length s m st; if h then sub d else Some false
          else if q =? d then Some false else sub q
      | VBlocksSta d b M m _ =>
          if (q =? M) || (q =? m) || (q =? b) then sub d
          else if q =? d then Some false else sub q
      | VBlocksDyn d M m p =>
          if (q =? M) || (q =? m) || (q =? p) then sub d
          else if q =? d then Some false else sub q
      | VMerge M m d =>
          if q =? d then oand (sub M) (sub m)
          else if (q =? M) || (q =? m) then Some false else sub q
      | VZCurve _ _ d ds =>
          if q =? d then oall (map sub ds)
          else if mem q ds then Some false else sub q
      | _ => sub q
      end
  end.

(** ** stride_along.hpp *)

(** [HasStrideAlong]: 24 (default), 27-56 (bcast), 59-101 (vector), 104-165 (fix, set_length,
    hoist), 168-195 (rename), 199-233 (join), 236-350 (slices), 354-406 (into_blocks), 411-453
    (static), 458-504 (dynamic). *)
Fixpoint has_stride_along (s : struct) (q : dim) (st : state) : option bool :=
  match s with
  | Scalar _ | Tuple _ _ | Union _ | View (VReorder _ | VMerge _ _ _ | VZCurve _ _ _ _) _ => Some false
  | Vector d t =>
      if q =? d then
        if has (Len d) st && negb (has (Idx d) st) then
          oand (has_offset_of t s (with_ [(Idx d, Sta 0)] st)) (has_offset_of t s (with_ [(Idx d, Sta 1)] st))
        else Some false
      else has_stride_along t q (remove [Idx d; Len d] st)
  | View v t =>
      let sub q' := do st' <- sub_state v t st; has_stride_along t q' st' in
      match v with
      | VBcast d => if q =? d then Some (has (Len d) st && negb (has (Idx d) st)) else sub q
      | VRename ps => if rename_hides ps q then Some false else sub (rename_in ps q)
      | VJoin a b d =>
          if q =? d then oand (sub a) (sub b)
          else if (q =? a) || (q =? b) then Some false else sub q
      | VBlocks d M m | VBlocksSta d _ M m _ =>
          if q =? m then sub d
          else if q =? M then do h <- has_length s m st; if h then sub d else Some false
          else if (q =? d) || (match v with VBlocksSta _ b _ _ _ => q =? b | _ => false end) then Some false
          else sub q
      | VBlocksDyn d M m p =>
          if q =? m then sub d
          else if q =? M then do h <- has_length s m st; if h then sub d else Some false
          else if q =? p then Some true
          else if q =? d then Some false else sub q
      | _ => sub q
      end
  end.

(** [stride_along<Dim>(structure, state)], the lines as above.  The result of [reverse] is a signed
    number; it is kept modulo 2^64.  The sum of [join] is the built-in one. *)
Fixpoint stride_along (s : struct) (q : dim) (st : state) : option val :=
  guard (has_stride_along s q st)
  match s with
  | Scalar _ | Tuple _ _ | Union _ => None
  | Vector d t =>
      if q =? d then
        do o1 <- offset_of t s (with_ [(Idx d, Sta 1)] st) (Sta 0);
        do o0 <- offset_of t s (with_ [(Idx d, Sta 0)] st) (Sta 0);
        Some (vsub o1 o0)
      else stride_along t q (remove [Idx d; Len d] st)
  | View v t =>
      let sub q' := do st' <- sub_state v t st; stride_along t q' st' in
      match v with
      | VBcast d => if q =? d then Some (Sta 0) else sub q
      | VRename ps => sub (rename_in ps q)
      | VJoin a b d => if q =? d then do x <- sub a; do y <- sub b; Some (dyn2 Z.add x y) else sub q
      | VStep d _ r => do x <- sub q; Some (vmul x r)                    (* 299-320: for every [q] *)
      | VReverse d => do x <- sub q; Some (if q =? d then vneg x else x)
      | VBlocks d M m | VBlocksSta d _ M m _ | VBlocksDyn d M m _ =>
          if q =? m then sub d
          else if q =? M then do n <- length_ s m st; do x <- sub d; Some (vmul n x)
          else if match v with VBlocksDyn _ _ _ p => q =? p | _ => false end then Some (Sta 0)
          else sub q
      | _ => sub q
      end
  end.

(** ** offset_along.hpp *)

(** [HasOffsetAlong]: 23 (default), 26-44, 47-109 (bcast, vector), 113-157 (tuple), 160-168 (fix,
    set_length, hoist), 172-199 (rename), 203-237 (join), 240-257 (slices), 259-302 (into_blocks),
    307-362 (static), 367-415 (dynamic), 418-452 (merge). *)
Fixpoint has_offset_along (s : struct) (q : dim) (st : state) : option bool :=
  match s with
  | Scalar _ | Union _ | View (VReorder _ | VZCurve _ _ _ _) _ => Some false
  | Tuple d ts =>
      match tuple_index d st with
      | Some k =>
          if k <? Z.of_nat (List.length ts) then
            if q =? d then do t <- nthz ts k; has_offset_of t s st
            else ojoin (nthz (map (fun t => has_offset_along t q (remove [Idx d] st)) ts) k)
          else Some false
      | None => Some false end
  | Vector d t =>
      if q =? d then has_offset_of t s st else has_offset_along t q (remove [Idx d; Len d] st)
  | View v t =>
      let sub q' := do st' <- sub_state v t st; has_offset_along t q' st' in
      match v with
      | VBcast d => if q =? d then has_offset_of t s st else sub q
      | VRename ps => sub (rename_in ps q)
      | VJoin a b d | VMerge a b d =>
          if q =? d then oand (sub a) (sub b)
          else if (q =? a) || (q =? b) then Some false else sub q
      | VBlocks d M m => if (q =? M) || (q =? m) then sub d else if q =? d then Some false else sub q
      | VBlocksSta d b M m _ =>
          if (q =? M) || (q =? m) || (q =? b) then sub d else if q =? d then Some false else sub q
      | VBlocksDyn d M m p =>
          if (q =? M) || (q =? m) || (q =? p) then sub d else if q =? d then Some false else sub q
      | _ => sub q
      end
  end.

(** [offset_along<Dim>(structure, state)], the lines as above.  The sums of [join] and [merge] are
    built-in ones.  [rename] returns [false] for a hidden name (193-194), which converts to 0. *)
Fixpoint offset_along (s : struct) (q : dim) (st : state) : option val :=
  guard (has_offset_along s q st)
  match s with
  | Scalar _ | Union _ => None
  | Tuple d ts =>
      do k <- tuple_index d st;
      if q =? d then do t <- nthz ts k; offset_of t s st (Sta 0)
      else ojoin (nthz (map (fun t => offset_along t q (remove [Idx d] st)) ts) k)
  | Vector d t =>
      if q =? d then
        do i <- get (Idx d) st; do sz <- size_ t (remove [Idx d; Len d] st); Some (vmul i sz)
      else offset_along t q (remove [Idx d; Len d] st)
  | View v t =>
      let sub_at q' st0 := do st' <- sub_state v t st0; offset_along t q' st' in
      let sub q' := sub_at q' st in
      let zeros ds := with_ (map (fun d => (Idx d, Sta 0)) ds) st in
      let minus d a b := do x <- sub_at d (zeros a); do y <- sub_at d (zeros b); Some (vsub x y) in
      match v with
      | VBcast d => if q =? d then Some (Sta 0) else sub q
      | VRename ps => if rename_hides ps q then Some (Dyn 0) else sub (rename_in ps q)
      | VJoin a b d | VMerge a b d =>
          if q =? d then do x <- sub a; do y <- sub b; Some (dyn2 Z.add x y) else sub q
      | VBlocks d M m | VBlocksSta d _ M m _ | VBlocksDyn d M m _ =>
          if q =? M then minus d [m] [M; m]
          else if q =? m then minus d [M] [M; m]
          else match v with
               | VBlocksSta _ b _ _ _ => if q =? b then minus d [M; m] [M; m; b] else sub q
               | VBlocksDyn _ _ _ p => if q =? p then Some (Sta 0) else sub q
               | _ => sub q end
      | _ => sub q
      end
  end.

(** ** contiguous.hpp *)

(** [is_contiguous(structure, state)]: 24 (default), 27 (scalar), 30-45 (vector), 48-66 (tuple), 69-84
    (bcast), 87-183 (fix, set_length, reorder, hoist, rename, join, shift, slice), 186-197 (span: with the
    sub-state of a slice, which is the same), 200-215 (step), 218-229 (reverse), 233-279 (into_blocks and
    into_blocks_dynamic), 284-311 (into_blocks_static). *)
Fixpoint is_contiguous (s : struct) (st : state) : option bool :=
  match s with
  | Scalar _ => Some true
  | Union _ | View (VMerge _ _ _ | VZCurve _ _ _ _) _ => Some false
  | Vector d t => if has (Len d) st then is_contiguous t (remove [Idx d; Len d] st) else Some false
  | Tuple d ts =>
      if has (Idx d) st then
        do k <- tuple_index d st; ojoin (nthz (map (fun t => is_contiguous t (remove [Idx d] st)) ts) k)
      else oall (map (fun t => is_contiguous t (remove [Idx d] st)) ts)
  | View v t =>
      let sub := do st' <- sub_state v t st; is_contiguous t st' in
      let blocks M m ds :=
        let indexless := remove ds st in
        do h <- oand (has_length s M indexless) (has_length s m indexless);
        if h then if has (Idx m) st && negb (has (Idx M) st) then Some false else sub
        else Some false in
      match v with
      | VBcast d => if has (Len d) st then sub else Some false
      | VStep d _ _ => if has (Idx d) st then sub else Some false
      | VBlocks d M m | VBlocksDyn d M m _ => blocks M m [Idx M; Idx m]
      | VBlocksSta d b M m _ => if has (Idx b) st then blocks M m [Idx M; Idx m; Idx b] else Some false
      | _ => sub
      end
  end.
