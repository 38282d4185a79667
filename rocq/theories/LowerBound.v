(** * Model of [lower_bound_along] and [lower_bound_at]

    include/noarr/structures/introspection/lower_bound_along.hpp.  Definitions only. *)

From Verif Require Export Introspect.

(** [HasLowerBoundAlong]: 26 (default), 29-52 (bcast), 116-148 (tuple), 245-268 (vector), 331-343,
    381-393, 431-443 (fix, set_length, hoist), 482-503 (rename), 539-551, 623-635, 707-719, 793-805
    (slices), 883-918 (into_blocks), 1011-1055 (static), 1171-1213 (dynamic), 1293-1313 (merge).
    [is_monotonic()] is true wherever it may be called, so its uses are left out. *)
Fixpoint has_lower_bound (s : struct) (q : dim) (st : state) : option bool :=
  match s with
  | Scalar _ | Union _ | View (VStep _ _ _ | VJoin _ _ _ | VReorder _ | VZCurve _ _ _ _) _ => Some false
  | Tuple d ts =>
      if has (Idx d) st then
        match tuple_index d st with
        | Some k =>
            if k <? Z.of_nat (List.length ts) then
              if q =? d then Some false
              else ojoin (nthz (map (fun t => has_lower_bound t q (remove [Idx d] st)) ts) k)
            else Some false
        | None => Some false end
      else Some (q =? d)
  | Vector d t =>
      if q =? d then
        if has (Len d) st && negb (has (Idx d) st) then has_offset_of t s (with_ [(Idx d, Sta 0)] st) else Some false
      else has_lower_bound t q (remove [Idx d; Len d] st)
  | View v t =>
      let sub q' := do st' <- sub_state v t st; has_lower_bound t q' st' in
      let with_minor m d := do h <- has_length s m st; if h then sub d else Some false in
      match v with
      | VBcast d =>
          if q =? d then
            if has (Len d) st && negb (has (Idx d) st) then has_offset_of t s (with_ [(Idx d, Sta 0)] st) else Some false
          else sub q
      | VRename ps => if rename_hides ps q then Some false else sub (rename_in ps q)
      | VBlocks d M m =>
          if q =? m then sub d
          else if q =? M then with_minor m d
          else if q =? d then Some false else sub q
      | VBlocksSta d b M m _ =>
          if (q =? m) || (q =? M) then if has (Idx b) st then with_minor m d else Some false
          else if q =? b then if has (Idx b) st then Some false else sub d
          else if q =? d then Some false else sub q
      | VBlocksDyn d M m p =>
          if (q =? m) || (q =? M) || (q =? p) then with_minor m d
          else if q =? d then Some false else sub q
      | VMerge M m d =>
          if q =? d then oand (sub M) (sub m)
          else if (q =? M) || (q =? m) then Some false else sub q
      | _ => sub q
      end
  end.

(** The requirements of the tuple functions on the interval (177-182, 223-228): constants. *)
Definition tuple_interval (ts : list struct) (iv : option (val * val)) : bool :=
  match iv with
  | None => true
  | Some (mn, en) =>
      match vstatic mn, vstatic en with
      | Some x, Some y => (x <? Z.of_nat (List.length ts)) && (x <? y)
      | _, _ => false
      end
  end.

(** [lower_bound_along<Dim>(structure, state)] ([iv = None]) and
    [lower_bound_along<Dim>(structure, state, min, end)] ([iv = Some (min, end)]): 68-90 (bcast), 163-201
    (tuple), 284-307 (vector), 354-367, 404-417, 454-467 (fix, set_length, hoist), 514-527 (rename),
    562-591 (shift), 646-675 (slice), 730-761 (span), 816-847 (reverse), 934-969 (into_blocks), 1073-1106
    (static), 1231-1264 (dynamic), 1328-1366 (merge).  For tuples the interval must be given by constants
    even if another dimension is asked for (177-182). *)
Fixpoint lower_bound (s : struct) (q : dim) (st : state) (iv : option (val * val)) : option val :=
  guard (has_lower_bound s q st)
  match s with
  | Scalar _ | Union _ => None
  | Tuple d ts =>
      guard (Some (tuple_interval ts iv))
      (if has (Idx d) st then
        do k <- tuple_index d st;
        ojoin (nthz (map (fun t => lower_bound t q (remove [Idx d] st) iv) ts) k)
      else
        match iv with
        | None => Some (Sta 0)
        | Some (mn, _) =>
            do k <- vstatic mn; do t <- nthz ts k; offset_of t s (with_ [(Idx d, mn)] st) (Sta 0)
        end)
  | Vector d t =>
      if q =? d then
        match iv with
        | None => Some (Sta 0)
        | Some (mn, _) => do sz <- size_ t (remove [Idx d; Len d] st); Some (vmul sz mn)
        end
      else lower_bound t q (remove [Idx d; Len d] st) iv
  | View v t =>
      let sub q' iv' := do st' <- sub_state v t st; lower_bound t q' st' iv' in
      let moved d start none :=
        if q =? d then
          match iv with
          | None => do e <- none; sub d (Some (start, e))
          | Some (mn, en) => sub d (Some (vadd mn start, vadd en start))
          end
        else sub q iv in
      let blocks d M m extra :=
        if q =? m then
          match iv with
          | None => do n <- length_ s m st; sub d (Some (Sta 0, n))
          | Some _ => sub d iv
          end
        else if q =? M then
          match iv with
          | None => Some (Sta 0)
          | Some (mn, en) => do n <- length_ s m st; sub d (Some (vmul mn n, vmul en n))
          end
        else if mem q extra then Some (Sta 0) else sub q iv in
      match v with
      | VBcast d => if q =? d then Some (Sta 0) else sub q iv
      | VRename ps => sub (rename_in ps q) iv
      | VShift d start => moved d start (do st' <- sub_state v t st; length_ t d st')
      | VSlice d start n => moved d start (Some (vadd start n))
      | VSpan d start e => moved d start (Some e)
      | VReverse d =>
          match iv with
          | None => sub q None
          | Some (mn, en) =>
              if q =? d then
                do n <- (do st' <- sub_state v t st; length_ t d st');
                sub d (Some (vsub n en, vsub (vsub n (Sta 1)) mn))
              else sub q iv
          end
      | VBlocks d M m => blocks d M m []
      | VBlocksSta d b M m _ => blocks d M m [b]
      | VBlocksDyn d M m p => blocks d M m [p]
      | VMerge M m d =>
          if q =? d then
            match iv with
            | None => do x <- sub M None; do y <- sub m None; Some (vadd x y)
            | Some (mn, en) =>
                do n <- (do st' <- sub_state v t st; length_ t m st');
                do x <- sub M (Some (vdiv mn n, vdiv en n));
                do y <- sub m (Some (vmod mn n, vmod en n));
                Some (vadd x y)
            end
          else sub q iv
      | _ => sub q iv
      end
  end.

(** The type of a function with two [return] statements: both must have the same type, so a constant
    and a number, or two different constants, do not compile. *)
Definition same_return (c : bool) (x y : val) : option val :=
  match x, y with
  | Sta i, Sta j => if i =? j then Some x else None
  | Sta _, _ | _, Sta _ => None
  | _, _ => Some (if c then x else y)
  end.
Definition is_zero (v : val) : bool := match vz v with Some 0 => true | _ => false end.

(** [lower_bound_at<Dim>(structure, state)] and [lower_bound_at<Dim>(structure, state, min, end)]: 92-113
    (bcast), 204-242 (tuple), 309-328 (vector), 369-378, 419-428, 469-478, 529-536, 593-620 (shift),
    677-704 (slice), 763-790 (span), 849-879 (reverse), 971-1007 (into_blocks), 1108-1166 (static),
    1266-1290 (dynamic, without the function for intervals), 1368-1407 (merge). *)
Fixpoint lower_bound_at (s : struct) (q : dim) (st : state) (iv : option (val * val)) : option val :=
  guard (has_lower_bound s q st)
  match s with
  | Scalar _ | Union _ => None
  | Tuple d ts =>
      guard (Some (tuple_interval ts iv))
      (if has (Idx d) st then
        do k <- tuple_index d st;
        ojoin (nthz (map (fun t => lower_bound_at t q (remove [Idx d] st) iv) ts) k)
      else Some (match iv with None => Sta 0 | Some (mn, _) => mn end))
  | Vector d t =>
      if q =? d then Some (match iv with None => Sta 0 | Some (mn, _) => mn end)
      else lower_bound_at t q (remove [Idx d; Len d] st) iv
  | View v t =>
      let sub q' iv' := do st' <- sub_state v t st; lower_bound_at t q' st' iv' in
      let sub_length d := do st' <- sub_state v t st; length_ t d st' in
      let moved d start none :=
        if q =? d then
          match iv with
          | None => do e <- none; do x <- sub d (Some (start, e)); Some (vsub x start)
          | Some (mn, en) => do x <- sub d (Some (vadd mn start, vadd en start)); Some (vsub x start)
          end
        else sub q iv in
      let blocks d M m rest :=
        if q =? m then
          match iv with
          | None => do n <- length_ s m st; sub d (Some (Sta 0, n))
          | Some _ => sub d iv
          end
        else if q =? M then
          do z <- sub d None;
          match iv with
          | None => do n <- length_ s m st; same_return (is_zero z) (Sta 0) (vsub n (Sta 1))
          | Some (mn, en) => same_return (is_zero z) mn (vsub en (Sta 1))
          end
        else rest in
      match v with
      | VBcast d => if q =? d then Some (match iv with None => Sta 0 | Some (mn, _) => mn end) else sub q iv
      | VRename ps => sub (rename_in ps q) iv
      | VShift d start => moved d start (do n <- sub_length d; Some (vsub n start))
      | VSlice d start n => moved d start (Some (vadd start n))
      | VSpan d start e => moved d start (Some e)
      | VReverse d =>
          if q =? d then
            do n <- sub_length d;
            match iv with
            | None => do x <- sub q None; Some (vsub (vsub n (Sta 1)) x)
            | Some (mn, en) =>
                do x <- sub d (Some (vsub n en, vsub (vsub n (Sta 1)) mn)); Some (vsub (vsub n (Sta 1)) x)
            end
          else sub q iv
      | VBlocks d M m => blocks d M m (sub q iv)
      | VBlocksSta d b M m _ =>
          blocks d M m
            (if q =? b then
               do z <- sub d None;
               match iv with
               | None => same_return (is_zero z) (Sta 0) (Sta 1)
               | Some (mn, en) => do n <- length_ s m st; same_return (is_zero z) mn (vsub en (Sta 1))
               end
             else sub q iv)
      | VBlocksDyn d M m p =>
          match iv with
          | None => blocks d M m (if q =? p then Some (Sta 0) else sub q None)
          | Some _ => None
          end
      | VMerge M m d =>
          if q =? d then
            match iv with
            | None => do x <- sub M None; do y <- sub m None; Some (vadd x y)
            | Some (mn, en) =>
                do n <- sub_length m;
                do x <- sub M (Some (vdiv mn n, vdiv en n));
                do y <- sub m (Some (vmod mn n, vmod en n));
                Some (vadd x y)
            end
          else sub q iv
      | _ => sub q iv
      end
  end.
