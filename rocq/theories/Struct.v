(** * Structures: layouts and views

    Model of structs/*.hpp, base/structs_common.hpp, extra/funcs.hpp and the union of
    extra/traverser.hpp.  One Gallina function per C++ member function; [None] means that the
    compiler rejects the call (a failed static_assert or requires clause, or a hard error).
    Definitions only. *)

From Verif Require Export Sig ZCurve.

(** Views: structures with exactly one sub-structure whose memory layout they keep. *)
Inductive view :=
| VBcast (d : dim)                                  (* structs/bcast.hpp 12-90 *)
| VFix (d : dim) (i : val)                          (* structs/setters.hpp 12-126 *)
| VSetLength (d : dim) (l : val)                    (* structs/setters.hpp 158-258 *)
| VShift (d : dim) (start : val)                    (* structs/slice.hpp 17-171 *)
| VSlice (d : dim) (start len : val)                (* structs/slice.hpp 203-330 *)
| VSpan (d : dim) (start end_ : val)                (* structs/slice.hpp 355-483 *)
| VStep (d : dim) (start stride : val)              (* structs/slice.hpp 508-639 *)
| VReverse (d : dim)                                (* structs/slice.hpp 681-796 *)
| VBlocks (d M m : dim)                             (* structs/blocks.hpp 16-201 *)
| VBlocksDyn (d M m p : dim)                        (* structs/blocks.hpp 219-462 *)
| VBlocksSta (d b M m : dim) (l : val)              (* structs/blocks.hpp 480-669 *)
| VMerge (M m d : dim)                              (* structs/blocks.hpp 689-881 *)
| VZCurve (sl gl : nat) (d : dim) (ds : list dim)   (* structs/zcurve.hpp 132-275 *)
| VReorder (ds : list dim)                          (* structs/views.hpp 134-211 *)
| VHoist (d : dim)                                  (* structs/views.hpp 229-313 *)
| VRename (ps : list (dim * dim))                   (* structs/views.hpp 422-539; (internal, external) *)
| VJoin (a b d : dim).                              (* structs/views.hpp 559-672 *)

Inductive struct :=
| Scalar (c : cty)                                  (* structs/scalar.hpp 17-64 *)
| Tuple (d : dim) (ts : list struct)                (* structs/layouts.hpp 24-193 *)
| Vector (d : dim) (t : struct)                     (* structs/layouts.hpp 217-338 *)
| View (v : view) (t : struct)
| Union (ts : list struct).                         (* extra/traverser.hpp 105-157 *)

(** ** Signatures *)

(** structs/slice.hpp 44-58 *)
Definition arglen_sub (a : arglen) (start : val) : arglen :=
  match a, start with ASta l, Sta s => ASta (u64 (l - u64 s)) | _, _ => ADyn end.

(** structs/blocks.hpp 728-741 and structs/zcurve.hpp 35-43 *)
Definition arglen_mul (a b : arglen) : arglen :=
  match a, b with ASta x, ASta y => ASta (u64 (x * y)) | _, _ => ADyn end.

(** structs/blocks.hpp 529-545; a static zero divisor is a hard error. *)
Definition arglen_divmod (a b : arglen) : option (arglen * arglen) :=
  match a, b with
  | ASta x, ASta y => if y =? 0 then None else Some (ASta (x / y), ASta (x mod y))
  | _, _ => Some (ADyn, ADyn)
  end.

(** structs/zcurve.hpp 159-187 *)
Fixpoint zc_replace (n : nat) (acc : arglen) (d : dim) (ds : list dim) (s : sig) : option sig :=
  match s, n with
  | SFun _ a r, O => None
  | SFun _ a r, 1%nat => Some (SFun d (arglen_mul acc a) r)
  | SFun _ a r, S n' => sreplace ds (zc_replace n' (arglen_mul acc a) d ds) r
  | _, _ => None
  end.

Fixpoint nodupb (ds : list dim) : bool :=
  match ds with [] => true | d :: r => negb (mem d r) && nodupb r end.

Definition swap_pairs (ps : list (dim * dim)) : list (dim * dim) := map (fun p => (snd p, fst p)) ps.

(** The [signature] member of a view over a sub-structure with signature [s], together with the
    class-level static_asserts. *)
Definition view_sig (v : view) (s : sig) : option sig :=
  match v with
  | VBcast d =>                                       (* bcast.hpp 41 *)
      Some (SFun d ADyn s)
  | VFix d i =>                                       (* setters.hpp 36-52, 69 *)
      sreplace [d] (fun o => match o with
        | SFun _ _ r => Some r
        | SDep _ rs => match vstatic i with Some k => nthz rs k | None => None end
        | _ => None end) s
  | VSetLength d l =>                                 (* setters.hpp 182-194, 211 *)
      sreplace [d] (fun o => match o with
        | SFun _ _ r => Some (SFun d (arglen_of l) r) | _ => None end) s
  | VShift d st =>                                    (* slice.hpp 40-75 *)
      sreplace [d] (fun o => match o with
        | SFun _ a r => Some (SFun d (arglen_sub a st) r)
        | SDep _ rs =>
            match vstatic st with
            | Some k => option_map (SDep d)
                          (pick_sigs rs (u64 (Z.of_nat (List.length rs) - k)) (fun i => i + k))
            | None => None end
        | _ => None end) s
  | VSlice d st len =>                                (* slice.hpp 231-257 *)
      sreplace [d] (fun o => match o with
        | SFun _ a r => Some (SFun d (arglen_of len) r)
        | SDep _ rs =>
            match vstatic st, vstatic len with
            | Some k, Some n => option_map (SDep d) (pick_sigs rs n (fun i => i + k))
            | _, _ => None end
        | _ => None end) s
  | VSpan d st en =>                                  (* slice.hpp 383-409 *)
      sreplace [d] (fun o => match o with
        | SFun _ a r => Some (SFun d (arglen_of en) r)
        | SDep _ rs =>
            match vstatic st, vstatic en with
            | Some k, Some e => option_map (SDep d) (pick_sigs rs (u64 (e - k)) (fun i => i + k))
            | _, _ => None end
        | _ => None end) s
  | VStep d st sr =>                                  (* slice.hpp 536-563 *)
      sreplace [d] (fun o => match o with
        | SFun _ a r => Some (SFun d (arglen_of sr) r)
        | SDep _ rs =>
            match vstatic st, vstatic sr with
            | Some k, Some n =>
                if n =? 0 then None
                else option_map (SDep d)
                       (pick_sigs rs (u64 (Z.of_nat (List.length rs) + n - k - 1) / n)
                                  (fun i => i * n + k))
            | _, _ => None end
        | _ => None end) s
  | VReverse d =>                                     (* slice.hpp 699-719 *)
      sreplace [d] (fun o => match o with
        | SDep _ rs => Some (SDep d (rev rs))
        | _ => Some o end) s
  | VBlocks d M m =>                                  (* blocks.hpp 14, 35-38, 49-57 *)
      if (M =? m) || (negb (M =? d) && any_accept M s) || (negb (m =? d) && any_accept m s) then None
      else sreplace [d] (fun o => match o with
        | SFun _ _ r => Some (SFun M ADyn (SFun m ADyn r)) | _ => None end) s
  | VBlocksDyn d M m p =>                             (* blocks.hpp 217, 239-244, 257-268 *)
      if (M =? m) || (M =? p) || (m =? p) || (negb (M =? d) && any_accept M s)
         || (negb (m =? d) && any_accept m s) || (negb (p =? d) && any_accept p s) then None
      else sreplace [d] (fun o => match o with
        | SFun _ _ r => Some (SFun M ADyn (SFun m ADyn (SFun p ADyn r))) | _ => None end) s
  | VBlocksSta d b M m l =>                           (* blocks.hpp 478, 505-510, 525-549 *)
      if (b =? M) || (b =? m) || (M =? m) || (negb (M =? d) && any_accept M s)
         || (negb (m =? d) && any_accept m s) || (negb (b =? d) && any_accept b s) then None
      else sreplace [d] (fun o => match o with
        | SFun _ a r =>
            match arglen_divmod a (arglen_of l) with
            | Some (quo, rem) =>
                Some (SDep b [SFun M quo (SFun m (arglen_of l) r); SFun M (ASta 1) (SFun m rem r)])
            | None => None end
        | _ => None end) s
  | VMerge M m d =>                                   (* blocks.hpp 687, 708, 721-750 *)
      if (M =? m) || (negb (d =? M) && negb (d =? m) && any_accept d s) then None
      else sreplace [M; m] (fun o => match o with
        | SFun od oa r =>
            sreplace [m; M] (fun o' => match o' with
              | SFun id ia r' =>
                  if od =? id then None else Some (SFun d (arglen_mul oa ia) r')
              | _ => None end) r
        | _ => None end) s
  | VZCurve sl gl d ds =>                             (* zcurve.hpp 152-187 *)
      if (Nat.leb sl gl) && (Nat.ltb gl 64) && (Nat.ltb 0 (List.length ds))
         && (Nat.leb (List.length ds) 64) && nodupb ds && (mem d ds || negb (any_accept d s))
      then sreplace ds (zc_replace (List.length ds) (ASta 1) d ds) s
      else None
  | VReorder ds => reassemble_build s [] ds           (* views.hpp 125-132, 168 *)
  | VHoist d =>                                       (* views.hpp 259-275 *)
      match sig_find_dim d [] s with
      | Some (SFun _ a _) =>
          option_map (SFun d a) (sreplace [d] (fun o => match o with SFun _ _ r => Some r | _ => None end) s)
      | _ => None end
  | VRename ps =>                                     (* views.hpp 437-484 *)
      if nodupb (map fst ps) && nodupb (map snd ps)
         && forallb (fun e => negb (any_accept e s) || mem e (map fst ps)) (map snd ps)
      then Some (rename_sig ps s) else None
  | VJoin a b d =>                                    (* views.hpp 558, 580-603 *)
      if (a =? b) || (negb (d =? a) && negb (d =? b) && any_accept d s) then None
      else match sig_find_dim a [] s, sig_find_dim b [] s with
           | Some (SFun _ la _), Some (SFun _ lb _) =>
               if arglen_eqb la lb then
                 option_map (SFun d la)
                   (sreplace [a; b] (fun o => match o with SFun _ _ r => Some r | _ => None end) s)
               else None
           | _, _ => None end
  end.

(** The [signature] of a structure; [None] if some class in it cannot be instantiated. *)
Fixpoint signature (s : struct) : option sig :=
  match s with
  | Scalar c => Some (SScalar c)                      (* scalar.hpp 25 *)
  | Tuple d ts =>                                     (* layouts.hpp 70-71 *)
      match omap signature ts with
      | Some ss => if existsb (any_accept d) ss then None else Some (SDep d ss)
      | None => None end
  | Vector d t =>                                     (* layouts.hpp 253-254 *)
      match signature t with
      | Some s => if any_accept d s then None else Some (SFun d ADyn s)
      | None => None end
  | View v t => match signature t with Some s => view_sig v s | None => None end
  | Union ts =>                                       (* traverser.hpp 111 *)
      match omap signature ts with
      | Some (s :: ss) => sig_union s ss
      | _ => None end
  end.

(** ** States passed to the sub-structure *)

Definition hl_t := dim -> state -> option bool.   (* has_length of the sub-structure *)
Definition ln_t := dim -> state -> option val.    (* length of the sub-structure *)

(** [clean_state] of the block views (blocks.hpp 40-44, 246-252, 512-520, 711-716), of the
    z-curve (zcurve.hpp 219-223) and of join (views.hpp 583-588). *)
Definition clean_blocks (d M m : dim) (st : state) : state :=
  remove [Idx d; Len d; Idx M; Idx m; Len M; Len m] st.
Definition clean_blocks_dyn (d M m p : dim) (st : state) : option state :=
  if has (Len p) st then None
  else Some (remove [Idx d; Len d; Idx M; Idx m; Len M; Len m; Idx p] st).
Definition clean_blocks_sta (d b M m : dim) (st : state) : option state :=
  if has (Len b) st || has (Len M) st || has (Len m) st then None
  else Some (remove [Idx d; Len d; Idx b; Idx M; Idx m] st).
Definition clean_merge (M m d : dim) (st : state) : state :=
  remove [Idx d; Len d; Idx M; Len M; Idx m; Len m] st.
Definition clean_zcurve (d : dim) (ds : list dim) (st : state) : state :=
  remove (Idx d :: map Idx ds ++ map Len ds) st.
Definition clean_join (a b d : dim) (st : state) : state :=
  remove [Idx d; Idx a; Idx b; Len d; Len a; Len b] st.

(** views.hpp 408-420, 476-491 (rename): filter the tags, then map external names to internal
    ones; tags without a dimension are kept. *)
Definition rename_tag (ps : list (dim * dim)) (t : tag) : tag :=
  match t with Idx d => Idx (rename_dim ps d) | Len d => Len (rename_dim ps d) | Other n => Other n end.
Definition rename_keeps (ps : list (dim * dim)) (t : tag) : bool :=
  match t with
  | Idx d | Len d => mem d (map snd ps) || negb (mem d (map fst ps))
  | Other _ => true
  end.
Definition rename_state (ps : list (dim * dim)) (st : state) : state :=
  map (fun p => (rename_tag (swap_pairs ps) (fst p), snd p))
      (List.filter (fun p => rename_keeps ps (fst p)) st).

(** blocks.hpp 659-668: is_body; [None] unless the index is the constant 0 or 1. *)
Definition is_body (b : dim) (st : state) : option bool :=
  match get (Idx b) st with
  | Some v => match vstatic v with
              | Some k => if k =? 0 then Some true else if k =? 1 then Some false else None
              | None => None end
  | None => None end.

(** Ceiling division as written in blocks.hpp 297, 437, 449, 458. *)
Definition vceil (a b : val) : val := vdiv (vsub (vadd a b) (Sta 1)) b.

(** zcurve.hpp 196-203: the tuple of indices for merged index [i]; lengths are those of the
    sub-structure.  Values are undefined if a shift is too wide. *)
Definition zc_indices (sl gl : nat) (i : val) (lens : list val) : list val :=
  let n := Z.of_nat (List.length lens) in
  let sh := Z.of_nat sl * n in
  match vz i, omap vz lens with
  | Some z, Some ls =>
      let gen := zc_general (gl - sl) (Z.shiftr z sh) (map (fun l => Z.shiftr l (Z.of_nat sl)) ls) in
      let spec := Z.land z (2 ^ sh - 1) in
      map (fun k => match zc_special n (Z.of_nat k) spec with
                    | Some r => if sh <? 32 then Dyn (u64 (u64 (Z.shiftl (nthd gen k) (Z.of_nat sl)) + r))
                                else Undef
                    | None => Undef end)
          (seq 0 (List.length lens))
  | _, _ => map (fun _ => Undef) lens
  end.

(** [sub_state] of every view. *)
Definition view_sub_state (v : view) (hl : hl_t) (ln : ln_t) (st : state) : option state :=
  match v with
  | VBcast d => Some (remove [Idx d; Len d] st)                       (* bcast.hpp 27-31 *)
  | VFix d i => Some (with_ [(Idx d, i)] (remove [Len d] st))         (* setters.hpp 54-59 *)
  | VSetLength d l => Some (with_ [(Len d, l)] st)                    (* setters.hpp 196-201 *)
  | VShift d s =>                                                     (* slice.hpp 77-97 *)
      let tmp := remove [Idx d; Len d] st in
      Some (match get (Idx d) st, get (Len d) st with
            | Some i, Some l => with_ [(Idx d, vadd i s); (Len d, vadd l s)] tmp
            | Some i, None => with_ [(Idx d, vadd i s)] tmp
            | None, Some l => with_ [(Len d, vadd l s)] tmp
            | None, None => tmp end)
  | VSlice d s _ | VSpan d s _ =>                                     (* slice.hpp 259-269, 411-421 *)
      Some (match get (Idx d) st with
            | Some i => with_ [(Idx d, vadd i s)] st
            | None => st end)
  | VStep d s r =>                                                    (* slice.hpp 565-575 *)
      Some (match get (Idx d) st with
            | Some i => with_ [(Idx d, vadd (vmul i r) s)] st
            | None => st end)
  | VReverse d =>                                                     (* slice.hpp 721-740 *)
      match get (Idx d) st with
      | Some i =>
          let tmp := remove [Idx d] st in
          do h <- hl d tmp;
          if h then do l <- ln d tmp; Some (with_ [(Idx d, vsub (vsub l (Sta 1)) i)] tmp)
          else Some tmp
      | None => Some st end
  | VBlocks d M m =>                                                  (* blocks.hpp 59-102 *)
      let cs := clean_blocks d M m st in
      match get (Len M) st, get (Len m) st with
      | Some lM, Some lm =>
          Some (match get (Idx M) st, get (Idx m) st with
                | Some iM, Some im => with_ [(Len d, vmul lM lm); (Idx d, vadd (vmul iM lm) im)] cs
                | _, _ => with_ [(Len d, vmul lM lm)] cs end)
      | None, Some lm =>
          Some (match get (Idx M) st, get (Idx m) st with
                | Some iM, Some im => with_ [(Idx d, vadd (vmul iM lm) im)] cs
                | _, _ => cs end)
      | oM, None =>
          do h <- hl d cs;
          if negb h then Some cs
          else match oM with
               | Some lM =>
                   match get (Idx M) st, get (Idx m) st with
                   | Some iM, Some im =>
                       do l <- ln d cs; Some (with_ [(Idx d, vadd (vmul iM (vdiv l lM)) im)] cs)
                   | _, _ => Some cs end
               | None => Some cs end
      end
  | VBlocksDyn d M m p =>                                             (* blocks.hpp 270-312 *)
      do cs <- clean_blocks_dyn d M m p st;
      match get (Len M) st, get (Len m) st with
      | Some lM, Some lm =>
          Some (match get (Idx M) st, get (Idx m) st with
                | Some iM, Some im => with_ [(Len d, vmul lM lm); (Idx d, vadd (vmul iM lm) im)] cs
                | _, _ => with_ [(Len d, vmul lM lm)] cs end)
      | None, Some lm =>
          Some (match get (Idx M) st, get (Idx m) st with
                | Some iM, Some im => with_ [(Idx d, vadd (vmul iM lm) im)] cs
                | _, _ => cs end)
      | Some lM, None =>
          match get (Idx M) st, get (Idx m) st with
          | Some iM, Some im =>
              do l <- ln d cs; Some (with_ [(Idx d, vadd (vmul iM (vceil l lM)) im)] cs)
          | _, _ => Some cs end
      | None, None => Some cs
      end
  | VBlocksSta d b M m ml =>                                          (* blocks.hpp 551-570 *)
      match get (Idx b) st, get (Idx M) st, get (Idx m) st with
      | Some _, Some iM, Some im =>
          do body <- is_body b st;
          do cs <- clean_blocks_sta d b M m st;
          if body then Some (with_ [(Idx d, vadd (vmul iM ml) im)] cs)
          else do l <- ln d cs; Some (with_ [(Idx d, vadd (vmul (vdiv l ml) ml) im)] cs)
      | _, _, _ => clean_blocks_sta d b M m st
      end
  | VMerge M m d =>                                                   (* blocks.hpp 752-808 *)
      let cs := clean_merge M m d st in
      do hm <- hl m cs;
      do hM <- hl M cs;
      if hm && hM then
        match get (Idx d) st with
        | Some i => do ml <- ln m cs; Some (with_ [(Idx M, vdiv i ml); (Idx m, vmod i ml)] cs)
        | None => Some cs end
      else if hm then
        do ml <- ln m cs;
        Some (match get (Len d) st, get (Idx d) st with
              | Some l, Some i => with_ [(Idx M, vdiv i ml); (Idx m, vmod i ml); (Len M, vdiv l ml)] cs
              | Some l, None => with_ [(Len M, vdiv l ml)] cs
              | None, Some i => with_ [(Idx M, vdiv i ml); (Idx m, vmod i ml)] cs
              | None, None => cs end)
      else if hM then
        do Ml <- ln M cs;
        Some (match get (Len d) st, get (Idx d) st with
              | Some l, Some i =>
                  let ml := vdiv l Ml in
                  with_ [(Idx M, vdiv i ml); (Idx m, vmod i ml); (Len m, ml)] cs
              | Some l, None => with_ [(Len m, vdiv l Ml)] cs
              | None, _ => cs end)
      else Some cs
  | VZCurve sl gl d ds =>                                             (* zcurve.hpp 189-208 *)
      let tmp := clean_zcurve d ds st in
      match get (Idx d) st with
      | Some i =>
          do lens <- omap (fun q => ln q tmp) ds;
          Some (with_ (combine (map Idx ds) (zc_indices sl gl i lens)) tmp)
      | None => Some tmp end
  | VReorder _ | VHoist _ => Some st                                  (* views.hpp 150-154, 245-249 *)
  | VRename ps => Some (rename_state ps st)                           (* views.hpp 486-491 *)
  | VJoin a b d =>                                                    (* views.hpp 605-635 *)
      let cs := clean_join a b d st in
      do ha <- hl a cs;
      do hb <- hl b cs;
      if xorb ha hb then None
      else match get (Idx d) st, get (Len d) st with
           | Some i, Some l =>
               if ha || hb then None
               else Some (with_ [(Idx a, i); (Idx b, i); (Len a, l); (Len b, l)] cs)
           | Some i, None => Some (with_ [(Idx a, i); (Idx b, i)] cs)
           | None, Some l =>
               if ha || hb then None else Some (with_ [(Len a, l); (Len b, l)] cs)
           | None, None => Some cs end
  end.

(** ** Lengths *)

(** [has_length] of every view; [vs] is the view's own signature (used by reorder only). *)
Definition view_has_length (v : view) (vs : option sig) (hl : hl_t) (ln : ln_t) (q : dim) (st : state)
  : option bool :=
  let sub := do st' <- view_sub_state v hl ln st; hl q st' in
  match v with
  | VBcast d =>                                                       (* bcast.hpp 63-72 *)
      if q =? d then Some (has (Len d) st && negb (has (Idx d) st)) else sub
  | VFix d _ => if q =? d then Some false else sub                    (* setters.hpp 109-118 *)
  | VShift d _ =>                                                     (* slice.hpp 141-154 *)
      if (q =? d) && has (Len d) st then Some true else sub
  | VBlocks d M m =>                                                  (* blocks.hpp 137-174 *)
      let full_clean := hl d (clean_blocks d M m st) in
      let full := do st' <- view_sub_state v hl ln st; hl d st' in
      if q =? m then
        if has (Idx m) st then Some false
        else if has (Len m) st then
          do h <- full_clean; if has (Len M) st && h then None else Some true
        else do h <- full; Some (has (Len M) st && h)
      else if q =? M then
        if has (Idx M) st then Some false
        else if has (Len M) st then
          do h <- full_clean; if has (Len m) st && h then None else Some true
        else do h <- full; Some (has (Len m) st && h)
      else if q =? d then Some false
      else sub
  | VBlocksDyn d M m p =>                                             (* blocks.hpp 357-410 *)
      let full_clean := do cs <- clean_blocks_dyn d M m p st; hl d cs in
      let full := do st' <- view_sub_state v hl ln st; hl d st' in
      if q =? p then
        if negb (has (Idx M) st && has (Idx m) st) then Some false
        else if negb (has (Len m) st) && negb (has (Len M) st) then Some false
        else if has (Len m) st && has (Len M) st then
          do h <- full_clean; if h then None else Some true
        else full_clean
      else if q =? m then
        if has (Idx m) st then Some false
        else if has (Len m) st then
          do h <- full_clean; if has (Len M) st && h then None else Some true
        else do h <- full; Some (has (Len M) st && h)
      else if q =? M then
        if has (Idx M) st then Some false
        else if has (Len M) st then
          do h <- full_clean; if has (Len m) st && h then None else Some true
        else do h <- full; Some (has (Len m) st && h)
      else if q =? d then Some false
      else sub
  | VBlocksSta d b M m _ =>                                           (* blocks.hpp 605-632 *)
      let full := do st' <- view_sub_state v hl ln st; hl d st' in
      if has (Idx q) st then Some false
      else if q =? M then do body <- is_body b st; if body then full else Some true
      else if q =? m then do body <- is_body b st; if body then Some true else full
      else if q =? b then if has (Len b) st then None else Some true
      else if q =? d then Some false
      else sub
  | VMerge M m d =>                                                   (* blocks.hpp 842-863 *)
      if has (Idx q) st then None
      else if q =? d then
        if has (Len d) st then
          do hM <- hl M (clean_merge M m d st);
          do hm <- hl m (clean_merge M m d st);
          if hM && hm then None else Some true
        else do st' <- view_sub_state v hl ln st; oand (hl M st') (hl m st')
      else if (q =? m) || (q =? M) then Some false
      else sub
  | VZCurve _ _ d ds =>                                               (* zcurve.hpp 252-263 *)
      if has (Idx q) st then Some false
      else if q =? d then
        do st' <- view_sub_state v hl ln st; oall (map (fun x => hl x st') ds)
      else sub
  | VReorder _ =>                                                     (* views.hpp 200-204 *)
      match vs with
      | Some sg => oand (Some (sig_complete sg || any_accept q sg)) sub
      | None => None end
  | VRename ps =>                                                     (* views.hpp 525-531 *)
      do st' <- view_sub_state v hl ln st; hl (rename_dim (swap_pairs ps) q) st'
  | VSetLength _ _ | VSlice _ _ _ | VSpan _ _ _ | VStep _ _ _ | VReverse _ | VHoist _ | VJoin _ _ _ =>
      sub   (* setters.hpp 245-250; slice.hpp 313-318, 472-475, 620-625, 783-788; views.hpp 300-305, 659-664 *)
  end.

(** The body of [length] of every view (without its requires clause). *)
Definition view_length (v : view) (hl : hl_t) (ln : ln_t) (q : dim) (st : state) : option val :=
  let sub := do st' <- view_sub_state v hl ln st; ln q st' in
  match v with
  | VBcast d => if q =? d then get (Len d) st else sub                (* bcast.hpp 74-83 *)
  | VShift d s =>                                                     (* slice.hpp 156-170 *)
      if q =? d then
        match get (Len d) st with
        | Some l => Some l
        | None => do l <- sub; Some (vsub l s) end
      else sub
  | VSlice d _ len => if q =? d then Some len else sub                (* slice.hpp 320-329 *)
  | VSpan d s e => if q =? d then Some (vsub e s) else sub            (* slice.hpp 477-482 *)
  | VStep d s r =>                                                    (* slice.hpp 627-638 *)
      if q =? d then
        do l <- ln d st; Some (vdiv (vsub (vsub (vadd l r) s) (Sta 1)) r)
      else sub
  | VReverse _ => ln q st                                             (* slice.hpp 790-795 *)
  | VBlocks d M m =>                                                  (* blocks.hpp 176-200 *)
      if q =? m then
        match get (Len m) st with
        | Some l => Some l
        | None => do lM <- get (Len M) st;
                  do l <- ln d (clean_blocks d M m st); Some (vdiv l lM) end
      else if q =? M then
        match get (Len M) st with
        | Some l => Some l
        | None => do lm <- get (Len m) st;
                  do st' <- view_sub_state v hl ln st; do l <- ln d st'; Some (vdiv l lm) end
      else sub
  | VBlocksDyn d M m p =>                                             (* blocks.hpp 412-461 *)
      let full_clean := do cs <- clean_blocks_dyn d M m p st; ln d cs in
      if q =? p then
        do iM <- get (Idx M) st;
        do im <- get (Idx m) st;
        match get (Len m) st, get (Len M) st with
        | Some lm, Some lM => Some (vlt (vadd (vmul iM lm) im) (vmul lm lM))
        | Some lm, None => do l <- full_clean; Some (vlt (vadd (vmul iM lm) im) l)
        | None, Some lM =>
            do l <- full_clean; Some (vlt (vadd (vmul iM (vceil l lM)) im) l)
        | None, None => None end
      else if q =? m then
        match get (Len m) st with
        | Some l => Some l
        | None => do lM <- get (Len M) st; do l <- full_clean; Some (vceil l lM) end
      else if q =? M then
        match get (Len M) st with
        | Some l => Some l
        | None => do lm <- get (Len m) st;
                  do st' <- view_sub_state v hl ln st; do l <- ln d st'; Some (vceil l lm) end
      else sub
  | VBlocksSta d b M m ml =>                                          (* blocks.hpp 634-657 *)
      let full := do st' <- view_sub_state v hl ln st; ln d st' in
      if q =? b then Some (Sta 2)
      else if q =? m then
        do body <- is_body b st; if body then Some ml else do l <- full; Some (vmod l ml)
      else if q =? M then
        do body <- is_body b st; if body then do l <- full; Some (vdiv l ml) else Some (Sta 1)
      else sub
  | VMerge M m d =>                                                   (* blocks.hpp 865-880 *)
      if q =? d then
        match get (Len d) st with
        | Some l => Some l
        | None => do st' <- view_sub_state v hl ln st;
                  do lM <- ln M st'; do lm <- ln m st'; Some (vmul lM lm) end
      else sub
  | VZCurve _ _ d ds =>                                               (* zcurve.hpp 265-274 *)
      if q =? d then
        do st' <- view_sub_state v hl ln st;
        do ls <- omap (fun x => ln x st') ds;
        match ls with
        | [] => None
        | l :: r => Some (fold_left (dyn2 Z.mul) r l) end
      else sub
  | VRename ps =>                                                     (* views.hpp 533-538 *)
      do st' <- view_sub_state v hl ln st; ln (rename_dim (swap_pairs ps) q) st'
  | VFix _ _ | VSetLength _ _ | VReorder _ | VHoist _ | VJoin _ _ _ =>
      sub   (* setters.hpp 120-125, 252-257; views.hpp 206-210, 307-312, 666-671 *)
  end.

(** traverser.hpp 119-134: the first structure accepting the dimension. *)
Fixpoint first_match {A} (q : dim) (l : list (option sig * A)) : option (option A) :=
  match l with
  | [] => Some None
  | (Some s, a) :: r => if any_accept q s then Some (Some a) else first_match q r
  | (None, _) :: _ => None
  end.

(** [has_length] and [length] of every structure (they are defined together since the
    [sub_state] of a view consults the lengths of its sub-structure).
    Simplification: a template argument error in [has_length] itself is [None]. *)
Fixpoint lenops (s : struct) : hl_t * ln_t :=
  match s with
  | Scalar _ => (fun _ _ => Some false, fun _ _ => None)              (* scalar.hpp 52-57 *)
  | Tuple d ts =>                                                     (* layouts.hpp 119-142 *)
      let ops := map lenops ts in
      let sub (st : state) : option (hl_t * ln_t) :=
        match get (Idx d) st with
        | Some v => match vstatic v with Some k => nthz ops k | None => None end
        | None => None end in
      let h : hl_t := fun q st =>
        if q =? d then Some (negb (has (Idx d) st))
        else if has (Idx d) st then
          do o <- sub st; fst o q (remove [Idx d] st)
        else Some false in
      (h, fun q st => guard (h q st)
        (if q =? d then Some (Sta (Z.of_nat (List.length ts)))
         else do o <- sub st; snd o q (remove [Idx d] st)))
  | Vector d t =>                                                     (* layouts.hpp 312-331 *)
      let o := lenops t in
      let h : hl_t := fun q st =>
        if q =? d then Some (has (Len d) st && negb (has (Idx d) st))
        else fst o q (remove [Idx d; Len d] st) in
      (h, fun q st => guard (h q st)
        (if q =? d then get (Len d) st else snd o q (remove [Idx d; Len d] st)))
  | View v t =>
      let o := lenops t in
      let vs := match signature t with Some s => view_sig v s | None => None end in
      let h : hl_t := fun q st => view_has_length v vs (fst o) (snd o) q st in
      (h, fun q st => guard (h q st) (view_length v (fst o) (snd o) q st))
  | Union ts =>                                                       (* traverser.hpp 137-156 *)
      let ops := map (fun t => (signature t, lenops t)) ts in
      let h : hl_t := fun q st =>
        match first_match q ops with
        | Some (Some o) => fst o q st
        | Some None => Some false
        | None => None end in
      (h, fun q st => guard (h q st)
        match first_match q ops with
        | Some (Some o) => snd o q st
        | _ => None end)
  end.

Definition has_length (s : struct) : hl_t := fst (lenops s).
Definition length_ (s : struct) : ln_t := snd (lenops s).

(** [sub_state] of a view placed over structure [t]. *)
Definition sub_state (v : view) (t : struct) (st : state) : option state :=
  view_sub_state v (has_length t) (length_ t) st.

(** views.hpp 169 *)
Definition view_complete (v : view) (t : struct) : bool :=
  match v with
  | VReorder _ => match signature (View v t) with Some sg => sig_complete sg | None => false end
  | _ => true
  end.

(** ** Size and alignment *)

(** has_size: scalar.hpp 27-31, layouts.hpp 73-77 and 153-158, 256-264, and the delegating
    views (views.hpp 171-175 for reorder). *)
Fixpoint has_size (s : struct) (st : state) : option bool :=
  match s with
  | Scalar _ => Some true
  | Tuple d ts => oall (map (fun t => has_size t (remove [Idx d] st)) ts)
  | Vector d t => if has (Len d) st then has_size t (remove [Idx d; Len d] st) else Some false
  | View v t => do st' <- sub_state v t st; oand (Some (view_complete v t)) (has_size t st')
  | Union _ => None
  end.

(** layouts.hpp 182-192: [std::max] of two alignments compiles only if they have the same type,
    i.e. are equal constants. *)
Fixpoint same_align (l : list (option val)) : option val :=
  match l with
  | [] => None
  | [a] => a
  | a :: r =>
      match a, same_align r with
      | Some (Sta x), Some (Sta y) => if u64 x =? u64 y then Some (Sta x) else None
      | _, _ => None end
  end.

(** align: scalar.hpp 40-45, layouts.hpp 86-91, 275-280, delegating views. *)
Fixpoint align_ (s : struct) (st : state) : option val :=
  guard (has_size s st)
  match s with
  | Scalar c => Some (Sta (ct_align c))
  | Tuple d ts => same_align (map (fun t => align_ t (remove [Idx d] st)) ts)
  | Vector d t => align_ t (remove [Idx d; Len d] st)
  | View v t => do st' <- sub_state v t st; align_ t st'
  | Union _ => None
  end.

(** layouts.hpp 160-174: one step of [size_accumulator]. *)
Definition size_step (start align size : val) : val :=
  vadd (vmul (vdiv (vsub (vadd start align) (Sta 1)) align) align) size.

Fixpoint size_acc (start : val) (l : list (option (val * val))) : option val :=
  match l with
  | [] => Some start
  | Some (a, sz) :: r => size_acc (size_step start a sz) r
  | None :: _ => None
  end.

(** size: scalar.hpp 33-38, layouts.hpp 79-84 and 160-180, 266-273, delegating views. *)
Fixpoint size_ (s : struct) (st : state) : option val :=
  guard (has_size s st)
  match s with
  | Scalar c => Some (Sta (ct_size c))
  | Tuple d ts =>
      size_acc (Sta 0) (map (fun t => match align_ t (remove [Idx d] st), size_ t (remove [Idx d] st) with
                                      | Some a, Some sz => Some (a, sz) | _, _ => None end) ts)
  | Vector d t =>
      do l <- get (Len d) st; do sz <- size_ t (remove [Idx d; Len d] st); Some (vmul l sz)
  | View v t => do st' <- sub_state v t st; size_ t st'
  | Union _ => None
  end.

(** The pairs (align, size) of tuple components in state [st] (already without the index). *)
Definition comp_sizes (ts : list struct) (st : state) : list (option (val * val)) :=
  map (fun t => match align_ t st, size_ t st with
                | Some a, Some sz => Some (a, sz) | _, _ => None end) ts.

(** ** Type equality of structures

    [std::is_same] on structure types: dynamic values are not part of the type.  A view is encoded
    as a list of numbers that determines its type. *)
Definition val_code (v : val) : list Z := match v with Sta z => [1; u64 z] | _ => [0; 0] end.
Definition view_code (v : view) : list Z :=
  match v with
  | VBcast d => [0; d]
  | VFix d i => [1; d] ++ val_code i
  | VSetLength d l => [2; d] ++ val_code l
  | VShift d s => [3; d] ++ val_code s
  | VSlice d s l => [4; d] ++ val_code s ++ val_code l
  | VSpan d s e => [5; d] ++ val_code s ++ val_code e
  | VStep d s r => [6; d] ++ val_code s ++ val_code r
  | VReverse d => [7; d]
  | VBlocks d M m => [8; d; M; m]
  | VBlocksDyn d M m p => [9; d; M; m; p]
  | VBlocksSta d b M m l => [10; d; b; M; m] ++ val_code l
  | VMerge M m d => [11; M; m; d]
  | VZCurve sl gl d ds => [12; Z.of_nat sl; Z.of_nat gl; d] ++ ds
  | VReorder ds => [13] ++ ds
  | VHoist d => [14; d]
  | VRename ps => [15] ++ flat_map (fun p => [fst p; snd p]) ps
  | VJoin a b d => [16; a; b; d]
  end.

Fixpoint zlist_eqb (a b : list Z) : bool :=
  match a, b with
  | [], [] => true
  | x :: a', y :: b' => (x =? y) && zlist_eqb a' b'
  | _, _ => false
  end.

Fixpoint same_type (a b : struct) : bool :=
  let fix all (l m : list struct) : bool :=
    match l, m with
    | [], [] => true
    | x :: l', y :: m' => same_type x y && all l' m'
    | _, _ => false end in
  match a, b with
  | Scalar c, Scalar c' => cty_eqb c c'
  | Tuple d l, Tuple d' l' => (d =? d') && all l l'
  | Vector d t, Vector d' t' => (d =? d') && same_type t t'
  | View v t, View v' t' => zlist_eqb (view_code v) (view_code v') && same_type t t'
  | Union l, Union l' => all l l'
  | _, _ => false
  end.

(** ** Offsets *)

(** The component of a tuple selected by the (static) index in the state. *)
Definition tuple_index (d : dim) (st : state) : option Z :=
  match get (Idx d) st with Some v => vstatic v | None => None end.

(** structs_common.hpp 147-157, 195-204; strict versions: scalar.hpp 46-50,
    layouts.hpp 93-104, 282-290, blocks.hpp 347-355, views.hpp 191-195. *)
Fixpoint has_offset_of (x s : struct) (st : state) : option bool :=
  if same_type x s then Some true
  else match s with
  | Scalar _ => Some false
  | Tuple d ts =>
      if has (Idx d) st then
        do k <- tuple_index d st; ojoin (nthz (map (fun t => has_offset_of x t (remove [Idx d] st)) ts) k)
      else Some false
  | Vector d t =>
      if has (Idx d) st && has (Len d) st then has_offset_of x t (remove [Idx d; Len d] st) else Some false
  | View (VBlocksDyn d M m p as v) t =>
      if has (Idx M) st && has (Idx m) st && has (Idx p) st then
        do st' <- sub_state v t st; has_offset_of x t st'
      else Some false
  | View v t => do st' <- sub_state v t st; oand (Some (view_complete v t)) (has_offset_of x t st')
  | Union _ => None
  end.

(** structs_common.hpp 159-168, 206-223; strict versions: layouts.hpp 106-117, 292-310.
    [start] accumulates the offset. *)
Fixpoint offset_of (x s : struct) (st : state) (start : val) : option val :=
  guard (has_offset_of x s st)
  (if same_type x s then Some start
   else match s with
   | Scalar _ => None
   | Tuple d ts =>
       let st' := remove [Idx d] st in
       do k <- tuple_index d st;
       do before <- size_acc (Sta 0) (comp_sizes (firstn (Z.to_nat k) ts) st');
       ojoin (nthz (map (fun t => offset_of x t st' (vadd before start)) ts) k)
   | Vector d t =>
       let st' := remove [Idx d; Len d] st in
       do i <- get (Idx d) st;
       do l <- get (Len d) st;
       if is_sta 1 l then offset_of x t st' start
       else do sz <- size_ t st'; offset_of x t st' (vadd (vmul i sz) start)
   | View v t => do st' <- sub_state v t st; offset_of x t st' start
   | Union _ => None
   end).

(** structs_common.hpp 170-180, 225-234; strict versions: scalar.hpp 59-63, layouts.hpp 144-148,
    333-337. *)
Fixpoint has_state_at (x s : struct) (st : state) : option bool :=
  if same_type x s then Some true
  else match s with
  | Scalar _ | Tuple _ _ | Vector _ _ => Some false
  | View v t => do st' <- sub_state v t st; has_state_at x t st'
  | Union _ => None
  end.

(** structs_common.hpp 182-191, 236-253 *)
Fixpoint state_at (x s : struct) (st : state) : option state :=
  guard (has_state_at x s st)
  (if same_type x s then Some st
   else match s with
   | Scalar _ | Tuple _ _ | Vector _ _ => None
   | View v t => do st' <- sub_state v t st; state_at x t st'
   | Union _ => None
   end).

(** extra/struct_traits.hpp 77-83 *)
Definition scalar_t (s : struct) (st : state) : option cty :=
  do sg <- signature s; sig_get_scalar sg st.

(** extra/funcs.hpp 61-71, 81-87 *)
Definition has_offset (s : struct) (st : state) : option bool :=
  do c <- scalar_t s st; has_offset_of (Scalar c) s st.
Definition offset (s : struct) (st : state) : option val :=
  do c <- scalar_t s st; offset_of (Scalar c) s st (Sta 0).

(** extra/funcs.hpp 100-115 *)
Definition get_size (s : struct) (st : state) : option val := size_ s st.
