(** * What [lower_bound_along] and [lower_bound_at] should answer

    Definitions only. *)

From Verif Require Export SpecIntrospect LowerBound.

(** [turns r q s]: the dimension [q] reaches a vector (or a [bcast]) through views that move it as a whole
    or as a block index, and on the way it is reversed once ([r = true]) or never ([r = false]).  The index that
    selects a block must not belong to a reversed dimension. *)
Fixpoint turns (r : bool) (q : dim) (s : struct) : bool :=
  match s with
  | Scalar _ | Union _ => false
  | Tuple _ ts => forallb (turns r q) ts
  | Vector d t => if q =? d then negb r else turns r q t
  | View v t =>
      match v with
      | VBcast d => if q =? d then negb r else turns r q t
      | VReverse d => if q =? d then r && turns false q t else turns r q t
      | VRename ps => turns r (rename_in ps q) t
      | VBlocks d M m =>
          if q =? m then turns r d t else if q =? M then negb r && turns r d t else negb (q =? d) && turns r q t
      | VBlocksSta d b M m _ =>
          if q =? m then turns r d t else if q =? M then negb r && turns r d t
          else negb (mem q [d; b]) && turns r q t
      | VBlocksDyn d M m p =>
          if q =? m then turns r d t else if q =? M then negb r && turns r d t else if q =? p then negb r
          else negb (q =? d) && turns r q t
      | VMerge M m d => negb (mem q [M; m; d]) && turns r q t
      | VStep _ _ _ | VJoin _ _ _ | VReorder _ | VZCurve _ _ _ _ => false
      | _ => turns r q t
      end
  end.

(** [q] is not shifted. *)
Fixpoint unshifted (q : dim) (s : struct) : bool :=
  match s with
  | Scalar _ | Union _ => true
  | Tuple _ ts => forallb (unshifted q) ts
  | Vector d t => (q =? d) || unshifted q t
  | View v t =>
      match v with
      | VShift d _ => negb (q =? d) && unshifted q t
      | VRename ps => unshifted (rename_in ps q) t
      | _ => unshifted q t
      end
  end.

(** [q] is not an index of a block or in a block. *)
Fixpoint unblocked (q : dim) (s : struct) : bool :=
  match s with
  | Scalar _ | Union _ => true
  | Tuple _ ts => forallb (unblocked q) ts
  | Vector d t => (q =? d) || unblocked q t
  | View v t =>
      match v with
      | VBcast d => (q =? d) || unblocked q t
      | VRename ps => unblocked (rename_in ps q) t
      | VBlocks _ M m | VBlocksSta _ _ M m _ => negb (mem q [M; m]) && unblocked q t
      | VBlocksDyn _ M m p => negb (mem q [M; m]) && ((q =? p) || unblocked q t)
      | _ => unblocked q t
      end
  end.

(** [grows r q s]: the offsets grow with the index of [q] ([r = false]) or fall ([r = true]). *)
Fixpoint grows (r : bool) (q : dim) (s : struct) : bool :=
  match s with
  | Scalar _ | Union _ => false
  | Tuple d ts => if q =? d then negb r else forallb (grows r q) ts
  | Vector d t => if q =? d then negb r else grows r q t
  | View v t =>
      match v with
      | VBcast d => (q =? d) || grows r q t
      | VReverse d => if q =? d then grows (negb r) q t else grows r q t
      | VRename ps => grows r (rename_in ps q) t
      | VBlocks d M m => if q =? m then grows r d t else if q =? M then grows r d t else negb (q =? d) && grows r q t
      | VBlocksSta d b M m _ =>
          if q =? m then grows r d t else if q =? M then grows r d t else if q =? b then steady d t && grows r d t
          else negb (q =? d) && grows r q t
      | VBlocksDyn d M m p =>
          if q =? m then grows r d t else if q =? M then grows r d t else if q =? p then true else negb (q =? d) && grows r q t
      | VMerge M m d => negb (mem q [M; m; d]) && grows r q t
      | VStep _ _ _ | VJoin _ _ _ | VReorder _ | VZCurve _ _ _ _ => false
      | _ => grows r q t
      end
  end.

(** The interval is given. *)
Definition given (iv : option (val * val)) : bool := match iv with Some _ => true | None => false end.

(** [lows n g r q s]: the offsets grow with the index of [q] ([r = false]) or fall ([r = true]), and
    [lower_bound_at] can see it.  An interval is given, or was given by a view above ([g]).  Two things are left out,
    both refuted below: reversing a reversed dimension when an interval is given, and shifting a reversed dimension when none
    is given.  The index of a block of a reversed dimension needs an interval, and [n] says that it is the first such index
    on the way.  Every other dimension is left out because [lower_bound_at] does not exist for it (steps,
    joined dimensions, reordered structures, z-curves) or because it was merged (refuted below). *)
Fixpoint lows (n g r : bool) (q : dim) (s : struct) : bool :=
  match s with
  | Scalar _ | Union _ => false
  | Tuple d ts => if q =? d then negb r else forallb (lows n g r q) ts
  | Vector d t => if q =? d then negb r else lows n g r q t
  | View v t =>
      let block d := if r then n && g && lows false false true d t else turns false d t in
      match v with
      | VBcast d => if q =? d then negb r else lows n g r q t
      | VShift d _ => if q =? d then (g || negb r) && lows n true r q t else lows n g r q t
      | VSlice d _ _ | VSpan d _ _ => if q =? d then lows n true r q t else lows n g r q t
      | VReverse d => if q =? d then if g then r && lows n g false q t else lows n g (negb r) q t else lows n g r q t
      | VRename ps => lows n g r (rename_in ps q) t
      | VBlocks d M m => if q =? m then lows n true r d t else if q =? M then block d else negb (q =? d) && lows n g r q t
      | VBlocksSta d b M m _ =>
          if q =? m then lows n true r d t else if q =? M then block d
          else if q =? b then steady d t && block d else negb (q =? d) && lows n g r q t
      | VBlocksDyn d M m p =>
          if q =? m then lows n true r d t else if q =? M then block d else if q =? p then negb r
          else negb (q =? d) && lows n g r q t
      | VMerge M m d => negb (mem q [M; m; d]) && lows n g r q t
      | VStep _ _ _ | VJoin _ _ _ | VReorder _ | VZCurve _ _ _ _ => false
      | _ => lows n g r q t
      end
  end.

(** [whole q s]: [q] reaches a vector (or a [bcast]) without being shifted, cut or reversed, so that its index 0 is the
    beginning.  It may be divided into blocks. *)
Fixpoint whole (q : dim) (s : struct) : bool :=
  match s with
  | Scalar _ | Union _ => false
  | Tuple _ ts => forallb (whole q) ts
  | Vector d t => (q =? d) || whole q t
  | View v t =>
      match v with
      | VBcast d => (q =? d) || whole q t
      | VShift d _ | VSlice d _ _ | VSpan d _ _ | VReverse d => negb (q =? d) && whole q t
      | VRename ps => whole (rename_in ps q) t
      | VBlocks d M m => if (q =? M) || (q =? m) then whole d t else negb (q =? d) && whole q t
      | VBlocksSta d b M m _ => if (q =? M) || (q =? m) then whole d t else negb (mem q [d; b]) && whole q t
      | VBlocksDyn d M m p => if (q =? M) || (q =? m) then whole d t else (q =? p) || (negb (q =? d) && whole q t)
      | VMerge M m d => negb (mem q [M; m; d]) && whole q t
      | VStep _ _ _ | VJoin _ _ _ | VReorder _ | VZCurve _ _ _ _ => false
      | _ => whole q t
      end
  end.

(** [along g r q s]: the offsets grow with the index of [q] ([r = false]) or fall ([r = true]), and
    [lower_bound_along] can see it.  An interval is given, or was given by a view above ([g]).  Left out, and refuted below:
    reversing a reversed dimension when an interval is given, block indices of a dimension that is shifted, cut or reversed,
    an interval for the index that chooses between the blocks and the rest, and merged dimensions. *)
Fixpoint along (g r : bool) (q : dim) (s : struct) : bool :=
  match s with
  | Scalar _ | Union _ => false
  | Tuple d ts => if q =? d then negb r else forallb (along g r q) ts
  | Vector d t => if q =? d then negb r else along g r q t
  | View v t =>
      let major d := if g then whole d t else grows false d t in
      match v with
      | VBcast d => if q =? d then negb r else along g r q t
      | VShift d _ | VSlice d _ _ | VSpan d _ _ => if q =? d then along true r q t else along g r q t
      | VReverse d => if q =? d then if g then r && along true false q t else along false (negb r) q t else along g r q t
      | VRename ps => along g r (rename_in ps q) t
      | VBlocks d M m => if q =? m then negb r && whole d t else if q =? M then negb r && major d else negb (q =? d) && along g r q t
      | VBlocksSta d b M m _ =>
          if q =? m then negb r && whole d t else if q =? M then negb r && major d
          else if q =? b then negb g && negb r && steady d t && grows false d t else negb (q =? d) && along g r q t
      | VBlocksDyn d M m p =>
          if q =? m then negb r && whole d t else if q =? M then negb r && major d else if q =? p then negb r
          else negb (q =? d) && along g r q t
      | VMerge M m d => negb (mem q [M; m; d]) && along g r q t
      | VStep _ _ _ | VJoin _ _ _ | VReorder _ | VZCurve _ _ _ _ => false
      | _ => along g r q t
      end
  end.

(** [settable q s]: the length of [q] is the one given from outside (tuples and renamed dimensions are not looked into). *)
Fixpoint settable (q : dim) (s : struct) : bool :=
  match s with
  | Scalar _ | Union _ | Tuple _ _ => false
  | Vector d t => (q =? d) || settable q t
  | View v t =>
      match v with
      | VBcast d => (q =? d) || settable q t
      | VShift d _ => (q =? d) || settable q t
      | VFix d _ | VSetLength d _ | VSlice d _ _ | VSpan d _ _ => negb (q =? d) && settable q t
      | VReverse _ | VHoist _ => settable q t
      | _ => false
      end
  end.

(** [one_length r n q s]: if a reversed dimension is shifted, its length is not given twice, both above the shift ([n]) and
    below it: then [length] answers the one, and [lower_bound_along] uses the other. *)
Fixpoint one_length (r n : bool) (q : dim) (s : struct) : bool :=
  match s with
  | Scalar _ | Union _ => true
  | Tuple d ts => (q =? d) || forallb (one_length r n q) ts
  | Vector d t => (q =? d) || one_length r n q t
  | View v t =>
      match v with
      | VSetLength d _ => if q =? d then one_length r true q t else one_length r n q t
      | VShift d _ => if q =? d then negb r || negb n || settable q t else one_length r n q t
      | VSlice d _ _ | VSpan d _ _ => (q =? d) || one_length r n q t
      | VReverse d => if q =? d then one_length (negb r) n q t else one_length r n q t
      | VRename ps => one_length r n (rename_in ps q) t
      | VBlocks _ M m | VBlocksDyn _ M m _ => mem q [M; m] || one_length r n q t
      | VBlocksSta _ b M m _ => mem q [b; M; m] || one_length r n q t
      | _ => one_length r n q t
      end
  end.

(** The interval of indices: the given one, or all indices of the dimension. *)
Definition interval (s : struct) (q : dim) (st : state) (iv : option (val * val)) (x y : Z) : Prop :=
  match iv with
  | None => x = 0 /\ exists n, length_ s q st = Some n /\ vz n = Some y
  | Some (mn, en) => vz mn = Some x /\ vz en = Some y
  end.

(** Element [st] lies in the interval, and no element of the interval that differs from it in [q] only
    has a smaller offset. *)
Definition lowest (s : struct) (q : dim) (x y : Z) (st : state) : Prop :=
  forall st2 p2 i2 o o2 z z2,
    used_correctly s st2 -> names_element s st2 p2 -> differ_in q st st2 -> at_index st2 q i2 -> x <= i2 < y ->
    offset s st = Some o -> offset s st2 = Some o2 -> vz o = Some z -> vz o2 = Some z2 -> z <= z2.

(** The index that [lower_bound_at] answers is not the one with the lowest offset: in the interval there is
    another element that differs from the answered one in [q] only, and its offset is lower. *)
Definition not_lowest (s : struct) (q : dim) (st0 : state) (iv : option (val * val)) (st st2 : state) (i i2 : Z) : Prop :=
  exists p x y w o o2 z z2,
    used_correctly s st /\ used_correctly s st2 /\ names_element s st p /\ names_element s st2 p /\ In (q, None) p /\
    differ_in q st st2 /\ with_fewer_indices q st0 st /\ interval s q st0 iv x y /\
    lower_bound_at s q st0 iv = Some w /\ vz w = Some i /\ at_index st q i /\ at_index st2 q i2 /\ x <= i2 < y /\
    offset s st = Some o /\ offset s st2 = Some o2 /\ vz o = Some z /\ vz o2 = Some z2 /\ z2 < z.

(** [lower_bound_along] answers [z], which is wrong: the element at the index [i] of the interval has the
    [offset_along] [z2], which is lower, or which differs from [z] although there is no other element in the interval. *)
Definition not_answered (s : struct) (q : dim) (st0 : state) (iv : option (val * val)) (st : state) (i z z2 : Z) : Prop :=
  exists p k x y w o,
    used_correctly s st /\ names_element s st p /\ In (q, k) p /\ with_fewer_indices q st0 st /\ interval s q st0 iv x y /\
    at_index st q i /\ x <= i < y /\
    lower_bound s q st0 iv = Some w /\ vz w = Some z /\ offset_along s q st = Some o /\ vz o = Some z2 /\
    (z2 < z \/ y = x + 1 /\ z <> z2).
