(** * What the type of a structure says about lengths (C56)

    Definitions only. *)

From Verif Require Export Good.

(** The length of [q] that the signature [sg] promises: a static length, or the number of components of a tuple.  The
    indices of tuples above [q] are those of the state. *)
Fixpoint promised (sg : sig) (st : state) (q : dim) : option Z :=
  match sg with
  | SScalar _ | SVoid => None
  | SFun d a r => if q =? d then match a with ASta n => Some n | ADyn => None end else promised r st q
  | SDep d rs =>
      if q =? d then Some (Z.of_nat (List.length rs))
      else match get (Idx d) st with
           | Some v => match vstatic v with
                       | Some k => ojoin (nthz (map (fun r => promised r st q) rs) k)
                       | None => None
                       end
           | None => None
           end
  end.

(** [q] is somewhere a dimension that is not the dimension of a tuple. *)
Fixpoint fun_dim (q : dim) (sg : sig) : bool :=
  match sg with
  | SScalar _ | SVoid => false
  | SFun d _ r => (q =? d) || fun_dim q r
  | SDep d rs => existsb (fun_dim q) rs
  end.
Definition has_fun (q : dim) (s : struct) : bool := match signature s with Some sg => fun_dim q sg | None => true end.

(** The length of [q] is the one that is set from outside. *)
Fixpoint free_length (q : dim) (s : struct) : bool :=
  match s with
  | Scalar _ => true
  | Tuple d ts => negb (q =? d) && forallb (free_length q) ts
  | Vector d t => (q =? d) || free_length q t
  | Union ts => forallb (free_length q) ts
  | View v t =>
      match v with
      | VBcast d | VShift d _ => (q =? d) || free_length q t
      | VFix d _ | VSetLength d _ | VSlice d _ _ | VSpan d _ _ | VStep d _ _ => negb (q =? d) && free_length q t
      | VReverse _ | VHoist _ | VReorder _ => free_length q t
      | VBlocks d M m => mem q [M; m] || negb (q =? d) && free_length q t
      | VBlocksDyn d M m p => negb (q =? p) && (mem q [M; m] || negb (q =? d) && free_length q t)
      | VBlocksSta d b M m _ => negb (mem q [d; b; M; m]) && free_length q t
      | VMerge M m d => (q =? d) || negb (mem q [M; m]) && free_length q t
      | VZCurve _ _ d ds => negb (mem q (d :: ds)) && free_length q t
      | VRename ps => (mem q (map snd ps) || negb (mem q (map fst ps))) && free_length (rename_dim (swap_pairs ps) q) t
      | VJoin _ _ _ => false
      end
  end.

(** The views whose promise can be believed.  Left out: a static length that is set although the dimension already has one
    (the documentation forbids it), a static end of a [span] that does not start at 0, and a static
    stride of a [step] (the last two are refuted below). *)
Definition is_static (v : val) : bool := match v with Sta _ => true | _ => false end.
Fixpoint trusted (s : struct) : bool :=
  match s with
  | Scalar _ => true
  | Tuple _ ts | Union ts => forallb trusted ts
  | Vector _ t => trusted t
  | View v t =>
      trusted t &&
      match v with
      | VSetLength d l => negb (is_static l) || free_length d t
      | VSpan d start end_ => negb (is_static end_) || is_sta 0 start || negb (has_fun d t)
      | VStep d _ stride => negb (is_static stride) || negb (has_fun d t)
      | _ => true
      end
  end.
