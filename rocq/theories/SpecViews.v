(** * What a view should do

    Definitions only; the per-view theorems are stated with these. *)

From Verif Require Export SpecOrder.

(** [edited st upd st']: [st'] is [st] except for the tags listed in [upd]; [(t, Some v)]: the value
    of [t] is now [v]; [(t, None)]: [t] is no longer there.  The first entry for a tag counts. *)
Fixpoint edit_look (u : tag) (upd : list (tag * option val)) : option (option val) :=
  match upd with
  | [] => None
  | (t, o) :: r => if tag_eqb u t then Some o else edit_look u r
  end.
Definition edited (st : state) (upd : list (tag * option val)) (st' : state) : Prop :=
  forall u, get u st' = match edit_look u upd with Some o => o | None => get u st end.

(** [works_as s st t st']: using [s] with state [st] is the same as using [t] with state [st']:
    the size, the alignment, the offset of every sub-structure [x] that is not itself a view, and
    the offset of the element, and whether these are available. *)
Definition works_as (s : struct) (st : state) (t : struct) (st' : state) : Prop :=
  has_size s st = has_size t st' /\ size_ s st = size_ t st' /\ align_ s st = align_ t st' /\
  (forall x, (forall v u, x <> View v u) ->
     has_offset_of x s st = has_offset_of x t st' /\
     forall start, offset_of x s st start = offset_of x t st' start) /\
  (forall o o', offset s st = Some o -> offset t st' = Some o' -> o = o').

(** The length of [q] in [s] is the length of [q'] in [t], and it is available if that one is. *)
Definition length_as (s : struct) (q : dim) (st : state) (t : struct) (q' : dim) (st' : state) : Prop :=
  has_length s q st = has_length t q' st' /\ length_ s q st = length_ t q' st'.

(** Neither state gives a length or index to [d]. *)
Definition unused (d : dim) (st : state) : Prop := get (Idx d) st = None /\ get (Len d) st = None.

(** Replace external names by internal ones: the entry of the sub-structure's dimension [d] is the
    entry of the name that stands for it.  A name that now stands for another dimension is hidden. *)
Definition renamed (ps : list (dim * dim)) (st st' : state) : Prop :=
  forall d, let hidden := mem d (map snd ps) && negb (mem d (map fst ps)) in
    get (Idx d) st' = (if hidden then None else get (Idx (rename_dim ps d)) st) /\
    get (Len d) st' = (if hidden then None else get (Len (rename_dim ps d)) st).

(** A value that a [size_t] can hold. *)
Definition is_size (v : val) : Prop := match v with Sta x | Dyn x => 0 <= x < W | Undef => False end.
(** The views that move dimension [d] by [b]. *)
Definition moves_by (v : view) (d : dim) (b : val) : Prop :=
  v = VShift d b \/ (exists n, v = VSlice d b n) \/ (exists e, v = VSpan d b e).
(** Removing the entries of the dimensions [ds]. *)
Definition dropped (ds : list dim) : list (tag * option val) := flat_map (fun d => [(Idx d, None); (Len d, None)]) ds.

(** The index of [d], if there is one, becomes its image under [f]. *)
Definition moved (d : dim) (f : val -> val) (st : state) : tag * option val := (Idx d, option_map f (get (Idx d) st)).
(** The views that set the index or the length of dimension [d]. *)
Definition setter (v : view) (d : dim) : Prop := (exists i, v = VFix d i) \/ (exists n, v = VSetLength d n).

(** The number of blocks of [y] elements needed for [n] elements. *)
Definition ceil_div (n y : Z) : Z := (n + y - 1) / y.
(** Elements [(part, block, position)] of [n] elements split into whole blocks of [y] elements
    ([part] 0, the body) and the rest ([part] 1, the border). *)
Definition sta_inside (n y : Z) (e : Z * Z * Z) : Prop :=
  match e with (part, a, b) => (part = 0 /\ 0 <= a < n / y /\ 0 <= b < y) \/ (part = 1 /\ 0 <= a < 1 /\ 0 <= b < n mod y) end.
(** Their index in the dimension that is split. *)
Definition sta_index (n y : Z) (e : Z * Z * Z) : Z := match e with (part, a, b) => (if part =? 0 then a else n / y) * y + b end.

(** A state that results from an edit (used in examples). *)
Fixpoint edit (st : state) (upd : list (tag * option val)) : state :=
  match upd with
  | [] => st
  | (t, Some v) :: r => with_ [(t, v)] (edit st r)
  | (t, None) :: r => remove [t] (edit st r)
  end.
