(** * What a program means, without layouts: specification (C66)

    Definitions only.  The same programs, run on arrays in the mathematical sense: functions from indices to values.  There are no
    structures, no offsets and no bytes of memory here. *)

From Verif Require Export Layout Foreign SpecKernel Agnostic.

(** The dimensions with their lengths, and the value at each combination of indices (in the order of the dimensions).  Arrays that are
    not writable may only be read. *)
Record array := { ar_dims : list (dim * Z); ar_at : list Z -> bytes; ar_writable : bool }.

(** The indices that the state gives for the dimensions, if they are all given and in range, and if the state gives no lengths. *)
Definition index_below (st : state) (e : dim * Z) : option Z :=
  match get (Idx (fst e)) st with
  | Some v => match vz v with Some x => if x <? snd e then Some x else None | None => None end
  | None => None
  end.
Definition is_index (t : tag) : bool := match t with Idx _ => true | _ => false end.
Definition indices (ls : list (dim * Z)) (st : state) : option (list Z) :=
  if forallb (fun e => is_index (fst e)) st then omap (index_below st) ls else None.

Definition update (a : array) (is : list Z) (v : bytes) : array :=
  {| ar_dims := ar_dims a; ar_at := fun js => if list_eq_dec Z.eq_dec js is then v else ar_at a js; ar_writable := ar_writable a |}.

Definition length_in (d : dim) (a : array) : option Z := option_map snd (find (fun e => fst e =? d) (ar_dims a)).

(** The lengths of the dimensions [ds], if the arrays agree about them and have no other dimensions. *)
Fixpoint first_some {A} (l : list (option A)) : option A := match l with [] => None | Some x :: _ => Some x | None :: l => first_some l end.
Definition common (ds : list dim) (xs : list array) : option (list (dim * Z)) :=
  do ls <- omap (fun d => option_map (pair d) (first_some (map (length_in d) xs))) ds;
  if nodupb ds && forallb (fun a => forallb (fun e => existsb (fun e' => (fst e =? fst e') && (snd e =? snd e')) ls) (ar_dims a)) xs
  then Some ls else None.

(** What the program returns and what the arrays are afterwards.  [None]: it leaves the arrays, or writes one that is not writable. *)
Fixpoint meaning {A} (p : program A) (xs : list array) : option (A * list array) :=
  match p with
  | Return a => Some (a, xs)
  | Read b st k => do x <- nth_error xs b; do is <- indices (ar_dims x) st; meaning (k (ar_at x is)) xs
  | Write b st v k => do x <- nth_error xs b; do is <- indices (ar_dims x) st; if ar_writable x then meaning k (put b (update x is v) xs) else None
  | Length b d k => do x <- nth_error xs b; do n <- length_in d x; meaning (k n) xs
  | ForEach bs w ds k => do ys <- omap (nth_error xs) bs; do ls <- common ds ys; meaning (k (all_indices ls)) xs
  end.

(** The bag holds the array: it has the same dimensions and the same values, whatever its layout. *)
Definition holds_array (b : bag) (a : array) : Prop :=
  NoDup (map fst (ar_dims a)) /\ good_bag b (ar_dims a) /\ (ar_writable a = true -> nobcast (bg_struct b) = true) /\
  forall x, in_box (ar_dims a) x -> has_value b x (ar_at a (map x (map fst (ar_dims a)))).
Definition hold (bags : list bag) (xs : list array) : Prop := Forall2 holds_array bags xs.

(** ** Compiling *)

(** The state names an element in the plain way: run-time indices for the dimensions of the structure, no lengths, and no indices for
    dimensions that the structure has only inside. *)
Definition plainly_named (s : struct) (st : state) : Prop :=
  (forall d, get (Len d) st = None) /\
  forall d, mentions s d -> (has_dim s d -> exists i, get (Idx d) st = Some (Dyn i)) /\ (~ has_dim s d -> get (Idx d) st = None).

(** One plain access to an element of the bag compiles. *)
Definition accessible (b : bag) : Prop := exists st, plainly_named (bg_struct b) st /\ bag_ref b st <> Rejected.

(** Each access that the program makes is a plain one to such a bag, written values have the size of the elements, bags that are written
    are not constant, and the traversals compile.  (The values follow [meaning].) *)
Fixpoint compiles {A} (p : program A) (bags : list bag) (xs : list array) : Prop :=
  match p with
  | Return _ => True
  | Read b st k =>
      (exists y, nth_error bags b = Some y /\ accessible y /\ plainly_named (bg_struct y) st) /\
      forall x is, nth_error xs b = Some x -> indices (ar_dims x) st = Some is -> compiles (k (ar_at x is)) bags xs
  | Write b st v k =>
      (exists y c, nth_error bags b = Some y /\ accessible y /\ plainly_named (bg_struct y) st /\ bg_policy y <> ConstRaw /\
        scalar_t (bg_struct y) st = Some c /\ Z.of_nat (length v) = ct_size c) /\
      forall x is, nth_error xs b = Some x -> indices (ar_dims x) st = Some is -> compiles k bags (put b (update x is v) xs)
  | Length b d k => forall x n, nth_error xs b = Some x -> length_in d x = Some n -> compiles (k n) bags xs
  | ForEach bs w ds k =>
      (exists zs, omap (nth_error bags) bs = Some zs /\ calls_in zs w ds <> Rejected) /\
      forall ys ls, omap (nth_error xs) bs = Some ys -> common ds ys = Some ls -> compiles (k (all_indices ls)) bags xs
  end.
