(** * Views about separate groups of dimensions: specification *)

From Verif Require Export SpecCommute.

(** [about v D]: the view [v] replaces or changes the dimensions [D] and no other.  The views that
    change one dimension, [into_blocks], [into_blocks_dynamic], [into_blocks_static], [merge_blocks],
    [merge_zcurve] and [join]. *)
Definition about (v : view) (D : list dim) : Prop :=
  (exists d, changes v d /\ D = [d]) \/
  (exists d M m, v = VBlocks d M m /\ D = [d; M; m]) \/
  (exists d M m p, v = VBlocksDyn d M m p /\ D = [d; M; m; p]) \/
  (exists d b M m n, v = VBlocksSta d b M m n /\ D = [d; b; M; m]) \/
  (exists M m d, v = VMerge M m d /\ D = [M; m; d]) \/
  (exists sl gl d ds, v = VZCurve sl gl d ds /\ D = d :: ds) \/
  (exists a b d, v = VJoin a b d /\ D = [a; b; d]).

(** The states have the same indices and lengths of all dimensions but [D]. *)
Definition differ_in (D : list dim) (st st' : state) : Prop :=
  forall q, ~ In q D -> get (Idx q) st = get (Idx q) st' /\ get (Len q) st = get (Len q) st'.

(** The lengths of the dimensions [D] of [t] do not depend on indices or lengths of the dimensions [E]. *)
Definition separate (t : struct) (D E : list dim) : Prop :=
  forall st st' q, differ_in E st st' -> In q D -> get (Idx q) st = None -> length_as t q st t q st'.

(** The indices without which [into_blocks_dynamic] has no offsets are in the state. *)
Definition given (v : view) (st : state) : Prop :=
  match v with
  | VBlocksDyn _ M m p => has (Idx M) st = true /\ has (Idx m) st = true /\ has (Idx p) st = true
  | _ => True end.

(** [q] is not one of the dimensions that [merge_zcurve] and [join] put together. *)
Definition shown (v : view) (q : dim) : Prop :=
  match v with VZCurve _ _ d ds => q = d \/ ~ In q ds | VJoin a b d => q = d \/ (q <> a /\ q <> b) | _ => True end.

(** Structures in which only the tuples make lengths depend on indices, and no tuple is one of [E]. *)
Inductive regular (E : list dim) : struct -> Prop :=
| reg_scalar c : regular E (Scalar c)
| reg_vector d t : regular E t -> regular E (Vector d t)
| reg_tuple d ts : ~ In d E -> (forall t, In t ts -> regular E t) -> regular E (Tuple d ts)
| reg_view v d t : changes v d -> regular E t -> regular E (View v t).
