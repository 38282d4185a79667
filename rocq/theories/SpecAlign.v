(** * Alignment (C57)

    Definitions only. *)

From Verif Require Export Good Striped.

(** The types of the scalars of a structure. *)
Fixpoint scalars (s : struct) : list cty :=
  match s with
  | Scalar c => [c]
  | Tuple _ ts => flat_map scalars ts
  | Vector _ t | View _ t => scalars t
  | Union ts => flat_map scalars ts
  end.

(** The sizes of all scalars are multiples of [A]. *)
Definition sizes_by (A : Z) (s : struct) : bool := forallb (fun c => ct_size c mod A =? 0) (scalars s).

(** The sizes of all scalars of [t] are multiples of the alignments of all scalars of [u]: [u] can be placed after [t]. *)
Definition follows (t u : struct) : bool := forallb (fun c => sizes_by (ct_align c) t) (scalars u).

(** The elements of a vector can be placed one after another, and so can the components of a tuple. *)
Fixpoint in_order (ts : list struct) : bool :=
  match ts with [] => true | t :: r => forallb (follows t) r && in_order r end.
Fixpoint laid_out (s : struct) : bool :=
  match s with
  | Scalar _ => true
  | Tuple _ ts => in_order ts && forallb laid_out ts
  | Vector _ t => follows t t && laid_out t
  | View _ t => laid_out t
  | Union _ => false
  end.

(** Unions have no memory. *)
Fixpoint nounion (s : struct) : bool :=
  match s with
  | Scalar _ => true
  | Tuple _ ts => forallb nounion ts
  | Vector _ t | View _ t => nounion t
  | Union _ => false
  end.

(** All scalars have the same alignment, which divides their sizes (as in C++). *)
Definition uniform (A : Z) (s : struct) : bool :=
  forallb (fun c => (ct_align c =? A) && (ct_size c mod ct_align c =? 0)) (scalars s).

(** Types as C++ has them. *)
Definition real_types (s : struct) : bool := forallb cty_ok (scalars s).
