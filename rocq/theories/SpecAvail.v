(** * Specification: when the availability queries are exact *)

From Verif Require Export Struct Sem.

(** No reversed dimension, and a dimension under [step] has no length once it has an index. *)
Fixpoint queries_ok (s : struct) : Prop :=
  match s with
  | Scalar _ => True
  | Tuple _ ts => fold_right and True (map queries_ok ts)
  | Vector _ t => queries_ok t
  | View v t =>
      match v with
      | VReverse _ => False
      | VStep d _ _ => forall st, has (Idx d) st = true -> has_length t d st <> Some true
      | _ => True
      end /\ queries_ok t
  | Union ts => fold_right and True (map queries_ok ts)
  end.

(** All the parts of a structure have the alignment of its first scalar ([aligned]); every component of every tuple is such a
    structure ([sizable]). *)
Fixpoint aligned (s : struct) : bool :=
  match s with
  | Scalar _ => true
  | Tuple _ ts => match ts with [] => false | t :: _ => forallb (fun u => ialign u =? ialign t) ts end && forallb aligned ts
  | Vector _ t => aligned t
  | View _ t => aligned t
  | Union _ => false
  end.
Fixpoint sizable (s : struct) : bool :=
  match s with
  | Scalar _ => true
  | Tuple _ ts => forallb aligned ts && forallb sizable ts
  | Vector _ t => sizable t
  | View _ t => sizable t
  | Union _ => false
  end.
