(** * What ranges should do

    Definitions only. *)

From Coq Require Export Permutation.
From Verif Require Export SpecTrav Range.

(** [es] are places between [b] and [e], in ascending order. *)
Fixpoint ascending (b : Z) (es : list Z) (e : Z) : Prop :=
  match es with [] => b <= e | x :: es' => b <= x /\ ascending x es' e end.

(** The parts of [r] from [b] to its end, cut at [es]. *)
Fixpoint cut (r : range) (b : Z) (es : list Z) : list range :=
  match es with
  | [] => [rg_set r b (rg_end r)]
  | e :: es' => rg_set r b e :: cut r e es'
  end.

(** Traversing [ts] one after another makes the calls [l]: each of the traversals ends normally, and
    the states are the same. *)
Definition calls_in_order (ts : list trav) (l : list state) : Prop :=
  exists ls, Forall2 (fun t x => for_each t [] = Done x) ts ls /\ Forall2 same_get l (concat ls).

(** The same in any order. *)
Definition calls_once (ts : list trav) (l : list state) : Prop :=
  exists ls l', Forall2 (fun t x => for_each t [] = Done x) ts ls /\ Permutation l l' /\ Forall2 same_get l' (concat ls).
