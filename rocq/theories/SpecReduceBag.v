(** * Reductions into bags: specification (C61)

    Definitions only. *)

From Coq Require Export Permutation.
From Verif Require Export SpecReduce ReduceBag SpecKernel.

(** On the values [P], the operation is a sum: associative and commutative, with the neutral element [e]. *)
Definition sums (P : bytes -> Prop) (op : bytes -> bytes -> bytes) (e : bytes) : Prop :=
  P e /\ (forall a b, P a -> P b -> P (op a b)) /\ (forall a, P a -> op e a = a) /\ (forall a b, P a -> P b -> op a b = op b a) /\
  forall a b c, P a -> P b -> P c -> op (op a b) c = op a (op b c).

(** What TBB may do with the traversal: any way to split the range, any order of the calls, any distribution of the pieces over the threads, any
    order of the threads, and any contents of fresh memory of the size of the output. *)
Definition some_run (t : trav) (s : struct) (calls : list state) (threads : list (bytes * list (list state))) : Prop :=
  (exists r tr works, range_of t = Done r /\ Forall2 (fun piece w => rg_for_each piece = Done w) (pieces tr r) works /\
    Permutation calls (concat works) /\ Permutation (concat (map snd threads)) works) /\
  forall th, In th threads -> enough_data (make_bag_at s false (fst th)).

(** The state has the indices [y] of the dimensions [lens]. *)
Definition has_indices (lens : list (dim * Z)) (y : asg) (st : state) : Prop :=
  (forall d, get (Len d) st = None) /\ forall q, In q (map fst lens) -> exists i, get (Idx q) st = Some i /\ vz i = Some (y q).

(** The call at the indices [y] updates the element of the output at the indices [dest y]. *)
Definition updates (vals : asg -> list bytes) (place : state -> list bytes -> state) (lens : list (dim * Z)) (out : bag) (lo : list (dim * Z)) (dest : asg -> asg) : Prop :=
  forall y st, in_box lens y -> has_indices lens y st -> named (bg_struct out) (dest y) (place st (vals y)) /\ in_box lo (dest y).

(** Unsigned integers of [w] bytes and their addition. *)
Definition is_uint (w : nat) (v : bytes) : Prop := exists z, v = uint w z.
Definition uint_plus (w : nat) (a b : bytes) : bytes := uint w (le_value a + le_value b).

(** docs/Traverser.md 536-540: [histo[idx<'v'>(value)] += 1]. *)
Definition by_value (d : dim) (st : state) (xs : list bytes) : state := [(Idx d, Dyn (le_value (hd [] xs)))].
Definition add_one (w : nat) (v : bytes) (xs : list bytes) : bytes := uint_plus w v (uint w 1).
(** How many of the combinations of indices have the property. *)
Definition count (ls : list (dim * Z)) (P : asg -> bool) : Z := Z.of_nat (List.length (filter (fun is => P (idx ls is)) (all_indices ls))).
