(** * What a loop over bags computes: specification (C58)

    Definitions only.  Nothing here depends on how the elements are laid out in memory or on the order of the loops. *)

From Verif Require Export SpecBag SpecOrder SpecUnion Kernel.

(** The structure has the dimensions in [ls], with these lengths, and no other ones. *)
Definition cube (s : struct) (ls : list (dim * Z)) : Prop :=
  nodep s = true /\ (forall q, has_dim s q <-> In q (map fst ls)) /\
  forall q n, In (q, n) ls -> exists len, length_ s q [] = Some len /\ vz len = Some n.

(** The structures together have the dimensions in [ls], with these lengths. *)
Definition cubes (ss : list struct) (ls : list (dim * Z)) : Prop :=
  NoDup (map fst ls) /\ (forall s, In s ss -> exists l, cube s l /\ incl l ls) /\
  forall q, In q (map fst ls) -> exists s, In s ss /\ has_dim s q.

(** The dimensions [l] are among [ls], and at least as long. *)
Definition within_lengths (ls l : list (dim * Z)) : Prop := forall q n, In (q, n) l -> exists m, In (q, m) ls /\ m <= n.

(** Indices, one for each dimension. *)
Definition in_box (ls : list (dim * Z)) (x : asg) : Prop := forall q n, In (q, n) ls -> 0 <= x q < n.

(** The state has the indices [x] of the dimensions of the structure. *)
Definition named (s : struct) (x : asg) (st : state) : Prop :=
  (forall d, get (Len d) st = None) /\ forall d, has_dim s d -> exists i, get (Idx d) st = Some i /\ vz i = Some (x d).

(** The bag has the value [v] at the indices [x]. *)
Definition has_value (b : bag) (x : asg) (v : bytes) : Prop := exists st, named (bg_struct b) x st /\ bag_read b st = Done v.

(** The bag has the dimensions [l] and is used as documented. *)
Definition good_bag (b : bag) (l : list (dim * Z)) : Prop := cube (bg_struct b) l /\ sound_struct (bg_struct b) /\ enough_data b.

(** The two agree in the dimensions [ds]. *)
Definition agrees (ds : list dim) (x y : asg) : bool := forallb (fun d => y d =? x d) ds.

(** All combinations of indices, as lists, and the index of a dimension in such a list. *)
Fixpoint all_indices (ls : list (dim * Z)) : list (list Z) :=
  match ls with [] => [[]] | (_, n) :: r => flat_map (fun i => map (cons i) (all_indices r)) (zseq n) end.
Fixpoint idx (ls : list (dim * Z)) (is : list Z) (q : dim) : Z :=
  match ls, is with (d, _) :: ls, i :: is => if q =? d then i else idx ls is q | _, _ => 0 end.

(** What the bags have at the indices. *)
Definition have_values (bs : list bag) (x : asg) (vs : list bytes) : Prop := Forall2 (fun b v => has_value b x v) bs vs.

(** Accumulating: the order in which two values are taken in does not matter. *)
Definition any_order {A B} (f : A -> B -> A) : Prop := forall v a b, f (f v a) b = f (f v b) a.

(** Unsigned integers of [w] bytes. *)
Definition uint (w : nat) (z : Z) : bytes := le_bytes w z.
(** [out += in1 * in2 * ...] on such integers. *)
Definition add_product (w : nat) (v : bytes) (xs : list bytes) : bytes :=
  uint w (le_value v + fold_right Z.mul 1 (map le_value xs)).
Definition sum (n : Z) (g : Z -> Z) : Z := fold_right Z.add 0 (map g (zseq n)).
(** The indices [js] of the dimensions [ls], and the indices [x] of the other ones. *)
Definition along (ls : list (dim * Z)) (js : list Z) (x : asg) : asg := fun q => if mem q (map fst ls) then idx ls js q else x q.
(** The two indices of a matrix with the dimensions [i] and [j]. *)
Definition at_ij (i j : dim) (y z : Z) : asg := fun q => if q =? i then y else if q =? j then z else 0.

(** The structures have the dimensions [lens], and the order is used as documented: [P] says what each of its views may do. *)
Definition loops (P : view -> struct -> lenv -> Prop) (ss : list struct) (p : proto) (lens : list (dim * Z)) : Prop :=
  let t := order (traverser ss) p in
  cubes ss lens /\ uswf (top_struct t) = true /\ lenok (top_struct t) nolens /\ over P (Union ss) (top_struct t) nolens /\
  forall calls r, for_each t [] = Done calls -> In r calls -> complete (Union ss) r.
(** The dimensions of each bag are among [lens]. *)
Definition good_bags (bs : list bag) (lens : list (dim * Z)) : Prop :=
  forall b, In b bs -> exists l, good_bag b l /\ within_lengths lens l.
