(** * What a loop that reads neighbouring elements computes: specification (C60)

    Definitions only. *)

From Verif Require Export SpecStencil StencilKernel SpecKernel.

(** The indices are in the spans. *)
Definition inside_spans (l : list (dim * (val * val))) (x : asg) : bool :=
  forallb (fun e => (vzd (fst (snd e)) <=? x (fst e)) && (x (fst e) <? vzd (snd (snd e)))) l.

(** A word as a signed number. *)
Definition signed (z : Z) : Z := if z <? 2 ^ 63 then z else z - 2 ^ 64.

(** The indices [x] moved by the differences. *)
Definition moved_by (l : list (dim * val)) (x : asg) : asg :=
  fun q => x q + match find (fun e => fst e =? q) l with Some e => signed (vzd (snd e)) | None => 0 end.

(** The structures have the dimensions [lens].  The order starts with [p], which selects elements, and continues with [q], which only
    rearranges what [p] left. *)
Definition inner_loops (ss : list struct) (p q : proto) (lens : list (dim * Z)) : Prop :=
  let t1 := order (traverser ss) p in
  loops documented ss (p ++ q) lens /\ over documented (Union ss) (top_struct t1) nolens /\ over rearranges (top_struct t1) (top_struct (order t1 q)) nolens.

(** The bags are used as documented; the elements that are read around the indices of which [inside] holds exist. *)
Definition near_bags (ins : list bag_near) (inside : asg -> bool) (lens : list (dim * Z)) : Prop :=
  forall b ds, In (b, ds) ins -> NoDup (map fst ds) /\ (forall d z, In (d, z) ds -> vz z <> None) /\
    exists lb, good_bag b lb /\ incl (map fst lb) (map fst lens) /\ forall x, in_box lens x -> inside x = true -> in_box lb (moved_by ds x).

(** What the bags have around the indices. *)
Definition near_values (ins : list bag_near) (x : asg) (vs : list bytes) : Prop :=
  Forall2 (fun n v => has_value (fst n) (moved_by (snd n) x) v) ins vs.

(** The elements that are at least the margins [m] away from the ends. *)
Definition inner_part (m : list (dim * val)) (lens : list (dim * Z)) (x : asg) : bool :=
  forallb (fun e => forallb (fun y => negb (fst y =? fst e) || ((vzd (snd e) <=? x (fst e)) && (x (fst e) <? snd y - vzd (snd e)))) lens) m.

(** Margins for some of the dimensions of the structure. *)
Definition margins (s : struct) (m : list (dim * val)) : Prop := NoDup (map fst m) /\ forall d b, In (d, b) m -> has_dim s d /\ vz b <> None.

(** The bags have some of the dimensions [lens] and are read at differences within the margins. *)
Definition near_margins (ins : list bag_near) (m : list (dim * val)) (lens : list (dim * Z)) : Prop :=
  forall b ds, In (b, ds) ins -> within m ds /\ exists lb, good_bag b lb /\ incl lb lens.

(** A weighted sum of unsigned integers of [w] bytes: [out = c1 * in1 + c2 * in2 + ...]. *)
Definition add_up (l : list Z) : Z := fold_right Z.add 0 l.
Definition weigh (w : nat) (cs : list Z) (v : bytes) (xs : list bytes) : bytes :=
  uint w (add_up (map (fun e => fst e * le_value (snd e)) (combine cs xs))).

(** A matrix read at several differences. *)
Definition around (a : bag) (i j : dim) (offs : list (Z * Z)) : list bag_near :=
  map (fun o => (a, [(i, Dyn (fst o)); (j, Dyn (snd o))])) offs.
