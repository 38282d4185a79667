(** * C68: views in the order of a traverser and views around the structure *)

From Verif Require Import Check Views PropsLayout WrapFacts WrapReject.
From Verif Require Import SpecWrap.

(** [traverser(s).order(p ^ q)] and [traverser(s ^ p).order(q)] run the same loops with the same indices: for_sections and for_dims hand out the inner
    traversers for the same states [o] (the indices chosen by the loops). *)
Theorem C68_loops : forall s p q, suits (p ++ q) s -> forall ds,
  let A := order (traverser [s]) (p ++ q) in let B := order (traverser [apply p s]) q in
  (exists o, for_sections A ds = out_map (map (inner A)) o /\ for_sections B ds = out_map (map (inner B)) o) /\
  (exists o, for_dims A ds = out_map (map (inner A)) o /\ for_dims B ds = out_map (map (inner B)) o).
Proof. exact wrap_loops. Qed.
Print Assumptions C68_loops.

(** In each iteration the state for [s] reaches in [s] what the state for [s ^ p] reaches in [s ^ p].  (The first traversal may be rejected while the
    second is not: the views may need lengths to compute the indices in [s], although no element is accessed; see C68_rejected.) *)
Theorem C68_each : forall s p q, suits (p ++ q) s -> forall ds,
  let A := order (traverser [s]) (p ++ q) in let B := order (traverser [apply p s]) q in
  for_each A ds = Rejected \/ alike (fun st st' => reaches s st (apply p s) st') (for_each A ds) (for_each B ds).
Proof. exact wrap_each. Qed.
Print Assumptions C68_each.

(** When only the first traversal is rejected, no access with a state of the second one compiles. *)
Theorem C68_rejected : forall s p q, suits (p ++ q) s -> forall ds l',
  let A := order (traverser [s]) (p ++ q) in let B := order (traverser [apply p s]) q in
  nodep (apply (p ++ q) s) = true -> for_each A ds = Rejected -> for_each B ds = Done l' ->
  forall st' x start, In st' l' -> (forall v u, x <> View v u) -> offset_of x (apply p s) st' start = None.
Proof. exact wrap_rejected. Qed.
Print Assumptions C68_rejected.

(** If the views need no lengths, both traversals are accepted or none. *)
Theorem C68_passes : forall s p q, suits (p ++ q) s -> forall ds, Forall passes p ->
  let A := order (traverser [s]) (p ++ q) in let B := order (traverser [apply p s]) q in
  alike (fun st st' => reaches s st (apply p s) st') (for_each A ds) (for_each B ds).
Proof. exact wrap_passes. Qed.
Print Assumptions C68_passes.

(** What two such states read from the bag and from the bag with the views around its structure is the same, and so is what they write. *)
Theorem C68_bags : forall g b p b' st st', bag_view g b p = Done b' -> reaches (bg_struct b) st (bg_struct b') st' ->
  (forall v v', bag_read b st = Done v -> bag_read b' st' = Done v' -> v = v') /\
  (forall v b2 b2', bag_write b st v = Done b2 -> bag_write b' st' v = Done b2' -> bg_data b2 = bg_data b2').
Proof. exact wrap_bags. Qed.
Print Assumptions C68_bags.

(** Separate lengths: a structure without lengths can be traversed with the lengths set in the order.  The states then carry the lengths, and work with
    the structure as the states of the traversal of the structure with lengths work with that. *)
Theorem C68_lengths : forall s ls q ds, suits (set_lengths ls ++ q) s ->
  alike (fun st st' => edited st' (lengths ls) st /\ works_as (apply (set_lengths ls) s) st' s st)
    (for_each (order (traverser [s]) (set_lengths ls ++ q)) ds) (for_each (order (traverser [apply (set_lengths ls) s]) q) ds).
Proof. exact wrap_lengths. Qed.
Print Assumptions C68_lengths.

(** ** Examples *)

(** A matrix of 4 by 6; the rows are split into blocks of 2, one of the columns is left out, the order is changed. *)
Definition wr_matrix : struct := vec 1 (Dyn 4) (vec 2 (Dyn 6) (Scalar int4)).
Definition wr_p : proto := [LView (VBlocks 1 3 4); LView (VSetLength 4 (Sta 2)); LView (VShift 2 (Dyn 1))].
Definition wr_q : proto := [LView (VHoist 4); LView (VReverse 2)].

Lemma wr_has s d : (match signature s with Some sg => any_accept d sg | None => false end) = true -> has_dim s d.
Proof. unfold has_dim. destruct (signature s); [auto|discriminate]. Qed.

Example C68_suits : suits (wr_p ++ wr_q) wr_matrix.
Proof. cbn [wr_p wr_q app suits takes]. repeat split; try exact I; intros d Hd; repeat (destruct Hd as [<-|Hd]; [apply wr_has; vm_compute; reflexivity|]); destruct Hd. Qed.

(** The traversals visit 20 elements each, and the offsets are the same. *)
Example C68_visits :
  match for_each (order (traverser [wr_matrix]) (wr_p ++ wr_q)) [], for_each (order (traverser [apply wr_p wr_matrix]) wr_q) [] with
  | Done l, Done m => length l = 20%nat /\ omap (offset wr_matrix) l = omap (offset (apply wr_p wr_matrix)) m /\ option_map (firstn 3) (omap (offset wr_matrix) l) = Some [Dyn 20; Dyn 16; Dyn 12]
  | _, _ => False
  end.
Proof. vm_compute. repeat split; reflexivity. Qed.

(** The matrix of docs/other/SeparateLengths.md. *)
Definition wr_bare : struct := Vector 1 (Vector 2 (Scalar int4)).
Definition wr_lengths : list (dim * val) := [(1, Dyn 3); (2, Dyn 3)].

Example C68_lengths_suits : suits (set_lengths wr_lengths ++ []) wr_bare.
Proof. cbn [set_lengths wr_lengths map app suits takes fst snd]. repeat split; try exact I; intros d Hd; repeat (destruct Hd as [<-|Hd]; [apply wr_has; vm_compute; reflexivity|]); destruct Hd. Qed.

Example C68_lengths_visits :
  match for_each (order (traverser [wr_bare]) (set_lengths wr_lengths)) [] with
  | Done l => length l = 9%nat /\ option_map (fun o => nth 7 o Undef) (omap (offset wr_bare) l) = Some (Dyn 28) /\ Forall (fun st => get (Len 1) st = Some (Dyn 3) /\ get (Len 2) st = Some (Dyn 3)) l
  | _ => False
  end /\ for_each (traverser [wr_bare]) [] = Rejected.
Proof. vm_compute. repeat split; try reflexivity; repeat constructor. Qed.

(** Dimensions of unknown lengths merged along a Z-curve, and the merged one fixed: the loops need no lengths, but the state for the matrix does. *)
Definition wr_merge : proto := [LView (VZCurve 0 8 3 [1; 2])].
Example C68_rejected_suits : suits (wr_merge ++ [LView (VFix 3 (Dyn 0))]) wr_bare.
Proof. cbn [wr_merge app suits takes]. repeat split; try exact I; intros d Hd; repeat (destruct Hd as [<-|Hd]; [apply wr_has; vm_compute; reflexivity|]); destruct Hd. Qed.
Example C68_rejected_ex : nodep (apply (wr_merge ++ [LView (VFix 3 (Dyn 0))]) wr_bare) = true /\
  for_each (order (traverser [wr_bare]) (wr_merge ++ [LView (VFix 3 (Dyn 0))])) [] = Rejected /\
  for_each (order (traverser [apply wr_merge wr_bare]) [LView (VFix 3 (Dyn 0))]) [] = Done [[(Idx 3, Dyn 0)]].
Proof. vm_compute. repeat split; reflexivity. Qed.
