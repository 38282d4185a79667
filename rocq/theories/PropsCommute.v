(** * C70: views of different dimensions can be applied in either order *)

From Verif Require Import Check PropsLayout PropsOrder PropsViews CommuteFacts SpecCommute.

Theorem C70_commute : forall v w d e t st, changes v d -> changes w e -> d <> e ->
  signature (View v (View w t)) <> None -> signature (View w (View v t)) <> None ->
  alike (View v (View w t)) (View w (View v t)) st.
Proof. exact changes_commute. Qed.
Print Assumptions C70_commute.

(** [reverse] needs the length of its dimension, but gets the same in either order. *)
Theorem C70_reverse : forall w d e t st, changes w e -> d <> e ->
  signature (View (VReverse d) (View w t)) <> None -> signature (View w (View (VReverse d) t)) <> None ->
  works_as (View (VReverse d) (View w t)) st (View w (View (VReverse d) t)) st /\
  (get (Idx d) st = None -> forall q, get (Idx q) st = None ->
     length_as (View (VReverse d) (View w t)) q st (View w (View (VReverse d) t)) q st).
Proof. exact reverse_commutes. Qed.
Print Assumptions C70_reverse.

(** Two dimensions that are both reversed, if the length of neither depends on the index of the other. *)
Theorem C70_reverses : forall d e t st i j ld le, d <> e ->
  signature (View (VReverse d) (View (VReverse e) t)) <> None -> signature (View (VReverse e) (View (VReverse d) t)) <> None ->
  get (Idx d) st = Some i -> get (Idx e) st = Some j ->
  (forall o cs, edited st [(Idx d, None); (Idx e, o)] cs -> length_ t d cs = Some ld) ->
  (forall o cs, edited st [(Idx e, None); (Idx d, o)] cs -> length_ t e cs = Some le) ->
  works_as (View (VReverse d) (View (VReverse e) t)) st (View (VReverse e) (View (VReverse d) t)) st.
Proof. exact reverses_commute. Qed.
Print Assumptions C70_reverses.

(** A tuple of 3 and 5 integers. *)
Definition c70_pair : struct := Tuple 1 [vec 2 (Dyn 3) (Scalar int4); vec 2 (Dyn 5) (Scalar int4)].

(** Otherwise the order matters: reversing the arrays of a tuple and then the tuple gives the last
    element of the first array; reversing the tuple first gives an element that is not in that array. *)
Theorem C70_reverses_refuted : exists d e t st, d <> e /\
  signature (View (VReverse d) (View (VReverse e) t)) <> None /\ signature (View (VReverse e) (View (VReverse d) t)) <> None /\
  offset (View (VReverse d) (View (VReverse e) t)) st = Some (Dyn 8) /\
  length_ t e (idx [(d, Sta 0)]) = Some (Dyn 3) /\ offset t (idx [(d, Sta 0); (e, Dyn 2)]) = Some (Dyn 8) /\
  offset (View (VReverse e) (View (VReverse d) t)) st = Some (Dyn 16) /\ offset t (idx [(d, Sta 0); (e, Dyn 4)]) = Some (Dyn 16).
Proof.
  exists 1, 2, c70_pair, (idx [(1, Sta 1); (2, Dyn 0)]). split; [discriminate|]. repeat split; vm_compute; congruence.
Qed.
Print Assumptions C70_reverses_refuted.

(** A view below a vector is the same as above it. *)
Theorem C70_vector : forall v d e t st, changes v d -> d <> e ->
  signature (View v (Vector e t)) <> None -> signature (Vector e (View v t)) <> None ->
  elements_as (View v (Vector e t)) st (Vector e (View v t)) st /\
  forall q, get (Idx q) st = None -> length_as (View v (Vector e t)) q st (Vector e (View v t)) q st.
Proof. exact vector_commutes. Qed.
Print Assumptions C70_vector.

(** A view of all components of a tuple is the same as a view of the tuple.  The length of [d] is
    available in both only if a component has been chosen. *)
Theorem C70_tuple : forall v d e ts st, changes v d -> d <> e ->
  signature (View v (Tuple e ts)) <> None -> signature (Tuple e (map (View v) ts)) <> None ->
  elements_as (View v (Tuple e ts)) st (Tuple e (map (View v) ts)) st /\
  (forall q, q <> d -> get (Idx q) st = None -> length_as (View v (Tuple e ts)) q st (Tuple e (map (View v) ts)) q st) /\
  (forall i k, get (Idx e) st = Some i -> vstatic i = Some k -> 0 <= k < Z.of_nat (List.length ts) -> get (Idx d) st = None ->
     length_as (View v (Tuple e ts)) d st (Tuple e (map (View v) ts)) d st).
Proof. exact tuple_commutes. Qed.
Print Assumptions C70_tuple.

Example C70_ex_below :
  let v := VSlice 2 (Dyn 1) (Dyn 2) in let ts := [vec 2 (Dyn 3) (Scalar int4); vec 2 (Dyn 5) (Scalar int4)] in
  let row := vec 2 (Dyn 4) (Scalar int4) in let st := (Len 1, Dyn 6) :: at_ 2 1 in
  changes v 2 /\ signature (View v (Vector 1 row)) <> None /\ signature (Vector 1 (View v row)) <> None /\
  offset (View v (Vector 1 row)) st = Some (Dyn 40) /\ offset (Vector 1 (View v row)) st = Some (Dyn 40) /\
  signature (View v (Tuple 1 ts)) <> None /\ signature (Tuple 1 (map (View v) ts)) <> None /\
  offset (View v (Tuple 1 ts)) (idx [(1, Sta 1); (2, Dyn 1)]) = Some (Dyn 20) /\
  offset (Tuple 1 (map (View v) ts)) (idx [(1, Sta 1); (2, Dyn 1)]) = Some (Dyn 20) /\
  length_ (View v (Tuple 1 ts)) 2 (idx [(1, Sta 1)]) = Some (Dyn 2).
Proof.
  cbv zeta. split; [right; left; exists (Dyn 1); right; left; eexists; reflexivity|]. repeat split; vm_compute; congruence.
Qed.

Example C70_ex :
  changes (VSlice 1 (Dyn 2) (Dyn 3)) 1 /\ changes (VStep 2 (Dyn 1) (Dyn 2)) 2 /\
  signature (View (VSlice 1 (Dyn 2) (Dyn 3)) (View (VStep 2 (Dyn 1) (Dyn 2)) mat)) <> None /\
  signature (View (VStep 2 (Dyn 1) (Dyn 2)) (View (VSlice 1 (Dyn 2) (Dyn 3)) mat)) <> None /\
  offset (View (VSlice 1 (Dyn 2) (Dyn 3)) (View (VStep 2 (Dyn 1) (Dyn 2)) mat)) (at_ 1 1) = Some (Dyn 60) /\
  offset (View (VStep 2 (Dyn 1) (Dyn 2)) (View (VSlice 1 (Dyn 2) (Dyn 3)) mat)) (at_ 1 1) = Some (Dyn 60) /\
  length_ (View (VSlice 1 (Dyn 2) (Dyn 3)) (View (VStep 2 (Dyn 1) (Dyn 2)) mat)) 2 [] = Some (Dyn 2) /\
  length_ (View (VStep 2 (Dyn 1) (Dyn 2)) (View (VSlice 1 (Dyn 2) (Dyn 3)) mat)) 2 [] = Some (Dyn 2) /\
  signature (View (VReverse 1) (View (VStep 2 (Dyn 1) (Dyn 2)) mat)) <> None /\
  signature (View (VStep 2 (Dyn 1) (Dyn 2)) (View (VReverse 1) mat)) <> None /\
  offset (View (VReverse 1) (View (VStep 2 (Dyn 1) (Dyn 2)) mat)) (at_ 1 1) = Some (Dyn 76) /\
  signature (View (VReverse 1) (View (VReverse 2) mat)) <> None /\ signature (View (VReverse 2) (View (VReverse 1) mat)) <> None /\
  offset (View (VReverse 1) (View (VReverse 2) mat)) (at_ 1 1) = Some (Dyn 72).
Proof.
  split; [right; left; exists (Dyn 2); right; left; eexists; reflexivity|].
  split; [right; right; left; eexists; eexists; reflexivity|]. repeat split; vm_compute; congruence.
Qed.

(** The lengths of a matrix do not depend on its indices. *)
Example C70_ex_lengths :
  (forall o cs, edited (at_ 1 1) [(Idx 1, None); (Idx 2, o)] cs -> length_ mat 1 cs = Some (Dyn 6)) /\
  (forall o cs, edited (at_ 1 1) [(Idx 2, None); (Idx 1, o)] cs -> length_ mat 2 cs = Some (Dyn 4)).
Proof.
  split; intros o cs He; [pose proof (He (Idx 1)) as H1|pose proof (He (Idx 2)) as H1]; cbn in H1;
    unfold mat, vec, length_; cbn; unfold has; repeat (rewrite ?get_remove, ?get_with, ?H1; cbn); reflexivity.
Qed.
