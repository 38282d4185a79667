(** * C71: blocks and merges of separate dimensions can be applied in either order *)

From Verif Require Import Check PropsLayout PropsOrder PropsViews AboutFacts SpecAbout.

(** A view about the dimensions [D] and one that changes another dimension. *)
Theorem C71_change : forall v w D e t st, about v D -> changes w e -> ~ In e D ->
  signature (View v (View w t)) <> None -> signature (View w (View v t)) <> None ->
  (given v st -> works_as (View v (View w t)) st (View w (View v t)) st) /\
  (has_size (View v (View w t)) st <> None -> forall q, shown v q -> get (Idx q) st = None ->
     length_as (View v (View w t)) q st (View w (View v t)) q st).
Proof. exact change_commutes. Qed.
Print Assumptions C71_change.

(** Two views about separate groups of dimensions. *)
Theorem C71_commute : forall v w D E t st, about v D -> about w E -> (forall q, In q D -> ~ In q E) ->
  separate t D E -> separate t E D ->
  signature (View v (View w t)) <> None -> signature (View w (View v t)) <> None ->
  has_size (View v t) st <> None -> has_size (View w t) st <> None ->
  (given v st -> given w st -> works_as (View v (View w t)) st (View w (View v t)) st) /\
  (forall q, shown v q -> shown w q -> get (Idx q) st = None -> length_as (View v (View w t)) q st (View w (View v t)) q st).
Proof. exact abouts_commute. Qed.
Print Assumptions C71_commute.

(** Separate groups are found in all structures made of vectors, tuples of other dimensions and
    views that change one dimension. *)
Theorem C71_separate : forall E t, regular E t -> signature t <> None ->
  forall D, (forall q, In q D -> ~ In q E) -> separate t D E.
Proof. exact regular_separate. Qed.
Print Assumptions C71_separate.

(** Both dimensions of the 6 x 4 matrix in blocks of two. *)
Definition c71_tiles : state := idx [(11, Dyn 2); (12, Dyn 1); (21, Dyn 1); (22, Dyn 0)] ++ [(Len 12, Dyn 2); (Len 22, Dyn 2)].
Example C71_ex :
  let v := VBlocks 1 11 12 in let w := VBlocks 2 21 22 in
  about v [1; 11; 12] /\ about w [2; 21; 22] /\ (forall q, In q [1; 11; 12] -> ~ In q [2; 21; 22]) /\
  regular [1; 11; 12] mat /\ regular [2; 21; 22] mat /\ signature mat <> None /\
  signature (View v (View w mat)) <> None /\ signature (View w (View v mat)) <> None /\
  has_size (View v mat) c71_tiles <> None /\ has_size (View w mat) c71_tiles <> None /\
  offset (View v (View w mat)) c71_tiles = Some (Dyn 88) /\ offset (View w (View v mat)) c71_tiles = Some (Dyn 88) /\
  offset mat (at_ 5 2) = Some (Dyn 88) /\
  length_ (View v (View w mat)) 11 [(Len 12, Dyn 2)] = Some (Dyn 3) /\ length_ (View w (View v mat)) 11 [(Len 12, Dyn 2)] = Some (Dyn 3).
Proof.
  cbv zeta. assert (R : forall E, regular E mat).
  { intros E. unfold mat, vec. eapply (reg_view E _ 1); [left; right; eexists; reflexivity|]. apply reg_vector.
    eapply (reg_view E _ 2); [left; right; eexists; reflexivity|]. apply reg_vector, reg_scalar. }
  split; [right; left; do 3 eexists; split; reflexivity|]. split; [right; left; do 3 eexists; split; reflexivity|].
  split; [intros q; simpl; intuition lia|]. split; [apply R|]. split; [apply R|]. repeat split; vm_compute; congruence.
Qed.

(** A fixed dimension below a z-curve and below blocks. *)
Example C71_ex_change :
  let t := vec 3 (Dyn 3) (vec 1 (Dyn 4) (vec 2 (Dyn 4) (Scalar int4))) in
  let v := VZCurve 1 3 9 [1; 2] in let w := VFix 3 (Dyn 1) in
  about v [9; 1; 2] /\ changes w 3 /\ ~ In 3 [9; 1; 2] /\
  signature (View v (View w t)) <> None /\ signature (View w (View v t)) <> None /\
  has_size (View v (View w t)) (idx [(9, Dyn 6)]) <> None /\
  offset (View v (View w t)) (idx [(9, Dyn 6)]) = offset (View w (View v t)) (idx [(9, Dyn 6)]) /\
  offset (View v (View w t)) (idx [(9, Dyn 6)]) <> None /\ length_ (View v (View w t)) 9 [] = Some (Dyn 16) /\ shown v 9.
Proof.
  cbv zeta. split; [do 5 right; left; do 4 eexists; split; reflexivity|]. split; [left; left; eexists; reflexivity|].
  split; [simpl; lia|]. repeat split; try (vm_compute; congruence). left. reflexivity.
Qed.

(** Both dimensions in blocks of three and of four, which need not divide the lengths. *)
Definition c71_dyn : state := idx [(11, Dyn 1); (12, Dyn 1); (13, Dyn 0); (21, Dyn 0); (22, Dyn 2); (23, Dyn 0)] ++ [(Len 12, Dyn 4); (Len 22, Dyn 3)].
Example C71_ex_dyn :
  let v := VBlocksDyn 1 11 12 13 in let w := VBlocksDyn 2 21 22 23 in
  about v [1; 11; 12; 13] /\ about w [2; 21; 22; 23] /\ (forall q, In q [1; 11; 12; 13] -> ~ In q [2; 21; 22; 23]) /\
  signature (View v (View w mat)) <> None /\ signature (View w (View v mat)) <> None /\
  has_size (View v mat) c71_dyn <> None /\ has_size (View w mat) c71_dyn <> None /\ given v c71_dyn /\ given w c71_dyn /\
  offset (View v (View w mat)) c71_dyn = Some (Dyn 88) /\ offset (View w (View v mat)) c71_dyn = Some (Dyn 88) /\
  length_ (View v (View w mat)) 11 [(Len 12, Dyn 4)] = Some (Dyn 2) /\ length_ (View w (View v mat)) 11 [(Len 12, Dyn 4)] = Some (Dyn 2).
Proof.
  cbv zeta. split; [do 2 right; left; do 4 eexists; split; reflexivity|]. split; [do 2 right; left; do 4 eexists; split; reflexivity|].
  split; [intros q; simpl; intuition lia|]. repeat split; vm_compute; congruence.
Qed.
