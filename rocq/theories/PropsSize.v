(** * C09: views do not change the amount of memory *)

From Verif Require Import ViewSize Check PropsLayout.

(** [p]: any sequence of views except [set_length] (and except adding a vector); no length comes from
    the states.  If both sizes compile, they are the same number. *)
Theorem C09_views_keep_size : forall p t st st' n n',
  forallb keeps_lengths p = true ->
  swf (apply p t) = true -> signature (apply p t) <> None -> lenok (apply p t) (lenv_of st') ->
  no_lengths st -> no_lengths st' -> get_size t st = Some n -> get_size (apply p t) st' = Some n' ->
  exists x, vz n = Some x /\ vz n' = Some x.
Proof. exact views_keep_size. Qed.
Print Assumptions C09_views_keep_size.

(** A 6 x 8 matrix, blocked, reversed, sliced, renamed, with one dimension fixed. *)
Example C09_ex :
  let t := vec 2 (Dyn 6) (vec 1 (Dyn 8) (Scalar int4)) in
  let p := [LView (VReverse 1); LView (VBlocks 1 3 4); LView (VSlice 2 (Dyn 1) (Dyn 3)); LView (VRename [(2, 5)]);
            LView (VFix 5 (Dyn 2)); LView (VHoist 4); LView (VBcast 6)] in
  forallb keeps_lengths p = true /\ swf (apply p t) = true /\ signature (apply p t) <> None /\
  lenok (apply p t) (lenv_of []) /\ get_size t [] = Some (Dyn 192) /\ get_size (apply p t) [] = Some (Dyn 192).
Proof.
  refine (conj _ (conj _ (conj _ (conj _ (conj _ _))))); try (vm_compute; reflexivity).
  - vm_compute. discriminate.
  - apply lenokb_sound. vm_compute. reflexivity.
Qed.

(** It need not compile: merge_zcurve<x, y, z> over a tuple of two 4 x 4 matrices, then fix<z>(0).
    [size] computes the sub-state with the index of [z], which asks for lengths below the tuple
    without a tuple index. *)
Theorem C09_compiles_refuted :
  exists t n, signature (View (VFix 3 (Dyn 0)) t) <> None /\ swf (View (VFix 3 (Dyn 0)) t) = true /\
    get_size t [] = Some n /\ get_size (View (VFix 3 (Dyn 0)) t) [] = None.
Proof.
  pose (mx := vec 1 (Dyn 4) (vec 2 (Dyn 4) (Scalar int4))).
  exists (View (VZCurve 0 3 3 [1; 2]) (Tuple 9 [mx; mx])), (Dyn 128).
  repeat split; vm_compute; congruence.
Qed.
Print Assumptions C09_compiles_refuted.
