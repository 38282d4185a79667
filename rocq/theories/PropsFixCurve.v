(** * C74: fixing an index of a Z-curve *)

From Verif Require Import Check PropsLayout PropsOrder PropsViews FixCurve.

(** Fixing index [i] of merge_zcurve is fixing all dimensions below at the [i]-th point of the curve (C22 says which point it is).
    The lengths of the dimensions that are not merged agree. *)
Theorem C74_zcurve : forall sl gl d ds i t st st2 cs ls, let s := View (VFix d i) (View (VZCurve sl gl d ds) t) in
  let u := apply (p_fix (idx (combine ds (zc_indices sl gl i ls)))) t in
  signature s <> None -> signature u <> None ->
  edited st (dropped (d :: ds)) cs -> omap (fun q => length_ t q cs) ds = Some ls -> edited st (dropped [d]) st2 ->
  works_as s st u st2 /\
  (forall q, ~ In q (d :: ds) -> get (Idx q) st = None -> length_as s q st u q st2).
Proof. exact fix_zcurve. Qed.
Print Assumptions C74_zcurve.

(** Point 13 of the curve through each of five 6 x 4 matrices is row 2, column 3. *)
Example C74_zcurve_ex : let t := vec 9 (Dyn 5) mat in let s := View (VFix 5 (Dyn 13)) (View (VZCurve 1 3 5 [1; 2]) t) in
  let u := apply (p_fix (idx (combine [1; 2] (zc_indices 1 3 (Dyn 13) [Dyn 6; Dyn 4])))) t in
  signature s <> None /\ signature u <> None /\ omap (fun q => length_ t q []) [1; 2] = Some [Dyn 6; Dyn 4] /\
  u = View (VFix 2 (Dyn 3)) (View (VFix 1 (Dyn 2)) t) /\
  length_ s 9 [] = Some (Dyn 5) /\ offset s [(Idx 9, Dyn 1)] = Some (Dyn 140) /\ offset u [(Idx 9, Dyn 1)] = Some (Dyn 140) /\
  edited [] (dropped [5; 1; 2]) [] /\ edited [] (dropped [5]) [].
Proof.
  cbv zeta. do 2 (split; [vm_compute; congruence|]). do 5 (split; [vm_compute; reflexivity|]).
  split; intros u; unfold dropped; cbn; repeat match goal with |- context [tag_eqb ?a ?b] => destruct (tag_eqb_spec a b); subst; cbn end; reflexivity.
Qed.
