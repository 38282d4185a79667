(** * C74: fixing indices of static and dynamic blocks *)

From Verif Require Import Check PropsLayout PropsOrder PropsViews FixBlocks.

(** into_blocks_static with blocks of length [k] of a dimension of length [l]: position [y] of block [x] of the whole blocks
    (part 0) is index [x * k + y], and position [y] of the rest (part 1) is index [l / k * k + y]. The other lengths agree. *)
Theorem C74_static : forall d b M m k part x y t st st2 cs l,
  let j := vadd (vmul (if part =? 0 then x else vdiv l k) k) y in
  let s := View (VFix m y) (View (VFix M x) (View (VFix b (Sta part)) (View (VBlocksSta d b M m k) t))) in
  signature s <> None -> signature (View (VFix d j) t) <> None -> (part = 0 \/ part = 1) ->
  edited st (dropped [d; b; M; m]) cs -> length_ t d cs = Some l -> edited st (dropped [b; M; m]) st2 ->
  works_as s st (View (VFix d j) t) st2 /\
  (forall q, ~ In q [d; b; M; m] -> get (Idx q) st = None -> length_as s q st (View (VFix d j) t) q st2).
Proof. exact fix_static. Qed.
Print Assumptions C74_static.

(** into_blocks_dynamic: position [b] of block [a] of blocks of length [n] is index [a * n + b]. *)
Theorem C74_dynamic : forall d M m p n a b c t st st2,
  let j := vadd (vmul a n) b in
  let s := View (VFix p c) (View (VFix m b) (View (VFix M a) (apply (p_into_blocks_dynamic d M m p n) t))) in
  signature s <> None -> signature (View (VFix d j) t) <> None -> edited st (dropped [M; m; p]) st2 ->
  works_as s st (View (VFix d j) t) st2 /\
  (forall q, ~ In q [d; M; m; p] -> get (Idx q) st = None -> length_as s q st (View (VFix d j) t) q st2).
Proof. exact fix_dynamic. Qed.
Print Assumptions C74_dynamic.

(** The 6 rows of a matrix in blocks of 4: row 5 is position 1 of the rest, or of the second block. *)
Example C74_static_ex :
  let s := View (VFix 5 (Dyn 1)) (View (VFix 4 (Sta 0)) (View (VFix 3 (Sta 1)) (View (VBlocksSta 1 3 4 5 (Sta 4)) mat))) in
  let t := View (VFix 1 (vadd (vmul (vdiv (Dyn 6) (Sta 4)) (Sta 4)) (Dyn 1))) mat in
  signature s <> None /\ signature t <> None /\ edited [] (dropped [1; 3; 4; 5]) [] /\ length_ mat 1 [] = Some (Dyn 6) /\ edited [] (dropped [3; 4; 5]) [] /\
  ~ In 2 [1; 3; 4; 5] /\ length_ s 2 [] = Some (Dyn 4) /\ offset s [(Idx 2, Dyn 3)] = Some (Dyn 92) /\ offset t [(Idx 2, Dyn 3)] = Some (Dyn 92).
Proof.
  cbv zeta. do 2 (split; [vm_compute; congruence|]).
  repeat split; try (vm_compute; congruence); try (simpl; lia); intros u; unfold dropped; cbn; repeat match goal with |- context [tag_eqb ?a ?b] => destruct (tag_eqb_spec a b); subst; cbn end; reflexivity.
Qed.

Example C74_dynamic_ex :
  let s := View (VFix 5 (Sta 0)) (View (VFix 4 (Dyn 1)) (View (VFix 3 (Dyn 1)) (apply (p_into_blocks_dynamic 1 3 4 5 (Dyn 4)) mat))) in
  let t := View (VFix 1 (vadd (vmul (Dyn 1) (Dyn 4)) (Dyn 1))) mat in
  signature s <> None /\ signature t <> None /\ edited [] (dropped [3; 4; 5]) [] /\
  ~ In 2 [1; 3; 4; 5] /\ length_ s 2 [] = Some (Dyn 4) /\ offset s [(Idx 2, Dyn 3)] = Some (Dyn 92) /\ offset t [(Idx 2, Dyn 3)] = Some (Dyn 92).
Proof.
  cbv zeta. do 2 (split; [vm_compute; congruence|]).
  repeat split; try (vm_compute; congruence); try (simpl; lia); intros u; unfold dropped; cbn; repeat match goal with |- context [tag_eqb ?a ?b] => destruct (tag_eqb_spec a b); subst; cbn end; reflexivity.
Qed.
