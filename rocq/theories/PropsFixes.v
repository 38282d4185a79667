(** * C74: fixing an index of a view is fixing indices of the structure below *)

From Verif Require Import Check PropsLayout PropsOrder PropsViews Fixes.

(** Index [i] of a slice, span or shift from [b] is index [i + b]. *)
Theorem C74_moved : forall v d b i t st, moves_by v d b -> signature (View (VFix d i) (View v t)) <> None -> signature (View (VFix d (vadd i b)) t) <> None ->
  works_as (View (VFix d i) (View v t)) st (View (VFix d (vadd i b)) t) st.
Proof. exact fix_moved. Qed.
Print Assumptions C74_moved.

(** Index [i] of [step(b, r)] is index [i * r + b]. *)
Theorem C74_step : forall d b r i t st, signature (View (VFix d i) (View (VStep d b r) t)) <> None -> signature (View (VFix d (vadd (vmul i r) b)) t) <> None ->
  works_as (View (VFix d i) (View (VStep d b r) t)) st (View (VFix d (vadd (vmul i r) b)) t) st.
Proof. exact fix_step. Qed.
Print Assumptions C74_step.

(** Index [i] of a reversed dimension of length [l] is index [l - 1 - i]. *)
Theorem C74_reverse : forall d i t st cs l,
  signature (View (VFix d i) (View (VReverse d) t)) <> None -> signature (View (VFix d (vsub (vsub l (Sta 1)) i)) t) <> None ->
  edited st (dropped [d]) cs -> length_ t d cs = Some l ->
  works_as (View (VFix d i) (View (VReverse d) t)) st (View (VFix d (vsub (vsub l (Sta 1)) i)) t) st.
Proof. exact fix_reverse. Qed.
Print Assumptions C74_reverse.

(** Index [i] of a renamed dimension is index [i] under the old name. *)
Theorem C74_rename : forall ps q i t st st2,
  signature (View (VFix (rename_dim ps q) i) (View (VRename ps) t)) <> None -> signature (View (VFix q i) t) <> None ->
  mem q (map snd ps) && negb (mem q (map fst ps)) = false -> renamed ps st st2 ->
  works_as (View (VFix (rename_dim ps q) i) (View (VRename ps) t)) st (View (VFix q i) t) st2.
Proof. exact fix_rename. Qed.
Print Assumptions C74_rename.

(** Index [i] of the joined dimensions [a] and [b] is index [i] of both, if both have lengths or neither has. *)
Theorem C74_join : forall a b d i t st st2 cs h,
  signature (View (VFix d i) (View (VJoin a b d) t)) <> None -> signature (View (VFix b i) (View (VFix a i) t)) <> None ->
  edited st (dropped [d; a; b]) cs -> has_length t a cs = Some h -> has_length t b cs = Some h -> edited st (dropped [d]) st2 ->
  works_as (View (VFix d i) (View (VJoin a b d) t)) st (View (VFix b i) (View (VFix a i) t)) st2.
Proof. exact fix_join. Qed.
Print Assumptions C74_join.

(** Index [i] of merged dimensions is index [i / n] of the major and [i mod n] of the minor one, which has the length [n]. *)
Theorem C74_merge : forall M m d i t st st2 cs lM lm, signature (View (VFix d i) (View (VMerge M m d) t)) <> None ->
  signature (View (VFix m (vmod i lm)) (View (VFix M (vdiv i lm)) t)) <> None ->
  edited st (dropped [d; M; m]) cs -> length_ t M cs = Some lM -> length_ t m cs = Some lm -> edited st (dropped [d]) st2 ->
  works_as (View (VFix d i) (View (VMerge M m d) t)) st (View (VFix m (vmod i lm)) (View (VFix M (vdiv i lm)) t)) st2.
Proof. exact fix_merge. Qed.
Print Assumptions C74_merge.

(** Position [b] of block [a] of blocks of length [n] is index [a * n + b]. *)
Theorem C74_blocks : forall d M m n a b t st st2, let s := apply (p_into_blocks d M m n) t in
  signature (View (VFix m b) (View (VFix M a) s)) <> None -> signature (View (VFix d (vadd (vmul a n) b)) t) <> None ->
  edited st (dropped [M; m]) st2 ->
  works_as (View (VFix m b) (View (VFix M a) s)) st (View (VFix d (vadd (vmul a n) b)) t) st2.
Proof. exact fix_blocks. Qed.
Print Assumptions C74_blocks.

(** Rows of a 6 x 4 matrix. *)
Definition fx_st : state := [(Idx 2, Dyn 3)].
Example C74_ex :
  let fx i s := View (VFix 1 i) s in
  let sl := View (VSlice 1 (Dyn 2) (Dyn 3)) mat in let sp := View (VStep 1 (Dyn 1) (Dyn 2)) mat in let rv := View (VReverse 1) mat in
  let rn := View (VRename [(1, 7)]) mat in
  moves_by (VSlice 1 (Dyn 2) (Dyn 3)) 1 (Dyn 2) /\ signature (fx (Dyn 1) sl) <> None /\ signature (fx (vadd (Dyn 1) (Dyn 2)) mat) <> None /\
  offset (fx (Dyn 1) sl) fx_st = Some (Dyn 60) /\ offset (fx (vadd (Dyn 1) (Dyn 2)) mat) fx_st = Some (Dyn 60) /\
  signature (fx (Dyn 1) sp) <> None /\ offset (fx (Dyn 1) sp) fx_st = Some (Dyn 60) /\
  signature (fx (Dyn 1) rv) <> None /\ edited fx_st (dropped [1]) fx_st /\ length_ mat 1 fx_st = Some (Dyn 6) /\ offset (fx (Dyn 2) rv) fx_st = Some (Dyn 60) /\
  rename_dim [(1, 7)] 1 = 7 /\ signature (View (VFix 7 (Dyn 3)) rn) <> None /\ offset (View (VFix 7 (Dyn 3)) rn) fx_st = Some (Dyn 60).
Proof.
  cbv zeta. split; [right; left; eexists; reflexivity|].
  repeat split; try (vm_compute; congruence).
  intros u; unfold dropped, fx_st; cbn; repeat match goal with |- context [tag_eqb ?a ?b] => destruct (tag_eqb_spec a b); subst; cbn end; try reflexivity; congruence.
Qed.

(** Both dimensions of the matrix, merged or joined, and blocks of two rows. *)
Example C74_ex_both :
  let mg := View (VMerge 1 2 3) mat in let jn := View (VJoin 1 2 3) mat in let bl := apply (p_into_blocks 1 3 4 (Dyn 2)) mat in
  let both x y := View (VFix 2 y) (View (VFix 1 x) mat) in
  signature (View (VFix 3 (Dyn 15)) mg) <> None /\ signature (both (vdiv (Dyn 15) (Dyn 4)) (vmod (Dyn 15) (Dyn 4))) <> None /\
  edited [] (dropped [3; 1; 2]) [] /\ edited [] (dropped [3]) [] /\ length_ mat 1 [] = Some (Dyn 6) /\ length_ mat 2 [] = Some (Dyn 4) /\
  offset (View (VFix 3 (Dyn 15)) mg) [] = Some (Dyn 60) /\ offset (both (Dyn 3) (Dyn 3)) [] = Some (Dyn 60) /\
  signature (View (VFix 3 (Dyn 3)) jn) <> None /\ has_length mat 1 [] = Some true /\ has_length mat 2 [] = Some true /\
  offset (View (VFix 3 (Dyn 3)) jn) [] = Some (Dyn 60) /\
  signature (View (VFix 4 (Dyn 1)) (View (VFix 3 (Dyn 1)) bl)) <> None /\ edited fx_st (dropped [3; 4]) fx_st /\
  offset (View (VFix 4 (Dyn 1)) (View (VFix 3 (Dyn 1)) bl)) fx_st = Some (Dyn 60).
Proof.
  cbv zeta. repeat split; try (vm_compute; congruence); intros u; unfold dropped, fx_st; cbn; repeat match goal with |- context [tag_eqb ?a ?b] => destruct (tag_eqb_spec a b); subst; cbn end; try reflexivity; congruence.
Qed.
