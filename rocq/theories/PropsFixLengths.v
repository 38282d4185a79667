(** * C74: the lengths that remain when an index of a view is fixed *)

From Verif Require Import Check PropsLayout PropsOrder PropsViews FixLengths.

(** The other dimensions of a slice, span or shift with index [i] are as long as with index [i + b] below. *)
Theorem C74_moved_length : forall v d b i t st q, moves_by v d b ->
  signature (View (VFix d i) (View v t)) <> None -> signature (View (VFix d (vadd i b)) t) <> None ->
  q <> d -> get (Idx q) st = None ->
  length_as (View (VFix d i) (View v t)) q st (View (VFix d (vadd i b)) t) q st.
Proof. exact fix_moved_length. Qed.
Print Assumptions C74_moved_length.

Theorem C74_step_length : forall d b r i t st q,
  signature (View (VFix d i) (View (VStep d b r) t)) <> None -> signature (View (VFix d (vadd (vmul i r) b)) t) <> None ->
  q <> d -> get (Idx q) st = None ->
  length_as (View (VFix d i) (View (VStep d b r) t)) q st (View (VFix d (vadd (vmul i r) b)) t) q st.
Proof. exact fix_step_length. Qed.
Print Assumptions C74_step_length.

Theorem C74_join_length : forall a b d i t st st2 cs h q,
  signature (View (VFix d i) (View (VJoin a b d) t)) <> None -> signature (View (VFix b i) (View (VFix a i) t)) <> None ->
  edited st (dropped [d; a; b]) cs -> has_length t a cs = Some h -> has_length t b cs = Some h -> edited st (dropped [d]) st2 ->
  ~ In q [a; b; d] -> get (Idx q) st = None ->
  length_as (View (VFix d i) (View (VJoin a b d) t)) q st (View (VFix b i) (View (VFix a i) t)) q st2.
Proof. exact fix_join_length. Qed.
Print Assumptions C74_join_length.

Theorem C74_merge_length : forall M m d i t st st2 cs lM lm q, signature (View (VFix d i) (View (VMerge M m d) t)) <> None ->
  signature (View (VFix m (vmod i lm)) (View (VFix M (vdiv i lm)) t)) <> None ->
  edited st (dropped [d; M; m]) cs -> length_ t M cs = Some lM -> length_ t m cs = Some lm -> edited st (dropped [d]) st2 ->
  ~ In q [M; m; d] -> get (Idx q) st = None ->
  length_as (View (VFix d i) (View (VMerge M m d) t)) q st (View (VFix m (vmod i lm)) (View (VFix M (vdiv i lm)) t)) q st2.
Proof. exact fix_merge_length. Qed.
Print Assumptions C74_merge_length.

(** Under its new name a dimension is as long as under the old one. *)
Theorem C74_rename_length : forall ps q i t st st2 x,
  signature (View (VFix (rename_dim ps q) i) (View (VRename ps) t)) <> None -> signature (View (VFix q i) t) <> None ->
  mem q (map snd ps) && negb (mem q (map fst ps)) = false -> renamed ps st st2 ->
  mem x (map snd ps) && negb (mem x (map fst ps)) = false -> x <> q -> get (Idx x) st2 = None ->
  length_as (View (VFix (rename_dim ps q) i) (View (VRename ps) t)) (rename_dim ps x) st (View (VFix q i) t) x st2.
Proof. exact fix_rename_length. Qed.
Print Assumptions C74_rename_length.

Theorem C74_blocks_length : forall d M m n a b t st st2 q, let s := apply (p_into_blocks d M m n) t in
  signature (View (VFix m b) (View (VFix M a) s)) <> None -> signature (View (VFix d (vadd (vmul a n) b)) t) <> None ->
  edited st (dropped [M; m]) st2 -> ~ In q [d; M; m] -> get (Idx q) st = None ->
  length_as (View (VFix m b) (View (VFix M a) s)) q st (View (VFix d (vadd (vmul a n) b)) t) q st2.
Proof. exact fix_blocks_length. Qed.
Print Assumptions C74_blocks_length.

(** With a reversed dimension the other lengths can differ: index 0 of a reversed tuple of arrays of lengths 3 and 5 is the array of
    length 5, but reports the length 3. *)
Theorem C74_reverse_length_refuted : exists d i t st cs l q,
  signature (View (VFix d i) (View (VReverse d) t)) <> None /\ signature (View (VFix d (vsub (vsub l (Sta 1)) i)) t) <> None /\
  edited st (dropped [d]) cs /\ length_ t d cs = Some l /\ q <> d /\ get (Idx q) st = None /\
  length_ (View (VFix d i) (View (VReverse d) t)) q st = Some (Dyn 3) /\ length_ (View (VFix d (vsub (vsub l (Sta 1)) i)) t) q st = Some (Dyn 5).
Proof.
  exists 1, (Sta 0), (Tuple 1 [vec 2 (Dyn 3) (Scalar int4); vec 2 (Dyn 5) (Scalar int4)]), [], (edit [] (dropped [1])), (Sta 2), 2.
  repeat split; try apply edit_edited; vm_compute; congruence.
Qed.
Print Assumptions C74_reverse_length_refuted.

(** Five matrices: the dimension 9 keeps its length. *)
Example C74_length_ex :
  let t := vec 9 (Dyn 5) mat in let sl := View (VSlice 1 (Dyn 2) (Dyn 3)) t in let sp := View (VStep 1 (Dyn 1) (Dyn 2)) t in
  let jn := View (VJoin 1 2 3) t in let mg := View (VMerge 1 2 3) t in
  moves_by (VSlice 1 (Dyn 2) (Dyn 3)) 1 (Dyn 2) /\ signature (View (VFix 1 (Dyn 1)) sl) <> None /\ signature (View (VFix 1 (vadd (Dyn 1) (Dyn 2))) t) <> None /\
  length_ (View (VFix 1 (Dyn 1)) sl) 9 [] = Some (Dyn 5) /\ length_ (View (VFix 1 (Dyn 1)) sp) 9 [] = Some (Dyn 5) /\
  signature (View (VFix 3 (Dyn 3)) jn) <> None /\ signature (View (VFix 2 (Dyn 3)) (View (VFix 1 (Dyn 3)) t)) <> None /\
  edited [] (dropped [3; 1; 2]) [] /\ edited [] (dropped [3]) [] /\ has_length t 1 [] = Some true /\ has_length t 2 [] = Some true /\
  length_ t 1 [] = Some (Dyn 6) /\ length_ t 2 [] = Some (Dyn 4) /\
  length_ (View (VFix 3 (Dyn 3)) jn) 9 [] = Some (Dyn 5) /\ length_ (View (VFix 3 (Dyn 15)) mg) 9 [] = Some (Dyn 5).
Proof.
  cbv zeta. split; [right; left; eexists; reflexivity|].
  repeat split; try (vm_compute; congruence); intros u; unfold dropped; cbn; repeat match goal with |- context [tag_eqb ?a ?b] => destruct (tag_eqb_spec a b); subst; cbn end; reflexivity.
Qed.

(** The rows are renamed to 7 and the matrices to 8. *)
Example C74_rename_length_ex :
  let t := vec 9 (Dyn 5) mat in let ps := [(1, 7); (9, 8)] in let rn := View (VRename ps) t in
  rename_dim ps 1 = 7 /\ rename_dim ps 9 = 8 /\ signature (View (VFix 7 (Dyn 3)) rn) <> None /\ signature (View (VFix 1 (Dyn 3)) t) <> None /\
  mem 1 (map snd ps) && negb (mem 1 (map fst ps)) = false /\ mem 9 (map snd ps) && negb (mem 9 (map fst ps)) = false /\ renamed ps [] [] /\
  length_ (View (VFix 7 (Dyn 3)) rn) 8 [] = Some (Dyn 5) /\ length_ (View (VFix 1 (Dyn 3)) t) 9 [] = Some (Dyn 5).
Proof.
  cbv zeta. do 6 (split; [vm_compute; congruence|]). split; [intros x; cbv zeta; destruct (_ && _); split; reflexivity|]. split; vm_compute; congruence.
Qed.

(** Rows in blocks of two. *)
Example C74_blocks_length_ex :
  let t := vec 9 (Dyn 5) mat in let bl := apply (p_into_blocks 1 3 4 (Dyn 2)) t in
  signature (View (VFix 4 (Dyn 1)) (View (VFix 3 (Dyn 1)) bl)) <> None /\ signature (View (VFix 1 (vadd (vmul (Dyn 1) (Dyn 2)) (Dyn 1))) t) <> None /\
  ~ In 9 [1; 3; 4] /\ length_ (View (VFix 4 (Dyn 1)) (View (VFix 3 (Dyn 1)) bl)) 9 [] = Some (Dyn 5).
Proof. cbv zeta. repeat split; try (vm_compute; congruence). simpl. lia. Qed.
