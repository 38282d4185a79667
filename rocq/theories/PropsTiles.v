(** * C72: a block is a slice; one position of all blocks is a step *)

From Verif Require Import Check PropsLayout PropsOrder PropsViews Tiles.

(** Block [k] of [into_blocks<d, M, m>(n)] is the slice of [n] elements from [k * n] on: position [im] of the block is
    element [im] of the slice. *)
Theorem C72_block : forall d M m n k t st st2,
  let b := apply (p_into_blocks d M m n) t in
  forall im, signature (View (VFix M k) b) <> None -> signature (View (VSlice d (vmul k n) n) t) <> None ->
  get (Idx m) st = Some im -> edited st ((Idx d, Some im) :: dropped [d; M; m]) st2 ->
  works_as (View (VFix M k) b) st (View (VSlice d (vmul k n) n) t) st2.
Proof. exact block_works. Qed.
Print Assumptions C72_block.

(** Both have the length [n]. *)
Theorem C72_block_length : forall d M m n k t st,
  let b := apply (p_into_blocks d M m n) t in
  forall l cs, signature (View (VFix M k) b) <> None -> signature (View (VSlice d (vmul k n) n) t) <> None ->
  get (Idx m) st = None -> edited st (dropped [d; M; m]) cs -> length_ t d cs = Some l ->
  length_ (View (VFix M k) b) m st = Some n /\ length_ (View (VSlice d (vmul k n) n) t) d cs = Some n.
Proof. exact block_length. Qed.
Print Assumptions C72_block_length.

(** Also with [into_blocks_dynamic], for the positions that are present. *)
Theorem C72_block_dynamic : forall d M m n k t st st2 p im ip, let b := apply (p_into_blocks_dynamic d M m p n) t in
  signature (View (VFix M k) b) <> None -> signature (View (VSlice d (vmul k n) n) t) <> None ->
  get (Len p) st = None -> get (Idx m) st = Some im -> get (Idx p) st = Some ip -> edited st ((Idx d, Some im) :: dropped [d; M; m; p]) st2 ->
  works_as (View (VFix M k) b) st (View (VSlice d (vmul k n) n) t) st2.
Proof. exact block_dynamic_works. Qed.
Print Assumptions C72_block_dynamic.

(** Position [k] of all the blocks is [step(k, n)]: block [iM] is element [iM] of the step. *)
Theorem C72_stride : forall d M m n k t st st2,
  let b := apply (p_into_blocks d M m n) t in
  forall iM, signature (View (VFix m k) b) <> None -> signature (View (VStep d k n) t) <> None ->
  get (Len M) st = None -> get (Idx M) st = Some iM -> edited st ((Idx d, Some iM) :: dropped [d; M; m]) st2 ->
  works_as (View (VFix m k) b) st (View (VStep d k n) t) st2.
Proof. exact stride_works. Qed.
Print Assumptions C72_stride.

(** Both have as many elements as there are blocks, if the block length divides the length. *)
Theorem C72_stride_length : forall d M m n k t st,
  let b := apply (p_into_blocks d M m n) t in
  forall l cs len x y, signature (View (VFix m k) b) <> None -> signature (View (VStep d k n) t) <> None ->
  unused M st -> edited st (dropped [d; M; m]) cs -> length_ t d cs = Some l ->
  vz l = Some len -> vz n = Some x -> vz k = Some y -> y < x -> len mod x = 0 -> len + x <= W ->
  exists w w', length_ (View (VFix m k) b) M st = Some w /\ length_ (View (VStep d k n) t) d cs = Some w' /\
    vz w = Some (len / x) /\ vz w' = Some (len / x).
Proof. exact stride_length. Qed.
Print Assumptions C72_stride_length.

(** The rows of a 6 x 4 matrix in blocks of 2: the third block, and the second position of all blocks. *)
Example C72_ex :
  let b := apply (p_into_blocks 1 5 1 (Dyn 2)) mat in
  signature (View (VFix 5 (Dyn 2)) b) <> None /\ signature (View (VSlice 1 (vmul (Dyn 2) (Dyn 2)) (Dyn 2)) mat) <> None /\
  edited (at_ 1 3) ((Idx 1, Some (Dyn 1)) :: dropped [1; 5; 1]) (at_ 1 3) /\
  offset (View (VFix 5 (Dyn 2)) b) (at_ 1 3) = Some (Dyn 92) /\ offset (View (VSlice 1 (vmul (Dyn 2) (Dyn 2)) (Dyn 2)) mat) (at_ 1 3) = Some (Dyn 92) /\
  signature (View (VFix 1 (Dyn 1)) b) <> None /\ signature (View (VStep 1 (Dyn 1) (Dyn 2)) mat) <> None /\
  offset (View (VFix 1 (Dyn 1)) b) (idx [(5, Dyn 2); (2, Dyn 3)]) = Some (Dyn 92) /\ offset (View (VStep 1 (Dyn 1) (Dyn 2)) mat) (at_ 2 3) = Some (Dyn 92) /\
  length_ (View (VFix 1 (Dyn 1)) b) 5 [] = Some (Dyn 3) /\ length_ (View (VStep 1 (Dyn 1) (Dyn 2)) mat) 1 [] = Some (Dyn 3).
Proof.
  refine (conj _ (conj _ (conj _ _))); [vm_compute; congruence|vm_compute; congruence| |repeat split; vm_compute; congruence].
  intros [q|q|q]; cbn [edit_look dropped flat_map app tag_eqb get at_ idx map fst snd]; try reflexivity;
    destruct (Z.eqb_spec q 1) as [->|]; try reflexivity; destruct (Z.eqb_spec q 5) as [->|]; reflexivity.
Qed.
Example C72_ex_dynamic :
  let b := apply (p_into_blocks_dynamic 1 5 6 7 (Dyn 4)) mat in
  signature (View (VFix 5 (Dyn 1)) b) <> None /\ signature (View (VSlice 1 (vmul (Dyn 1) (Dyn 4)) (Dyn 4)) mat) <> None /\
  offset (View (VFix 5 (Dyn 1)) b) (idx [(6, Dyn 1); (7, Dyn 0); (2, Dyn 3)]) = Some (Dyn 92) /\
  offset (View (VSlice 1 (vmul (Dyn 1) (Dyn 4)) (Dyn 4)) mat) (at_ 1 3) = Some (Dyn 92).
Proof. repeat split; vm_compute; congruence. Qed.
