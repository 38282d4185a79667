(** * C67: structures whose lengths are known can be used *)

From Verif Require Import Check PropsLayout PropsKernel PropsAgnostic KnownThms KnownSections BagFacts KnownText.
From Verif Require Import SpecKnown.

(** Each dimension has a length (as long as it has no index), whatever the indices of the other dimensions are. *)
Theorem C67_length : forall s q st, lengths_known s -> only_indices st -> has_dim s q -> get (Idx q) st = None ->
  has_length s q st = Some true /\ exists n, length_ s q st = Some n.
Proof. exact known_length. Qed.
Print Assumptions C67_length.

(** The structure has a size. *)
Theorem C67_size : forall s st, lengths_known s -> swf s = true -> only_indices st -> has_size s st = Some true /\ exists n, size_ s st = Some n.
Proof. exact known_size. Qed.
Print Assumptions C67_size.

(** An index for each dimension is enough to access an element of a bag: the access is not rejected. *)
Theorem C67_access : forall b st, lengths_known (bg_struct b) -> swf (bg_struct b) = true -> only_indices st ->
  (forall d, has_dim (bg_struct b) d -> get (Idx d) st <> None) -> bag_ref b st <> Rejected.
Proof. exact known_ref. Qed.
Print Assumptions C67_access.

(** Structures whose lengths are known can be traversed together. *)
Theorem C67_together : forall ss, ss <> [] -> (forall s, In s ss -> lengths_known s) -> lengths_known (Union ss).
Proof. exact union_known. Qed.
Print Assumptions C67_together.

(** A traversal in any order made of views is not rejected, if the lengths are known once the order is applied. *)
Theorem C67_each : forall t, by_views t -> lengths_known (top_struct t) -> for_each t [] <> Rejected.
Proof. exact known_traversal. Qed.
Print Assumptions C67_each.

(** The same holds for loops over chosen dimensions of the structure, with for_each, for_sections or for_dims.  The traversers that for_sections and
    for_dims hand out can be traversed in turn, in whole or again in sections. *)
Theorem C67_sections : forall t ds, by_views t -> lengths_known (top_struct t) -> (forall d, In d ds -> has_dim (top_struct t) d) ->
  for_each t ds <> Rejected /\
  (for_sections t ds <> Rejected /\ forall l t', for_sections t ds = Done l -> In t' l -> by_views t' /\ lengths_known (top_struct t')) /\
  (for_dims t ds <> Rejected /\ forall l t', for_dims t ds = Done l -> In t' l -> by_views t' /\ lengths_known (top_struct t')).
Proof. exact known_sections. Qed.
Print Assumptions C67_sections.

(** A bag whose lengths are known can be written as text and read from text.  (Reading stops at text that is not a value, C32.) *)
Theorem C67_text : forall b lens, good_bag b lens -> NoDup (map fst lens) -> lengths_known (bg_struct b) ->
  (forall print, exists txt, serialize print b = Done txt) /\
  (forall scan inp, (forall c x v r, scan c x = Some (v, r) -> Z.of_nat (length v) = ct_size c) -> bg_policy b <> ConstRaw -> exists b' r, deserialize scan inp b = Done (b', r)).
Proof. intros b lens H1 H2 H3. split; [intros print; exact (text_written print b lens H1 H2 H3)|intros scan inp Hs H4; exact (text_read scan b lens inp Hs H1 H2 H3 H4)]. Qed.
Print Assumptions C67_text.

(** So programs that name elements by their indices (C66) compile for all the layouts with known lengths, and do with the bags what they do with
    the arrays. *)
Theorem C67_programs : forall A (p : program A) bags xs r xs', hold bags xs -> Forall2 usable bags xs -> sized p bags xs -> meaning p xs = Some (r, xs') ->
  exists bags', exec p bags = Done (r, bags') /\ hold bags' xs'.
Proof. exact @program_known. Qed.
Print Assumptions C67_programs.

(** The library's own answers do not suffice: all the lengths and the size are known, but an access with all the indices is rejected.  (Blocks whose number
    and length are both given, over a z-curve whose dimensions have no lengths.) *)
Definition kn_curve : struct :=
  View (VSetLength 5 (Dyn 2)) (View (VSetLength 4 (Dyn 2)) (View (VBlocks 3 4 5) (View (VZCurve 1 1 3 [1; 2]) (View (VBcast 1) (View (VBcast 2) (Scalar int4)))))).
Theorem C67_answers_refuted : exists b st, swf (bg_struct b) = true /\ signature (bg_struct b) <> None /\
  (forall d, has_dim (bg_struct b) d -> has_length (bg_struct b) d [] = Some true /\ length_ (bg_struct b) d [] <> None /\ exists i, get (Idx d) st = Some (Dyn i)) /\
  has_size (bg_struct b) [] = Some true /\ only_indices st /\ bag_ref b st = Rejected.
Proof.
  exists (kn_bag kn_curve [0]), [(Idx 4, Dyn 0); (Idx 5, Dyn 0)]. split; [vm_compute; reflexivity|]. split; [vm_compute; discriminate|]. split.
  - intros d Hd. vm_compute in Hd.
    assert (Hc : d = 4 \/ d = 5). { destruct (Z.eq_dec d 4); [auto|]. destruct (Z.eq_dec d 5); [auto|]. exfalso. revert Hd. destruct d as [|q|q]; try discriminate; repeat (destruct q as [q|q|]; try discriminate; try lia). }
    destruct Hc as [->| ->]; (split; [vm_compute; reflexivity|]; split; [vm_compute; discriminate|]; eexists; reflexivity).
  - split; [vm_compute; reflexivity|]. split; [intros d; reflexivity|]. vm_compute. reflexivity.
Qed.
Print Assumptions C67_answers_refuted.

(** ** A matrix in blocks along a z-curve, reversed, with renamed dimensions, and a part of it. *)
Definition kn_zc : struct :=
  View (VRename [(7, 1)]) (View (VMerge 5 6 7) (View (VReverse 6) (View (VSetLength 5 (Dyn 4)) (View (VBlocks 3 5 6) (View (VZCurve 1 2 3 [8; 9]) (vec 8 (Dyn 4) (vec 9 (Dyn 4) (Scalar int4)))))))).
Definition kn_part : struct := View (VStep 2 (Dyn 1) (Dyn 2)) (View (VSlice 2 (Dyn 1) (Dyn 9)) (View (VShift 2 (Sta 1)) (View (VReorder [1; 2]) (View (VHoist 2) (View (VFix 4 (Dyn 1)) (vec 1 (Dyn 16) (vec 4 (Sta 3) (vec 2 (Dyn 12) (Scalar int4))))))))).
Definition kn_bc : struct := View (VSetLength 1 (Dyn 16)) (View (VBcast 1) (vec 2 (Dyn 5) (Scalar int4))).

Example C67_ex : (forall s, In s [kn_zc; kn_part; kn_bc; ag_rows; ag_tiles] -> lengths_known s /\ swf s = true) /\
  has_dim kn_zc 1 /\ has_dim kn_part 1 /\ has_dim kn_part 2 /\ (forall q, In q [1; 2] -> exists n, length_ (Union [kn_zc; kn_part; kn_bc]) q [] = Some n /\ vz n = Some (if q =? 1 then 16 else 4)) /\
  ~ lengths_known kn_curve /\ ~ lengths_known (Vector 1 (Scalar int4)).
Proof.
  split; [intros s Hs; repeat (destruct Hs as [<-|Hs]; [split; [split; [vm_compute; reflexivity|split; [vm_compute; discriminate|vm_compute; reflexivity]]|vm_compute; reflexivity]|]); destruct Hs|].
  split; [vm_compute; reflexivity|]. split; [vm_compute; reflexivity|]. split; [vm_compute; reflexivity|]. split; [|split; intros (_ & _ & H); vm_compute in H; discriminate].
  intros q [<-|[<-|[]]]; (eexists; split; [vm_compute; reflexivity|vm_compute; reflexivity]).
Qed.

(** A traversal of three structures, the first dimension in blocks of four. *)
Definition kn_t : trav := order (traverser [kn_zc; kn_part; kn_bc]) [LView (VBlocks 1 3 4); LView (VSetLength 4 (Sta 4)); LView (VHoist 4); LView (VSpan 3 (Sta 1) (Sta 3))].
Example C67_each_ex : by_views kn_t /\ lengths_known (top_struct kn_t) /\ out_map (@length state) (for_each kn_t []) = Done 32%nat.
Proof.
  split; [split; [eexists; reflexivity|repeat constructor]|]. split; [split; [vm_compute; reflexivity|split; [vm_compute; discriminate|vm_compute; reflexivity]]|]. vm_compute. reflexivity.
Qed.

(** Its sections: blocks chosen first, then the last dimension. *)
Example C67_sections_ex : (forall d, In d [2; 3] -> has_dim (top_struct kn_t) d) /\ out_map (@length trav) (for_sections kn_t [2; 3]) = Done 8%nat /\
  out_map (@length trav) (for_dims kn_t [2; 3]) = Done 8%nat /\ for_dims kn_t [1] = Rejected.
Proof. split; [intros d [<-|[<-|[]]]; vm_compute; reflexivity|]. split; [vm_compute; reflexivity|]. split; vm_compute; reflexivity. Qed.

Lemma ag_walk_sized b : b = ag_b1 \/ b = ag_b2 -> forall l acc x, sized (ag_walk l acc) [b] [x].
Proof.
  intros Hb. induction l as [|is l IH]; intros acc x; [exact I|]. cbn [ag_walk sized nth_error]. intros y is' Ey _. injection Ey as <-. destruct (acc <? _); [|apply IH]. cbn [sized nth_error]. split; [|intros y is2 Ey _; injection Ey as <-; apply IH].
  intros y c Ey Ec. injection Ey as <-. destruct Hb as [->| ->]; injection Ec as <-; reflexivity.
Qed.

(** The program of C66. *)
Example C67_programs_ex : forall b w, b = ag_b1 \/ b = ag_b2 -> hold [b] [ag_x] /\ Forall2 usable [b] [ag_x] /\ sized (ag_p w) [b] [ag_x].
Proof.
  intros b w Hb. split; [constructor; [apply ag_holds, Hb|constructor]|]. split.
  - constructor; [|constructor]. split; [|intros _; destruct Hb as [->| ->]; discriminate]. destruct Hb as [->| ->]; (split; [vm_compute; reflexivity|split; [vm_compute; discriminate|vm_compute; reflexivity]]).
  - unfold ag_p. cbn [sized nth_error]. intros x n _ _. split; [discriminate|]. intros ys ls _ _. apply ag_walk_sized, Hb.
Qed.

(** The text of the vector of C58, and a vector read from a text that is too short. *)
Example C67_text_ex : (forall c x v r, scan_uint c x = Some (v, r) -> Z.of_nat (length v) = ct_size c) /\ good_bag kn_in [(3, 2)] /\ NoDup (map fst [(3, 2)]) /\ lengths_known (bg_struct kn_in) /\ bg_policy kn_in <> ConstRaw /\
  serialize print_uint kn_in = Done [55; 10; 57; 10] /\ deserialize scan_uint [49; 49; 32] kn_in = Done (kn_bag kn_row [11; 9], None).
Proof.
  split; [exact scan_length|]. split; [apply kn_row_good|]. split; [repeat constructor; intros []|]. split; [split; [vm_compute; reflexivity|split; [vm_compute; discriminate|vm_compute; reflexivity]]|]. split; [discriminate|]. split; vm_compute; reflexivity.
Qed.
