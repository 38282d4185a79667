(** * Properties of [is_contiguous] (C38) *)

From Verif Require Import Contig BagFacts Shortcuts Check PropsLayout.

(** ** C38 *)

(** If [is_contiguous] answers true, the elements that a traverser of the structure visits occupy one
    block of bytes without gaps, provided that elements are left out only along the outermost stored
    dimension and that tuples have no padding ([narrowed_outside]). *)
Theorem C38_contiguous : forall s sts,
  swf s = true -> lenok s nolens -> documented_all s nolens -> fits s [] ->
  for_each (traverser [s]) [] = Done sts -> (forall st, In st sts -> offset s st <> None) ->
  narrowed_outside false s nolens (fun _ => None) -> is_contiguous s [] = Some true ->
  exists lo hi, forall b, lo <= b < hi <-> exists st, In st sts /\ element_at s st b.
Proof. exact contiguous_api. Qed.
Print Assumptions C38_contiguous.

(** Two of the four rows of one layer; the rows are reversed and cut into blocks of 3 (7: number,
    8: element). *)
Definition rows : struct := View (VSetLength 8 (Dyn 3)) (View (VBlocks 2 7 8) (View (VReverse 2) (vec 2 (Dyn 6) (Scalar int4)))).
Definition contig_ex : struct := View (VFix 3 (Dyn 1)) (View (VSlice 1 (Dyn 1) (Dyn 2)) (vec 3 (Dyn 2) (vec 1 (Dyn 4) rows))).
Example C38_ex : exists sts,
  swf contig_ex = true /\ lenok contig_ex nolens /\ documented_all contig_ex nolens /\ fits contig_ex [] /\
  for_each (traverser [contig_ex]) [] = Done sts /\ (forall st, In st sts -> offset contig_ex st <> None) /\
  narrowed_outside false contig_ex nolens (fun _ => None) /\ is_contiguous contig_ex [] = Some true /\
  List.length sts = 12%nat.
Proof.
  eexists. split; [vm_compute; reflexivity|]. split; [apply lenokb_sound; vm_compute; reflexivity|].
  split. { vm_compute. repeat split; intros; discriminate. }
  split; [vm_compute; reflexivity|]. split; [vm_compute; reflexivity|].
  split. { intros st Hin. repeat (destruct Hin as [<-|Hin]; [vm_compute; discriminate|]). destruct Hin. }
  split.
  { cbn [contig_ex vec rows narrowed_outside]. split; [discriminate|]. exists (fupd (fun _ => None) 3 (Some (1, Some 2))).
    split; [split; [reflexivity|intros q Hq; rewrite fupd_neq by exact Hq; reflexivity]|]. split; [discriminate|].
    exists (fupd (fupd (fun _ => None) 3 (Some (1, Some 2))) 1 (Some (1, Some 3))).
    split; [split; [exact I|]; split; [reflexivity|intros q Hq; rewrite fupd_neq by exact Hq; reflexivity]|]. split; [discriminate|].
    eexists. split; [intros q; reflexivity|]. left. split; [reflexivity|]. split; [exists 1; reflexivity|]. split; [discriminate|].
    eexists. split; [intros q; reflexivity|]. right. split. { intros q. unfold fupd. destruct (q =? 1), (q =? 3); reflexivity. }
    split; [reflexivity|]. eexists. split; [intros q; reflexivity|]. split; [reflexivity|].
    exists (fun _ => None). split.
    { split; [left; split; [|split]; reflexivity|]. split; [intros q Hq; unfold fupd; destruct (mem _ _), (q =? 1), (q =? 3); reflexivity|].
      split; [split; [reflexivity|intros c; vm_compute; repeat split; intros; discriminate]|].
      exists 3. split; [left; split; reflexivity|]. intros c. vm_compute. reflexivity. }
    split; [reflexivity|]. exists (fun _ => None). split; [left; split; reflexivity|]. split; [reflexivity|].
    exists (fun _ => None). split; [intros q; reflexivity|]. right. split; [intros q; unfold fupd; destruct (_ =? _); reflexivity|exact I]. }
  split; vm_compute; reflexivity.
Qed.

(** Without [narrowed_outside] the answer is wrong: it ignores a fixed inner dimension (one column), a
    sliced or shifted inner dimension (a part of each row), and the padding of a tuple. *)
Definition says_contiguous (s : struct) : Prop := exists sts,
  swf s = true /\ lenok s nolens /\ documented_all s nolens /\ fits s [] /\
  for_each (traverser [s]) [] = Done sts /\ (forall st, In st sts -> offset s st <> None) /\
  is_contiguous s [] = Some true /\
  ~ exists lo hi, forall b, lo <= b < hi <-> exists st, In st sts /\ element_at s st b.

Ltac gap b1 b2 b3 :=
  eexists; split; [vm_compute; reflexivity|]; split; [apply lenokb_sound; vm_compute; reflexivity|];
  split; [vm_compute; repeat split; intros; discriminate|]; split; [vm_compute; reflexivity|]; split; [vm_compute; reflexivity|];
  split; [let st := fresh in let H := fresh in intros st H; repeat (destruct H as [<-|H]; [vm_compute; discriminate|]); destruct H|];
  split; [vm_compute; reflexivity|]; apply (gap_check _ _ b1 b2 b3); [lia|vm_compute; reflexivity..].

Theorem C38_fix_refuted : exists s, says_contiguous s.
Proof. exists (View (VFix 2 (Dyn 1)) (vec 1 (Dyn 2) (vec 2 (Dyn 3) (Scalar int4)))). gap 4 8 16. Qed.
Print Assumptions C38_fix_refuted.

Theorem C38_slice_refuted : exists s, says_contiguous s.
Proof. exists (View (VSlice 2 (Dyn 0) (Dyn 2)) (vec 1 (Dyn 2) (vec 2 (Dyn 3) (Scalar int4)))). gap 4 8 12. Qed.
Print Assumptions C38_slice_refuted.

Theorem C38_shift_refuted : exists s, says_contiguous s.
Proof. exists (View (VShift 2 (Dyn 1)) (vec 1 (Dyn 2) (vec 2 (Dyn 3) (Scalar int4)))). gap 8 12 16. Qed.
Print Assumptions C38_shift_refuted.

Theorem C38_padding_refuted : exists s, says_contiguous s.
Proof.
  pose (char1 := {| ct_id := 0; ct_size := 1; ct_align := 1 |}).
  exists (Tuple 1 [Scalar char1; Scalar int4; Scalar char1]). gap 4 5 8.
Qed.
Print Assumptions C38_padding_refuted.
