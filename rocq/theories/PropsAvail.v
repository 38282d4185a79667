(** * C26: the availability queries agree with the operations *)

From Verif Require Import Avail Shortcuts Check PropsLayout PropsParts.

(** What compiles is announced. *)
Theorem C26_sound :
  (forall s q st v, length_ s q st = Some v -> has_length s q st = Some true) /\
  (forall s st v, size_ s st = Some v -> has_size s st = Some true) /\
  (forall x s st start v, offset_of x s st start = Some v -> has_offset_of x s st = Some true).
Proof. exact (conj length_has (conj size_has offset_has)). Qed.
Print Assumptions C26_sound.

(** What is announced compiles. *)
Theorem C26_length : forall s, queries_ok s -> signature s <> None -> forall q st, has_length s q st = Some true -> length_ s q st <> None.
Proof. exact has_length_exact. Qed.
Print Assumptions C26_length.

Theorem C26_size : forall s, sizable s = true -> swf s = true -> signature s <> None ->
  forall st, has_size s st = Some true -> size_ s st <> None.
Proof. exact has_size_exact. Qed.
Print Assumptions C26_size.

Theorem C26_offset : forall x s, sizable s = true -> swf s = true -> signature s <> None -> forall st start,
  has_size s st = Some true -> has_offset_of x s st = Some true -> offset_of x s st start <> None.
Proof. exact has_offset_exact. Qed.
Print Assumptions C26_offset.

(** A stepped vector of pairs of vectors. *)
Definition av_ex : struct := View (VStep 3 (Dyn 1) (Dyn 2)) (vec 3 (Dyn 10) part_ex).
Example C26_ex : queries_ok av_ex /\ sizable av_ex = true /\ swf av_ex = true /\ signature av_ex <> None /\
  has_length av_ex 3 [] = Some true /\ has_size av_ex deep_st = Some true /\ has_offset_of (Scalar int4) av_ex deep_st = Some true /\
  has_length av_ex 2 [] = Some false /\ has_size (Vector 3 part_ex) [] = Some false /\ has_offset_of (Scalar int4) av_ex [] = Some false.
Proof.
  split.
  { split; [|simpl; tauto]. intros st Hi. unfold has_length. simpl. repeat rewrite ?has_with, ?has_remove. rewrite Hi. simpl. discriminate. }
  split; [vm_compute; reflexivity|]. split; [vm_compute; reflexivity|]. split; [vm_compute; discriminate|].
  repeat (split; [vm_compute; reflexivity|]). vm_compute; reflexivity.
Qed.

(** Without these conditions the queries are wrong.  A reversed tuple asks one component whether the length exists and another one for
    the length. *)
Theorem C26_length_refuted : exists s q st, signature s <> None /\ has_length s q st = Some true /\ length_ s q st = None.
Proof.
  exists (View (VReverse 4) (Tuple 4 [Scalar int4; vec 2 (Dyn 3) (Scalar int4)])), 2, [(Idx 4, Sta 0)].
  split; [vm_compute; discriminate|]. split; vm_compute; reflexivity.
Qed.
Print Assumptions C26_length_refuted.

(** A pair of a character and an integer, inside a tuple: its alignment is the maximum of two different constants. *)
Theorem C26_size_refuted : exists s st, signature s <> None /\ swf s = true /\ has_size s st = Some true /\ size_ s st = None.
Proof.
  exists (Tuple 5 [Tuple 4 [Scalar char1; Scalar int4]]), [].
  split; [vm_compute; discriminate|]. split; [vm_compute; reflexivity|]. split; vm_compute; reflexivity.
Qed.
Print Assumptions C26_size_refuted.

(** The offset of the second component needs the size of the first one. *)
Theorem C26_offset_refuted : exists s st, signature s <> None /\ swf s = true /\ has_offset s st = Some true /\ offset s st = None.
Proof.
  exists (Tuple 4 [Vector 2 (Scalar int4); Scalar int4]), [(Idx 4, Sta 1)].
  split; [vm_compute; discriminate|]. split; [vm_compute; reflexivity|]. split; vm_compute; reflexivity.
Qed.
Print Assumptions C26_offset_refuted.
