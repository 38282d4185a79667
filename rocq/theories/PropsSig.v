(** * Properties of the lengths in signatures (C56) *)

From Verif Require Import SigLen3 Shortcuts Check PropsLayout.

(** ** C56 *)

(** A static length in the signature of a structure, or the number of components of a tuple there, is the length that
    [length<q>()] answers, whatever the other indices and lengths in the state are. *)
Theorem C56_promised_length : forall s sg st q n l,
  uswf s = true -> trusted s = true -> signature s = Some sg -> promised sg st q = Some n ->
  get (Len q) st = None -> length_ s q st = Some l -> vz l = Some n.
Proof. intros s sg st q n l Hu Ht Hs. exact (promise s sg Hu Ht Hs st q n l). Qed.
Print Assumptions C56_promised_length.

(** [join] accepts two dimensions with static lengths only if they have the same length. *)
Theorem C56_join : forall t sg a b d st n la lb,
  uswf t = true -> trusted t = true -> signature t = Some sg -> signature (View (VJoin a b d) t) <> None ->
  promised sg [] a = Some n -> get (Len a) st = None -> get (Len b) st = None ->
  length_ t a st = Some la -> length_ t b st = Some lb -> vz la = Some n /\ vz lb = Some n.
Proof. exact join_lengths. Qed.
Print Assumptions C56_join.

(** The signature knows all lengths of blocks in blocks, of a z-curve over static dimensions, and of tuples. *)
Definition ex_promise : struct :=
  Tuple 0 [View (VMerge 5 6 9) (View (VBlocksSta 1 4 5 6 (Sta 4)) (vec 1 (Sta 10) (Scalar int4)));
           View (VZCurve 1 2 3 [1; 2]) (vec 1 (Sta 4) (vec 2 (Sta 8) (Scalar int4)));
           View (VShift 1 (Sta 3)) (View (VReorder [2; 1]) (vec 1 (Sta 10) (vec 2 (Sta 7) (Scalar int4))))].
Example C56_ex :
  uswf ex_promise = true /\ trusted ex_promise = true /\
  (exists sg, signature ex_promise = Some sg /\
     promised sg [] 0 = Some 3 /\
     promised sg [(Idx 0, Sta 0)] 4 = Some 2 /\
     promised sg [(Idx 0, Sta 0); (Idx 4, Sta 0)] 9 = Some 8 /\
     promised sg [(Idx 0, Sta 0); (Idx 4, Sta 1)] 9 = Some 2 /\
     promised sg [(Idx 0, Sta 1)] 3 = Some 32 /\
     promised sg [(Idx 0, Sta 2)] 1 = Some 7 /\
     promised sg [(Idx 0, Sta 2)] 2 = Some 7) /\
  length_ ex_promise 9 [(Idx 0, Sta 0); (Idx 4, Sta 0)] = Some (Sta 8) /\
  length_ ex_promise 9 [(Idx 0, Sta 0); (Idx 4, Sta 1)] = Some (Sta 2) /\
  length_ ex_promise 3 [(Idx 0, Sta 1)] = Some (Dyn 32) /\
  length_ ex_promise 1 [(Idx 0, Sta 2)] = Some (Sta 7).
Proof.
  split; [vm_compute; reflexivity|]. split; [vm_compute; reflexivity|]. split.
  - eexists. split; [vm_compute; reflexivity|]. repeat split; vm_compute; reflexivity.
  - repeat split; vm_compute; reflexivity.
Qed.

(** [trusted] is needed: the signature of [span(start, end)] has the end as the length, not the number of indices. *)
Theorem C56_span_refuted : exists s sg,
  uswf s = true /\ signature s = Some sg /\ promised sg [] 1 = Some 5 /\ length_ s 1 [] = Some (Sta 3).
Proof. exists (View (VSpan 1 (Sta 2) (Sta 5)) (vec 1 (Sta 10) (Scalar int4))). eexists. split; [vm_compute; reflexivity|]. split; [vm_compute; reflexivity|]. split; vm_compute; reflexivity. Qed.
Print Assumptions C56_span_refuted.

(** The signature of [step(start, stride)] has the stride as the length. *)
Theorem C56_step_refuted : exists s sg,
  uswf s = true /\ signature s = Some sg /\ promised sg [] 1 = Some 2 /\ length_ s 1 [] = Some (Sta 5).
Proof. exists (View (VStep 1 (Sta 0) (Sta 2)) (vec 1 (Sta 10) (Scalar int4))). eexists. split; [vm_compute; reflexivity|]. split; [vm_compute; reflexivity|]. split; vm_compute; reflexivity. Qed.
Print Assumptions C56_step_refuted.

(** A length that is set although there is one already is promised, but the old one is answered. *)
Theorem C56_set_length_refuted : exists s sg,
  uswf s = true /\ signature s = Some sg /\ promised sg [] 1 = Some 7 /\ length_ s 1 [] = Some (Sta 4).
Proof. exists (View (VSetLength 1 (Sta 7)) (View (VSlice 1 (Sta 0) (Sta 4)) (vec 1 (Sta 10) (Scalar int4)))). eexists. split; [vm_compute; reflexivity|]. split; [vm_compute; reflexivity|]. split; vm_compute; reflexivity. Qed.
Print Assumptions C56_set_length_refuted.

(** Therefore [join] rejects two dimensions of the same length, and accepts two of different lengths. *)
Theorem C56_join_refuted : exists t1 t2,
  uswf t1 = true /\ uswf t2 = true /\
  length_ t1 1 [] = Some (Sta 3) /\ length_ t1 2 [] = Some (Sta 3) /\ signature t1 <> None /\ signature (View (VJoin 1 2 3) t1) = None /\
  length_ t2 1 [] = Some (Sta 3) /\ length_ t2 2 [] = Some (Sta 5) /\ signature (View (VJoin 1 2 3) t2) <> None.
Proof.
  exists (View (VSpan 1 (Sta 2) (Sta 5)) (vec 1 (Sta 10) (vec 2 (Sta 3) (Scalar int4)))),
         (View (VSpan 1 (Sta 2) (Sta 5)) (vec 1 (Sta 10) (vec 2 (Sta 5) (Scalar int4)))).
  repeat split; vm_compute; first [reflexivity|discriminate].
Qed.
Print Assumptions C56_join_refuted.
