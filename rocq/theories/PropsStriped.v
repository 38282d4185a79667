(** * Properties of striped structures (C34) *)

From Verif Require Import SpecStriped StripedFacts Check PropsLayout.

(** C34: accesses in different stripes, or to different elements of one stripe, share no byte. *)
Theorem C34_disjoint : forall p w tid1 tid2 st1 st2 i j x y n m, striped_well p w -> nobcast (sp_sub p) = true ->
  access p tid1 st1 i x n -> access p tid2 st2 j y m ->
  (i = j /\ same_element (sp_sub p) (stripe_sub_state st1) (stripe_sub_state st2)) \/ x + n <= y \/ y + m <= x.
Proof. exact striped_disjoint. Qed.
Print Assumptions C34_disjoint.

(** C34: every access lies within the size. *)
Theorem C34_in_size : forall p w tid st i x n v, striped_well p w -> access p tid st i x n -> 0 < n -> striped_size p [] = Some v ->
  exists z, vz v = Some z /\ 0 <= x /\ x + n <= z.
Proof. exact striped_in_size. Qed.
Print Assumptions C34_in_size.

(** C34: copies of one element in neighbouring stripes are one stripe width apart. *)
Theorem C34_neighbours : forall p w tid1 tid2 st1 st2 i x y n m, striped_well p w -> access p tid1 st1 i x n -> access p tid2 st2 (i + 1) y m ->
  same_get (stripe_sub_state st1) (stripe_sub_state st2) -> y - x = w_padded w /\ n = m.
Proof. exact striped_neighbours. Qed.
Print Assumptions C34_neighbours.

(** C34: at most [max_conflict] stripes use one memory bank, whatever elements are accessed. *)
Theorem C34_banks : forall p w bank is_, striped_well p w -> NoDup is_ -> (forall i, In i is_ -> exists b, touches p i b /\ bank_of p b = bank) ->
  Z.of_nat (length is_) <= max_conflict p w.
Proof. exact striped_conflicts. Qed.
Print Assumptions C34_banks.

(** C34: no two stripes share a bank if the banks of a stripe hold an element. *)
Theorem C34_no_conflicts : forall p w i j b b', striped_well p w -> w_elem w <= sp_banks p / sp_num p * sp_width p ->
  touches p i b -> touches p j b' -> bank_of p b = bank_of p b' -> i = j.
Proof. exact conflict_free. Qed.
Print Assumptions C34_no_conflicts.

(** C34: the threads of a block that use a stripe are numbered without gaps. *)
Theorem C34_threads : forall p block tid, 0 < sp_num p -> 0 <= tid < block ->
  0 <= current_stripe p tid < sp_num p /\ 0 <= stripe_rank p tid < stripe_threads p tid block /\ tid = stripe_rank p tid * sp_num p + current_stripe p tid /\
  forall k, 0 <= k < stripe_threads p tid block ->
    let t := k * sp_num p + current_stripe p tid in 0 <= t < block /\ current_stripe p t = current_stripe p tid /\ stripe_rank p t = k /\ stripe_threads p t block = stripe_threads p tid block.
Proof. exact stripe_threads_spec. Qed.
Print Assumptions C34_threads.

(** C34: with the element type left to the library, structures over one scalar type meet the requirement on elements. *)
Theorem C34_scalar : forall n b bw s p w, scalar_striped n b bw s = Some p -> widths_of p = Some w -> one_type s = true -> sound_struct s ->
  in_elements (sp_sub p) (w_elem w).
Proof. exact scalar_in_elements. Qed.
Print Assumptions C34_scalar.

(** ** Examples *)

(** A matrix of 2 x 3 integers with reversed rows, in 10 stripes over 32 banks of 4 bytes: three integers of a
    stripe side by side, 128 bytes for the ten stripes. *)
Definition str_s : struct := View (VReverse 2) (vec 1 (Dyn 2) (vec 2 (Dyn 3) (Scalar int4))).
Definition str_p : striped := {| sp_num := 10; sp_elem := Scalar int4; sp_banks := 32; sp_width := 4; sp_sub := str_s |}.
Definition str_w : widths := {| w_elem := 4; w_padded := 12; w_elems := 3; w_stripe := 12; w_total := 128 |}.
Definition str_st (k : Z) : state := [(stripe_tag, Dyn k); (Idx 1, Dyn 1); (Idx 2, Dyn 0)].

Lemma str_sound : sound_struct str_s.
Proof.
  split; [vm_compute; reflexivity|]. split; [apply lenokb_sound; vm_compute; reflexivity|]. split; [|rewrite W_eq; vm_compute; reflexivity].
  intros a. unfold str_s, vec. cbn. tauto.
Qed.

Lemma str_well : striped_well str_p str_w.
Proof.
  constructor.
  - vm_compute. reflexivity.
  - unfold reasonable. rewrite W_eq. cbn. lia.
  - exact str_sound.
  - apply (C34_scalar 10 32 4 str_s str_p str_w); [vm_compute; reflexivity|vm_compute; reflexivity|vm_compute; reflexivity|exact str_sound].
  - rewrite W_eq. vm_compute. reflexivity.
Qed.

Lemma str_access k : 0 <= k < 10 -> In (k, 128 + k * 12 + 8) [(0, 136); (3, 172); (4, 184)] -> access str_p 5 (str_st k) k (128 + k * 12 + 8) 4.
Proof.
  intros Hk H. split.
  { split; [exists [(1, None); (2, None)]; apply names_element_check; destruct H as [H|[H|[H|[]]]]; injection H as <- ; vm_compute; reflexivity|]. intros d. reflexivity. }
  split; [destruct H as [H|[H|[H|[]]]]; injection H as <- ; vm_compute; reflexivity|]. split; [exact Hk|].
  destruct H as [H|[H|[H|[]]]]; injection H as <-; eexists; exists int4; (split; [vm_compute; reflexivity|]); (split; [vm_compute; reflexivity|]); split; vm_compute; reflexivity.
Qed.

Example C34_ex : striped_well str_p str_w /\ nobcast str_s = true /\ access str_p 5 (str_st 3) 3 172 4 /\ access str_p 5 (str_st 4) 4 184 4 /\
  striped_size str_p [] = Some (Dyn 256) /\ max_conflict str_p str_w = 1 /\ bank_of str_p 172 = 11 /\ bank_of str_p 184 = 14 /\
  stripe_threads str_p 5 32 = 3.
Proof.
  split; [exact str_well|]. split; [vm_compute; reflexivity|]. split; [apply (str_access 3); [lia|cbn; auto]|]. split; [apply (str_access 4); [lia|cbn; auto]|].
  split; [vm_compute; reflexivity|]. split; [vm_compute; reflexivity|]. split; [vm_compute; reflexivity|]. split; vm_compute; reflexivity.
Qed.

(** The requirement on elements is needed: three integers with elements of two integers end outside the size. *)
Theorem C34_elements_refuted : exists p w tid st i x n v z, widths_of p = Some w /\ reasonable p (w_elem w) /\ sound_struct (sp_sub p) /\
  access p tid st i x n /\ striped_size p [] = Some v /\ vz v = Some z /\ z < x + n.
Proof.
  exists {| sp_num := 10; sp_elem := vec 2 (Sta 2) (Scalar int4); sp_banks := 32; sp_width := 4; sp_sub := vec 1 (Dyn 3) (Scalar int4) |}.
  eexists. exists 0, [(Idx 1, Dyn 2)], 0, 128, 4, (Dyn 128), 128.
  split; [vm_compute; reflexivity|]. split; [unfold reasonable; rewrite W_eq; cbn; lia|].
  split. { split; [vm_compute; reflexivity|]. split; [apply lenokb_sound; vm_compute; reflexivity|]. split; [intros a; cbn; tauto|rewrite W_eq; vm_compute; reflexivity]. }
  split.
  { split. { split; [exists [(1, None)]; apply names_element_check; vm_compute; reflexivity|]. intros d. reflexivity. }
    split; [vm_compute; reflexivity|]. split; [cbn; lia|]. eexists. exists int4. split; [vm_compute; reflexivity|]. split; [vm_compute; reflexivity|]. split; vm_compute; reflexivity. }
  split; [vm_compute; reflexivity|]. split; [vm_compute; reflexivity|lia].
Qed.
Print Assumptions C34_elements_refuted.
