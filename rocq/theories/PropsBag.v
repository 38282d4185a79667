(** * C32 and C33: serialisation and bags *)

From Verif Require Import SpecBag BagFacts Check PropsLayout.

(** ** C33 *)

(** A bag made for a structure has as many bytes as the structure needs. *)
Theorem C33_make_bag : forall s b, make_bag s = Done b -> bg_struct b = s /\ bg_policy b = Owned /\ enough_data b /\ Forall (eq 0) (bg_data b).
Proof. exact make_bag_ok. Qed.
Print Assumptions C33_make_bag.

(** No access to an element is undefined behaviour. *)
Theorem C33_defined : forall b st v, sound_struct (bg_struct b) -> enough_data b -> element (bg_struct b) st -> bag_read b st <> Undefined /\ bag_write b st v <> Undefined.
Proof. exact bag_defined. Qed.
Print Assumptions C33_defined.

(** After a write the element reads back the value, and every other element is unchanged. *)
Theorem C33_write : forall b st v b', sound_struct (bg_struct b) -> enough_data b -> element (bg_struct b) st -> bag_write b st v = Done b' ->
  (bg_struct b' = bg_struct b /\ bg_policy b' = bg_policy b /\ length (bg_data b') = length (bg_data b)) /\
  bag_read b' st = Done v /\
  (nobcast (bg_struct b) = true -> forall st', element (bg_struct b) st' -> ~ same_element (bg_struct b) st st' -> bag_read b' st' = bag_read b st').
Proof. exact write_isolated. Qed.
Print Assumptions C33_write.

(** A matrix of 2 x 3 integers with reversed rows. *)
Definition bag_s : struct := View (VReverse 2) (vec 1 (Dyn 2) (vec 2 (Dyn 3) (Scalar int4))).
Definition bag_b : bag := {| bg_struct := bag_s; bg_policy := Owned; bg_data := zseq 24 |}.
Definition bag_st : state := [(Idx 1, Dyn 1); (Idx 2, Dyn 0)].
Definition bag_st2 : state := [(Idx 2, Dyn 2); (Idx 1, Dyn 1)].

Lemma bag_s_sound : sound_struct bag_s.
Proof.
  split; [vm_compute; reflexivity|]. split; [apply lenokb_sound; vm_compute; reflexivity|]. split; [|rewrite W_eq; vm_compute; reflexivity].
  intros a. unfold bag_s, vec. cbn. tauto.
Qed.

Lemma bag_b_enough : enough_data bag_b.
Proof. exists (Dyn 24), 24. split; [vm_compute; reflexivity|]. split; [vm_compute; reflexivity|]. vm_compute. discriminate. Qed.

Example C33_ex : sound_struct bag_s /\ enough_data bag_b /\ element bag_s bag_st /\ element bag_s bag_st2 /\ ~ same_element bag_s bag_st bag_st2 /\ nobcast bag_s = true /\
  exists b', bag_write bag_b bag_st [100; 101; 102; 103] = Done b' /\ bag_read b' bag_st = Done [100; 101; 102; 103] /\ bag_read b' bag_st2 = Done [12; 13; 14; 15].
Proof.
  split; [exact bag_s_sound|]. split; [exact bag_b_enough|].
  split; [split; [exists [(1, None); (2, None)]; apply names_element_check; vm_compute; reflexivity|intros d; reflexivity]|].
  split; [split; [exists [(1, None); (2, None)]; apply names_element_check; vm_compute; reflexivity|intros d; reflexivity]|].
  split; [intros [_ H]; vm_compute in H; discriminate|]. split; [vm_compute; reflexivity|].
  eexists. split; [vm_compute; reflexivity|]. split; vm_compute; reflexivity.
Qed.

(** With a broadcast, different elements are the same memory. *)
Theorem C33_bcast_refuted : exists b st st' v b', sound_struct (bg_struct b) /\ enough_data b /\ element (bg_struct b) st /\ element (bg_struct b) st' /\
  ~ same_element (bg_struct b) st st' /\ bag_write b st v = Done b' /\ bag_read b' st' <> bag_read b st'.
Proof.
  exists {| bg_struct := View (VSetLength 3 (Dyn 2)) (View (VBcast 3) (Scalar int4)); bg_policy := Raw; bg_data := [0; 0; 0; 0] |}, [(Idx 3, Dyn 0)], [(Idx 3, Dyn 1)], [1; 2; 3; 4].
  eexists. cbn [bg_struct]. split.
  { split; [vm_compute; reflexivity|]. split; [apply lenokb_sound; vm_compute; reflexivity|]. split; [intros a; cbn; tauto|rewrite W_eq; vm_compute; reflexivity]. }
  split; [exists (Sta 4), 4; split; [vm_compute; reflexivity|]; split; [vm_compute; reflexivity|vm_compute; discriminate]|].
  split; [split; [exists [(3, None)]; apply names_element_check; vm_compute; reflexivity|intros d; reflexivity]|].
  split; [split; [exists [(3, None)]; apply names_element_check; vm_compute; reflexivity|intros d; reflexivity]|].
  split; [intros [_ H]; vm_compute in H; discriminate|]. split; [vm_compute; reflexivity|]. vm_compute. discriminate.
Qed.
Print Assumptions C33_bcast_refuted.

(** ** C32 *)

(** Writing the elements of one bag and reading the text, followed by anything else, into another bag whose
    traversal visits the same states in the same order: the stream stays good, nothing after the last
    line is consumed, and every element reads as in the first bag.  [l] are the states of the traversal; by C11 they
    are all the elements. *)
Theorem C32_round_trip : forall print scan b1 b2 l txt more,
  sound_struct (bg_struct b1) -> enough_data b1 -> Forall is_byte (bg_data b1) -> sound_struct (bg_struct b2) -> enough_data b2 -> nobcast (bg_struct b2) = true ->
  same_traversal (bg_struct b1) (bg_struct b2) l ->
  (forall st, In st l -> scalar_t (bg_struct b1) st = scalar_t (bg_struct b2) st /\ forall c, scalar_t (bg_struct b1) st = Some c -> reads_back print scan c) ->
  serialize print b1 = Done txt -> deserialize scan (txt ++ more) b2 <> Rejected ->
  exists b2' lead, deserialize scan (txt ++ more) b2 = Done (b2', Some (lead ++ more)) /\ (lead = [] \/ lead = [10]) /\
    bg_struct b2' = bg_struct b2 /\ length (bg_data b2') = length (bg_data b2) /\
    forall st, In st l -> bag_read b2' st = bag_read b1 st.
Proof. exact round_trip. Qed.
Print Assumptions C32_round_trip.

(** The hypothesis about text holds for unsigned integers of every size in decimal. *)
Theorem C32_decimal : forall c, 1 <= ct_size c -> reads_back print_uint scan_uint c.
Proof. exact uint_reads_back. Qed.
Print Assumptions C32_decimal.

(** From the reversed rows to columns, traversed by rows. *)
Definition ser_s2 : struct := View (VHoist 1) (vec 2 (Dyn 3) (vec 1 (Dyn 2) (Scalar int4))).
Definition ser_b2 : bag := {| bg_struct := ser_s2; bg_policy := Raw; bg_data := repeat 0 24 |}.
Definition ser_txt : text := match serialize print_uint bag_b with Done x => x | _ => [] end.
Definition ser_l : list state := match for_each (traverser [bag_s]) [] with Done l => l | _ => [] end.

Example C32_ex : sound_struct bag_s /\ enough_data bag_b /\ Forall is_byte (bg_data bag_b) /\ sound_struct ser_s2 /\ enough_data ser_b2 /\ nobcast ser_s2 = true /\
  same_traversal bag_s ser_s2 ser_l /\ length ser_l = 6%nat /\
  (forall st, In st ser_l -> scalar_t bag_s st = scalar_t ser_s2 st /\ forall c, scalar_t bag_s st = Some c -> reads_back print_uint scan_uint c) /\
  serialize print_uint bag_b = Done ser_txt /\ length ser_txt = 59%nat /\ deserialize scan_uint (ser_txt ++ [55]) ser_b2 <> Rejected /\
  bg_data bag_b <> bg_data ser_b2.
Proof.
  split; [exact bag_s_sound|]. split; [exact bag_b_enough|]. split; [unfold is_byte; repeat constructor; lia|].
  split. { split; [vm_compute; reflexivity|]. split; [apply lenokb_sound; vm_compute; reflexivity|]. split; [intros a; cbn; tauto|rewrite W_eq; vm_compute; reflexivity]. }
  split; [exists (Dyn 24), 24; split; [vm_compute; reflexivity|]; split; [vm_compute; reflexivity|vm_compute; discriminate]|].
  split; [vm_compute; reflexivity|]. split.
  { split; [vm_compute; reflexivity|]. eexists. split; [vm_compute; reflexivity|]. vm_compute ser_l. repeat constructor; intros d; reflexivity. }
  split; [vm_compute; reflexivity|]. split.
  { intros st Hin. vm_compute in Hin. repeat (destruct Hin as [<-|Hin]; [split; [vm_compute; reflexivity|]; intros c Hc; vm_compute in Hc; injection Hc as <-; apply uint_reads_back; vm_compute; discriminate|]). destruct Hin. }
  split; [vm_compute; reflexivity|]. split; [vm_compute; reflexivity|]. split; [vm_compute; discriminate|]. vm_compute. discriminate.
Qed.

(** Layouts over the same dimensions whose traversals have different orders: the data end up transposed. *)
Theorem C32_order_refuted : exists b1 b2 txt b2' rest st v v', (forall d, any_accept d (SFun 1 ADyn (SFun 2 ADyn (SScalar int4))) = any_accept d (SFun 2 ADyn (SFun 1 ADyn (SScalar int4)))) /\
  signature (bg_struct b1) = Some (SFun 1 ADyn (SFun 2 ADyn (SScalar int4))) /\ signature (bg_struct b2) = Some (SFun 2 ADyn (SFun 1 ADyn (SScalar int4))) /\
  serialize print_uint b1 = Done txt /\ deserialize scan_uint txt b2 = Done (b2', Some rest) /\
  bag_read b1 st = Done v /\ bag_read b2' st = Done v' /\ v <> v'.
Proof.
  exists {| bg_struct := vec 1 (Dyn 2) (vec 2 (Dyn 3) (Scalar int4)); bg_policy := Raw; bg_data := zseq 24 |}.
  exists {| bg_struct := vec 2 (Dyn 3) (vec 1 (Dyn 2) (Scalar int4)); bg_policy := Raw; bg_data := repeat 0 24 |}.
  do 3 eexists. exists [(Idx 1, Dyn 0); (Idx 2, Dyn 1)]. do 2 eexists.
  split; [intros d; cbn [any_accept]; rewrite !orb_false_r; apply orb_comm|]. split; [vm_compute; reflexivity|]. split; [vm_compute; reflexivity|].
  split; [vm_compute; reflexivity|]. split; [vm_compute; reflexivity|]. split; [vm_compute; reflexivity|]. split; [vm_compute; reflexivity|]. discriminate.
Qed.
Print Assumptions C32_order_refuted.

(** Elements that are characters: white space is written but skipped when read. *)
Theorem C32_char_refuted : exists b1 b2 txt b2', bg_struct b1 = bg_struct b2 /\ sound_struct (bg_struct b1) /\ enough_data b1 /\ enough_data b2 /\ Forall is_byte (bg_data b1) /\
  serialize print_char b1 = Done txt /\ deserialize scan_char txt b2 = Done (b2', None).
Proof.
  exists {| bg_struct := vec 1 (Dyn 2) (Scalar {| ct_id := 2; ct_size := 1; ct_align := 1 |}); bg_policy := Raw; bg_data := [32; 65] |}.
  exists {| bg_struct := vec 1 (Dyn 2) (Scalar {| ct_id := 2; ct_size := 1; ct_align := 1 |}); bg_policy := Raw; bg_data := [0; 0] |}.
  do 2 eexists. split; [reflexivity|]. cbn [bg_struct bg_data].
  split. { split; [vm_compute; reflexivity|]. split; [apply lenokb_sound; vm_compute; reflexivity|]. split; [intros a; cbn; tauto|rewrite W_eq; vm_compute; reflexivity]. }
  split; [exists (Dyn 2), 2; split; [vm_compute; reflexivity|]; split; [vm_compute; reflexivity|vm_compute; discriminate]|].
  split; [exists (Dyn 2), 2; split; [vm_compute; reflexivity|]; split; [vm_compute; reflexivity|vm_compute; discriminate]|].
  split; [unfold is_byte; repeat constructor; lia|]. split; [vm_compute; reflexivity|]. vm_compute; reflexivity.
Qed.
Print Assumptions C32_char_refuted.
