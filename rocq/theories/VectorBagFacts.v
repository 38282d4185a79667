(** * Proofs about references to bags and bags whose data is a [std::vector] *)

From Verif Require Import Check Views SpecBag SpecViews BagFacts BagView VectorBag PropsBag.

Lemma get_ref_same b :
  bg_struct (get_ref b) = bg_struct b /\ bg_data (get_ref b) = bg_data b /\
  (forall st, bag_read (get_ref b) st = bag_read b st) /\
  (forall st v, out_map bg_data (bag_write (get_ref b) st v) = out_map bg_data (bag_write b st v)).
Proof.
  destruct b as [s q data]. split; [reflexivity|]. split; [reflexivity|]. split; [intros st; reflexivity|].
  intros st v. unfold bag_write, get_ref. cbn [bg_struct bg_policy bg_data].
  change (bag_ref {| bg_struct := s; bg_policy := match q with ConstRaw => ConstRaw | _ => Raw end; bg_data := data |} st)
    with (bag_ref {| bg_struct := s; bg_policy := q; bg_data := data |} st).
  destruct q; try reflexivity. destruct (bag_ref _ st) as [| |r]; cbn; try reflexivity. destruct (_ =? _); reflexivity.
Qed.

Lemma get_ref_view g b p : preserves_layout p = true -> signature (apply p (bg_struct b)) <> None ->
  exists b', bag_view g (get_ref b) p = Done b' /\ bg_struct b' = apply p (bg_struct b) /\ bg_data b' = bg_data b.
Proof.
  intros Hp Hs. unfold bag_view, get_ref. cbn [bg_struct bg_policy bg_data]. rewrite Hp.
  destruct (signature (apply p (bg_struct b))) as [t|]; [|congruence].
  destruct (bg_policy b); cbn; eexists; split; try reflexivity; split; reflexivity.
Qed.

Lemma owned_no_view g s b p : make_bag s = Done b -> bag_view g b p = Rejected.
Proof.
  intros H. destruct (C33_make_bag s b H) as [_ [Hq _]]. unfold bag_view. rewrite Hq. cbn [copyable]. rewrite Bool.andb_false_r. reflexivity.
Qed.

Lemma make_vector_zero s b : make_vector_bag s = Done b -> vb_struct b = s /\ enough_data (vb_ref b) /\ Forall (eq 0) (vb_data b).
Proof.
  unfold make_vector_bag. destruct (make_bag s) as [| |b0] eqn:E; cbn; try discriminate. intros H. injection H as <-.
  destruct (C33_make_bag s b0 E) as [H1 [_ [H2 H3]]]. cbn. split; [exact H1|]. split; [exact H2|exact H3].
Qed.

Lemma Forall_part {A} (P : A -> Prop) l n m : Forall P l -> Forall P (firstn n (skipn m l)).
Proof.
  intros H. rewrite Forall_forall in *. intros x Hx. apply H.
  rewrite <- (firstn_skipn m l). apply in_or_app. right. rewrite <- (firstn_skipn n (skipn m l)). apply in_or_app. left. exact Hx.
Qed.

Lemma vector_reads_zero s b st : make_vector_bag s = Done b -> sound_struct s -> element s st ->
  vb_read b st <> Undefined /\ (forall v, vb_read b st = Done v -> Forall (eq 0) v).
Proof.
  intros H Hs He. destruct (make_vector_zero s b H) as [H1 [H2 H3]]. subst s. split.
  - exact (proj1 (C33_defined (vb_ref b) st [] Hs H2 He)).
  - intros v. unfold vb_read, bag_read. destruct (bag_ref (vb_ref b) st) as [| |r]; cbn; try discriminate. intros E. injection E as <-.
    apply Forall_part. exact H3.
Qed.

Lemma vector_no_write b st v : vb_write b st v = Rejected.
Proof. reflexivity. Qed.

Lemma vector_view g b p b' : vb_view g b p = Done b' ->
  g = true /\ vb_struct b' = apply p (vb_struct b) /\ vb_data b' = vb_data b /\ preserves_layout p = true.
Proof.
  unfold vb_view. destruct g; [|discriminate]. destruct (bag_view true (vb_ref b) p) as [| |b0] eqn:E; cbn; try discriminate.
  intros H. injection H as <-. destruct (bag_view_ok _ _ _ _ E) as [H1 [H2 [_ H4]]]. auto.
Qed.
