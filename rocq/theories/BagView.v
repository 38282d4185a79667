(** * Bags seen through views: proofs *)

From Verif Require Export SpecViews SpecBag ViewSize BagFacts.

(** ** The memory a structure needs does not depend on further lengths *)

(** All lengths of [l0] are lengths of [l]. *)
Definition lens_in (l0 l : lenv) : Prop := forall d x, l0 d = Some x -> l d = Some x.

Lemma lens_in_fupd l0 l d o0 o : lens_in l0 l -> (forall x, o0 = Some x -> o = Some x) -> lens_in (fupd l0 d o0) (fupd l d o).
Proof. intros H Ho q x. unfold fupd. destruct (q =? d); auto. Qed.

Lemma lens_in_fupds l0 l xs0 xs : lens_in l0 l -> Forall2 (fun a b => fst a = fst b /\ forall x, snd a = Some x -> snd b = Some x) xs0 xs -> lens_in (fupds l0 xs0) (fupds l xs).
Proof.
  intros H F. induction F as [|[d o] [d' o'] xs0 xs [E Ho] F IH]; cbn [fupds]; [exact H|]. cbn in E. subst d'. apply lens_in_fupd; auto.
Qed.

Lemma lens_in_refl l : lens_in l l.
Proof. intros d x H. exact H. Qed.

Lemma view_lenv_mono v l0 l : lens_in l0 l -> lens_in (view_lenv v l0) (view_lenv v l).
Proof.
  intros H. destruct v as [d|d i|d n|d st|d st len|d st en|d st sr|d|d M m|d M m pd|d b M m ml|M m d|sl gl d ds|ds|d|ps|xa xb d]; cbn [view_lenv]; auto.
  all: try (apply lens_in_fupd; [exact H|]; solve [discriminate|auto]).
  - apply lens_in_fupd; auto. intros x. destruct (l0 d) eqn:E; [|discriminate]. rewrite (H _ _ E). auto.
  - apply lens_in_fupd; [apply lens_in_fupds; auto; repeat constructor; discriminate|]. intros x. destruct (l0 M) eqn:E1; [|discriminate]. destruct (l0 m) eqn:E2; [|discriminate]. rewrite (H _ _ E1), (H _ _ E2). auto.
  - apply lens_in_fupd; [apply lens_in_fupds; auto; repeat constructor; discriminate|]. intros x. destruct (l0 M) eqn:E1; [|discriminate]. destruct (l0 m) eqn:E2; [|discriminate]. rewrite (H _ _ E1), (H _ _ E2). auto.
  - apply lens_in_fupds; [exact H|]. repeat constructor; discriminate.
  - apply lens_in_fupds; [exact H|]. induction ds as [|q ds IHd]; cbn [map]; constructor; [|exact IHd]. split; [reflexivity|discriminate].
  - intros q x. destruct (mem q (map fst ps)); [apply H|]. destruct (mem q (map snd ps)); [discriminate|apply H].
  - apply lens_in_fupds; [exact H|]. constructor; [split; [reflexivity|exact (H d)]|]. constructor; [split; [reflexivity|exact (H d)]|]. constructor; [split; [reflexivity|discriminate]|constructor].
Qed.

(** The lengths [l] determine the size of [s]. *)
Fixpoint covered (s : struct) (l : lenv) : Prop :=
  match s with
  | Scalar _ | Union _ => True
  | Tuple _ ts => fold_right and True (map (fun t => covered t l) ts)
  | Vector d t => l d <> None /\ covered t (fupd l d None)
  | View v t => covered t (view_lenv v l)
  end.

Lemma covered_size s : forall l0 l, covered s l0 -> lens_in l0 l -> isize s l = isize s l0.
Proof.
  induction s as [c|d ts IH|d t IH|v t IH|ts IH] using struct_ind'; intros l0 l Hc Hl; cbn [isize covered] in *; try reflexivity.
  - f_equal. induction IH as [|t ts Ht IH IHl]; [reflexivity|]. cbn [map fold_right] in *. destruct Hc as [H1 H2]. rewrite (Ht _ _ H1 Hl), (IHl H2). reflexivity.
  - destruct Hc as [H1 H2]. destruct (l0 d) as [x|] eqn:E; [|congruence]. rewrite (Hl _ _ E). rewrite (IH _ (fupd l d None) H2); [reflexivity|]. apply lens_in_fupd; [exact Hl|discriminate].
  - apply IH; [exact Hc|]. apply view_lenv_mono. exact Hl.
Qed.

Lemma covered_of_size s : signature s <> None -> forall st l a n, lenok s l -> agree st l a -> size_ s st = Some n -> covered s l.
Proof.
  induction s as [c|d ts IH|d t IH|v t IH|ts IH] using struct_ind'; intros Hs st l a n Hlk Hag E; cbn [covered]; try exact I;
    cbn [size_] in E; unfold guard in E; destruct (has_size _ st) as [[|]|]; try discriminate.
  - pose proof (signature_tuple _ _ Hs) as Hss. simpl in Hlk. apply lenok_all in Hlk. clear Hs.
    assert (Hall : Forall (fun t => exists z, size_ t (remove [Idx d] st) = Some z) ts).
    { revert E. generalize (Sta 0). induction ts as [|t ts IHl]; intros z E; [constructor|]. inv IH. inv Hss. inv Hlk. cbn in E.
      destruct (align_ t (remove [Idx d] st)) as [al|]; [|discriminate]. destruct (size_ t (remove [Idx d] st)) as [sz|] eqn:Ez; [|discriminate]. constructor; [eauto|]. eapply IHl; eauto. }
    clear E. induction ts as [|t ts IHl]; [exact I|]. inv IH. inv Hss. inv Hlk. inv Hall. cbn [map fold_right]. split; [|apply IHl; assumption].
    destruct H7 as [z Hz]. exact (H1 H3 _ _ _ _ H5 (agree_remove_idx _ _ _ _ Hag) Hz).
  - apply signature_vector in Hs. destruct (get (Len d) st) as [x|] eqn:En; [|discriminate]. cbn [obind] in E. destruct (size_ t (remove [Idx d; Len d] st)) as [sz|] eqn:Ez; [|discriminate].
    destruct (agree_len_Some _ _ _ _ _ Hag En) as (y & Hy & _). split; [congruence|]. simpl in Hlk. eapply IH; eauto using agree_remove_both.
  - destruct (signature_view _ _ Hs) as (sg & Eg & _). destruct (sub_state v t st) as [st'|] eqn:Est; [|discriminate]. cbn [obind] in E.
    pose proof (sub_state_refines _ _ _ _ _ _ Hs Hlk Hag Est) as Hag'. destruct Hlk as [_ Hlk]. eapply IH; eauto. congruence.
Qed.

Lemma lenok_mono s : forall l0 l, lens_in l0 l -> lenok s l -> lenok s l0.
Proof.
  induction s as [c|d ts IH|d t IH|v t IH|ts IH] using struct_ind'; intros l0 l Hl Hk; cbn [lenok] in *; try exact I.
  - induction IH as [|t ts Ht IH IHl]; [exact I|]. cbn [map fold_right] in *. destruct Hk as [H1 H2]. split; [eapply Ht; eauto|auto].
  - eapply IH; [|exact Hk]. apply lens_in_fupd; [exact Hl|discriminate].
  - destruct Hk as [H1 H2]. split; [|eapply IH; [|exact H2]; apply view_lenv_mono; exact Hl]. destruct v; auto. destruct (l0 d) eqn:E; [|reflexivity]. apply Hl in E. congruence.
  - induction IH as [|t ts Ht IH IHl]; [exact I|]. cbn [map fold_right] in *. destruct Hk as [H1 H2]. split; [eapply Ht; eauto|auto].
Qed.

Lemma apply_below p : preserves_layout p = true -> forall t l, swf (apply p t) = true -> signature (apply p t) <> None -> lenok (apply p t) l ->
  swf t = true /\ signature t <> None /\ exists l', lenok t l' /\ isize (apply p t) l = isize t l'.
Proof.
  induction p as [|x p IH]; intros Hp t l Hw Hs Hk; [split; [exact Hw|]; split; [exact Hs|]; exists l; auto|].
  cbn [preserves_layout forallb] in Hp. apply andb_true_iff in Hp. destruct Hp as [Hx Hp]. destruct x as [d|v]; [discriminate|].
  unfold apply in *. cbn [fold_left apply_layer] in *. destruct (IH Hp (View v t) l Hw Hs Hk) as (A & B & l' & C & D). cbn [swf] in A. apply andb_true_iff in A. destruct A as [_ A].
  split; [exact A|]. split; [cbn [signature] in B; destruct (signature t); congruence|]. exists (view_lenv v l'). destruct C as [_ C]. split; [exact C|]. rewrite D. reflexivity.
Qed.

Lemma agree_none : agree [] nolens (asg_of []).
Proof. destruct (agree_of []) as [_ A]. split; [intros q; exact I|exact A]. Qed.

Lemma view_isize p t n : preserves_layout p = true -> swf (apply p t) = true -> signature (apply p t) <> None -> lenok (apply p t) nolens -> get_size t [] = Some n ->
  isize (apply p t) nolens = isize t nolens /\ lenok t nolens /\ swf t = true /\ signature t <> None.
Proof.
  intros Hp Hw Hs Hk En. destruct (apply_below p Hp t nolens Hw Hs Hk) as (A & B & l' & C & D). assert (Hl : lens_in nolens l') by (intros d x; discriminate).
  pose proof (lenok_mono t _ _ Hl C) as Hk0. rewrite D. split; [|auto]. apply covered_size; [|exact Hl]. eapply covered_of_size; [exact B|exact Hk0|apply agree_none|exact En].
Qed.

Lemma view_room b p b' g : bag_view g b p = Done b' -> sound_struct (bg_struct b') -> enough_data b ->
  signature (bg_struct b') <> None -> isize (bg_struct b') nolens <= Z.of_nat (length (bg_data b')).
Proof.
  unfold bag_view. destruct (preserves_layout p) eqn:Ep; [|discriminate]. destruct (copyable _); [|discriminate]. cbn [andb]. destruct (signature (apply p (bg_struct b))); [|discriminate].
  intros H (Hw & Hlk & _ & Hf) (v & n & Ev & En & Hn) Hs. injection H as <-. cbn [bg_struct bg_data] in *.
  destruct (view_isize p _ v Ep Hw Hs Hlk Ev) as (E & Hk0 & Hw0 & Hs0). rewrite E in *.
  pose proof (size_spec _ Hw0 Hs0 [] nolens (asg_of []) v Hk0 agree_none ltac:(intros d w; discriminate) Ev) as Hz. rewrite Hz in En. injection En as <-.
  destruct (Z.lt_ge_cases (isize (bg_struct b) nolens) 0); [lia|]. rewrite u64_small in Hn by lia. exact Hn.
Qed.

Lemma bag_view_ok g b p b' : bag_view g b p = Done b' -> bg_struct b' = apply p (bg_struct b) /\ bg_data b' = bg_data b /\ bg_policy b' = bg_policy b /\ preserves_layout p = true.
Proof.
  unfold bag_view. destruct (preserves_layout p); [|discriminate]. destruct (copyable _); [|discriminate]. destruct (signature _); [|discriminate]. intros H. injection H as <-. auto.
Qed.

Lemma view_defined_api g b p b' st v : bag_view g b p = Done b' -> enough_data b -> sound_struct (bg_struct b') -> element (bg_struct b') st ->
  bag_read b' st <> Undefined /\ bag_write b' st v <> Undefined.
Proof.
  intros Hb He Hs Hel. unfold bag_read, bag_write. destruct (ref_room b' st Hs (view_room _ _ _ _ Hb Hs He) Hel) as [->|(c & o & x & _ & _ & _ & -> & _)]; cbn [out_map out_bind].
  - split; [discriminate|]. destruct (bg_policy b'); discriminate.
  - split; [discriminate|]. destruct (bg_policy b'); try discriminate; destruct (_ =? _); discriminate.
Qed.

Lemma view_size_api g b p b' n n' : bag_view g b p = Done b' -> swf (bg_struct b') = true -> lenok (bg_struct b') nolens ->
  get_size (bg_struct b) [] = Some n -> get_size (bg_struct b') [] = Some n' -> exists x, vz n = Some x /\ vz n' = Some x.
Proof.
  intros Hb Hw Hk En En'. destruct (bag_view_ok _ _ _ _ Hb) as (Es & _ & _ & Ep).
  assert (Hs : signature (bg_struct b') <> None). { unfold bag_view in Hb. destruct (_ && _); [|discriminate]. destruct (signature (apply p (bg_struct b))) eqn:E; [|discriminate]. rewrite Es. congruence. }
  rewrite Es in *. destruct (view_isize p _ n Ep Hw Hs Hk En) as (E & Hk0 & Hw0 & Hs0).
  pose proof (size_spec _ Hw0 Hs0 [] nolens (asg_of []) n Hk0 agree_none ltac:(intros d w; discriminate) En) as H1.
  pose proof (size_spec _ Hw Hs [] nolens (asg_of []) n' Hk agree_none ltac:(intros d w; discriminate) En') as H2. rewrite E in H2. eauto.
Qed.

Lemma view_write_api g b p b' st v b2 : bag_view g b p = Done b' -> enough_data b -> sound_struct (bg_struct b') -> element (bg_struct b') st -> bag_write b' st v = Done b2 ->
  (bg_struct b2 = bg_struct b' /\ bg_policy b2 = bg_policy b' /\ length (bg_data b2) = length (bg_data b)) /\ bag_read b2 st = Done v /\
  (nobcast (bg_struct b') = true -> forall st', element (bg_struct b') st' -> ~ same_element (bg_struct b') st st' -> bag_read b2 st' = bag_read b' st').
Proof.
  intros Hb He Hs Hel Hw. destruct (bag_view_ok _ _ _ _ Hb) as (_ & <- & _). exact (write_room b' st v b2 Hs (view_room _ _ _ _ Hb Hs He) Hel Hw).
Qed.

(** ** The same memory *)

(** A state reaches elements of one type only. *)
Lemma has_offset_one c c' s : forall st, has_offset_of (Scalar c) s st = Some true -> has_offset_of (Scalar c') s st = Some true -> c = c'.
Proof.
  induction s as [e|d ts IH|d t IH|v t IH|ts IH] using struct_ind'; intros st H1 H2.
  - cbn [has_offset_of same_type] in H1, H2. destruct (cty_eqb c e) eqn:E1; [|discriminate]. destruct (cty_eqb c' e) eqn:E2; [|discriminate]. apply cty_eqb_eq in E1, E2. congruence.
  - cbn [has_offset_of same_type] in H1, H2. destruct (has (Idx d) st); [|discriminate]. destruct (tuple_index d st) as [k|]; [|discriminate]. cbn [obind] in *.
    rewrite nthz_map in H1, H2. destruct (nthz ts k) as [t|] eqn:Et; [|discriminate]. cbn in H1, H2. rewrite Forall_forall in IH. eapply IH; eauto. eapply nthz_In. exact Et.
  - cbn [has_offset_of same_type] in H1, H2. destruct (_ && _); [|discriminate]. eapply IH; eauto.
  - assert (Hv : exists st', has_offset_of (Scalar c) t st' = Some true /\ has_offset_of (Scalar c') t st' = Some true).
    { assert (Ho : forall b o, oand (Some b) o = Some true -> o = Some true) by (intros [|] [[|]|]; cbn; congruence).
      cbn [has_offset_of same_type] in H1, H2. destruct v; (destruct (sub_state _ t st) as [st'|]; cbn [obind] in *; [|try discriminate; destruct (_ && _); discriminate]);
        try (exists st'; split; eapply Ho; eassumption); destruct (_ && _); [eauto|discriminate]. }
    destruct Hv as (st' & A & B). eapply IH; eauto.
  - discriminate.
Qed.

Lemma offset_has s st o c : scalar_t s st = Some c -> offset s st = Some o -> has_offset_of (Scalar c) s st = Some true.
Proof.
  intros Hc Ho. unfold offset in Ho. rewrite Hc in Ho. cbn [obind] in Ho. destruct s; cbn [offset_of] in Ho; unfold guard in Ho; destruct (has_offset_of (Scalar c) _ st) as [[|]|]; congruence.
Qed.

Lemma same_ref g b p b' st st' r r' : bag_view g b p = Done b' -> works_as (bg_struct b') st (bg_struct b) st' ->
  bag_ref b' st = Done r -> bag_ref b st' = Done r' -> r = r'.
Proof.
  intros Hb (_ & _ & _ & Hx & Ho) H1 H2. destruct (bag_view_ok _ _ _ _ Hb) as (_ & Ed & _). unfold bag_ref in H1, H2. rewrite Ed in H1.
  destruct (scalar_t (bg_struct b') st) as [c|] eqn:Ec; [|discriminate]. destruct (offset (bg_struct b') st) as [o|] eqn:Eo; [|discriminate].
  destruct (scalar_t (bg_struct b) st') as [c'|] eqn:Ec'; [|discriminate]. destruct (offset (bg_struct b) st') as [o'|] eqn:Eo'; [|discriminate].
  pose proof (Ho _ _ eq_refl eq_refl) as <-.
  assert (c = c'). { eapply has_offset_one; [|exact (offset_has _ _ _ _ Ec' Eo')]. rewrite <- (proj1 (Hx (Scalar c) ltac:(discriminate))). exact (offset_has _ _ _ _ Ec Eo). }
  subst c'. congruence.
Qed.

Lemma view_same_api g b p b' st st' : bag_view g b p = Done b' -> works_as (bg_struct b') st (bg_struct b) st' ->
  (forall v v', bag_read b' st = Done v -> bag_read b st' = Done v' -> v = v') /\
  (forall v b2 b2', bag_write b' st v = Done b2' -> bag_write b st' v = Done b2 -> bg_data b2' = bg_data b2).
Proof.
  intros Hb Hw. destruct (bag_view_ok _ _ _ _ Hb) as (_ & Ed & _). split.
  - intros v v' H1 H2. unfold bag_read in *. destruct (bag_ref b' st) as [| |r] eqn:E1; try discriminate. destruct (bag_ref b st') as [| |r'] eqn:E2; try discriminate.
    pose proof (same_ref _ _ _ _ _ _ _ _ Hb Hw E1 E2) as <-. rewrite Ed in H1. congruence.
  - intros v b2 b2' H1 H2. destruct (write_inv _ _ _ _ H1) as (x & E1 & _ & ->). destruct (write_inv _ _ _ _ H2) as (x' & E2 & _ & ->).
    pose proof (same_ref _ _ _ _ _ _ _ _ Hb Hw E1 E2) as E. injection E as <-. cbn [bg_data]. rewrite Ed. reflexivity.
Qed.
