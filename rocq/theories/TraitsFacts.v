(** * Structure traits: proofs *)

From Verif Require Export SpecTraits.
From Verif Require Import ViewPath SigFacts TravEach TravDef IntrospectFacts Shortcuts ToolFacts.

Lemma point_path sg : sig_is_point sg = true <-> forall a, spath sg a = Some [].
Proof.
  destruct sg as [c| |d al r|d rs]; cbn [sig_is_point]; split; intros H; try reflexivity; try discriminate.
  - specialize (H (fun _ => 0)). cbn [spath] in H. destruct (spath r _); discriminate.
  - specialize (H (fun _ => 0)). cbn [spath] in H. destruct (ojoin _); discriminate.
Qed.

Lemma point_api s : is_point s = Some true <-> signature s <> None /\ forall st, dims_of s st = Some [].
Proof.
  unfold is_point, dims_of. destruct (signature s) as [sg|]; cbn [obind]; [|split; [discriminate|intros [H _]; congruence]]. split.
  - intros H. injection H as H. split; [discriminate|]. intros st. apply point_path, H.
  - intros [_ H]. f_equal. specialize (H []). destruct sg as [c| |d al r|d rs]; try reflexivity; cbn [spath] in H; [destruct (spath r _)|destruct (ojoin _)]; discriminate.
Qed.

Lemma point_is_cube s : is_point s = Some true -> has_size s [] = Some true -> is_cube s = Some true.
Proof.
  unfold is_point, is_cube. destruct (signature s) as [sg|]; [|discriminate]. cbn [obind]. intros H Hs. injection H as H. rewrite Hs. destruct sg; try discriminate; reflexivity.
Qed.

(** ** Cubes *)

Lemma cube_scalar sg : sig_is_cube sg = true -> forall st st', sig_get_scalar sg st = sig_get_scalar sg st'.
Proof. induction sg as [c| |d al r IH|d rs _] using sig_ind'; intros H st st'; try reflexivity; [|discriminate]. cbn [sig_get_scalar]. apply IH, H. Qed.

Lemma cube_path sg : sig_is_cube sg = true -> forall a, exists p, spath sg a = Some p /\ (forall a', spath sg a' = Some p) /\ (forall e, In e p -> snd e = None) /\
  seq_of_dtree (sig_dim_tree sg) = Some (map fst p) /\ sig_dim_seq sg = Some (rev (map fst p)).
Proof.
  induction sg as [c| |d al r IH|d rs _] using sig_ind'; intros H a; try discriminate.
  - exists []. repeat split; try reflexivity. intros e [].
  - exists []. repeat split; try reflexivity. intros e [].
  - destruct (IH H a) as (p & E & Ea & Hn & E1 & E2). exists ((d, None) :: p). cbn [spath sig_dim_tree seq_of_dtree sig_dim_seq]. rewrite E, E1, E2. repeat split; try reflexivity.
    + intros a'. rewrite Ea. reflexivity.
    + intros e [<-|He]; [reflexivity|auto].
Qed.

Lemma scalar_cube sg : sig_get_scalar sg [] <> None -> sig_is_cube sg = true.
Proof.
  induction sg as [c| |d al r IH|d rs _] using sig_ind'; intros H; try reflexivity; cbn in H; [|congruence]. apply IH. exact H.
Qed.

Lemma cube_inv s : is_cube s = Some true -> exists sg, signature s = Some sg /\ sig_is_cube sg = true /\ has_size s [] = Some true.
Proof.
  unfold is_cube. destruct (signature s) as [sg|]; [|discriminate]. cbn [obind]. intros H. injection H as H. apply andb_true_iff in H. destruct H as [H1 H2]. exists sg.
  destruct (has_size s []) as [[|]|]; try discriminate. auto.
Qed.

Lemma cube_api s : is_cube s = Some true ->
  has_size s [] = Some true /\ (forall st, scalar_t s st = scalar_t s []) /\
  exists ds, forall st, dims_of s st = Some (map (fun d => (d, None)) ds).
Proof.
  intros H. destruct (cube_inv _ H) as (sg & Es & Hc & Hz). split; [exact Hz|]. unfold scalar_t, dims_of. rewrite Es. cbn [obind]. split; [intros st; apply cube_scalar, Hc|].
  destruct (cube_path sg Hc (fun _ => 0)) as (p & E & Ea & Hn & _). exists (map fst p). intros st. rewrite Ea. f_equal. clear E Ea. induction p as [|[d k] p IH]; [reflexivity|].
  cbn [map fst]. rewrite <- IH by (intros e He; apply Hn; right; exact He). f_equal. specialize (Hn _ (or_introl eq_refl)). cbn in Hn. subst k. reflexivity.
Qed.

Lemma cube_needs s : scalar_t s [] <> None -> has_size s [] = Some true -> is_cube s = Some true.
Proof.
  unfold scalar_t, is_cube. destruct (signature s) as [sg|]; cbn [obind]; [|congruence]. intros H E. rewrite E, andb_true_r. f_equal. apply scalar_cube, H.
Qed.

(** A structure that is not a cube although its size is known has a tuple. *)
Lemma filled_path0 sg : filled sg = true -> exists p, spath sg (fun _ => 0) = Some p.
Proof.
  intros Hf. destruct (spath sg (fun _ => 0)) as [p|] eqn:E; [eauto|]. exfalso. apply (filled_path sg []); [exact Hf|intros d _; reflexivity|]. exact E.
Qed.

Lemma not_cube sg : filled sg = true -> sig_is_cube sg = false -> exists p d n, spath sg (fun _ => 0) = Some p /\ In (d, Some n) p.
Proof.
  induction sg as [c| |d al r IH|d rs IH] using sig_ind'; intros Hf Hc; try discriminate.
  - destruct (IH Hf Hc) as (p & e & n & E & Hin). exists ((d, None) :: p), e, n. cbn [spath]. rewrite E. split; [reflexivity|right; exact Hin].
  - destruct (filled_path0 _ Hf) as [p Ep]. exists p. assert (Ep' := Ep). rewrite spath_dep in Ep. destruct (nthz rs 0) as [r|]; [|discriminate]. destruct (spath r _) as [q|]; [|discriminate].
    injection Ep as <-. exists d, (Z.of_nat (length rs)). split; [exact Ep'|left; reflexivity].
Qed.

Lemma not_cube_api s : is_cube s = Some false -> no_empty_tuple s -> has_size s [] = Some true -> exists p d n, element_dims s p /\ In (d, Some n) p.
Proof.
  unfold is_cube, no_empty_tuple, element_dims. destruct (signature s) as [sg|]; cbn [obind]; [|discriminate]. intros H Hf Hz. rewrite Hz, andb_true_r in H. injection H as H.
  destruct (not_cube sg Hf H) as (p & d & n & E & Hin). exists p, d, n. split; [|exact Hin]. exists sg, (fun _ => 0). auto.
Qed.

(** ** Dimensions *)

Lemma In_nthz {A} (l : list A) x : In x l -> exists k, nthz l k = Some x.
Proof.
  induction l as [|y l IH]; [intros []|]. intros [->|H]; [exists 0; reflexivity|]. destruct (IH H) as [k Hk]. exists (k + 1). cbn [nthz].
  destruct (Z.eqb_spec (k + 1) 0) as [E|_]; [|replace (k + 1 - 1) with k by lia; exact Hk]. exfalso. pose proof (nthz_Some_range _ _ _ Hk). lia.
Qed.

Lemma tree_accept d sg : dtree_contains d (sig_dim_tree sg) = any_accept d sg.
Proof.
  induction sg as [c| |e al r IH|e rs IH] using sig_ind'; cbn [sig_dim_tree dtree_contains any_accept existsb]; try reflexivity.
  - rewrite IH, orb_false_r. reflexivity.
  - f_equal. induction IH as [|r rs Hr IH IHl]; [reflexivity|]. cbn [map existsb]. rewrite Hr, IHl. reflexivity.
Qed.

Lemma accept_path d sg : filled sg = true -> snodup sg = true -> any_accept d sg = true -> exists a p k, spath sg a = Some p /\ In (d, k) p.
Proof.
  induction sg as [c| |e al r IH|e rs IH] using sig_ind'; intros Hf Hn Ha; try discriminate.
  - cbn [any_accept] in Ha. destruct (Z.eqb_spec e d) as [->|Hne].
    + destruct (filled_path0 r Hf) as [p Ep]. exists (fun _ => 0), ((d, None) :: p), None. cbn [spath]. rewrite Ep. split; [reflexivity|left; reflexivity].
    + apply snodup_fun in Hn. destruct (IH Hf (proj2 Hn) Ha) as (a & p & k & Ep & Hin). exists a, ((e, None) :: p), k. cbn [spath]. rewrite Ep. split; [reflexivity|right; exact Hin].
  - cbn [any_accept] in Ha. destruct (Z.eqb_spec e d) as [->|Hne].
    + destruct (filled_path0 _ Hf) as [p Ep]. assert (Ep' := Ep). rewrite spath_dep in Ep. destruct (nthz rs 0) as [r|]; [|discriminate]. destruct (spath r _) as [q|]; [|discriminate].
      injection Ep as <-. exists (fun _ => 0), ((d, Some (Z.of_nat (length rs))) :: q), (Some (Z.of_nat (length rs))). split; [exact Ep'|left; reflexivity].
    + cbn [orb] in Ha. apply existsb_exists in Ha. destruct Ha as (r & Hin & Ha). rewrite Forall_forall in IH.
      assert (Hfr : filled r = true). { destruct rs as [|r0 rs0]; [destruct Hin|]. cbn [filled] in Hf. rewrite forallb_forall in Hf. apply Hf, Hin. }
      destruct (In_nthz _ _ Hin) as (k & Hk). destruct (snodup_dep _ _ _ _ Hn Hk) as [Hd Hr]. destruct (IH r Hin Hfr Hr Ha) as (a & p & k' & Ep & Hip).
      exists (fupd a e k). assert (Ep2 : spath r (fupd a e k) = Some p).
      { eapply spath_ext; [exact Ep|]. intros q n Hq. apply fupd_neq. intros ->. apply (spath_accept' _ _ _ _ _ Ep) in Hq. congruence. }
      exists ((e, Some (Z.of_nat (length rs))) :: p), k'. rewrite spath_dep, fupd_eq, Hk, Ep2. split; [reflexivity|right; exact Hip].
Qed.

Lemma has_dims_api s ds : distinct_dims s -> no_empty_tuple s ->
  (has_dims s ds = Some true <-> forall d, In d ds -> exists p, element_dims s p /\ In d (map fst p)).
Proof.
  unfold distinct_dims, no_empty_tuple, has_dims, element_dims. destruct (signature s) as [sg|]; [|contradiction]. cbn [obind]. intros Hn Hf. split.
  - intros H d Hd. injection H as H. rewrite forallb_forall in H. specialize (H d Hd). rewrite tree_accept in H. destruct (accept_path d sg Hf Hn H) as (a & p & k & E & Hin).
    exists p. split; [exists sg, a; auto|]. apply in_map_iff. exists (d, k). auto.
  - intros H. f_equal. apply forallb_forall. intros d Hd. rewrite tree_accept. destruct (H d Hd) as (p & (sg' & a & E & Ep) & Hin). injection E as <-.
    apply in_map_iff in Hin. destruct Hin as ([d' k] & <- & Hin). exact (spath_accept' _ _ _ _ _ Ep Hin).
Qed.

(** ** Trees and sequences *)

Lemma seq_of_dtree_iff ds : forall t, seq_of_dtree t = Some ds <-> t = dtree_of_seq ds.
Proof.
  induction ds as [|d ds IH]; intros [|e [|b [|b2 bs]]]; cbn [seq_of_dtree dtree_of_seq]; split; intros H; try discriminate; try reflexivity.
  - destruct (seq_of_dtree b); discriminate.
  - destruct (seq_of_dtree b) as [r|] eqn:E; [|discriminate]. injection H as -> ->. rewrite (proj1 (IH b) E). reflexivity.
  - injection H as -> ->. rewrite (proj2 (IH _) eq_refl). reflexivity.
Qed.

Lemma cube_sequence s : is_cube s = Some true -> exists sg ds, signature s = Some sg /\ (forall st, dims_of s st = Some (map (fun d => (d, None)) ds)) /\
  seq_of_dtree (sig_dim_tree sg) = Some ds /\ sig_dim_tree sg = dtree_of_seq ds /\ sig_dim_seq sg = Some (rev ds).
Proof.
  intros H. destruct (cube_inv _ H) as (sg & Es & Hc & Hz). destruct (cube_api _ H) as (_ & _ & ds & Hds). exists sg, ds. split; [exact Es|]. split; [exact Hds|].
  specialize (Hds []). unfold dims_of in Hds. rewrite Es in Hds. cbn [obind] in Hds. destruct (cube_path sg Hc (asg_of [])) as (p & E & _ & _ & E1 & E2).
  rewrite Hds in E. injection E as <-. rewrite map_map, map_id in E1, E2. cbn in E1, E2. rewrite E1, E2. repeat split. apply seq_of_dtree_iff, E1.
Qed.

(** ** Fixing all dimensions *)

Lemma filter_no d p : ~ In d (map fst p) -> filter (fun e : dim * option Z => negb (fst e =? d)) p = p.
Proof.
  induction p as [|[e k] p IH]; intros H; [reflexivity|]. cbn [filter fst map In] in *. destruct (Z.eqb_spec e d) as [->|]; [exfalso; auto|]. cbn [negb]. rewrite IH; auto.
Qed.

Lemma path_other d x r a : any_accept d r = false -> spath r (fupd a d x) = spath r a.
Proof.
  intros H. destruct (spath r a) as [p|] eqn:E.
  - eapply spath_ext; [exact E|]. intros q n Hq. apply fupd_neq. intros ->. apply (spath_accept' _ _ _ _ _ E) in Hq. congruence.
  - destruct (spath r (fupd a d x)) as [p|] eqn:E2; [|reflexivity]. rewrite <- E. symmetry. eapply spath_ext; [exact E2|]. intros q n Hq.
    rewrite fupd_neq; [reflexivity|]. intros ->. apply (spath_accept' _ _ _ _ _ E2) in Hq. congruence.
Qed.

Lemma path_no d r a p : any_accept d r = false -> spath r a = Some p -> ~ In d (map fst p).
Proof. intros H E Hin. apply in_map_iff in Hin. destruct Hin as ([d' k] & <- & Hin). apply (spath_accept' _ _ _ _ _ E) in Hin. cbn [fst] in *. congruence. Qed.

Lemma fix_path d i sg : snodup sg = true -> forall sg1 a, view_sig (VFix d i) sg = Some sg1 ->
  spath sg1 a = option_map (filter (fun e => negb (fst e =? d))) (spath sg (fupd a d (vzd i))).
Proof.
  cbn [view_sig]. set (f := fun o : sig => _). induction sg as [c| |e al r IH|e rs IH] using sig_ind'; intros Hn sg1 a E.
  - injection E as <-. reflexivity.
  - injection E as <-. reflexivity.
  - apply snodup_fun in Hn. destruct Hn as [Hd Hr]. cbn [sreplace mem existsb] in E. rewrite orb_false_r in E. cbn [spath]. destruct (Z.eqb_spec e d) as [->|Hne].
    + unfold f in E. injection E as <-. rewrite (path_other d _ r a Hd). destruct (spath r a) as [p|] eqn:Ep; [|reflexivity]. cbn [option_map filter fst]. rewrite Z.eqb_refl. cbn [negb].
      rewrite filter_no by (exact (path_no _ _ _ _ Hd Ep)). reflexivity.
    + destruct (sreplace [d] f r) as [r'|]; [|discriminate]. injection E as <-. cbn [spath]. rewrite (IH Hr r' a eq_refl). destruct (spath r _) as [p|]; [|reflexivity].
      cbn [option_map filter fst]. destruct (Z.eqb_spec e d); [contradiction|reflexivity].
  - cbn [sreplace mem existsb] in E. rewrite orb_false_r in E. rewrite spath_dep. destruct (Z.eqb_spec e d) as [->|Hne].
    + unfold f in E. destruct (vstatic i) as [k|] eqn:Ei; [|discriminate]. rewrite fupd_eq.
      assert (vzd i = k) as -> by (destruct i; try discriminate Ei; injection Ei as <-; reflexivity). rewrite E. destruct (snodup_dep _ _ _ _ Hn E) as [Hd _].
      rewrite (path_other d _ sg1 a Hd). destruct (spath sg1 a) as [p|] eqn:Ep; [|reflexivity]. cbn [option_map filter fst]. rewrite Z.eqb_refl. cbn [negb].
      rewrite filter_no by (exact (path_no _ _ _ _ Hd Ep)). reflexivity.
    + destruct (omap (sreplace [d] f) rs) as [rs'|] eqn:Er; [|discriminate]. injection E as <-. rewrite spath_dep, fupd_neq by congruence.
      rewrite Forall_forall in IH. pose proof (Forall2_nthz _ _ _ (a e) (proj1 (omap_Some_Forall2 _ _ _) Er)) as Hk. destruct (nthz rs (a e)) as [r|] eqn:Ek.
      * destruct (nthz rs' (a e)) as [r'|]; [|contradiction]. destruct (snodup_dep _ _ _ _ Hn Ek) as [_ Hr]. rewrite (IH r (nthz_In _ _ _ Ek) Hr r' a Hk).
        rewrite (omap_length _ _ _ Er). destruct (spath r _) as [p|]; [|reflexivity]. cbn [option_map filter fst]. destruct (Z.eqb_spec e d); [contradiction|reflexivity].
      * destruct (nthz rs' (a e)); [contradiction|reflexivity].
Qed.

Lemma filter_two {A} (f g h : A -> bool) p : (forall e, h e = g e && f e) -> filter f (filter g p) = filter h p.
Proof. intros H. induction p as [|e p IH]; [reflexivity|]. cbn [filter]. rewrite H. destruct (g e); cbn [filter andb]; rewrite IH; reflexivity. Qed.

Definition ov (st0 : state) (a : asg) : asg := fun d => match get (Idx d) st0 with Some i => vzd i | None => a d end.
Definition free (st0 : state) (e : dim * option Z) : bool := negb (has (Idx (fst e)) st0).

Lemma fixes_path st0 : forall t sg sg1 a, signature t = Some sg -> snodup sg = true -> signature (apply (p_fix st0) t) = Some sg1 ->
  spath sg1 a = option_map (filter (free st0)) (spath sg (ov st0 a)).
Proof.
  induction st0 as [|[u i] st0 IH]; intros t sg sg1 a Es Hn E1.
  - cbn in E1. assert (sg1 = sg) by congruence. subst sg1. change (ov [] a) with a. destruct (spath sg a) as [p|]; [|reflexivity]. cbn [option_map]. f_equal. clear. induction p as [|e p IH]; [reflexivity|]. cbn. rewrite <- IH. reflexivity.
  - assert (Hother : (forall d, u <> Idx d) -> spath sg1 a = option_map (filter (free ((u, i) :: st0))) (spath sg (ov ((u, i) :: st0) a))).
    { intros Hu. assert (Hg : forall d, get (Idx d) ((u, i) :: st0) = get (Idx d) st0).
      { intros d. cbn [get]. destruct u as [e|e|n]; [exfalso; eapply Hu; reflexivity|reflexivity|reflexivity]. }
      replace (p_fix ((u, i) :: st0)) with (p_fix st0) in E1 by (destruct u; [exfalso; eapply Hu; reflexivity|reflexivity|reflexivity]).
      rewrite (IH t sg sg1 a Es Hn E1). rewrite (spath_ext_accept sg (ov st0 a) (ov ((u, i) :: st0) a)) by (intros d _; unfold ov; rewrite Hg; reflexivity).
      destruct (spath sg _) as [p|]; [|reflexivity]. cbn [option_map]. f_equal. apply filter_ext. intros e. unfold free, has. rewrite Hg. reflexivity. }
    destruct u as [d|d|n]; [|apply Hother; discriminate|apply Hother; discriminate]. clear Hother.
    change (p_fix ((Idx d, i) :: st0)) with (LView (VFix d i) :: p_fix st0) in E1.
    assert (Hsub : signature (View (VFix d i) t) <> None). { intros E. apply (apply_signature (p_fix st0) (View (VFix d i) t)); [|exact E]. change (signature (apply (p_fix st0) (View (VFix d i) t))) with (signature (apply (LView (VFix d i) :: p_fix st0) t)). congruence. }
    destruct (signature (View (VFix d i) t)) as [sg'|] eqn:E'; [|congruence]. assert (Ev := E'). cbn [signature] in Ev. rewrite Es in Ev. cbn [obind] in Ev.
    rewrite (IH (View (VFix d i) t) sg' sg1 a E' (ViewPath.view_snodup _ _ _ Hn Ev I) E1). rewrite (fix_path d i sg Hn sg' (ov st0 a) Ev).
    rewrite (spath_ext_accept sg (fupd (ov st0 a) d (vzd i)) (ov ((Idx d, i) :: st0) a)).
    2: { intros q _. unfold ov, fupd. cbn [get]. cbn [tag_eqb]. destruct (Z.eqb q d); reflexivity. }
    destruct (spath sg _) as [p|]; [|reflexivity]. cbn [option_map]. f_equal. apply filter_two. intros e. unfold free, has. cbn [get tag_eqb]. change (@fst Z (option Z) e) with (@fst dim (option Z) e). destruct (fst e =? d); reflexivity.
Qed.

Lemma fix_dims_api st0 t st st' : distinct_dims t -> signature (apply (p_fix st0) t) <> None -> with_indices st0 st st' ->
  dims_of (apply (p_fix st0) t) st = option_map (filter (fun e => negb (has (Idx (fst e)) st0))) (dims_of t st').
Proof.
  unfold distinct_dims, dims_of. intros Hn Hs Hw. destruct (signature t) as [sg|] eqn:Es; [|contradiction]. destruct (signature (apply (p_fix st0) t)) as [sg1|] eqn:E1; [|congruence].
  cbn [obind]. rewrite (fixes_path st0 t sg sg1 _ Es Hn E1). f_equal. apply spath_ext_accept. intros d _. unfold ov, asg_of. destruct (Hw d) as [-> _].
  destruct (get (Idx d) st0); reflexivity.
Qed.

Lemma fix_point_api st0 t : distinct_dims t -> signature (apply (p_fix st0) t) <> None ->
  (is_point (apply (p_fix st0) t) = Some true <-> exists p, dims_of t st0 = Some p /\ forall d, In d (map fst p) -> get (Idx d) st0 <> None).
Proof.
  intros Hn Hs. assert (Hd := Hn). unfold distinct_dims in Hd. destruct (signature t) as [sg|] eqn:Es; [|contradiction]. destruct (signature (apply (p_fix st0) t)) as [sg1|] eqn:E1; [|congruence].
  unfold is_point, dims_of. rewrite E1, Es. cbn [obind]. pose proof (fun a => fixes_path st0 t sg sg1 a Es Hd E1) as Hp.
  assert (Hov : spath sg (ov st0 (asg_of [])) = spath sg (asg_of st0)). { apply spath_ext_accept. intros d _. unfold ov, asg_of. destruct (get (Idx d) st0); reflexivity. }
  specialize (Hp (asg_of [])). rewrite Hov in Hp. split.
  - intros H. injection H as H. rewrite (proj1 (point_path sg1) H) in Hp. destruct (spath sg (asg_of st0)) as [p|]; [|discriminate]. exists p. split; [reflexivity|]. injection Hp as Hp. intros d Hin E.
    apply in_map_iff in Hin. destruct Hin as (e & <- & Hin). assert (Hf : In e (filter (free st0) p)) by (apply filter_In; split; [exact Hin|]; unfold free, has; rewrite E; reflexivity). rewrite <- Hp in Hf. destruct Hf.
  - intros (p & E & H). rewrite E in Hp. cbn [option_map] in Hp. assert (filter (free st0) p = []) as Hz.
    { destruct (filter (free st0) p) as [|e l] eqn:Ef; [reflexivity|]. exfalso. assert (Hin : In e (filter (free st0) p)) by (rewrite Ef; left; reflexivity). apply filter_In in Hin. destruct Hin as [Hin Hfr].
      specialize (H (fst e) (in_map fst _ _ Hin)). unfold free, has in Hfr. destruct (get (Idx (fst e)) st0); [discriminate|congruence]. }
    rewrite Hz in Hp. destruct sg1 as [c| |e al r|e rs]; try reflexivity; cbn [spath] in Hp; [destruct (spath r _)|destruct (ojoin _)]; discriminate.
Qed.

(** ** A traversal of a point *)

Lemma point_trav s : is_point s = Some true -> for_each (traverser [s]) [] = Done [[]].
Proof.
  intros H. unfold is_point in H. assert (Es := signature_one s). destruct (signature s) as [sg|] eqn:E; [|discriminate]. cbn [obind] in H. injection H as H.
  unfold for_each, for_sections_with, for_tree. change (top_struct (traverser [s])) with (Union [s]).
  rewrite Es. cbn [obind sections_tree].
  assert (Ht : sig_dim_tree sg = DLeaf) by (destruct sg; try discriminate; reflexivity). rewrite Ht. cbn [fe_ok fe_run].
  assert (Hi : inner (traverser [s]) [] = traverser [s]) by reflexivity.
  assert (Ts : tr_state (traverser [s]) = Some []). { unfold tr_state. change (top_struct (traverser [s])) with (Union [s]). change (tr_struct (traverser [s])) with (Union [s]). cbn [state_at has_state_at]. rewrite Parts.same_type_refl. reflexivity. }
  unfold inner_ok, state_ok. rewrite Hi. change (top_struct (traverser [s])) with (Union [s]). rewrite Es, Ts. cbn [andb out_map out_bind map omap]. rewrite Hi, Ts. reflexivity.
Qed.
