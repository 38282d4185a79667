(** * Facts about covered structures: paths and dependencies of lengths *)

From Verif Require Export ViewPath Good.

Lemma mem_existsb_app q a b : mem q (a ++ b) = mem q a || mem q b.
Proof. unfold mem. apply existsb_app. Qed.

Lemma accept_sdims s q : any_accept q s = true <-> In q (sdims s).
Proof.
  induction s as [c| |d al r IH|d rs IH] using sig_ind'; simpl.
  - split; [discriminate|tauto].
  - split; [discriminate|tauto].
  - rewrite orb_true_iff, IH, Z.eqb_eq. tauto.
  - rewrite orb_true_iff, Z.eqb_eq, existsb_exists, in_flat_map. rewrite Forall_forall in IH. split.
    + intros [E|(r & Hr & Ha)]; [auto|]. right. exists r. split; [exact Hr|]. apply IH; assumption.
    + intros [E|(r & Hr & Ha)]; [auto|]. right. exists r. split; [exact Hr|]. apply IH; assumption.
Qed.

Lemma spath_sdep s a p d n : spath s a = Some p -> In (d, Some n) p -> In d (sdep_dims s).
Proof.
  revert p. induction s as [c| |d' al r IH|d' rs IH] using sig_ind'; intros p E H.
  - inv E. destruct H.
  - inv E. destruct H.
  - simpl in E. destruct (spath r a) as [p'|]; [|discriminate]. inv E. destruct H as [H|H]; [discriminate|].
    simpl. eauto.
  - rewrite spath_dep in E. destruct (nthz rs (a d')) as [r|] eqn:Er; [|discriminate].
    destruct (spath r a) as [p'|] eqn:Ep; [|discriminate]. inv E. simpl. destruct H as [H|H]; [left; congruence|].
    right. apply in_flat_map. exists r. split; [eapply nthz_In, Er|].
    eapply Forall_nthz in IH; [|exact Er]. eauto.
Qed.

(** Reversing a dimension that is nowhere a tuple dimension does not change the signature. *)
Lemma reverse_sig d s s' : mem d (sdep_dims s) = false -> view_sig (VReverse d) s = Some s' -> s' = s.
Proof.
  simpl. revert s'. induction s as [c| |d' al r IH|d' rs IH] using sig_ind'; intros s' Hm E.
  - inv E. reflexivity.
  - inv E. reflexivity.
  - simpl in E, Hm. destruct ((d' =? d) || false); [congruence|].
    destruct (sreplace [d] _ r) as [r'|]; [|discriminate]. inv E. f_equal. auto.
  - cbn [sreplace] in E. simpl in Hm. apply orb_false_iff in Hm. destruct Hm as [Hd Hm].
    simpl mem in E. rewrite (Z.eqb_sym d d') in Hd. rewrite Hd in E. simpl in E.
    destruct (omap _ rs) as [rs'|] eqn:Eo; [|discriminate]. inv E. f_equal.
    apply omap_Some_Forall2 in Eo. clear Hd. revert Hm IH. induction Eo as [|x y l1 l2 Hxy _ IH2]; intros Hm IH; [reflexivity|].
    simpl in Hm. rewrite mem_existsb_app in Hm. apply orb_false_iff in Hm. inv IH. f_equal; [apply H1; tauto|].
    apply IH2; tauto.
Qed.

Lemma swf_uswf s : swf s = true -> uswf s = true.
Proof.
  induction s as [c|d ts IH|d t IH|v t IH|ts IH] using struct_ind'; simpl; auto.
  - rewrite !andb_true_iff. intros [A B]. split; [exact A|]. rewrite forallb_forall in *. rewrite Forall_forall in IH. auto.
  - rewrite !andb_true_iff. tauto.
  - discriminate.
Qed.

(** ** Signatures of covered structures name each dimension once on every path *)

Lemma uswf_view v t : uswf (View v t) = true -> view_swf v t = true /\ uswf t = true.
Proof. simpl. apply andb_true_iff. Qed.

Lemma signature_View_inv v t sg : signature (View v t) = Some sg ->
  exists s0, signature t = Some s0 /\ view_sig v s0 = Some sg.
Proof. simpl. destruct (signature t) as [s0|]; [eauto|discriminate]. Qed.

Lemma signature_Vector_inv d t sg : signature (Vector d t) = Some sg ->
  exists s0, signature t = Some s0 /\ any_accept d s0 = false /\ sg = SFun d ADyn s0.
Proof.
  simpl. destruct (signature t) as [s0|]; [|discriminate]. destruct (any_accept d s0) eqn:E; [discriminate|].
  intros H. inv H. eauto.
Qed.

Lemma signature_Tuple_inv d ts sg : signature (Tuple d ts) = Some sg ->
  exists ss, Forall2 (fun t s => signature t = Some s) ts ss /\ existsb (any_accept d) ss = false /\ sg = SDep d ss.
Proof.
  cbn [signature]. destruct (omap signature ts) as [ss|] eqn:E; [|discriminate].
  destruct (existsb (any_accept d) ss) eqn:Ex; [discriminate|]. intros H; inv H.
  exists ss. split; [apply omap_Some_Forall2, E|auto].
Qed.

Lemma union2_accept q s1 s2 s : sig_union2 s1 s2 = Some s -> any_accept q s = true -> any_accept q s1 = true \/ any_accept q s2 = true.
Proof.
  revert s. induction s2 as [c| |d a r IH|d rs IH] using sig_ind'; simpl; intros s E Hq; try (inv E; auto; fail); try discriminate.
  destruct (sig_union2 s1 r) as [r'|]; [|discriminate]. inv E. destruct (any_accept d s1).
  - destruct (IH _ eq_refl Hq) as [H|H]; [auto|right; rewrite H; apply orb_true_r].
  - simpl in Hq. apply orb_true_iff in Hq. destruct Hq as [Hq|Hq]; [right; rewrite Hq; reflexivity|].
    destruct (IH _ eq_refl Hq) as [H|H]; [auto|right; rewrite H; apply orb_true_r].
Qed.

Lemma union_accept q ss : forall s0 s, sig_union s0 ss = Some s -> any_accept q s = true -> exists x, In x (s0 :: ss) /\ any_accept q x = true.
Proof.
  induction ss as [|x ss IH]; simpl; intros s0 s E Hq.
  - inv E. exists s. auto.
  - destruct (sig_union2 s0 x) as [s1|] eqn:E1; [|discriminate]. destruct (IH _ _ E Hq) as (y & [<-|Hy] & Hq').
    + destruct (union2_accept _ _ _ _ E1 Hq') as [H|H]; eauto.
    + eauto.
Qed.

Lemma union2_snodup s1 s2 s : sig_union2 s1 s2 = Some s -> snodup s1 = true -> snodup s2 = true -> snodup s = true.
Proof.
  revert s. induction s2 as [c| |d a r IH|d rs IH] using sig_ind'; simpl; intros s E H1 H2; try (inv E; auto; fail); try discriminate.
  destruct (sig_union2 s1 r) as [r'|] eqn:Er; [|discriminate]. inv E. apply andb_true_iff in H2. destruct H2 as [Hd Hr].
  destruct (any_accept d s1) eqn:Ed; [eauto|]. simpl. rewrite (IH _ eq_refl H1 Hr), andb_true_r. apply negb_true_iff.
  destruct (any_accept d r') eqn:E'; [|reflexivity]. apply negb_true_iff in Hd.
  destruct (union2_accept _ _ _ _ Er E'); congruence.
Qed.

Lemma union_snodup ss : forall s0 s, sig_union s0 ss = Some s -> snodup s0 = true -> forallb snodup ss = true -> snodup s = true.
Proof.
  induction ss as [|x ss IH]; simpl; intros s0 s E H0 Hs; [inv E; auto|].
  destruct (sig_union2 s0 x) as [s1|] eqn:E1; [|discriminate]. apply andb_true_iff in Hs. destruct Hs as [Hx Hs].
  eapply IH; eauto. eapply union2_snodup; eauto.
Qed.

(** Signatures without tuple dimensions. *)
Definition plain (s : sig) : bool := match sdep_dims s with [] => true | _ => false end.

Lemma plain_fun d al r : plain (SFun d al r) = plain r. Proof. reflexivity. Qed.

Lemma plain_path s a : plain s = true -> spath s a = Some (map (fun d => (d, None)) (sdims s)).
Proof.
  induction s as [c| |d al r IH|d rs IH] using sig_ind'; intros H; try reflexivity; try discriminate.
  cbn [spath sdims map]. rewrite IH by exact H. reflexivity.
Qed.

Lemma union2_plain s1 s2 s : sig_union2 s1 s2 = Some s -> plain s1 = true -> plain s = true.
Proof.
  revert s. induction s2 as [c| |d a r IH|d rs IH] using sig_ind'; simpl; intros s E H1; try (inv E; auto; fail); try discriminate.
  destruct (sig_union2 s1 r) as [r'|] eqn:Er; [|discriminate]. inv E. destruct (any_accept d s1); auto.
  rewrite plain_fun. auto.
Qed.

Lemma union_plain ss : forall s0 s, sig_union s0 ss = Some s -> plain s0 = true -> plain s = true.
Proof.
  induction ss as [|x ss IH]; simpl; intros s0 s E H0; [inv E; auto|].
  destruct (sig_union2 s0 x) as [s1|] eqn:E1; [|discriminate]. eapply IH; eauto using union2_plain.
Qed.

Lemma union2_accepts q s1 s2 s : sig_union2 s1 s2 = Some s -> any_accept q s1 = true \/ any_accept q s2 = true -> any_accept q s = true.
Proof.
  revert s. induction s2 as [c| |d a r IH|d rs IH] using sig_ind'; simpl; intros s E Hq; try (inv E; destruct Hq; [auto|discriminate]); try discriminate.
  destruct (sig_union2 s1 r) as [r'|] eqn:Er; [|discriminate]. inv E.
  destruct (any_accept d s1) eqn:Ed; simpl.
  - apply IH; auto. destruct Hq as [Hq|Hq]; [auto|]. apply orb_true_iff in Hq. destruct Hq as [Hq|Hq]; [|auto].
    apply Z.eqb_eq in Hq. subst. auto.
  - apply orb_true_iff. destruct Hq as [Hq|Hq]; [right; auto|]. apply orb_true_iff in Hq. destruct Hq as [Hq|Hq]; [auto|right; auto].
Qed.

Lemma union_accepts q ss : forall s0 s x, sig_union s0 ss = Some s -> In x (s0 :: ss) -> any_accept q x = true -> any_accept q s = true.
Proof.
  induction ss as [|y ss IH]; simpl; intros s0 s x E Hx Hq.
  - inv E. destruct Hx as [<-|[]]. exact Hq.
  - destruct (sig_union2 s0 y) as [s1|] eqn:E1; [|discriminate]. destruct Hx as [<-|[<-|Hx]].
    + eapply (IH s1 s s1 E); [simpl; auto|]. eapply union2_accepts; eauto.
    + eapply (IH s1 s s1 E); [simpl; auto|]. eapply union2_accepts; eauto.
    + eapply (IH s1 s x E); simpl; auto.
Qed.

Lemma signature_Union_inv ts sg : signature (Union ts) = Some sg ->
  exists s0 ss, Forall2 (fun t s => signature t = Some s) ts (s0 :: ss) /\ sig_union s0 ss = Some sg.
Proof.
  cbn [signature]. destruct (omap signature ts) as [[|s0 ss]|] eqn:E; try discriminate. intros H.
  exists s0, ss. split; [apply omap_Some_Forall2, E|exact H].
Qed.

(** A union of one structure, or of structures without tuple dimensions. *)
Lemma uswf_union ts sg : uswf (Union ts) = true -> signature (Union ts) = Some sg ->
  forallb uswf ts = true /\
  ((exists t, ts = [t] /\ signature t = Some sg) \/
   (plain sg = true /\ forall t s, In t ts -> signature t = Some s -> plain s = true /\ incl (sdims s) (sdims sg))).
Proof.
  cbn [uswf]. rewrite andb_true_iff. intros [Hw H] Es. split; [exact Hw|].
  destruct (signature_Union_inv _ _ Es) as (s0 & ss & F & Eu).
  destruct ts as [|t [|t' ts]]; [inv F| |].
  - left. exists t. inv F. inv H5. inv Eu. auto.
  - right. rewrite forallb_forall in H. assert (Hp : forall u s, In u (t :: t' :: ts) -> signature u = Some s -> plain s = true).
    { intros u s Hu E. specialize (H _ Hu). unfold nodep in H. rewrite E in H. exact H. }
    split.
    + eapply union_plain; eauto. inv F. apply (Hp t); simpl; auto.
    + intros u s Hu E. split; [eauto|]. intros q Hq. apply accept_sdims in Hq. apply accept_sdims.
      eapply union_accepts; [exact Eu| |exact Hq]. clear -F Hu E. remember (t :: t' :: ts) as l. clear Heql. revert Hu.
      induction F as [|a b l m Hab _ IH]; simpl; [contradiction|]. intros [->|Hu]; [left; congruence|right; auto].
Qed.

Theorem uswf_snodup s sg : uswf s = true -> signature s = Some sg -> snodup sg = true.
Proof.
  revert sg. induction s as [c|d ts IH|d t IH|v t IH|ts IH] using struct_ind'; intros sg Hw Es.
  - inv Es. reflexivity.
  - destruct (signature_Tuple_inv _ _ _ Es) as (ss & F & Hx & ->). simpl in Hw. apply andb_true_iff in Hw.
    destruct Hw as [HW Hw]. simpl.
    assert (HL : List.length ss = List.length ts) by (clear -F; induction F; simpl; congruence).
    rewrite HL, HW. simpl. apply andb_true_iff. split.
    + apply forallb_forall. intros r Hr. apply negb_true_iff. destruct (any_accept d r) eqn:E; [|reflexivity].
      rewrite <- Hx. symmetry. apply existsb_exists. eauto.
    + clear -F IH Hw. induction F as [|t s ts ss Hts _ IHF]; [reflexivity|]. inv IH. simpl in *.
      apply andb_true_iff in Hw. rewrite (H1 _ (proj1 Hw) Hts). simpl. apply IHF; tauto.
  - destruct (signature_Vector_inv _ _ _ Es) as (s0 & E0 & Hd & ->). simpl in *. rewrite Hd. simpl. eauto.
  - destruct (uswf_view _ _ Hw) as [Hv Ht]. destruct (signature_View_inv _ _ _ Es) as (s0 & E0 & Ev).
    eapply view_snodup; [apply IH; eassumption|exact Ev|]. unfold view_swf in Hv. rewrite E0 in Hv.
    destruct v; simpl; auto; try discriminate. apply negb_true_iff, Hv.
  - destruct (uswf_union _ _ Hw Es) as [Hw' _]. destruct (signature_Union_inv _ _ Es) as (s0 & ss & F & Eu).
    assert (Hn : forallb snodup (s0 :: ss) = true).
    { revert F. generalize (s0 :: ss). intros m F. clear -F IH Hw'. induction F as [|t s ts m Hts _ IHF]; [reflexivity|]. inv IH. simpl in *.
      apply andb_true_iff in Hw'. rewrite (H1 _ (proj1 Hw') Hts). simpl. apply IHF; tauto. }
    cbn [forallb] in Hn. apply andb_true_iff in Hn. eapply union_snodup; [exact Eu|tauto|tauto].
Qed.

(** ** From the path of a view to the path of its sub-structure *)

Lemma uview_down v t sg a p l :
  uswf (View v t) = true -> signature (View v t) = Some sg -> spath sg a = Some p ->
  exists s0 p', signature t = Some s0 /\ view_sig v s0 = Some sg /\ snodup s0 = true /\
    spath s0 (view_asg v (ilen t) l a) = Some p' /\ prel v p' p /\ NoDup (map fst p').
Proof.
  intros Hw Es Ep. destruct (uswf_view _ _ Hw) as [Hv Ht]. destruct (signature_View_inv _ _ _ Es) as (s0 & E0 & Ev).
  pose proof (uswf_snodup _ _ Ht E0) as Hn. unfold view_swf in Hv. rewrite E0 in Hv.
  destruct (view_path v s0 sg (ilen t) l a p Hn Ev Ep) as (p' & Ep' & R).
  - destruct v; simpl; auto; try discriminate.
    + intros n Hin. exfalso. apply andb_true_iff in Hv. destruct Hv as [Hv _]. apply negb_true_iff in Hv.
      rewrite (reverse_sig _ _ _ Hv Ev) in Ep. apply mem_false in Hv. apply Hv. eapply spath_sdep; eauto.
    + rewrite Ev in Hv. exact Hv.
  - exists s0, p'. repeat (split; [assumption|]). eapply spath_nodup; eauto.
Qed.

Lemma in_fst {A B} (x : A) (y : B) p : In (x, y) p -> In x (map fst p).
Proof. intros H. apply in_map_iff. exists (x, y). auto. Qed.

Lemma fst_in {A B} (x : A) (p : list (A * B)) : In x (map fst p) -> exists y, In (x, y) p.
Proof. intros H. apply in_map_iff in H. destruct H as ([x' y] & E & H). simpl in E. subst. eauto. Qed.

Lemma nodup_fst_eq {A B} (x : A) (y z : B) p : NoDup (map fst p) -> In (x, y) p -> In (x, z) p -> y = z.
Proof.
  induction p as [|[x' y'] p IH]; simpl; [tauto|]. rewrite NoDup_cons_iff. intros [Hni Hn] [E|H] [E'|H'].
  - congruence.
  - inv E. exfalso. apply Hni. eapply in_fst; eauto.
  - inv E'. exfalso. apply Hni. eapply in_fst; eauto.
  - auto.
Qed.

Lemma pm_keep g d p x : In x (map fst p) -> x <> d -> In x (map fst (pm g d p)).
Proof. intros H Hx. destruct (fst_in _ _ H) as [n Hn]. eapply in_fst. apply in_pm. left. split; [exact Hn|exact Hx]. Qed.

Lemma pm_new g d p n y k : In (d, n) p -> In (y, k) (g n) -> In y (map fst (pm g d p)).
Proof. intros H Hy. eapply in_fst. apply in_pm. right. eauto. Qed.

Lemma outside_keep ds p x : In x (map fst p) -> ~ In x ds -> In x (map fst (outside ds p)).
Proof.
  intros H Hx. destruct (fst_in _ _ H) as [n Hn]. apply in_fst with n. apply filter_In. split; [exact Hn|].
  simpl. apply negb_true_iff, mem_false, Hx.
Qed.

Lemma peeled_keep d ds n p' p x : peeled d ds n p' p -> In x (map fst p') -> ~ In x ds -> In x (map fst p).
Proof.
  intros [HP _] H Hx. eapply Permutation_in; [apply Permutation_map, Permutation_sym, HP|].
  rewrite map_app. apply in_or_app. right. apply outside_keep; assumption.
Qed.

Lemma peeled_new d ds n p' p : peeled d ds n p' p -> List.length (inside ds p') = n -> In (d, None) p.
Proof.
  intros [HP _] H. eapply Permutation_in; [apply Permutation_sym, HP|]. rewrite H, Nat.eqb_refl. left. reflexivity.
Qed.

(** Nothing but the merged dimension disappears or appears. *)
Lemma peeled_inv d ds n p' p x k : peeled d ds n p' p -> In (x, k) p ->
  (x = d /\ k = None /\ List.length (inside ds p') = n) \/ (In (x, k) p' /\ ~ In x ds).
Proof.
  intros [HP _] H. eapply Permutation_in in H; [|exact HP]. apply in_app_or in H. destruct H as [H|H].
  - destruct (Nat.eqb_spec (List.length (inside ds p')) n); [|destruct H]. destruct H as [H|[]]. inv H. auto.
  - apply filter_In in H. destruct H as [H Hm]. right. split; [exact H|]. apply mem_false, negb_true_iff, Hm.
Qed.

(** The merged dimensions are all on the path when their number is right. *)
Lemma inside_all ds p : NoDup ds -> NoDup (map fst p) ->
  (List.length (inside ds p) = List.length ds <-> forall x, In x ds -> In x (map fst p)).
Proof.
  intros Hd Hp.
  assert (Hn : NoDup (map fst (inside ds p))).
  { clear -Hp. induction p as [|[q n] p IH]; simpl; [constructor|]. simpl in Hp. apply NoDup_cons_iff in Hp.
    destruct Hp as [Hq Hp]. unfold inside in *. simpl. destruct (mem q ds); [|auto]. simpl. constructor; [|auto].
    intros Hin. apply Hq. destruct (fst_in _ _ Hin) as [k Hk]. apply filter_In in Hk. eapply in_fst, Hk. }
  assert (Hi : incl (map fst (inside ds p)) ds).
  { intros x Hx. destruct (fst_in _ _ Hx) as [k Hk]. apply filter_In in Hk. apply mem_In, Hk. }
  assert (Hin : forall x, In x (map fst (inside ds p)) -> In x (map fst p)).
  { intros x Hx. destruct (fst_in _ _ Hx) as [k Hk]. apply filter_In in Hk. eapply in_fst, Hk. }
  split.
  - intros E x Hx. apply Hin. apply (@NoDup_length_incl _ _ ds Hn); [rewrite map_length; lia|exact Hi|exact Hx].
  - intros H. rewrite <- (map_length fst). apply Permutation_length, NoDup_Permutation; try assumption.
    intros x. split; [apply Hi|]. intros Hx. destruct (fst_in _ _ (H x Hx)) as [k Hk]. apply in_fst with k.
    apply filter_In. split; [exact Hk|]. apply mem_In, Hx.
Qed.

Lemma disjointb_spec a b : disjointb a b = true <-> forall x, In x a -> ~ In x b.
Proof.
  unfold disjointb. rewrite forallb_forall. split; intros H x Hx.
  - apply mem_false, negb_true_iff, H, Hx.
  - apply negb_true_iff, mem_false, H, Hx.
Qed.

Lemma scounts_path ds s a p : spath s a = Some p -> In (List.length (inside ds p)) (scounts ds s).
Proof.
  revert p. induction s as [c| |d' al r IH|d' rs IH] using sig_ind'; intros p E.
  - inv E. left. reflexivity.
  - inv E. left. reflexivity.
  - simpl in E. destruct (spath r a) as [p'|]; [|discriminate]. inv E. simpl. unfold inside. simpl.
    apply in_map_iff. exists (List.length (inside ds p')). split; [|auto]. unfold inside. destruct (mem d' ds); reflexivity.
  - rewrite spath_dep in E. destruct (nthz rs (a d')) as [r|] eqn:Er; [|discriminate].
    destruct (spath r a) as [p'|] eqn:Ep; [|discriminate]. inv E. simpl.
    apply in_map_iff. exists (List.length (inside ds p')). split.
    + unfold inside. simpl. destruct (mem d' ds); reflexivity.
    + apply in_flat_map. exists r. split; [eapply nthz_In, Er|].
      eapply Forall_nthz in IH; [|exact Er]. eauto.
Qed.

Lemma together_path ds s a p : NoDup ds -> NoDup (map fst p) -> together ds s = true -> spath s a = Some p ->
  (forall x, In x ds -> In x (map fst p)) \/ (forall x, In x ds -> ~ In x (map fst p)).
Proof.
  intros Hd Hp Ht E. unfold together in Ht. rewrite forallb_forall in Ht.
  specialize (Ht _ (scounts_path ds _ _ _ E)). apply orb_true_iff in Ht. destruct Ht as [H|H]; apply Nat.eqb_eq in H.
  - right. intros x Hx Hin. destruct (fst_in _ _ Hin) as [k Hk].
    assert (Hi : In (x, k) (inside ds p)) by (apply filter_In; split; [exact Hk|apply mem_In, Hx]).
    destruct (inside ds p); [destruct Hi|discriminate].
  - left. apply inside_all; assumption.
Qed.

Lemma map_fst_combine {A B} (l : list A) (m : list B) : List.length m = List.length l -> map fst (combine l m) = l.
Proof.
  revert m. induction l as [|x l IH]; intros [|y m] E; simpl in *; try lia; [reflexivity|]. f_equal. apply IH. lia.
Qed.

Lemma map_fst_const {A B} (l : list A) (z : B) : map fst (map (fun q => (q, z)) l) = l.
Proof. rewrite map_map. apply map_id. Qed.

Lemma rename_back ps s q : rename_ok ps s = true -> any_accept q s = true ->
  rename_dim (swap_pairs ps) (rename_dim ps q) = q.
Proof.
  unfold rename_ok. rewrite !andb_true_iff, !nodupb_NoDup, forallb_forall. intros [[Hf Hs] Hk] Hq.
  destruct (mem q (map fst ps)) eqn:Em.
  - apply mem_In in Em. apply rename_dim_in in Em. apply rename_dim_pair; [rewrite swap_fst; exact Hs|].
    apply swap_In, Em.
  - apply mem_false in Em. rewrite (rename_dim_out ps q Em). apply rename_dim_out. rewrite swap_fst. intros Hin.
    specialize (Hk _ Hin). rewrite Hq in Hk. simpl in Hk. apply mem_In in Hk. contradiction.
Qed.

(** ** Reported lengths depend only on [ldeps] *)

Definition loc (s : struct) : Prop := forall l sg a a2 p q,
  signature s = Some sg -> spath sg a = Some p -> In (q, None) p ->
  (forall x, In x (ldeps s q) -> In x (map fst p) -> a2 x = a x) -> ilen s l a2 q = ilen s l a q.

Section ViewLoc.
  Variables (v : view) (t : struct) (s0 sg : sig) (l : lenv) (a : asg) (p' p : path).
  Hypothesis Hloc : loc t.
  Hypothesis Hw : view_swf v t = true.
  Hypothesis E0 : signature t = Some s0.
  Hypothesis Ev : view_sig v s0 = Some sg.
  Hypothesis Ep' : spath s0 (view_asg v (ilen t) l a) = Some p'.
  Hypothesis R : prel v p' p.
  Hypothesis Hnd : NoDup (map fst p').

  Let Hacc : forall x, In x (map fst p') -> any_accept x s0 = true.
  Proof. intros x Hx. destruct (fst_in _ _ Hx) as [n Hn]. exact (spath_accept _ _ _ Ep' _ Hn). Qed.

  (** The sub-structure has the same path under the untransformed assignment. *)
  Lemma raw_path b : (forall d n, In (d, Some n) p' -> b d = view_asg v (ilen t) l a d) -> spath s0 b = Some p'.
  Proof. intros H. eapply spath_ext; [exact Ep'|exact H]. Qed.

  Lemma adep_ok a2 x : In x (map fst p') ->
    (forall y, In y (view_adep v (ldeps t) x) -> In y (map fst p) -> a2 y = a y) ->
    view_asg v (ilen t) l a2 x = view_asg v (ilen t) l a x.
  Proof.
    intros Hx H. unfold view_swf in Hw. rewrite E0 in Hw. pose proof raw_path as Hraw.
    destruct v as [d|d i|d n|d st|d st len|d st en|d st sr|d|d M m|d M m pd|d b M m ml|M m d|sl gl d ds|ds|d|ps|xa xb d];
      cbn [view_asg view_adep prel] in H, R |- *.
    - apply H; [left; reflexivity|]. subst p. right. exact Hx.
    - unfold fupd. destruct (Z.eqb_spec x d); [reflexivity|]. apply H; [left; reflexivity|]. subst p. apply pm_keep; assumption.
    - apply H; [left; reflexivity|]. destruct R as [-> _]. exact Hx.
    - assert (a2 x = a x) as E.
      { apply H; [left; reflexivity|]. subst p. destruct (Z.eq_dec x d) as [->|]; [|apply pm_keep; assumption].
        destruct (fst_in _ _ Hx) as [n Hn]. eapply pm_new; [exact Hn|left; reflexivity]. }
      unfold fupd. destruct (Z.eqb_spec x d); [subst; rewrite E|]; auto.
    - assert (a2 x = a x) as E.
      { apply H; [left; reflexivity|]. subst p. destruct (Z.eq_dec x d) as [->|]; [|apply pm_keep; assumption].
        destruct (fst_in _ _ Hx) as [n Hn]. eapply pm_new; [exact Hn|left; reflexivity]. }
      unfold fupd. destruct (Z.eqb_spec x d); [subst; rewrite E|]; auto.
    - assert (a2 x = a x) as E.
      { apply H; [left; reflexivity|]. subst p. destruct (Z.eq_dec x d) as [->|]; [|apply pm_keep; assumption].
        destruct (fst_in _ _ Hx) as [n Hn]. eapply pm_new; [exact Hn|left; reflexivity]. }
      unfold fupd. destruct (Z.eqb_spec x d); [subst; rewrite E|]; auto.
    - assert (a2 x = a x) as E.
      { apply H; [left; reflexivity|]. subst p. destruct (Z.eq_dec x d) as [->|]; [|apply pm_keep; assumption].
        destruct (fst_in _ _ Hx) as [n Hn]. eapply pm_new; [exact Hn|left; reflexivity]. }
      unfold fupd. destruct (Z.eqb_spec x d); [subst; rewrite E|]; auto.
    - (* reverse *) subst p. apply andb_true_iff in Hw. destruct Hw as [Hd Hq].
      unfold fupd. destruct (Z.eqb_spec x d) as [->|Hne].
      + destruct (fst_in _ _ Hx) as [k Hk]. assert (k = None) as ->.
        { destruct k as [k|]; [|reflexivity]. exfalso. apply negb_true_iff, mem_false in Hd. apply Hd.
          eapply spath_sdep; eauto. }
        rewrite (H d) by (auto; left; reflexivity). do 3 f_equal.
        apply (Hloc _ s0 a a2 p' d E0); [|exact Hk|].
        * apply Hraw. intros e n He. cbn [view_asg]. rewrite fupd_neq; [reflexivity|]. intros ->.
          pose proof (nodup_fst_eq _ _ _ _ Hnd He Hk). discriminate.
        * intros y Hy Hyp. apply H; [right; exact Hy|exact Hyp].
      + apply H; [left; reflexivity|exact Hx].
    - (* blocks *) destruct R as [-> Hfun]. apply negb_true_iff, mem_false in Hw.
      unfold fupd. destruct (Z.eqb_spec x d) as [->|Hne].
      + destruct (fst_in _ _ Hx) as [k Hk]. pose proof (Hfun _ Hk) as ->.
        rewrite (H M) by first [solve [simpl; tauto] | eapply pm_new; [exact Hk|simpl; tauto]].
        rewrite (H m) by first [solve [simpl; tauto] | eapply pm_new; [exact Hk|simpl; tauto]].
        assert (E : ilen t (fupd (fupds l [(M, None); (m, None)]) d
            (match l M, l m with Some x, Some y => Some (u64 (x * y)) | _, _ => None end)) a2 d
            = ilen t (fupd (fupds l [(M, None); (m, None)]) d
            (match l M, l m with Some x, Some y => Some (u64 (x * y)) | _, _ => None end)) a d).
        { apply (Hloc _ s0 a a2 p' d E0); [|exact Hk|].
          - apply Hraw. intros e n He. cbn [view_asg]. rewrite fupd_neq; [reflexivity|]. intros ->.
            specialize (Hfun _ He). discriminate.
          - intros y Hy Hyp. apply H; [right; right; exact Hy|]. apply pm_keep; [exact Hyp|]. congruence. }
        cbn [view_lenv]. rewrite E. reflexivity.
      + apply H; [left; reflexivity|]. apply pm_keep; assumption.
    - (* blocks dynamic *) destruct R as [-> Hfun]. apply negb_true_iff, mem_false in Hw.
      unfold fupd. destruct (Z.eqb_spec x d) as [->|Hne].
      + destruct (fst_in _ _ Hx) as [k Hk]. pose proof (Hfun _ Hk) as ->.
        rewrite (H M) by first [solve [simpl; tauto] | eapply pm_new; [exact Hk|simpl; tauto]].
        rewrite (H m) by first [solve [simpl; tauto] | eapply pm_new; [exact Hk|simpl; tauto]].
        assert (E : ilen t (fupd (fupds l [(M, None); (m, None)]) d
            (match l M, l m with Some x, Some y => Some (u64 (x * y)) | _, _ => None end)) a2 d
            = ilen t (fupd (fupds l [(M, None); (m, None)]) d
            (match l M, l m with Some x, Some y => Some (u64 (x * y)) | _, _ => None end)) a d).
        { apply (Hloc _ s0 a a2 p' d E0); [|exact Hk|].
          - apply Hraw. intros e n He. cbn [view_asg]. rewrite fupd_neq; [reflexivity|]. intros ->.
            specialize (Hfun _ He). discriminate.
          - intros y Hy Hyp. apply H; [right; right; exact Hy|]. apply pm_keep; [exact Hyp|]. congruence. }
        cbn [view_lenv]. rewrite E. reflexivity.
      + apply H; [left; reflexivity|]. apply pm_keep; assumption.
    - (* blocks static *) destruct R as [-> Hfun]. apply andb_true_iff in Hw. destruct Hw as [_ Hd].
      apply negb_true_iff, mem_false in Hd.
      unfold fupd at 1 2. destruct (Z.eqb_spec x d) as [->|Hne].
      + destruct (fst_in _ _ Hx) as [k Hk]. pose proof (Hfun _ Hk) as ->.
        rewrite (H b) by first [solve [simpl; tauto] | eapply pm_new; [exact Hk|simpl; tauto]].
        rewrite (H M) by first [solve [simpl; tauto] | eapply pm_new; [exact Hk|simpl; tauto]].
        rewrite (H m) by first [solve [simpl; tauto] | eapply pm_new; [exact Hk|simpl; tauto]].
        cbn [view_lenv].
        rewrite (Hloc (fupd l d None) s0 a a2 p' d E0); [reflexivity| |exact Hk|].
        * apply Hraw. intros e n He. cbn [view_asg]. rewrite fupd_neq; [reflexivity|]. intros ->.
          specialize (Hfun _ He). discriminate.
        * intros y Hy Hyp. apply H; [right; right; right; exact Hy|]. apply pm_keep; [exact Hyp|]. congruence.
      + apply H; [left; reflexivity|]. apply pm_keep; assumption.
    - (* merge *) apply andb_true_iff in Hw. destruct Hw as [Hdis Htog]. rewrite disjointb_spec in Hdis.
      pose proof R as [_ Hfun].
      assert (HMm : M <> m).
      { cbn [view_sig] in Ev. intros ->. rewrite Z.eqb_refl in Ev. discriminate. }
      assert (HND : NoDup [M; m]) by (repeat constructor; simpl; intuition congruence).
      destruct ((x =? M) || (x =? m)) eqn:Exm.
      + assert (Hxm : In x [M; m]) by (simpl; lia).
        destruct (together_path _ _ _ _ HND Hnd Htog Ep') as [Hall|Hnone]; [|exfalso; eapply Hnone; eauto].
        assert (Hd : In (d, None) p).
        { apply (peeled_new _ _ _ _ _ R). apply (inside_all [M; m]); assumption. }
        destruct (fst_in _ _ (Hall m (or_intror (or_introl eq_refl)))) as [k Hk].
        assert (k = None) as -> by (eapply Hfun; [exact Hk|simpl; auto]).
        assert (E : ilen t (view_lenv (VMerge M m d) l) (fupds a2 [(M, 0); (m, 0)]) m
                    = ilen t (view_lenv (VMerge M m d) l) (fupds a [(M, 0); (m, 0)]) m).
        { apply (Hloc _ s0 _ _ p' m E0); [|exact Hk|].
          - apply Hraw. intros e n He. assert (~ In e [M; m]).
            { intros Hin. specialize (Hfun _ _ He Hin). discriminate. }
            cbn [view_asg]. rewrite !fupds_out by assumption. reflexivity.
          - intros y Hy Hyp. assert (Hym : ~ In y [M; m]).
            { intros Hin. apply (Hdis y Hin). apply in_or_app. auto. }
            rewrite !fupds_out by exact Hym. apply H; [right; exact Hy|].
            eapply peeled_keep; eauto. }
        rewrite E. rewrite (H d) by first [solve [simpl; tauto] | eapply in_fst; eauto].
        simpl. unfold fupd. simpl in Hxm. destruct (Z.eqb_spec x M); [reflexivity|].
        destruct (Z.eqb_spec x m); [reflexivity|]. lia.
      + assert (Hxm : ~ In x [M; m]) by (simpl; lia). rewrite !fupds_out by exact Hxm.
        apply H; [left; reflexivity|]. eapply peeled_keep; eauto.
    - (* zcurve *) rewrite !andb_true_iff in Hw. destruct Hw as [[[[Hdis _] _] _] Htog]. rewrite disjointb_spec in Hdis.
      pose proof R as [_ Hfun].
      assert (HND : NoDup ds).
      { cbn [view_sig] in Ev. destruct (nodupb ds) eqn:En; [apply nodupb_NoDup, En|].
        rewrite andb_false_r in Ev. discriminate. }
      assert (Hz0 : map fst (map (fun q : dim => (q, 0)) ds) = ds) by apply map_fst_const.
      assert (Hlen : forall w ls, List.length ls = List.length ds ->
                map fst (combine ds (map vzd (zc_indices sl gl w ls))) = ds).
      { intros w ls E. apply map_fst_combine. rewrite map_length, zc_indices_length. exact E. }
      destruct (mem x ds) eqn:Exm.
      + apply mem_In in Exm.
        destruct (together_path _ _ _ _ HND Hnd Htog Ep') as [Hall|Hnone]; [|exfalso; eapply Hnone; eauto].
        assert (Hd : In (d, None) p).
        { apply (peeled_new _ _ _ _ _ R). apply inside_all; assumption. }
        assert (E : map (fun q => Dyn (ilen t (view_lenv (VZCurve sl gl d ds) l) (fupds a2 (map (fun q => (q, 0)) ds)) q)) ds
                    = map (fun q => Dyn (ilen t (view_lenv (VZCurve sl gl d ds) l) (fupds a (map (fun q => (q, 0)) ds)) q)) ds).
        { apply map_ext_in. intros q Hq. f_equal.
          destruct (fst_in _ _ (Hall q Hq)) as [k Hk].
          assert (k = None) as -> by (eapply Hfun; eauto).
          apply (Hloc _ s0 _ _ p' q E0); [|exact Hk|].
          - apply Hraw. intros e n He. assert (~ In e ds).
            { intros Hin. specialize (Hfun _ _ He Hin). discriminate. }
            cbn [view_asg]. rewrite !fupds_out; rewrite ?Hz0, ?Hlen; rewrite ?map_length; auto.
          - intros y Hy Hyp. assert (Hym : ~ In y ds).
            { intros Hin. apply (Hdis y Hin). apply in_flat_map. eauto. }
            rewrite !fupds_out by (rewrite Hz0; exact Hym). apply H; [right; apply in_flat_map; eauto|].
            eapply peeled_keep; eauto. }
        rewrite E. rewrite (H d) by first [solve [simpl; tauto] | eapply in_fst; eauto].
        rewrite !fupds_alook.
        match goal with |- match alook x ?c with _ => _ end = _ => destruct (alook x c) eqn:Ea end; [reflexivity|].
        apply alook_None in Ea. rewrite Hlen in Ea by (rewrite map_length; reflexivity). contradiction.
      + apply mem_false in Exm. rewrite !fupds_out by (rewrite Hlen; [exact Exm|rewrite map_length; reflexivity]).
        apply H; [left; reflexivity|]. eapply peeled_keep; eauto.
    - apply H; [left; reflexivity|]. eapply Permutation_in; [apply Permutation_map, Permutation_sym, R|exact Hx].
    - apply H; [left; reflexivity|]. destruct R as [_ ->]. destruct (Z.eq_dec x d) as [->|]; [left; reflexivity|].
      right. apply pm_keep; assumption.
    - apply H; [left; reflexivity|]. subst p. destruct (fst_in _ _ Hx) as [n Hn]. apply in_map_iff.
      exists (rename_dim ps x, n). split; [reflexivity|]. apply in_map_iff. exists (x, n). auto.
    - destruct R.
  Qed.

  Lemma up_ok a2 q : In (q, None) p' ->
    (forall x, In x (flat_map (view_adep v (ldeps t)) (ldeps t q)) -> In x (map fst p) -> a2 x = a x) ->
    ilen t (view_lenv v l) (view_asg v (ilen t) l a2) q = ilen t (view_lenv v l) (view_asg v (ilen t) l a) q.
  Proof.
    intros Hq H. apply (Hloc _ s0 _ _ p' q E0 Ep' Hq). intros x Hx Hxp. apply adep_ok; [exact Hxp|].
    intros y Hy Hyp. apply H; [|exact Hyp]. apply in_flat_map. eauto.
  Qed.

  (** Dimension names introduced by a block view are not used below it. *)
  Lemma fresh_ne d x : negb (x =? d) && any_accept x s0 = false -> forall q, In q (map fst p') -> q <> d -> q <> x.
  Proof.
    intros Hf q Hq Hqd ->. rewrite (Hacc _ Hq) in Hf. destruct (Z.eqb_spec x d); [contradiction|discriminate].
  Qed.

  Lemma view_loc a2 q : In (q, None) p ->
    (forall x, In x (view_ldeps v (ldeps t) q) -> In x (map fst p) -> a2 x = a x) ->
    view_ilen v (ilen t) l a2 q = view_ilen v (ilen t) l a q.
  Proof.
    intros Hq H. pose proof raw_path as Hraw. pose proof (up_ok a2) as Hup.
    pose proof fresh_ne as Hfr. unfold view_swf in Hw. rewrite E0 in Hw.
    assert (RAW : forall d, In (d, None) p' -> (forall e n, In (e, Some n) p' -> a e = view_asg v (ilen t) l a e) ->
              (forall x, In x (ldeps t d) -> In x (map fst p') -> a2 x = a x) ->
              ilen t (view_lenv v l) a2 d = ilen t (view_lenv v l) a d).
    { intros d Hd Ha Hx. apply (Hloc _ s0 a a2 p' d E0); [apply Hraw; exact Ha|exact Hd|exact Hx]. }
    clear Hacc.
    destruct v as [d|d i|d n|d st|d st len|d st en|d st sr|d|d M m|d M m pd|d b M m ml|M m d|sl gl d ds|ds|d|ps|xa xb d];
      cbn [view_ldeps prel] in H, R; unfold view_ilen.
    - (* bcast *) subst p. destruct (Z.eqb_spec q d); [reflexivity|]. destruct Hq as [Hq|Hq]; [congruence|]. apply Hup; assumption.
    - subst p. apply in_pm in Hq. destruct Hq as [[Hq _]|(n & _ & [])]. apply Hup; assumption.
    - destruct R as [-> _]. apply Hup; assumption.
    - (* shift *) subst p. apply in_pm in Hq. destruct Hq as [[Hq Hqd]|(n & Hn & [Hq|[]])].
      + simpl in Hqd. destruct (Z.eqb_spec q d); [contradiction|]. apply Hup; assumption.
      + inv Hq. destruct n; [discriminate|]. rewrite Z.eqb_refl. destruct (l q); [reflexivity|].
        rewrite Hup; [reflexivity|assumption|assumption].
    - subst p. apply in_pm in Hq. destruct (Z.eqb_spec q d); [reflexivity|].
      destruct Hq as [[Hq Hqd]|(k & Hk & [Hq|[]])]; [apply Hup; assumption|congruence].
    - subst p. apply in_pm in Hq. destruct (Z.eqb_spec q d); [reflexivity|].
      destruct Hq as [[Hq Hqd]|(k & Hk & [Hq|[]])]; [apply Hup; assumption|congruence].
    - (* step *) subst p. apply in_pm in Hq. destruct Hq as [[Hq Hqd]|(n & Hn & [Hq|[]])].
      + simpl in Hqd. destruct (Z.eqb_spec q d); [contradiction|]. apply Hup; assumption.
      + inv Hq. destruct n; [discriminate|]. rewrite Z.eqb_refl in *.
        apply andb_true_iff in Hw. destruct Hw as [_ Hd]. apply negb_true_iff, mem_false in Hd.
        rewrite RAW; [reflexivity|exact Hn| |].
        * intros e k He. cbn [view_asg]. rewrite fupd_neq; [reflexivity|]. intros ->.
          pose proof (nodup_fst_eq _ _ _ _ Hnd He Hn). discriminate.
        * intros x Hx Hxp. apply H; [exact Hx|]. apply pm_keep; [exact Hxp|congruence].
    - (* reverse *) subst p. apply andb_true_iff in Hw. destruct Hw as [Hd _]. apply negb_true_iff, mem_false in Hd.
      apply RAW; [exact Hq| |exact H].
      intros e k He. cbn [view_asg]. rewrite fupd_neq; [reflexivity|]. intros ->. apply Hd. eapply spath_sdep; eauto.
    - (* blocks *) destruct R as [-> Hfun]. apply negb_true_iff, mem_false in Hw.
      cbn [view_sig] in Ev. destruct ((M =? m) || _ || _) eqn:Ef in Ev; [discriminate|].
      apply orb_false_iff in Ef. destruct Ef as [Ef Efm]. apply orb_false_iff in Ef. destruct Ef as [_ EfM].
      assert (HR : In (d, None) p' ->
        (forall x, In x (ldeps t d) -> In x (map fst (pm (fun _ => [(M, None); (m, None)]) d p')) -> a2 x = a x) ->
        ilen t (view_lenv (VBlocks d M m) l) a2 d = ilen t (view_lenv (VBlocks d M m) l) a d).
      { intros Hd Hx. apply RAW; [exact Hd| |].
        - intros e k He. cbn [view_asg]. rewrite fupd_neq; [reflexivity|]. intros ->. specialize (Hfun _ He). discriminate.
        - intros x Hxx Hxp. apply Hx; [exact Hxx|]. apply pm_keep; [exact Hxp|congruence]. }
      apply in_pm in Hq. destruct Hq as [[Hq Hqd]|(n & Hn & Hq)].
      + simpl in Hqd. assert (q <> M) by (eapply (Hfr d M); eauto using in_fst).
        assert (q <> m) by (eapply (Hfr d m); eauto using in_fst).
        destruct (Z.eqb_spec q m), (Z.eqb_spec q M); try contradiction. apply Hup; assumption.
      + pose proof (Hfun _ Hn) as ->. assert (Hqq : (q =? m) || (q =? M) = true) by (simpl in Hq; destruct Hq as [Hq|[Hq|[]]]; inv Hq; lia).
        rewrite Hqq in H. rewrite HR by assumption.
        destruct (q =? m); [reflexivity|]. destruct (q =? M); [reflexivity|discriminate].
    - (* blocks dynamic *) destruct R as [-> Hfun]. apply negb_true_iff, mem_false in Hw.
      cbn [view_sig] in Ev. destruct ((M =? m) || _ || _ || _ || _ || _) eqn:Ef in Ev; [discriminate|].
      rewrite !orb_false_iff in Ef. destruct Ef as [[[[[_ _] _] EfM] Efm] Efp].
      assert (HR : In (d, None) p' ->
        (forall x, In x (ldeps t d) -> In x (map fst (pm (fun _ => [(M, None); (m, None); (pd, None)]) d p')) -> a2 x = a x) ->
        ilen t (view_lenv (VBlocksDyn d M m pd) l) a2 d = ilen t (view_lenv (VBlocksDyn d M m pd) l) a d).
      { intros Hd Hx. apply RAW; [exact Hd| |].
        - intros e k He. cbn [view_asg]. rewrite fupd_neq; [reflexivity|]. intros ->. specialize (Hfun _ He). discriminate.
        - intros x Hxx Hxp. apply Hx; [exact Hxx|]. apply pm_keep; [exact Hxp|congruence]. }
      apply in_pm in Hq. destruct Hq as [[Hq Hqd]|(n & Hn & Hq)].
      + simpl in Hqd. assert (q <> M) by (eapply (Hfr d M); eauto using in_fst).
        assert (q <> m) by (eapply (Hfr d m); eauto using in_fst).
        assert (q <> pd) by (eapply (Hfr d pd); eauto using in_fst).
        destruct (Z.eqb_spec q pd), (Z.eqb_spec q m), (Z.eqb_spec q M); try contradiction. apply Hup; assumption.
      + pose proof (Hfun _ Hn) as ->. destruct (Z.eqb_spec q pd) as [Eq|Hqp].
        * rewrite HR by (try assumption; intros x Hx; apply H; simpl; auto).
          rewrite (H M), (H m) by first [solve [simpl; tauto] | eapply pm_new; [exact Hn|simpl; tauto]]. reflexivity.
        * assert (Hqq : (q =? m) || (q =? M) = true) by (simpl in Hq; destruct Hq as [Hq|[Hq|[Hq|[]]]]; inv Hq; lia).
          rewrite Hqq in H. rewrite HR by assumption.
          destruct (q =? m); [reflexivity|]. destruct (q =? M); [reflexivity|discriminate].
    - (* blocks static *) destruct R as [-> Hfun]. apply andb_true_iff in Hw. destruct Hw as [_ Hd].
      apply negb_true_iff, mem_false in Hd.
      cbn [view_sig] in Ev. destruct ((b =? M) || _ || _ || _ || _ || _) eqn:Ef in Ev; [discriminate|].
      rewrite !orb_false_iff in Ef. destruct Ef as [[[[[_ _] _] EfM] Efm] Efb].
      assert (HR : In (d, None) p' ->
        (forall x, In x (ldeps t d) -> In x (map fst (pm (fun _ => [(b, Some 2); (M, None); (m, None)]) d p')) -> a2 x = a x) ->
        ilen t (view_lenv (VBlocksSta d b M m ml) l) a2 d = ilen t (view_lenv (VBlocksSta d b M m ml) l) a d).
      { intros Hdd Hx. apply RAW; [exact Hdd| |].
        - intros e k He. cbn [view_asg]. rewrite fupd_neq; [reflexivity|]. intros ->. specialize (Hfun _ He). discriminate.
        - intros x Hxx Hxp. apply Hx; [exact Hxx|]. apply pm_keep; [exact Hxp|congruence]. }
      apply in_pm in Hq. destruct Hq as [[Hq Hqd]|(n & Hn & Hq)].
      + simpl in Hqd. assert (q <> M) by (eapply (Hfr d M); eauto using in_fst).
        assert (q <> m) by (eapply (Hfr d m); eauto using in_fst).
        assert (q <> b) by (eapply (Hfr d b); eauto using in_fst).
        destruct (Z.eqb_spec q b), (Z.eqb_spec q m), (Z.eqb_spec q M); try contradiction. apply Hup; assumption.
      + pose proof (Hfun _ Hn) as ->. destruct (Z.eqb_spec q b) as [Eq|Hqb]; [reflexivity|].
        assert (Hqq : (q =? m) || (q =? M) = true) by (simpl in Hq; destruct Hq as [Hq|[Hq|[Hq|[]]]]; inv Hq; lia).
        rewrite Hqq in H. rewrite HR by (try assumption; intros x Hx; apply H; simpl; auto).
        rewrite (H b) by first [solve [simpl; tauto] | eapply pm_new; [exact Hn|simpl; tauto]].
        destruct (q =? m); [reflexivity|]. destruct (q =? M); [reflexivity|discriminate].
    - (* merge *) apply andb_true_iff in Hw. destruct Hw as [Hdis _]. rewrite disjointb_spec in Hdis.
      pose proof R as [_ Hfun].
      assert (HMm : M <> m) by (cbn [view_sig] in Ev; intros ->; rewrite Z.eqb_refl in Ev; discriminate).
      assert (HND : NoDup [M; m]) by (repeat constructor; simpl; intuition congruence).
      destruct (peeled_inv _ _ _ _ _ _ _ R Hq) as [(-> & _ & Hl)|[Hq' Hqn]].
      + rewrite Z.eqb_refl in *. pose proof (proj1 (inside_all [M; m] p' HND Hnd) Hl) as Hl'. clear Hl. rename Hl' into Hl.
        assert (HR : forall x, In x [M; m] -> ilen t (view_lenv (VMerge M m d) l) (fupds a2 [(M, 0); (m, 0)]) x
                   = ilen t (view_lenv (VMerge M m d) l) (fupds a [(M, 0); (m, 0)]) x).
        { intros x Hx. destruct (fst_in _ _ (Hl x Hx)) as [k Hk].
          assert (k = None) as -> by (eapply Hfun; eauto).
          assert (Hxl : forall y, In y (ldeps t x) -> In y (ldeps t M ++ ldeps t m)).
          { intros y Hy. apply in_or_app. simpl in Hx. destruct Hx as [<-|[<-|[]]]; auto. }
          apply (Hloc _ s0 _ _ p' x E0); [|exact Hk|].
          - apply Hraw. intros e n He. assert (~ In e [M; m]) by (intros Hin; specialize (Hfun _ _ He Hin); discriminate).
            cbn [view_asg]. rewrite !fupds_out by assumption. reflexivity.
          - intros y Hy Hyp. assert (Hym : ~ In y [M; m]) by (intros Hin; apply (Hdis y Hin), Hxl, Hy).
            rewrite !fupds_out by exact Hym. apply H; [apply Hxl, Hy|]. eapply peeled_keep; eauto. }
        rewrite !HR by (simpl; auto). reflexivity.
      + destruct (Z.eqb_spec q d) as [->|Hqd]; [|apply Hup; assumption].
        exfalso. cbn [view_sig] in Ev. destruct ((M =? m) || _) eqn:Ef in Ev; [discriminate|].
        rewrite !orb_false_iff in Ef. destruct Ef as [_ Ef]. pose proof (spath_accept _ _ _ Ep' _ Hq') as Ha. simpl in Ha. rewrite Ha in Ef.
        simpl in Hqn. destruct (Z.eqb_spec d M), (Z.eqb_spec d m); subst; try discriminate; tauto.
    - (* zcurve *) rewrite !andb_true_iff in Hw. destruct Hw as [[[[Hdis _] _] _] Htog]. rewrite disjointb_spec in Hdis.
      pose proof R as [_ Hfun].
      cbn [view_sig] in Ev. destruct (_ && _ && _ && _ && nodupb ds && _) eqn:Ef in Ev; [|discriminate].
      rewrite !andb_true_iff in Ef. destruct Ef as [[_ HND] Hdd]. apply nodupb_NoDup in HND.
      assert (Hz0 : map fst (map (fun q : dim => (q, 0)) ds) = ds) by apply map_fst_const.
      assert (Hlen : forall w ls, List.length ls = List.length ds ->
                map fst (combine ds (map vzd (zc_indices sl gl w ls))) = ds).
      { intros w ls E. apply map_fst_combine. rewrite map_length, zc_indices_length. exact E. }
      destruct (peeled_inv _ _ _ _ _ _ _ R Hq) as [(-> & _ & Hl)|[Hq' Hqn]].
      + rewrite Z.eqb_refl in *. pose proof (proj1 (inside_all ds p' HND Hnd) Hl) as Hl'. clear Hl. rename Hl' into Hl.
        assert (E : map (ilen t (view_lenv (VZCurve sl gl d ds) l) (fupds a2 (map (fun q => (q, 0)) ds))) ds
                    = map (ilen t (view_lenv (VZCurve sl gl d ds) l) (fupds a (map (fun q => (q, 0)) ds))) ds).
        { apply map_ext_in. intros q Hqd.
          destruct (fst_in _ _ (Hl q Hqd)) as [k Hk].
          assert (k = None) as -> by (eapply Hfun; eauto).
          apply (Hloc _ s0 _ _ p' q E0); [|exact Hk|].
          - apply Hraw. intros e n He. assert (~ In e ds).
            { intros Hin. specialize (Hfun _ _ He Hin). discriminate. }
            cbn [view_asg]. rewrite !fupds_out; rewrite ?Hz0, ?Hlen; rewrite ?map_length; auto.
          - intros y Hy Hyp. assert (Hym : ~ In y ds).
            { intros Hin. apply (Hdis y Hin). apply in_flat_map. eauto. }
            rewrite !fupds_out by (rewrite Hz0; exact Hym). apply H; [apply in_flat_map; eauto|].
            eapply peeled_keep; eauto. }
        rewrite E. reflexivity.
      + destruct (Z.eqb_spec q d) as [->|Hqd]; [|apply Hup; assumption].
        exfalso. pose proof (spath_accept _ _ _ Ep' _ Hq') as Ha. simpl in Ha. rewrite Ha in Hdd. apply Hqn, mem_In.
        destruct (mem d ds); [reflexivity|discriminate].
    - apply Hup; [|exact H]. eapply Permutation_in; [exact R|exact Hq].
    - destruct R as [Hd ->]. apply Hup; [|exact H]. destruct Hq as [Hq|Hq]; [inv Hq; exact Hd|].
      apply in_pm in Hq. destruct Hq as [[Hq _]|(n & _ & [])]. exact Hq.
    - (* rename *) subst p. apply in_map_iff in Hq. destruct Hq as ([q' k] & Hqe & Hq'). simpl in Hqe. inv Hqe.
      apply Hup; [|exact H]. cbn [view_sig] in Ev. destruct (nodupb (map fst ps) && _ && _) eqn:Er in Ev; [|discriminate].
      rewrite rename_back with (s := s0); [exact Hq'|exact Er|exact (spath_accept _ _ _ Ep' _ Hq')].
    - destruct R.
  Qed.
End ViewLoc.

Theorem uswf_loc s : uswf s = true -> loc s.
Proof.
  induction s as [c|d ts IH|d t IH|v t IH|ts IH] using struct_ind'; intros Hw l sg a a2 p q Es Ep Hq H.
  - inv Es. inv Ep. destruct Hq.
  - destruct (signature_Tuple_inv _ _ _ Es) as (ss & F & Hx & ->). simpl in Hw. apply andb_true_iff in Hw.
    destruct Hw as [_ Hw]. rewrite spath_dep in Ep. destruct (nthz ss (a d)) as [r|] eqn:Er; [|discriminate].
    destruct (spath r a) as [pr|] eqn:Epr; [|discriminate]. injection Ep as <-.
    pose proof (Forall2_nthz _ _ _ (a d) F) as Ht. rewrite Er in Ht.
    destruct (nthz ts (a d)) as [t|] eqn:Et; [|contradiction].
    destruct Hq as [Hq|Hq]; [discriminate|]. cbn [ilen ldeps] in *.
    destruct (Z.eqb_spec q d) as [->|Hqd]; [reflexivity|].
    rewrite (H d) by (left; reflexivity). rewrite !nthz_map, Et. simpl.
    eapply Forall_nthz in IH; [|exact Et]. rewrite forallb_forall in Hw.
    apply (IH (Hw _ (nthz_In _ _ _ Et)) l r a a2 pr q Ht Epr Hq). intros x Hxl Hxp. apply H; [|right; exact Hxp].
    right. apply in_flat_map. exists t. split; [eapply nthz_In, Et|exact Hxl].
  - destruct (signature_Vector_inv _ _ _ Es) as (s0 & E0 & Hd & ->). simpl in Hw. cbn [spath] in Ep.
    destruct (spath s0 a) as [pr|] eqn:Epr; [|discriminate]. injection Ep as <-. cbn [ilen ldeps] in *.
    destruct (Z.eqb_spec q d) as [->|Hqd]; [reflexivity|]. destruct Hq as [Hq|Hq]; [congruence|].
    apply (IH Hw _ s0 a a2 pr q E0 Epr Hq). intros x Hxl Hxp. apply H; [exact Hxl|right; exact Hxp].
  - destruct (uview_down _ _ _ _ _ l Hw Es Ep) as (s0 & p' & E0 & Ev & Hn & Ep' & R & Hnd).
    destruct (uswf_view _ _ Hw) as [Hv Ht]. cbn [ilen ldeps] in *.
    eapply view_loc; eauto.
  - destruct (uswf_union _ _ Hw Es) as [Hw' [(t & -> & Et)|[Hp Ht]]].
    + inv IH. cbn [forallb] in Hw'. apply andb_true_iff in Hw'. cbn [ilen map first_match]. rewrite Et.
      assert (Hq' : any_accept q sg = true) by exact (spath_accept _ _ _ Ep _ Hq). rewrite Hq'.
      apply (H2 (proj1 Hw') l sg a a2 p q Et Ep Hq). intros x Hx Hxp. apply H; [|exact Hxp].
      cbn [ldeps flat_map]. rewrite app_nil_r. exact Hx.
    + cbn [ilen]. rewrite (plain_path sg a Hp) in Ep. inv Ep.
      assert (Hdep : forall t x, In t ts -> In x (ldeps t q) -> In x (sdims sg) -> a2 x = a x).
      { intros t x Ht' Hx Hxs. apply H; [cbn [ldeps]; apply in_flat_map; eauto|]. rewrite map_map. cbn. rewrite map_id. exact Hxs. }
      clear H Hq Es Hw. induction ts as [|t ts IHts]; [reflexivity|]. inv IH. cbn [forallb] in Hw'. apply andb_true_iff in Hw'.
      cbn [map first_match]. destruct (signature t) as [s|] eqn:Et; [|reflexivity]. destruct (any_accept q s) eqn:Ea.
      * destruct (Ht t s (or_introl eq_refl) Et) as [Hs Hi].
        apply (H1 (proj1 Hw') l s a a2 _ q Et (plain_path s a Hs)).
        -- apply in_map_iff. exists q. split; [reflexivity|]. apply accept_sdims, Ea.
        -- intros x Hx Hxp. rewrite map_map in Hxp. cbn in Hxp. rewrite map_id in Hxp. apply (Hdep t); simpl; auto.
      * apply IHts; auto; try tauto.
        -- intros u su Hu. apply Ht. right. exact Hu.
        -- intros u x Hu. apply Hdep. right. exact Hu.
Qed.

(** ** Structures with a memory layout *)

Lemma swf_view v t : swf (View v t) = true -> view_swf v t = true /\ swf t = true.
Proof. simpl. apply andb_true_iff. Qed.
Lemma swf_snodup s sg : swf s = true -> signature s = Some sg -> snodup sg = true.
Proof. intros H. apply uswf_snodup, swf_uswf, H. Qed.
Lemma view_down v t sg a p l :
  swf (View v t) = true -> signature (View v t) = Some sg -> spath sg a = Some p ->
  exists s0 p', signature t = Some s0 /\ view_sig v s0 = Some sg /\ snodup s0 = true /\
    spath s0 (view_asg v (ilen t) l a) = Some p' /\ prel v p' p /\ NoDup (map fst p').
Proof. intros H. apply uview_down, swf_uswf, H. Qed.
Lemma swf_loc s : swf s = true -> loc s.
Proof. intros H. apply uswf_loc, swf_uswf, H. Qed.
