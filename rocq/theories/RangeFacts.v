(** * Traversals restricted along their outermost dimension *)

From Verif Require Export Range Sections2 Foreign.

(** ** Two runs side by side *)

Definition out_rel {A B} (R : A -> B -> Prop) (x : outcome A) (y : outcome B) : Prop :=
  match x, y with
  | Done a, Done b => R a b
  | Undefined, Undefined => True
  | Rejected, Rejected => True
  | _, _ => False end.

Lemma out_cat_rel {A B C} (R : B -> C -> Prop) (f : A -> outcome (list B)) (g : A -> outcome (list C)) l :
  (forall a, In a l -> out_rel (Forall2 R) (f a) (g a)) -> out_rel (Forall2 R) (out_cat (map f l)) (out_cat (map g l)).
Proof.
  induction l as [|a l IH]; intros H; simpl; [constructor|].
  pose proof (H a (or_introl eq_refl)) as Ha. pose proof (IH (fun b Hb => H b (or_intror Hb))) as Hl.
  destruct (f a), (g a); simpl in *; try tauto.
  destruct (out_cat (map f l)), (out_cat (map g l)); simpl in *; try tauto. apply Forall2_app; assumption.
Qed.

Lemma out_cat_map {A B C} (h : A -> B) (f : B -> outcome (list C)) l : out_cat (map f (map h l)) = out_cat (map (fun x => f (h x)) l).
Proof. rewrite map_map. reflexivity. Qed.

Lemma out_cat_app {A} (l m : list (outcome (list A))) x : out_cat (l ++ m) = Done x <->
  exists a b, out_cat l = Done a /\ out_cat m = Done b /\ x = a ++ b.
Proof.
  revert x. induction l as [|o l IH]; intros x; simpl.
  - split; [intros H; exists [], x; auto|]. intros (a & b & Ha & Hb & ->). injection Ha as <-. exact Hb.
  - destruct o as [| |y]; simpl.
    + split; [discriminate|]. intros (a & b & H & _). discriminate.
    + split; [discriminate|]. intros (a & b & H & _). discriminate.
    + split.
      * destruct (out_cat (l ++ m)) as [| |z] eqn:E; simpl; try discriminate. intros H. injection H as <-.
        destruct (proj1 (IH z) eq_refl) as (a & b & -> & -> & ->). simpl. exists (y ++ a), b. rewrite app_assoc. auto.
      * intros (a & b & Ha & Hb & ->). destruct (out_cat l) as [| |a'] eqn:E; simpl in Ha; try discriminate. injection Ha as <-.
        rewrite (proj2 (IH (a' ++ b))) by eauto. simpl. rewrite app_assoc. reflexivity.
Qed.

Section Sim.
  Variables (top top' : struct) (sg sg' : sig) (Rel : state -> state -> Prop) (Q : dim -> Prop).
  Hypothesis Hfind : forall q st st', Q q -> Rel st st' -> sig_find_dim q st sg = sig_find_dim q st' sg'.
  Hypothesis Hlen : forall q st st', Q q -> Rel st st' -> length_ top q st = length_ top' q st'.
  Hypothesis Hwith : forall q v st st', Q q -> Rel st st' -> Rel (with_ [(Idx q, v)] st) (with_ [(Idx q, v)] st').

  Lemma run_sim t : forall st st', (forall q, dtree_contains q t = true -> Q q) -> Rel st st' ->
    out_rel (Forall2 Rel) (fe_run top sg t st) (fe_run top' sg' t st').
  Proof using Hfind Hlen Hwith.
    induction t as [|d bs IH] using dtree_ind'; intros st st' HQ HR.
    - simpl. constructor; [exact HR|constructor].
    - assert (Hd : Q d) by (apply HQ; simpl; rewrite Z.eqb_refl; reflexivity).
      assert (Hb : forall b, In b bs -> forall q, dtree_contains q b = true -> Q q).
      { intros b Hin q Hq. apply HQ. simpl. apply orb_true_iff. right. apply existsb_exists. eauto. }
      rewrite Forall_forall in IH. pose proof (Hfind d st st' Hd HR) as E.
      destruct (sig_find_dim d st sg) as [[c| |d' al r|d' rs]|] eqn:Ef; symmetry in E.
      + cbn [fe_run]. rewrite Ef, E. exact I.
      + cbn [fe_run]. rewrite Ef, E. exact I.
      + cbn [fe_run]. rewrite Ef, E, <- (Hlen d st st' Hd HR). destruct (length_ top d st) as [len|]; [|exact I].
        destruct bs as [|b [|]]; try exact I. destruct (vz len) as [n|]; [|exact I].
        apply out_cat_rel. intros i _. apply IH; [left; reflexivity|apply Hb; left; reflexivity|]. apply Hwith; assumption.
      + rewrite (fe_run_dep top sg d bs st _ _ Ef), (fe_run_dep top' sg' d bs st' _ _ E). apply out_cat_rel.
        intros [k b] Hk. simpl. assert (Hin : In b bs) by (apply numbered_In in Hk; destruct Hk as [_ Hk]; eapply nthz_In; eauto).
        apply IH; [exact Hin|exact (Hb b Hin)|]. apply Hwith; assumption.
      + cbn [fe_run]. rewrite Ef, E. exact I.
  Qed.
End Sim.

(** ** What compiles does not depend on run-time values *)

Section Types.
  Variables (top top' : struct) (sg : sig).
  Hypothesis Hrel : struct_rel same_vtype top top'.
  Hypothesis Hs : signature top <> None.

  Lemma length_vtype q st : orel same_vtype (length_ top q st) (length_ top' q st).
  Proof using Hrel Hs.
    apply (lenops_rel same_vtype congruence_same_vtype (fun _ => True) _ _ Hrel Hs (fun _ _ => I)); [exact I|].
    intros d _. split; destruct (get _ st); simpl; auto; reflexivity.
  Qed.

  Lemma fe_ok_vtype ok ok' t : (forall st, ok st = ok' st) -> forall st, fe_ok top sg ok t st = fe_ok top' sg ok' t st.
  Proof using Hrel Hs.
    intros Hok. induction t as [|d bs IH] using dtree_ind'; intros st; cbn [fe_ok]; [apply Hok|].
    destruct (sig_find_dim d st sg) as [[c| |d' al r|d' rs]|]; try reflexivity.
    - pose proof (length_vtype d st) as E. destruct (length_ top d st), (length_ top' d st); simpl in E; try contradiction; [|reflexivity].
      destruct bs as [|b [|]]; try reflexivity. inversion IH as [|? ? Hb _]; subst. apply Hb.
    - generalize 0. induction IH as [|b bs Hb _ IHl]; intros k; [reflexivity|]. rewrite Hb, IHl. reflexivity.
  Qed.
End Types.

Lemma apply_rel (R : val -> val -> Prop) (HRr : forall x, R x x) p : forall s s', struct_rel R s s' -> struct_rel R (apply (p_fix p) s) (apply (p_fix p) s').
Proof.
  induction p as [|[t v] p IH]; intros s s' H; [exact H|]. unfold p_fix. cbn [flat_map fst snd]. rewrite !apply_app. fold (p_fix p). apply IH.
  destruct t; simpl; auto. constructor; [constructor; apply HRr|exact H].
Qed.

(** Traversers over the same structures whose orders have the same types. *)
Definition same_types_tr (t t' : trav) : Prop :=
  tr_struct t = tr_struct t' /\ struct_rel same_vtype (top_struct t) (top_struct t').

Lemma orel_same {A} (R : A -> A -> Prop) x y : orel R x y -> (match x with Some _ => true | None => false end) = (match y with Some _ => true | None => false end).
Proof. destruct x, y; simpl; intros H; try contradiction; reflexivity. Qed.

Lemma leaf_vtype t t' st : same_types_tr t t' -> inner_ok t st && state_ok t st = inner_ok t' st && state_ok t' st.
Proof.
  intros [Hu Hr]. assert (Hr' : struct_rel same_vtype (top_struct (inner t st)) (top_struct (inner t' st))).
  { rewrite !top_inner. apply apply_rel; [intros x; reflexivity|exact Hr]. }
  unfold inner_ok. rewrite (signature_rel same_vtype congruence_same_vtype _ _ Hr').
  destruct (signature (top_struct (inner t' st))) as [sg|] eqn:Es; [|reflexivity]. simpl. unfold state_ok, tr_state.
  change (tr_struct (inner t st)) with (tr_struct t). change (tr_struct (inner t' st)) with (tr_struct t'). rewrite Hu.
  eapply orel_same. apply (state_at_rel same_vtype congruence_same_vtype (fun _ => True) _ _ _ Hr').
  - rewrite (signature_rel same_vtype congruence_same_vtype _ _ Hr'). congruence.
  - intros _ _. exact I.
  - intros d _. split; exact I.
Qed.

(** The traversal compiles. *)
Definition compiles (t : trav) : Prop := exists sg, signature (top_struct t) = Some sg /\
  fe_ok (top_struct t) sg (fun st => inner_ok t st && state_ok t st) (sig_dim_tree sg) [] = true.

Lemma compiles_vtype t t' : same_types_tr t t' -> compiles t -> compiles t'.
Proof.
  intros H (sg & Hs & Ho). pose proof H as [_ Hr]. exists sg. split.
  - rewrite <- (signature_rel same_vtype congruence_same_vtype _ _ Hr). exact Hs.
  - rewrite <- Ho. symmetry. apply fe_ok_vtype; [exact Hr|congruence|]. intros st. apply leaf_vtype, H.
Qed.

Lemma each_compiles t l : for_each t [] = Done l -> compiles t.
Proof.
  unfold for_each, for_sections_with, for_tree. destruct (signature (top_struct t)) as [sg|] eqn:Es; [|discriminate]. cbn [obind sections_tree].
  destruct (fe_ok _ _ _ _ _) eqn:Ef; [|discriminate]. intros _. exists sg. auto.
Qed.

Lemma each_run_conv t sg sts : (forall v u, tr_struct t <> View v u) -> distinct_dims (top_struct t) -> compiles t ->
  signature (top_struct t) = Some sg -> fe_run (top_struct t) sg (sig_dim_tree sg) [] = Done sts ->
  (forall e, In e sts -> state_at (tr_struct t) (top_struct t) e <> None) ->
  exists l, for_each t [] = Done l.
Proof.
  intros Hx Hd (sg' & Hs' & Ho) Hs E Hst. assert (sg' = sg) by congruence. subst sg'.
  unfold for_each, for_sections_with, for_tree. rewrite Hs. cbn [obind sections_tree]. rewrite Ho, E. cbn [out_map out_bind].
  assert (Hsig : signature (top_struct t) <> None) by congruence.
  assert (Hg : forall e, In e sts -> tr_state (inner t e) <> None).
  { intros e Hin Es. destruct (run_tags _ _ _ Hs (distinct_snodup _ _ Hd Hs) E e Hin) as [Hio Hn]. unfold tr_state in Es. rewrite top_inner in Es.
    change (tr_struct (inner t e)) with (tr_struct t) in Es. rewrite state_at_fix in Es; auto.
    2: { intros v u. destruct (tr_struct t); try reflexivity. exfalso. eapply Hx. reflexivity. }
    simpl in Es.
    pose proof (state_at_rel eq congruence_eq (fun _ => True) (tr_struct t) _ _ (struct_rel_refl eq (fun x => eq_refl) (top_struct t))
      Hsig (fun _ _ => I) (rev e) e (same_get_srel _ _ (fun d => conj (get_rev e _ Hn) (get_rev e _ Hn)))) as Hr.
    rewrite Es in Hr. apply (Hst e Hin). destruct (state_at (tr_struct t) (top_struct t) e); [destruct Hr|reflexivity]. }
  clear -Hg. assert (H : exists l, omap tr_state (map (inner t) sts) = Some l).
  { induction sts as [|e sts IH]; [exists []; reflexivity|]. destruct IH as [l Hl]; [intros; apply Hg; right; assumption|].
    simpl. rewrite Hl. destruct (tr_state (inner t e)) as [s|] eqn:Es; [eauto|]. exfalso. apply (Hg e); [left; reflexivity|exact Es]. }
  destruct H as [l ->]. eauto.
Qed.

(** ** Views of the outermost dimension *)

Lemma find_agree q r : forall st st', (forall x, any_accept x r = true -> get (Idx x) st = get (Idx x) st') ->
  sig_find_dim q st r = sig_find_dim q st' r.
Proof.
  induction r as [c| |d al r IH|d rs IH] using sig_ind'; intros st st' H; simpl; auto.
  - destruct (d =? q); [reflexivity|]. apply IH. intros x Hx. apply H. simpl. rewrite Hx. apply orb_true_r.
  - destruct (d =? q); [reflexivity|]. rewrite (H d) by (simpl; rewrite Z.eqb_refl; reflexivity).
    destruct (get (Idx d) st') as [v|]; [|reflexivity]. destruct (vstatic v) as [k|]; [|reflexivity]. rewrite !nthz_map.
    destruct (nthz rs k) as [r|] eqn:Er; [|reflexivity]. simpl. rewrite Forall_forall in IH. apply IH; [eapply nthz_In; eauto|].
    intros x Hx. apply H. simpl. apply orb_true_iff. right. apply existsb_exists. exists r. split; [eapply nthz_In; eauto|exact Hx].
Qed.

Lemma length_guarded s q st : length_ s q st = guard (has_length s q st) (length_ s q st).
Proof.
  unfold guard. destruct (has_length s q st) as [[]|] eqn:E; [reflexivity| |]; apply length_false; congruence.
Qed.

Lemma sig_apply p : forall s s', signature s = signature s' -> signature (apply p s) = signature (apply p s').
Proof.
  induction p as [|l p IH]; intros s s' H; [exact H|]. cbn [apply fold_left]. apply (IH (apply_layer s l) (apply_layer s' l)).
  destruct l; cbn [apply_layer signature]; rewrite H; reflexivity.
Qed.

Lemma tr_state_inner t e : (forall v u, tr_struct t <> View v u) -> signature (top_struct t) <> None -> idx_only e -> NoDup (map fst e) ->
  (tr_state (inner t e) = None <-> state_at (tr_struct t) (top_struct t) e = None).
Proof.
  intros Hx Hsig Hio Hn. unfold tr_state. rewrite top_inner. change (tr_struct (inner t e)) with (tr_struct t). rewrite state_at_fix; auto.
  2: { intros v u. destruct (tr_struct t); try reflexivity. exfalso. eapply Hx. reflexivity. }
  cbn [app].
  pose proof (state_at_rel eq congruence_eq (fun _ => True) (tr_struct t) _ _ (struct_rel_refl eq (fun x => eq_refl) (top_struct t))
    Hsig (fun _ _ => I) (rev e) e (same_get_srel _ _ (fun d => conj (get_rev e _ Hn) (get_rev e _ Hn)))) as Hr.
  destruct (state_at (tr_struct t) (top_struct t) (rev e)), (state_at (tr_struct t) (top_struct t) e); simpl in Hr; try contradiction; split; congruence.
Qed.

Section Top.
  Variables (t : trav) (d : dim) (al : arglen) (r : sig).
  Local Notation S := (top_struct t).
  Local Notation sg := (SFun d al r).
  Hypothesis Hx : forall v u, tr_struct t <> View v u.
  Hypothesis Hs : signature S = Some sg.
  Hypothesis Hn : snodup sg = true.

  Lemma d_fresh : any_accept d r = false.
  Proof using Hn. simpl in Hn. apply andb_true_iff in Hn. destruct Hn as [H _]. apply negb_true_iff in H. exact H. Qed.

  (** The iterations with the given values of the outermost index. *)
  Definition part (idxs : list Z) : outcome (list state) :=
    out_cat (map (fun i => fe_run S sg (sig_dim_tree r) [(Idx d, Dyn i)]) idxs).

  Lemma part_app a b x : part (a ++ b) = Done x <-> exists y z, part a = Done y /\ part b = Done z /\ x = y ++ z.
  Proof using. unfold part. rewrite map_app. apply out_cat_app. Qed.

  Definition matches (e s : state) : Prop := exists s', state_at (tr_struct t) S e = Some s' /\ same_get s' s.

  Record through (v : view) (sub : state -> state) (sg' : sig) : Prop := {
    th_sig : signature (View v S) = Some sg';
    th_nodup : snodup sg' = true;
    th_find : forall q st, q <> d -> sig_find_dim q st sg' = sig_find_dim q st r;
    th_sub : forall st, sub_state v S st = Some (sub st);
    th_len : forall q st, q <> d -> length_ (View v S) q st = length_ S q (sub st);
    th_get : forall q st, q <> d -> get (Idx q) (sub st) = get (Idx q) st;
    th_with : forall q x st, q <> d -> same_get (sub (with_ [(Idx q, x)] st)) (with_ [(Idx q, x)] (sub st)) }.

  Lemma same_get_trans a b c : same_get a b -> same_get b c -> same_get a c.
  Proof using. intros H1 H2 q. destruct (H1 q), (H2 q). split; congruence. Qed.
  Lemma same_get_sym a b : same_get a b -> same_get b a.
  Proof using. intros H q. destruct (H q). auto. Qed.
  Lemma same_get_with it a b : same_get a b -> same_get (with_ it a) (with_ it b).
  Proof using. intros H q. destruct (H q) as [H1 H2]. rewrite !get_with, H1, H2. auto. Qed.

  Lemma through_run v sub sg' st st' : through v sub sg' -> same_get (sub st) st' ->
    out_rel (Forall2 (fun e e' => same_get (sub e) e')) (fe_run (View v S) sg' (sig_dim_tree r) st) (fe_run S sg (sig_dim_tree r) st').
  Proof using Hs Hn.
    intros T H. assert (Hq : forall q, any_accept q r = true -> q <> d) by (intros q Hq Ed; rewrite Ed, d_fresh in Hq; discriminate).
    refine (run_sim (View v S) S sg' sg (fun e e' => same_get (sub e) e') (fun q => any_accept q r = true) _ _ _ _ st st' _ H).
    - intros q e e' Hqr He. rewrite (th_find _ _ _ T) by auto. simpl. destruct (Z.eqb_spec d q) as [Ed|]; [exfalso; apply (Hq q Hqr); symmetry; exact Ed|].
      apply find_agree. intros x Hxr. destruct (He x) as [E _]. rewrite <- E. symmetry. apply (th_get _ _ _ T). auto.
    - intros q e e' Hqr He. rewrite (th_len _ _ _ T) by auto. apply length_same_get; [congruence|exact He].
    - intros q x e e' Hqr He. eapply same_get_trans; [apply (th_with _ _ _ T); auto|]. apply same_get_with, He.
    - intros q Hqt. rewrite tree_contains in Hqt. exact Hqt.
  Qed.

  (** [v] leaves the values [idxs] of the outermost index, in this order. *)
  Definition restricts (v : view) (idxs : list Z) : Prop := exists sub sg', through v sub sg' /\
    out_rel (Forall2 (fun e e' => same_get (sub e) e')) (fe_run (View v S) sg' (sig_dim_tree sg') []) (part idxs).

  Lemma matches_sub v sub sg' e e' s : through v sub sg' -> same_get (sub e) e' ->
    (exists s', state_at (tr_struct t) (View v S) e = Some s' /\ same_get s' s) <-> matches e' s.
  Proof using Hx Hs.
    intros T He. rewrite state_at_view.
    2: { destruct (tr_struct t); try reflexivity. exfalso. eapply Hx. reflexivity. }
    rewrite (th_sub _ _ _ T). cbn [obind]. unfold matches.
    assert (Hsig : signature S <> None) by congruence.
    pose proof (state_at_rel eq congruence_eq (fun _ => True) (tr_struct t) _ _ (struct_rel_refl eq (fun x => eq_refl) S) Hsig (fun _ _ => I) _ _
      (same_get_srel _ _ He)) as Hr.
    destruct (state_at (tr_struct t) S (sub e)) as [a|], (state_at (tr_struct t) S e') as [b|]; simpl in Hr; try contradiction.
    - apply srel_same_get in Hr. split; intros (s' & E & H); injection E as <-; eexists; (split; [reflexivity|]).
      + eapply same_get_trans; [apply same_get_sym, Hr|exact H].
      + eapply same_get_trans; [exact Hr|exact H].
    - split; intros (s' & E & _); discriminate.
  Qed.

  Lemma restrict_each v idxs l : restricts v idxs -> for_each (order t [LView v]) [] = Done l ->
    exists sts, part idxs = Done sts /\ Forall2 matches sts l.
  Proof using Hx Hs Hn.
    intros (sub & sg' & T & Hr) H. assert (Et : top_struct (order t [LView v]) = View v S) by (unfold top_struct, order; cbn [tr_order tr_struct]; apply apply_app).
    destruct (each_run (order t [LView v]) l Hx) as (sg1 & sts & Es & E & _ & F); [|exact H|].
    - unfold distinct_dims. rewrite Et, (th_sig _ _ _ T). exact (th_nodup _ _ _ T).
    - rewrite Et in *. rewrite (th_sig _ _ _ T) in Es. injection Es as <-. rewrite E in Hr.
      destruct (part idxs) as [| |sts']; simpl in Hr; try contradiction. exists sts'. split; [reflexivity|].
      clear -F Hr T Hs Hx. revert l F. induction Hr as [|e e' sts sts' He _ IH]; intros l F; inversion F as [|? s ? l' H1 H2]; subst; constructor; [|auto].
      apply (matches_sub v sub sg' e e' s T He). exact H1.
  Qed.

  Lemma restrict_conv v idxs sts : restricts v idxs -> compiles (order t [LView v]) -> part idxs = Done sts ->
    (forall e, In e sts -> state_at (tr_struct t) S e <> None) -> exists l, for_each (order t [LView v]) [] = Done l.
  Proof using Hx Hs Hn.
    intros (sub & sg' & T & Hr) Hc Hp Hst. assert (Et : top_struct (order t [LView v]) = View v S) by (unfold top_struct, order; cbn [tr_order tr_struct]; apply apply_app).
    rewrite Hp in Hr. destruct (fe_run (View v S) sg' (sig_dim_tree sg') []) as [| |sts'] eqn:E; simpl in Hr; try contradiction.
    apply (each_run_conv (order t [LView v]) sg' sts'); auto.
    - unfold distinct_dims. rewrite Et, (th_sig _ _ _ T). exact (th_nodup _ _ _ T).
    - rewrite Et. apply (th_sig _ _ _ T).
    - rewrite Et. exact E.
    - rewrite Et. intros e Hin. destruct (Forall2_in1 _ _ _ _ Hr Hin) as (e' & Hin' & He). specialize (Hst e' Hin').
      destruct (state_at (tr_struct t) S e') as [s|] eqn:Es; [|congruence].
      destruct (proj2 (matches_sub v sub sg' e e' s T He)) as (s' & E' & _).
      + exists s. split; [exact Es|]. intros q. auto.
      + change (tr_struct (order t [LView v])) with (tr_struct t). congruence.
  Qed.

  (** *** The views in question *)

  Definition moved_sub (g : val -> val) (st : state) : state :=
    match get (Idx d) st with Some i => with_ [(Idx d, g i)] st | None => st end.

  Lemma moved_get g q st : get (Idx q) (moved_sub g st) = if q =? d then option_map g (get (Idx d) st) else get (Idx q) st.
  Proof using.
    unfold moved_sub. destruct (get (Idx d) st) as [i|] eqn:E.
    - rewrite get_with. simpl. destruct (Z.eqb_spec q d); reflexivity.
    - destruct (Z.eqb_spec q d) as [->|]; [exact E|reflexivity].
  Qed.
  Lemma moved_len g q st : get (Len q) (moved_sub g st) = get (Len q) st.
  Proof using. unfold moved_sub. destruct (get (Idx d) st); [rewrite get_with|]; reflexivity. Qed.

  Lemma moved_with g q x st : q <> d -> same_get (moved_sub g (with_ [(Idx q, x)] st)) (with_ [(Idx q, x)] (moved_sub g st)).
  Proof using.
    intros Hq p. rewrite !moved_get, !moved_len, !get_with, !moved_get, !moved_len. cbn [get tag_eqb].
    destruct (Z.eqb_spec d q) as [E|_]; [congruence|]. destruct (Z.eqb_spec p q), (Z.eqb_spec p d); split; try reflexivity; congruence.
  Qed.

  Lemma cat_sim v sub sg' f g n : through v sub sg' -> (forall i, 0 <= i < n -> same_get (sub [(Idx d, Dyn i)]) [(Idx d, f i)]) ->
    (forall i, 0 <= i < n -> f i = Dyn (g i)) ->
    out_rel (Forall2 (fun e e' => same_get (sub e) e'))
      (out_cat (map (fun i => fe_run (View v S) sg' (sig_dim_tree r) (with_ [(Idx d, Dyn i)] [])) (zseq n)))
      (part (map g (zseq n))).
  Proof using Hs Hn.
    intros T H Hg. unfold part. rewrite out_cat_map. apply out_cat_rel. intros i Hi. apply TravFacts.zseq_In in Hi.
    apply (through_run v sub sg' _ _ T). cbn [with_ remove filter map app]. rewrite <- Hg by exact Hi. apply H, Hi.
  Qed.

  Lemma moved_one g i : same_get (moved_sub g [(Idx d, Dyn i)]) [(Idx d, g (Dyn i))].
  Proof using.
    intros q. rewrite moved_get, moved_len. cbn [get tag_eqb]. rewrite Z.eqb_refl. simpl. destruct (q =? d); auto.
  Qed.

  (** A slice leaves an interval. *)
  Lemma through_slice b n : through (VSlice d (Dyn b) (Dyn n)) (moved_sub (fun i => vadd i (Dyn b))) (SFun d ADyn r).
  Proof using Hs Hn.
    split.
    - cbn [signature]. rewrite Hs. cbn [obind view_sig sreplace mem existsb]. rewrite Z.eqb_refl. reflexivity.
    - exact Hn.
    - intros q st Hq. simpl. destruct (Z.eqb_spec d q) as [E|_]; [congruence|reflexivity].
    - intros st. reflexivity.
    - intros q st Hq. unfold length_. cbn [lenops snd]. cbn [view_has_length view_length view_sub_state obind].
      apply Z.eqb_neq in Hq. rewrite Hq. symmetry. apply (length_guarded S q (moved_sub (fun i => vadd i (Dyn b)) st)).
    - intros q st Hq. rewrite moved_get. apply Z.eqb_neq in Hq. rewrite Hq. reflexivity.
    - intros q x st Hq. apply moved_with, Hq.
  Qed.

  Lemma has_top : length_ S d [] <> None -> has_length S d [] = Some true.
  Proof using.
    intros Hl. destruct (has_length S d []) as [[]|] eqn:E; [reflexivity| |]; exfalso; apply Hl, length_false; congruence.
  Qed.

  Lemma slice_length b n : length_ S d [] <> None -> length_ (View (VSlice d (Dyn b) (Dyn n)) S) d [] = Some (Dyn n).
  Proof using.
    intros Hl. apply has_top in Hl. unfold length_. cbn [lenops snd]. cbn [view_has_length view_length view_sub_state obind get].
    rewrite Z.eqb_refl. fold (has_length S). rewrite Hl. reflexivity.
  Qed.

  Lemma restrict_slice b n : length_ S d [] <> None -> 0 <= n < W ->
    restricts (VSlice d (Dyn b) (Dyn n)) (map (fun k => u64 (k + b)) (zseq n)).
  Proof using Hs Hn.
    intros Hl Hb. pose proof (through_slice b n) as T. eexists. eexists. split; [exact T|].
    cbn [sig_dim_tree fe_run sig_find_dim]. rewrite Z.eqb_refl, (slice_length b n Hl). cbn [vz]. rewrite u64_small by exact Hb.
    apply (cat_sim _ _ _ (fun i => vadd (Dyn i) (Dyn b)) (fun k => u64 (k + b)) n T).
    - intros i _. apply (moved_one (fun i => vadd i (Dyn b))).
    - intros i Hi. cbv beta. cbn [vadd is_sta]. unfold dyn2. cbn [vz]. rewrite u64_add_l, u64_add_r. reflexivity.
  Qed.

  (** A step leaves every [m]-th index. *)
  Lemma through_step b m : through (VStep d (Dyn b) (Dyn m)) (moved_sub (fun i => vadd (vmul i (Dyn m)) (Dyn b))) (SFun d ADyn r).
  Proof using Hs Hn.
    set (g := fun i => vadd (vmul i (Dyn m)) (Dyn b)). split.
    - cbn [signature]. rewrite Hs. cbn [obind view_sig sreplace mem existsb]. rewrite Z.eqb_refl. reflexivity.
    - exact Hn.
    - intros q st Hq. simpl. destruct (Z.eqb_spec d q) as [E|_]; [congruence|reflexivity].
    - intros st. reflexivity.
    - intros q st Hq. unfold length_. cbn [lenops snd]. cbn [view_has_length view_length view_sub_state obind].
      apply Z.eqb_neq in Hq. rewrite Hq. symmetry. apply (length_guarded S q (moved_sub g st)).
    - intros q st Hq. rewrite moved_get. apply Z.eqb_neq in Hq. rewrite Hq. reflexivity.
    - intros q x st Hq. apply moved_with, Hq.
  Qed.

  Lemma step_length b m len : length_ S d [] = Some len ->
    length_ (View (VStep d (Dyn b) (Dyn m)) S) d [] = Some (vdiv (vsub (vsub (vadd len (Dyn m)) (Dyn b)) (Sta 1)) (Dyn m)).
  Proof using.
    intros Hl. assert (Hh : has_length S d [] = Some true) by (apply has_top; rewrite Hl; discriminate).
    unfold length_. cbn [lenops snd]. cbn [view_has_length view_length view_sub_state obind get]. rewrite Z.eqb_refl.
    fold (has_length S). fold (length_ S). rewrite Hl, Hh. reflexivity.
  Qed.

  Lemma restrict_step b m len n : length_ S d [] = Some len -> vz len = Some n ->
    0 < m < W -> 0 <= b < m -> n + m <= W ->
    restricts (VStep d (Dyn b) (Dyn m)) (map (fun k => k * m + b) (zseq ((n + m - b - 1) / m))).
  Proof using Hs Hn.
    intros Hl Hln Hm Hb Hw. pose proof (vz_range _ _ Hln) as Hnr. pose proof (through_step b m) as T. eexists. eexists. split; [exact T|].
    cbn [sig_dim_tree fe_run sig_find_dim]. rewrite Z.eqb_refl, (step_length b m len Hl).
    assert (Hq : 0 <= (n + m - b - 1) / m <= n) by (split; [apply Z.div_pos; lia|apply Z.lt_succ_r, Z.div_lt_upper_bound; nia]).
    assert (Ex : vz (vdiv (vsub (vsub (vadd len (Dyn m)) (Dyn b)) (Sta 1)) (Dyn m)) = Some ((n + m - b - 1) / m)).
    { assert (E1 : vz (vadd len (Dyn m)) = Some (u64 (n + m))) by (rewrite vz_vadd, Hln; cbn [vz]; rewrite u64_add_r; reflexivity).
      assert (E2 : vz (vsub (vadd len (Dyn m)) (Dyn b)) = Some (u64 (n + m - b))).
      { rewrite vz_vsub, E1. cbn [vz]. f_equal. rewrite u64_sub_l, u64_sub_r. reflexivity. }
      assert (E3 : vz (vsub (vsub (vadd len (Dyn m)) (Dyn b)) (Sta 1)) = Some (n + m - b - 1)).
      { rewrite vz_vsub, E2. cbn [vz]. f_equal. rewrite u64_sub_l, u64_sub_r. apply u64_small. lia. }
      rewrite (vz_vdiv _ (Dyn m) _ m E3); [reflexivity|cbn [vz]; f_equal; apply u64_small; lia|lia]. }
    rewrite Ex.
    apply (cat_sim _ _ _ (fun i => vadd (vmul (Dyn i) (Dyn m)) (Dyn b)) (fun k => k * m + b) _ T).
    - intros i _. apply (moved_one (fun i => vadd (vmul i (Dyn m)) (Dyn b))).
    - intros i Hi. cbv beta. assert (i * m + b < n + m) by (assert ((n + m - b - 1) / m * m <= n + m - b - 1) by (rewrite Z.mul_comm; apply Z.mul_div_le; lia); nia).
      assert (0 <= i * m) by (apply Z.mul_nonneg_nonneg; lia).
      assert (Em : vmul (Dyn i) (Dyn m) = Dyn (i * m)).
      { cbn [vmul is_sta orb]. unfold dyn2. cbn [vz]. rewrite (u64_small i), (u64_small m), u64_small by lia. reflexivity. }
      rewrite Em. cbn [vadd is_sta]. unfold dyn2. cbn [vz]. rewrite (u64_small (i * m)), (u64_small b), u64_small by lia. reflexivity.
  Qed.

  (** Fixing leaves one index. *)
  Definition fix_sub (i : val) (st : state) : state := with_ [(Idx d, i)] (remove [Len d] st).
  Lemma through_fix i : through (VFix d (Dyn i)) (fix_sub (Dyn i)) r.
  Proof using Hs Hn.
    split.
    - cbn [signature]. rewrite Hs. cbn [obind view_sig sreplace mem existsb]. rewrite Z.eqb_refl. reflexivity.
    - simpl in Hn. apply andb_true_iff in Hn. apply Hn.
    - reflexivity.
    - reflexivity.
    - intros q st Hq. unfold length_. cbn [lenops snd]. cbn [view_has_length view_length view_sub_state obind].
      apply Z.eqb_neq in Hq. rewrite ?Hq. fold (fix_sub (Dyn i) st). symmetry. apply (length_guarded S q (fix_sub (Dyn i) st)).
    - intros q st Hq. unfold fix_sub. rewrite get_with, get_remove. simpl. apply Z.eqb_neq in Hq. rewrite Hq. reflexivity.
    - intros q x st Hq p. unfold fix_sub. repeat rewrite ?get_with, ?get_remove. cbn [get tag_eqb tag_mem existsb].
      destruct (Z.eqb_spec p d), (Z.eqb_spec p q); simpl; split; try reflexivity; congruence.
  Qed.

  Lemma restrict_fix i : restricts (VFix d (Dyn i)) [i].
  Proof using Hs Hn.
    pose proof (through_fix i) as T. exists (fix_sub (Dyn i)), r. split; [exact T|]. unfold part. cbn [map out_cat].
    pose proof (through_run _ _ r [] [(Idx d, Dyn i)] T) as H.
    assert (H0 : same_get (fix_sub (Dyn i) []) [(Idx d, Dyn i)]) by (intros q; unfold fix_sub; rewrite !get_with; split; cbn; destruct (q =? d); reflexivity).
    specialize (H H0). destruct (fe_run (View _ S) r (sig_dim_tree r) []), (fe_run S sg (sig_dim_tree r) [(Idx d, Dyn i)]); simpl in *; try tauto.
    rewrite app_nil_r. exact H.
  Qed.

  (** The whole dimension. *)
  Lemma whole_part len n : length_ S d [] = Some len -> vz len = Some n -> fe_run S sg (sig_dim_tree sg) [] = part (zseq n).
  Proof using. intros Hl Hn'. cbn [sig_dim_tree fe_run sig_find_dim]. rewrite Z.eqb_refl, Hl, Hn'. reflexivity. Qed.

  Lemma whole_each len n l : length_ S d [] = Some len -> vz len = Some n -> for_each t [] = Done l ->
    exists sts, part (zseq n) = Done sts /\ Forall2 matches sts l.
  Proof using Hx Hs Hn.
    intros Hl Hn' H. destruct (each_run t l Hx) as (sg1 & sts & Es & E & _ & F); [|exact H|].
    - unfold distinct_dims. rewrite Hs. exact Hn.
    - assert (sg1 = sg) by congruence. subst sg1. exists sts. split; [|exact F]. rewrite <- (whole_part len n Hl Hn'). exact E.
  Qed.

  Lemma matches_same e s s' : matches e s -> matches e s' -> same_get s s'.
  Proof using.
    intros (a & Ea & Ha) (b & Eb & Hb). assert (a = b) by congruence. subst b.
    eapply same_get_trans; [apply same_get_sym, Ha|exact Hb].
  Qed.
  Lemma matches_all sts l l' : Forall2 matches sts l -> Forall2 matches sts l' -> Forall2 same_get l l'.
  Proof using.
    intros H. revert l'. induction H as [|e s sts l He _ IH]; intros l' F; inversion F as [|? s' ? l2 H1 H2]; subst; constructor; [|auto].
    eapply matches_same; eauto.
  Qed.

  (** *** Compiling *)

  Local Notation rep e0 := ((Idx d, Dyn 0) :: e0).
  Local Notation tv v := (order t [LView v]).

  Lemma top_tv v : top_struct (tv v) = View v S.
  Proof using. unfold top_struct, order; cbn [tr_order tr_struct]; apply apply_app. Qed.

  Lemma ok_through v sub sg' pre : through v sub sg' -> pre = [] \/ pre = [(Idx d, Dyn 0)] ->
    signature (apply (p_fix pre) (View v S)) = Some r ->
    (forall e0, get (Idx d) e0 = None -> (forall q, get (Len q) e0 = None) -> srel same_vtype (fun _ => True) (sub (pre ++ e0)) (rep e0)) ->
    forall tr e0, idx_only e0 -> NoDup (map fst (rep e0)) -> tnodup tr = true -> TravFacts.fresh tr (rep e0) ->
    (forall q, dtree_contains q tr = true -> any_accept q r = true) ->
    fe_ok S sg (fun st => inner_ok t st && state_ok t st) tr (rep e0) = true ->
    fe_ok (View v S) sg' (fun st => inner_ok (tv v) st && state_ok (tv v) st) tr (pre ++ e0) = true.
  Proof using Hx Hs Hn.
    intros T Hpre Hsp Hrel tr. assert (Hsig : signature S <> None) by congruence.
    assert (Hr0 : forall e0, idx_only e0 -> NoDup (map fst (rep e0)) -> srel same_vtype (fun _ => True) (sub (pre ++ e0)) (rep e0)).
    { intros e0 [ds Hds] Hnd. apply Hrel; [|eapply map_fst_Idx; eauto]. destruct (get (Idx d) e0) eqn:E; [|reflexivity]. exfalso.
      simpl in Hnd. inversion Hnd as [|? ? Hni _]; subst. apply Hni. apply get_In in E. eapply in_fst; eauto. }
    induction tr as [|q bs IH] using dtree_ind'; intros e0 Hio Hnd Htn Hfr Hq H.
    - simpl in *. apply andb_true_iff in H. destruct H as [H1 H2]. apply andb_true_iff. split.
      + unfold inner_ok in *. rewrite top_inner in *. rewrite top_tv.
        replace (signature (apply (p_fix (pre ++ e0)) (View v S))) with (signature (apply (p_fix (rep e0)) S)); [exact H1|].
        replace (p_fix (pre ++ e0)) with (p_fix pre ++ p_fix e0) by (unfold p_fix; rewrite flat_map_app; reflexivity).
        rewrite apply_app. change (apply (p_fix (rep e0)) S) with (apply (p_fix e0) (View (VFix d (Dyn 0)) S)). apply sig_apply.
        rewrite Hsp. cbn [signature]. rewrite Hs. cbn [view_sig sreplace mem existsb]. rewrite Z.eqb_refl. reflexivity.
      + unfold state_ok in *. destruct (tr_state (inner (tv v) (pre ++ e0))) as [s|] eqn:E; [reflexivity|].
        assert (Hio1 : idx_only (rep e0)) by (destruct Hio as [ds Hds]; exists (d :: ds); simpl; rewrite Hds; reflexivity).
        assert (Hio2 : idx_only (pre ++ e0)) by (destruct Hpre as [->| ->]; [exact Hio|exact Hio1]).
        assert (Hnd2 : NoDup (map fst (pre ++ e0))) by (destruct Hpre as [->| ->]; [simpl in *; inversion Hnd; assumption|exact Hnd]).
        apply (tr_state_inner (tv v)) in E; auto.
        2: { rewrite top_tv, (th_sig _ _ _ T). discriminate. }
        rewrite top_tv in E. change (tr_struct (tv v)) with (tr_struct t) in E. rewrite state_at_view in E.
        2: { destruct (tr_struct t); try reflexivity. exfalso. eapply Hx. reflexivity. }
        rewrite (th_sub _ _ _ T) in E. cbn [obind] in E.
        destruct (tr_state (inner t (rep e0))) as [s|] eqn:E1; [|discriminate]. exfalso.
        pose proof (state_at_rel same_vtype congruence_same_vtype (fun _ => True) (tr_struct t) _ _ (struct_rel_refl same_vtype (fun x => eq_refl) S)
          Hsig (fun _ _ => I) _ _ (Hr0 e0 Hio Hnd)) as Hr. rewrite E in Hr.
        destruct (state_at (tr_struct t) S (rep e0)) as [s'|] eqn:E2; [destruct Hr|].
        apply (tr_state_inner t) in E2; auto. congruence.
    - assert (Hqr : any_accept q r = true) by (apply Hq; simpl; rewrite Z.eqb_refl; reflexivity).
      assert (Hqd : q <> d) by (intros Ed; rewrite Ed, d_fresh in Hqr; discriminate).
      assert (Hg : get (Idx q) (rep e0) = None) by (apply Hfr; simpl; rewrite Z.eqb_refl; reflexivity).
      assert (Hgs : forall x, x <> d -> get (Idx x) (pre ++ e0) = get (Idx x) (rep e0)).
      { intros x Hxd. destruct Hpre as [->| ->]; [|reflexivity]. simpl. destruct (Z.eqb_spec x d); [contradiction|reflexivity]. }
      assert (Hg' : get (Idx q) (pre ++ e0) = None) by (rewrite Hgs; assumption).
      assert (Hstep : forall b x, In b bs -> fe_ok S sg (fun st => inner_ok t st && state_ok t st) b (with_ [(Idx q, x)] (rep e0)) = true ->
        fe_ok (View v S) sg' (fun st => inner_ok (tv v) st && state_ok (tv v) st) b (with_ [(Idx q, x)] (pre ++ e0)) = true).
      { intros b x Hb Hk. rewrite with_fresh in Hk |- * by assumption. rewrite <- app_assoc. rewrite Forall_forall in IH.
        destruct (fresh_sub q bs b (rep e0) x Hfr Htn Hb) as (_ & Htb & Hfb).
        apply (IH b Hb (e0 ++ [(Idx q, x)])); auto.
        - destruct Hio as [ds Hds]. exists (ds ++ [q]). rewrite !map_app, Hds. reflexivity.
        - change (NoDup (map fst (rep e0 ++ [(Idx q, x)]))). rewrite map_app. cbn [map fst]. apply NoDup_app_intro; [exact Hnd|repeat constructor; intros []|].
          intros y Hy [E|[]]. rewrite <- E in Hy. change (In (Idx q) (map fst (rep e0))) in Hy. apply fst_in in Hy. destruct Hy as [w Hw]. apply In_get in Hw. congruence.
        - intros y Hy. apply Hq. simpl. apply orb_true_iff. right. apply existsb_exists. eauto. }
      cbn [fe_ok] in *. rewrite (th_find _ _ _ T) by exact Hqd.
      replace (sig_find_dim q (pre ++ e0) r) with (sig_find_dim q (rep e0) sg).
      2: { cbn [sig_find_dim]. destruct (Z.eqb_spec d q) as [E|_]; [congruence|]. apply find_agree. intros x Hxr. symmetry. apply Hgs.
           intros Ed. rewrite Ed, d_fresh in Hxr. discriminate. }
      destruct (sig_find_dim q (rep e0) sg) as [[c| |d' al' r'|d' rs]|]; try discriminate.
      + rewrite (th_len _ _ _ T) by exact Hqd.
        assert (El : orel same_vtype (length_ S q (sub (pre ++ e0))) (length_ S q (rep e0))).
        { apply (lenops_rel same_vtype congruence_same_vtype (fun _ => True) _ _ (struct_rel_refl same_vtype (fun x => eq_refl) S) Hsig (fun _ _ => I)); [exact I|].
          apply Hr0; assumption. }
        destruct (length_ S q (rep e0)) as [x|]; [|discriminate]. destruct (length_ S q (sub (pre ++ e0))); [|destruct El].
        destruct bs as [|b [|]]; try discriminate. apply Hstep; [left; reflexivity|exact H].
      + revert H Hstep. generalize (rep e0) (pre ++ e0). intros s1 s2 H Hstep. revert H. generalize 0 as k. assert (Hsubl : forall b, In b bs -> In b bs) by auto. revert Hsubl. generalize bs at 1 3 4 as l. clear IH Htn Hfr Hq.
        induction l as [|b l IHl]; intros Hl k H; [reflexivity|]. apply andb_true_iff in H. destruct H as [H1 H2].
        rewrite Hstep; [|apply Hl; left; reflexivity|exact H1]. apply IHl; [intros; apply Hl; right; assumption|exact H2].
  Qed.

  Lemma rep_vtype g e0 : (forall i, vstatic i = None -> vstatic (g i) = None) -> get (Idx d) e0 = None ->
    srel same_vtype (fun _ => True) (moved_sub g ([(Idx d, Dyn 0)] ++ e0)) (rep e0).
  Proof using.
    intros Hg Hd q _. rewrite moved_get, moved_len. cbn [app get tag_eqb]. rewrite Z.eqb_refl. destruct (q =? d); simpl.
    - split; [apply Hg; reflexivity|]. destruct (get (Len q) e0); simpl; auto. reflexivity.
    - split; [destruct (get (Idx q) e0)|destruct (get (Len q) e0)]; simpl; auto; reflexivity.
  Qed.

  Lemma compiles_inv : compiles t -> length_ S d [] <> None /\
    fe_ok S sg (fun st => inner_ok t st && state_ok t st) (sig_dim_tree r) (rep []) = true.
  Proof using Hs.
    intros (sg1 & Hs1 & H). assert (sg1 = sg) by congruence. subst sg1. cbn [sig_dim_tree fe_ok sig_find_dim] in H.
    rewrite Z.eqb_refl in H. destruct (length_ S d []); [|discriminate]. split; [discriminate|exact H].
  Qed.

  Lemma moved_compiles v g al' : through v (moved_sub g) (SFun d al' r) -> (forall i, vstatic i = None -> vstatic (g i) = None) ->
    length_ (View v S) d [] <> None -> compiles t -> compiles (tv v).
  Proof using Hx Hs Hn.
    intros T Hg Hl Hc. apply compiles_inv in Hc. destruct Hc as [_ Hc]. exists (SFun d al' r). rewrite top_tv. split; [apply (th_sig _ _ _ T)|].
    cbn [sig_dim_tree fe_ok sig_find_dim]. rewrite Z.eqb_refl. destruct (length_ (View v S) d []); [|congruence].
    change (with_ [(Idx d, Dyn 0)] []) with ([(Idx d, Dyn 0)] ++ []).
    apply (ok_through v _ _ [(Idx d, Dyn 0)] T); auto.
    - cbn [p_fix flat_map fst snd app apply fold_left apply_layer]. change (signature (View (VFix d (Dyn 0)) (View v S))) with
        (match signature (View v S) with Some s => view_sig (VFix d (Dyn 0)) s | None => None end).
      rewrite (th_sig _ _ _ T). cbn [view_sig sreplace mem existsb]. rewrite Z.eqb_refl. reflexivity.
    - intros e0 He _. apply rep_vtype; assumption.
    - exists []. reflexivity.
    - simpl. constructor; [intros []|constructor].
    - apply tree_tnodup. simpl in Hn. apply andb_true_iff in Hn. apply Hn.
    - intros q Hq. rewrite tree_contains in Hq. simpl. destruct (Z.eqb_spec q d) as [E|]; [rewrite E, d_fresh in Hq; discriminate|reflexivity].
    - intros q Hq. rewrite tree_contains in Hq. exact Hq.
  Qed.

  Lemma compiles_slice b n : compiles t -> compiles (tv (VSlice d (Dyn b) (Dyn n))).
  Proof using Hx Hs Hn.
    intros Hc. apply (moved_compiles _ _ _ (through_slice b n)); auto.
    - intros i Hi. destruct i; try discriminate; cbn [vadd is_sta]; apply vstatic_dyn2.
    - rewrite slice_length; [discriminate|]. apply compiles_inv, Hc.
  Qed.

  Lemma compiles_step b m : compiles t -> compiles (tv (VStep d (Dyn b) (Dyn m))).
  Proof using Hx Hs Hn.
    intros Hc. apply (moved_compiles _ _ _ (through_step b m)); auto.
    - intros i Hi. assert (E : vmul i (Dyn m) = dyn2 Z.mul i (Dyn m)) by (destruct i; try discriminate; reflexivity). rewrite E.
      pose proof (vstatic_dyn2 Z.mul i (Dyn m)) as H. destruct (dyn2 Z.mul i (Dyn m)); try discriminate; cbn [vadd is_sta]; apply vstatic_dyn2.
    - apply compiles_inv in Hc. destruct Hc as [Hc _]. destruct (length_ S d []) as [len|] eqn:E; [|congruence].
      rewrite (step_length b m len E). discriminate.
  Qed.

  Lemma compiles_fix i : compiles t -> compiles (tv (VFix d (Dyn i))).
  Proof using Hx Hs Hn.
    intros Hc. apply compiles_inv in Hc. destruct Hc as [_ Hc]. pose proof (through_fix i) as T. exists r. rewrite top_tv. split; [apply (th_sig _ _ _ T)|].
    apply (ok_through _ _ _ [] T) with (e0 := []); auto.
    - apply (th_sig _ _ _ T).
    - intros e0 He Hlen q _. cbn [app]. unfold fix_sub. rewrite !get_with, !get_remove. cbn [get tag_eqb tag_mem existsb].
      rewrite Hlen. destruct (q =? d); simpl; (split; [|exact I]); [reflexivity|]. destruct (get (Idx q) e0); simpl; auto. reflexivity.
    - exists []. reflexivity.
    - simpl. constructor; [intros []|constructor].
    - apply tree_tnodup. simpl in Hn. apply andb_true_iff in Hn. apply Hn.
    - intros q Hq. rewrite tree_contains in Hq. simpl. destruct (Z.eqb_spec q d) as [E|]; [rewrite E, d_fresh in Hq; discriminate|reflexivity].
    - intros q Hq. rewrite tree_contains in Hq. exact Hq.
  Qed.
End Top.
