(** * What a traversal visits *)

From Coq Require Import Sorted.
From Verif Require Export TravSig.

(** ** The states passed to the lambda *)

Lemma state_at_view x v t st : same_type x (View v t) = false ->
  state_at x (View v t) st = do st' <- sub_state v t st; state_at x t st'.
Proof.
  intros H. cbn [state_at has_state_at]. rewrite H. destruct (sub_state v t st) as [st'|]; [|reflexivity]. simpl.
  destruct t; cbn [state_at]; destruct (has_state_at x _ st') as [[|]|]; reflexivity.
Qed.

Lemma state_at_self x st st' : (forall v t, x <> View v t) -> state_at x x st = Some st' -> st' = st.
Proof.
  intros Hx E. assert (H : same_type x x = true \/ state_at x x st = None).
  { destruct (same_type x x) eqn:Es; [auto|]. right.
    destruct x as [c|d ts|d t|v t|ts]; [| | |exfalso; apply (Hx v t); reflexivity|];
      cbn [state_at]; rewrite Es; destruct (has_state_at _ _ _) as [[|]|]; reflexivity. }
  destruct H as [H|H]; [|congruence]. destruct x; cbn [state_at] in E; rewrite H in E;
    destruct (has_state_at _ _ _) as [[|]|]; simpl in E; congruence.
Qed.

Lemma apply_app p q t : apply (p ++ q) t = apply q (apply p t).
Proof. apply fold_left_app. Qed.

Lemma top_inner t st : top_struct (inner t st) = apply (p_fix st) (top_struct t).
Proof. unfold top_struct, inner, order. simpl. apply apply_app. Qed.

Lemma get_In t e v : get t e = Some v -> In (t, v) e.
Proof.
  induction e as [|[t0 v0] e IH]; cbn [get]; [discriminate|]. destruct (tag_eqb_spec t t0) as [->|]; intros E; [inv E; left; reflexivity|right; auto].
Qed.
Lemma In_get t e v : In (t, v) e -> get t e <> None.
Proof.
  induction e as [|[t0 v0] e IH]; cbn [get In]; [intros []|]. destruct (tag_eqb_spec t t0) as [->|Hne]; [congruence|].
  intros [E|H]; [inv E; congruence|auto].
Qed.

Definition idx_only (e : state) : Prop := exists ds, map fst e = map Idx ds.

Lemma idx_only_cons x e : idx_only (x :: e) -> (exists d, fst x = Idx d) /\ idx_only e.
Proof. intros [[|d ds] E]; simpl in E; inv E. split; [|exists ds; assumption]. eauto. Qed.

Lemma get_rev e t : NoDup (map fst e) -> get t (rev e) = get t e.
Proof.
  intros Hn. destruct (get t e) as [v|] eqn:E.
  - apply get_idx_in; [rewrite map_rev; apply NoDup_rev, Hn|]. rewrite <- in_rev. apply get_In, E.
  - destruct (get t (rev e)) as [v|] eqn:Er; [|reflexivity]. apply get_In in Er. rewrite <- in_rev in Er.
    apply (get_idx_in e Hn) in Er. congruence.
Qed.

Lemma state_at_fix x e : forall t st, (forall v t, same_type x (View v t) = false) -> idx_only e -> NoDup (map fst e) ->
  (forall d, get (Len d) st = None) -> (forall y, In y e -> get (fst y) st = None) ->
  state_at x (apply (p_fix e) t) st = state_at x t (st ++ rev e).
Proof.
  induction e as [|[t0 v] e IH]; intros t st Hx Hi Hn Hl Hf.
  - simpl. rewrite app_nil_r. reflexivity.
  - destruct (idx_only_cons _ _ Hi) as [[d Ed] Hi']. simpl in Ed. subst t0. simpl in Hn. apply NoDup_cons_iff in Hn. destruct Hn as [Hd Hn].
    unfold p_fix. cbn [flat_map fst snd]. rewrite apply_app. fold (p_fix e). rewrite IH; auto.
    2: intros y Hy; apply Hf; right; exact Hy.
    cbn [apply fold_left apply_layer]. rewrite state_at_view by apply Hx. unfold sub_state. cbn [view_sub_state obind].
    replace (st ++ rev ((Idx d, v) :: e)) with ((st ++ rev e) ++ [(Idx d, v)]) by (simpl; rewrite app_assoc; reflexivity).
    f_equal. rewrite remove_none.
    + apply with_fresh. rewrite get_app. pose proof (Hf (Idx d, v) (or_introl eq_refl)) as Hd0. cbn [fst] in Hd0. rewrite Hd0. rewrite get_rev by exact Hn.
      destruct (get (Idx d) e) as [w|] eqn:E; [|reflexivity]. exfalso. apply Hd.
      apply get_In in E. eapply in_fst; eauto.
    + intros [t1 v1] Hy [E|[]]. simpl in E. subst t1. apply in_app_or in Hy. destruct Hy as [Hy|Hy].
      * apply In_get in Hy. congruence.
      * rewrite <- in_rev in Hy. destruct Hi' as [ds Hds]. apply in_map with (f := fst) in Hy. rewrite Hds in Hy. simpl in Hy.
        apply in_map_iff in Hy. destruct Hy as (y & Ey & _). discriminate.
Qed.

(** ** The index lists *)

Lemma spath_local s a b p : (forall d, In d (map fst p) -> b d = a d) -> spath s a = Some p -> spath s b = Some p.
Proof. intros H E. eapply spath_ext; [exact E|]. intros d n Hd. apply H. eapply in_fst; eauto. Qed.

Lemma index_list_eq s st p : dims_of s st = Some p -> index_list s st = map (asg_of st) (map fst p).
Proof. intros E. unfold index_list. rewrite E, map_map. reflexivity. Qed.

Lemma index_same_get s st st' : same_get st st' -> index_list s st = index_list s st'.
Proof.
  intros H. unfold index_list. rewrite (dims_same_get s _ _ H). destruct (dims_of s st'); [|reflexivity].
  apply map_ext. intros e. apply asg_same_get, H.
Qed.

Lemma values_index s e p : dims_of s e = Some p -> map fst e = map Idx (map fst p) -> NoDup (map fst e) -> values e = index_list s e.
Proof.
  intros Ed Em Hn. rewrite (index_list_eq _ _ _ Ed). clear Ed. unfold values.
  assert (H : map (fun x => vzd (snd x)) e = map (fun t => match get t e with Some v => vzd v | None => 0 end) (map fst e)).
  { rewrite map_map. apply map_ext_in. intros [t v] Hin. simpl. rewrite (get_idx_in e Hn _ _ Hin). reflexivity. }
  rewrite H, Em, map_map. reflexivity.
Qed.

Lemma snodup_small sg a p d n : snodup sg = true -> spath sg a = Some p -> In (d, Some n) p -> n < W.
Proof.
  revert p. induction sg as [c| |d0 al r IH|d0 rs IH] using sig_ind'; intros p Hn Ep Hd.
  - inv Ep. destruct Hd.
  - inv Ep. destruct Hd.
  - apply snodup_fun in Hn. simpl in Ep. destruct (spath r a) as [p'|] eqn:Er; [|discriminate]. inv Ep.
    destruct Hd as [E|Hd]; [discriminate|]. eapply IH; eauto. apply Hn.
  - rewrite spath_dep in Ep. destruct (nthz rs (a d0)) as [r|] eqn:En; [|discriminate].
    destruct (spath r a) as [p'|] eqn:Er; [|discriminate]. injection Ep as <-. destruct Hd as [E|Hd].
    + injection E as -> <-. simpl in Hn. apply andb_true_iff in Hn. apply Z.ltb_lt, Hn.
    + eapply Forall_nthz in IH; [|exact En]. eapply IH; eauto. eapply snodup_dep; eauto.
Qed.

(** ** The loops enumerate the elements *)

Lemma agree_nolens ds st : (forall d, get (Len d) st = None) -> agree (remove (map Idx ds) st) nolens (asg_of st).
Proof.
  intros H. destruct (agree_removed ds st) as [H1 H2]. split; [|exact H2]. intros d.
  rewrite get_remove. destruct (tag_mem _ _); [exact I|]. rewrite H. exact I.
Qed.

Section RunAll.
  Variables (top : struct) (sg : sig) (l : list state).
  Hypothesis Hs : signature top = Some sg.
  Hypothesis Hn : snodup sg = true.
  Hypothesis Hlk : lenok top nolens.
  Hypothesis E : fe_run top sg (sig_dim_tree sg) [] = Done l.

  Lemma run_fresh : fresh (sig_dim_tree sg) [].
  Proof. intros ? ?; reflexivity. Qed.
  Lemma run_in e : In e l <-> visits top sg (sig_dim_tree sg) [] e.
  Proof.
    rewrite (fe_run_visits top sg (sig_dim_tree sg) [] l (tree_tnodup _ Hn) run_fresh E e). split.
    - intros (e' & -> & He). exact He.
    - intros He. exists e. auto.
  Qed.

  Lemma run_names e : In e l -> exists p, names_element top e p /\ map fst e = map Idx (map fst p).
  Proof. intros He. apply visits_names with (sg := sg); auto. apply run_in, He. Qed.

  Lemma run_tags e : In e l -> idx_only e /\ NoDup (map fst e).
  Proof.
    intros He. destruct (run_names e He) as (p & [Hp _] & Em). split; [exists (map fst p); exact Em|].
    rewrite Em. apply map_Idx_nodup. unfold dims_of in Hp. rewrite Hs in Hp. eapply spath_nodup; eauto.
  Qed.

  Lemma run_nolen e : In e l -> forall d, get (Len d) e = None.
  Proof. intros He. destruct (run_tags e He) as [[ds Hds] _]. eapply map_fst_Idx; eauto. Qed.

  Lemma run_agree e : In e l -> agree e nolens (asg_of e).
  Proof.
    intros He. destruct (agree_of e) as [H1 H2]. split; [|exact H2]. intros d. rewrite (run_nolen e He). exact I.
  Qed.

  Lemma names_valid st p : names_element top st p -> (forall d, get (Len d) st = None) ->
    spath sg (asg_of st) = Some p /\ Forall (in_range top nolens (asg_of st)) p.
  Proof.
    intros [Hd Hx] Hl. unfold dims_of in Hd. rewrite Hs in Hd. simpl in Hd. split; [exact Hd|].
    apply Forall_forall. intros [d k] Hin. unfold in_range. cbn [fst snd]. destruct k as [n|]; [eapply spath_dep_range; eauto|].
    destruct (Hx d None Hin) as (ds & len & n & i & x & _ & Hlen & Hn' & Hi & Hx' & Hlt).
    pose proof (length_agree top ltac:(congruence) _ _ _ _ _ Hlk (agree_nolens ds st Hl) Hlen) as Hva.
    unfold vagree in Hva. rewrite Hn' in Hva. rewrite <- Hva. unfold asg_of. rewrite Hi, (vzd_vz _ _ Hx').
    pose proof (vz_range _ _ Hx'). lia.
  Qed.

  Lemma run_valid e : In e l -> exists p, dims_of top e = Some p /\ pvalid top nolens (asg_of e) sg p.
  Proof.
    intros He. destruct (run_names e He) as (p & Hp & _). exists p. split; [apply Hp|].
    destruct (names_valid e p Hp (run_nolen e He)) as [H1 H2]. split; [exact Hs|auto].
  Qed.

  (** Every element in range is reached. *)
  Lemma run_reaches a p : pvalid top nolens a sg p ->
    exists e, In e l /\ agree e nolens a /\ dims_of top e = Some p /\ (forall d, In d (map fst p) -> asg_of e d = a d).
  Proof.
    intros (_ & Hd' & Hr). rewrite Forall_forall in Hr.
    destruct (run_complete top sg Hs Hlk (sig_dim_tree sg) [] l a p) as (e & He & Hag); auto using tree_tnodup, run_fresh.
    + apply (full_filter sg (fun _ => true) sg); auto; [intros ? ?; reflexivity| |apply filter_true].
      intros q st' _ _. left. reflexivity.
    + split; [intros d; exact I|intros d v Hg; discriminate].
    + intros d Hin. apply (Hr (d, None) Hin).
    + intros d n Hin. eapply snodup_small; eauto.
    + simpl in Hag. exists e. assert (Hin : In e l) by (apply run_in, He). split; [exact Hin|]. split; [exact Hag|].
      destruct (visits_path top sg sg [] e nolens a Hn ltac:(intros ? ?; reflexivity) ltac:(intros ? ? ? ?; reflexivity) He Hag)
        as (p' & Ep' & Em & Hv').
      rewrite Hd' in Ep'. injection Ep' as <-. destruct (run_tags e Hin) as [_ Hnde].
      assert (Hsame : forall d, In d (map fst p) -> asg_of e d = a d).
      { intros d Hdp. destruct (fst_in _ _ Hdp) as [k Hk]. destruct (Hv' d k Hk) as (e1 & v & e2 & Ee & Hk').
        assert (Hg : get (Idx d) e = Some v) by (apply get_idx_in; [exact Hnde|]; rewrite Ee; apply in_or_app; right; left; reflexivity).
        pose proof (ag_idx _ _ _ Hag _ _ Hg) as Hva. unfold asg_of at 1. rewrite Hg. unfold vagree in Hva.
        destruct k; [destruct Hk' as (i & ->)|destruct Hk' as (len & n & i & -> & _)]; exact Hva. }
      split; [|exact Hsame]. unfold dims_of. rewrite Hs. simpl. eapply spath_local; [|exact Hd']. exact Hsame.
  Qed.

  Lemma run_ordered : StronglySorted lexlt (map (index_list top) l).
  Proof.
    pose proof (run_sorted top sg (sig_dim_tree sg) [] l (tree_tnodup _ Hn) (tree_tsmall _ Hn) run_fresh E) as Hso.
    replace (map (index_list top) l) with (map values l); [exact Hso|]. apply map_ext_in. intros e He.
    destruct (run_names e He) as (p & [Hp _] & Em). eapply values_index; eauto. apply run_tags, He.
  Qed.

  Lemma run_enumerates : enumerates top l.
  Proof.
    split.
    - intros e He. destruct (run_names e He) as (p & Hp & _). eauto.
    - intros st p Hp Hl. destruct (names_valid st p Hp Hl) as [H1 H2].
      destruct (run_reaches (asg_of st) p) as (e & He & _ & Hd & Hsame); [split; auto|].
      exists e. split; [exact He|]. destruct Hp as [Hp _]. split; [rewrite Hd; symmetry; exact Hp|].
      rewrite (index_list_eq _ _ _ Hd), (index_list_eq _ _ _ Hp). apply map_ext_in. exact Hsame.
    - exact run_ordered.
  Qed.
End RunAll.

Lemma Forall2_in1 {A B} (P : A -> B -> Prop) l l' x : Forall2 P l l' -> In x l -> exists y, In y l' /\ P x y.
Proof.
  induction 1 as [|a b l l' H F IH]; [intros []|]. intros [<-|Hx]; [exists b; split; [left; reflexivity|exact H]|].
  destruct (IH Hx) as (y & Hy & H'). exists y. split; [right; exact Hy|exact H'].
Qed.

Lemma enumerates_same_get s l l' : Forall2 same_get l l' -> enumerates s l -> enumerates s l'.
Proof.
  intros F [H1 H2 H3]. split.
  - intros st' Hin. destruct (Forall2_In_r _ _ _ _ F Hin) as (st & Hst & Hg). destruct (H1 _ Hst) as [p Hp].
    exists p. eapply names_same_get; eauto.
  - intros st p Hp Hl. destruct (H2 _ _ Hp Hl) as (e & He & E1 & E2). destruct (Forall2_in1 _ _ _ _ F He) as (e' & He' & Hg).
    exists e'. split; [exact He'|]. rewrite <- (dims_same_get s _ _ Hg), <- (index_same_get s _ _ Hg). auto.
  - replace (map (index_list s) l') with (map (index_list s) l); [exact H3|]. clear -F. induction F; [reflexivity|]. simpl. f_equal; auto using index_same_get.
Qed.

(** ** [for_sections] and [for_each] without arguments *)

Lemma for_sections_run t ok l : for_sections_with ok t [] = Done l -> exists sg sts, signature (top_struct t) = Some sg /\
  fe_run (top_struct t) sg (sig_dim_tree sg) [] = Done sts /\ l = map (inner t) sts.
Proof.
  unfold for_sections_with, for_tree. destruct (signature (top_struct t)) as [sg|]; [|discriminate]. simpl.
  destruct (fe_ok _ _ _ _ _); [|discriminate]. destruct (fe_run _ _ _ _) as [| |sts] eqn:E; try discriminate.
  intros H. inv H. eauto.
Qed.

Lemma distinct_snodup s sg : distinct_dims s -> signature s = Some sg -> snodup sg = true.
Proof. unfold distinct_dims. intros H E. rewrite E in H. exact H. Qed.

Theorem sections_enumerate t l : distinct_dims (top_struct t) -> lenok (top_struct t) nolens -> for_sections t [] = Done l ->
  exists sts, enumerates (top_struct t) sts /\ l = map (fun st => order t (p_fix st)) sts.
Proof.
  intros Hd Hlk H. apply for_sections_run in H. destruct H as (sg & sts & Hs & E & ->). exists sts. split; [|reflexivity].
  eapply run_enumerates; eauto using distinct_snodup.
Qed.

(** The state that the traverser computes is the translation of the state of the loops. *)
Lemma each_run t l : (forall v u, tr_struct t <> View v u) -> distinct_dims (top_struct t) -> for_each t [] = Done l ->
  exists sg sts, signature (top_struct t) = Some sg /\ fe_run (top_struct t) sg (sig_dim_tree sg) [] = Done sts /\
    for_sections t [] = Done (map (fun st => order t (p_fix st)) sts) /\
    Forall2 (fun st s => exists s', state_at (tr_struct t) (top_struct t) st = Some s' /\ same_get s' s) sts l.
Proof.
  intros Hx Hd H. unfold for_each in H. destruct (for_sections_with (state_ok t) t []) as [| |ts] eqn:Et; try discriminate. simpl in H.
  destruct (omap tr_state ts) as [l'|] eqn:El; [|discriminate]. injection H as ->.
  destruct (for_sections_run _ _ _ Et) as (sg & sts & Hs & E & ->).
  pose proof (run_tags _ _ _ Hs (distinct_snodup _ _ Hd Hs) E) as Hi. exists sg, sts. split; [exact Hs|]. split; [exact E|]. split.
  - clear -Et Hs E. unfold for_sections, for_sections_with, for_tree in *. rewrite Hs in *. cbn [obind sections_tree] in *.
    destruct (fe_ok _ _ (fun st => inner_ok t st && state_ok t st) _ _) eqn:E1; [|discriminate].
    replace (fe_ok (top_struct t) sg (fun st => inner_ok t st && true) (sig_dim_tree sg) []) with true; [rewrite E; reflexivity|].
    symmetry. revert E1. clear. generalize (sig_dim_tree sg) as tr. generalize (@nil (tag * val)) as st. intros st tr. revert st.
    induction tr as [|d bs IH] using dtree_ind'; intros st H; simpl in *; [apply andb_true_iff in H; rewrite (proj1 H); reflexivity|].
    destruct (sig_find_dim d st sg) as [[c| |d' al r|d' rs]|]; auto.
    + destruct (length_ _ d st); [|exact H]. destruct bs as [|b [|]]; auto. inversion IH; subst; auto.
    + revert H. generalize 0. induction IH as [|b bs Hb _ IHl]; intros k H; [reflexivity|]. apply andb_true_iff in H. destruct H as [H1 H2].
      rewrite (Hb _ H1). apply IHl, H2.
  - apply omap_Some_Forall2 in El. assert (Hsig : signature (top_struct t) <> None) by congruence.
    assert (Hg : forall e s, In e sts -> tr_state (inner t e) = Some s ->
      exists s', state_at (tr_struct t) (top_struct t) e = Some s' /\ same_get s' s).
    { intros e s Hin Es. destruct (Hi e Hin) as [Hio Hn]. unfold tr_state in Es. rewrite top_inner in Es.
      change (tr_struct (inner t e)) with (tr_struct t) in Es.
      rewrite state_at_fix in Es; auto.
      2: { intros v u. destruct (tr_struct t); try reflexivity. exfalso. eapply Hx. reflexivity. }
      simpl in Es.
      pose proof (state_at_rel eq congruence_eq (fun _ => True) (tr_struct t) _ _ (struct_rel_refl eq (fun x => eq_refl) (top_struct t))
        Hsig (fun _ _ => I) (rev e) e (same_get_srel _ _ (fun d => conj (get_rev e _ Hn) (get_rev e _ Hn)))) as Hr.
      rewrite Es in Hr. destruct (state_at (tr_struct t) (top_struct t) e) as [s'|]; [|destruct Hr]. exists s'. split; [reflexivity|].
      intros d. destruct (srel_same_get _ _ Hr d). auto. }
    clear -El Hg. revert l El. induction sts as [|e sts IH]; intros l El; inversion El; subst; constructor.
    + apply Hg; [left; reflexivity|assumption].
    + apply IH; [intros; apply Hg; [right|]; assumption|assumption].
Qed.

Theorem each_enumerate t l : (forall v u, tr_struct t <> View v u) -> distinct_dims (top_struct t) -> lenok (top_struct t) nolens ->
  for_each t [] = Done l ->
  exists sts, enumerates (top_struct t) sts /\ for_sections t [] = Done (map (fun st => order t (p_fix st)) sts) /\
    Forall2 (fun st s => exists s', state_at (tr_struct t) (top_struct t) st = Some s' /\ same_get s' s) sts l.
Proof.
  intros Hx Hd Hlk H. destruct (each_run t l Hx Hd H) as (sg & sts & Hs & E & H1 & H2). exists sts. split; [|auto].
  exact (run_enumerates _ _ _ Hs (distinct_snodup _ _ Hd Hs) Hlk E).
Qed.
