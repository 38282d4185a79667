(** * The loop bounds of a traversal are defined; traversing one structure *)

From Coq Require Import Sorted.
From Verif Require Export TravEach Defined.

Lemma out_cat_undef {A} (l : list (outcome (list A))) : out_cat l = Undefined -> In Undefined l.
Proof.
  induction l as [|o l IH]; [discriminate|]. simpl. destruct o as [| |x]; simpl; try discriminate; auto.
  destruct (out_cat l) as [| |y]; simpl; try discriminate; auto.
Qed.

Lemma filled_path r st : filled r = true -> sfresh r st -> spath r (asg_of st) <> None.
Proof.
  induction r as [c| |d al r IH|d rs IH] using sig_ind'; intros Hf H; try discriminate.
  - simpl. destruct (spath r (asg_of st)) eqn:E; [discriminate|]. exfalso. apply IH; auto.
    intros q Hq. apply H. simpl. rewrite Hq. apply orb_true_r.
  - rewrite spath_dep. assert (Hd : asg_of st d = 0).
    { unfold asg_of. rewrite H; [reflexivity|]. simpl. rewrite Z.eqb_refl. reflexivity. }
    rewrite Hd. destruct rs as [|r rs]; [discriminate|]. simpl in Hf |- *. apply andb_true_iff in Hf. inversion IH; subst.
    destruct (spath r (asg_of st)) eqn:E; [discriminate|]. exfalso. apply H2; [apply Hf| |reflexivity].
    intros q Hq. apply H. simpl. rewrite Hq. simpl. apply orb_true_r.
Qed.

Section RunDefined.
  Variables (top : struct) (sg : sig).
  Hypothesis Hs : signature top = Some sg.
  Hypothesis Hw : uswf top = true.
  Hypothesis Hsn : snodup sg = true.
  Hypothesis Hlk : lenok top nolens.
  Hypothesis Hg : forall a, good top nolens a.

  Record inv (r : sig) (st : state) : Prop := {
    in_len : forall d, get (Len d) st = None;
    in_dz : forall d w, get (Idx d) st = Some w -> dz w;
    in_pos : forall a p, agree st nolens a -> spath sg a = Some p -> forall d, In d (map fst p) -> get (Idx d) st <> None ->
      0 < odef (plen top nolens a d);
    in_path : forall a, agree st nolens a -> spath r a <> None -> spath sg a <> None }.

  Lemma agree_prefix st e l a : (forall d, get (Len d) st = None) -> (forall d, l d = None) -> agree (st ++ e) l a -> agree st l a.
  Proof.
    intros Hl Hn [H1 H2]. split; intros q.
    - rewrite Hl, Hn. exact I.
    - intros v Hv. apply H2. rewrite get_app, Hv. reflexivity.
  Qed.

  Lemma plen_fun a p d : spath sg a = Some p -> In (d, None) p -> plen top nolens a d = Some (ilen top nolens a d).
  Proof. intros Ep Hd. eapply (Transfer.plen_in top sg nolens a p d None); eauto. eapply spath_nodup; eauto. Qed.
  Lemma plen_dep a p d n : spath sg a = Some p -> In (d, Some n) p -> plen top nolens a d = Some n.
  Proof. intros Ep Hd. eapply (Transfer.plen_in top sg nolens a p d (Some n)); eauto. eapply spath_nodup; eauto. Qed.

  Lemma run_defined r : forall st, snodup r = true -> filled r = true -> sfresh r st -> pos sg r st -> inv r st ->
    fe_run top sg (sig_dim_tree r) st <> Undefined.
  Proof.
    induction r as [c| |d al r IH|d rs IH] using sig_ind'; intros st Hn Hfl Hf Hp Hi; try discriminate.
    - apply snodup_fun in Hn. destruct Hn as [Hd Hn]. simpl in Hfl.
      destruct (sfresh_fun d al r st (Dyn 0) Hf Hd) as (Hgd & _ & Hfr).
      pose proof (Hp d st ltac:(intros ? ? H; exact H) ltac:(simpl; rewrite Z.eqb_refl; reflexivity)) as E2.
      simpl in E2. rewrite Z.eqb_refl in E2. intros E. cbn [sig_dim_tree fe_run] in E. rewrite E2 in E.
      destruct (length_ top d st) as [len|] eqn:El; [|discriminate].
      assert (Hag : agree st nolens (asg_of st)).
      { destruct (agree_of st) as [A1 A2]. split; [|exact A2]. intros q. rewrite (in_len _ _ Hi). exact I. }
      destruct (spath sg (asg_of st)) as [p|] eqn:Ep.
      2:{ apply (in_path _ _ Hi _ Hag); [|exact Ep]. apply filled_path; auto. }
      pose proof (sig_find_path d sg st nolens (asg_of st) p _ Hag Ep E2) as [_ Hin].
      assert (Hdz : dz len).
      { apply (length_defined top Hw st nolens (asg_of st) sg p d len); auto.
        - exact (spath_nodup _ _ _ Hsn Ep).
        - intros q x Hx. discriminate.
        - intros q w Hq. rewrite (in_len _ _ Hi) in Hq. discriminate.
        - intros q w Hq Hw'. split; [eapply in_dz; eauto|]. eapply in_pos; eauto. congruence. }
      unfold dz in Hdz. destruct (vz len) as [n|] eqn:En; [|congruence].
      apply out_cat_undef in E. apply in_map_iff in E. destruct E as (i & E & Hin'). apply zseq_In in Hin'.
      rewrite with_fresh in E by exact Hgd. revert E.
      destruct (sfresh_fun d al r st (Dyn i) Hf Hd) as (_ & Hfi & _).
      apply IH; auto; [eapply pos_fun; eauto using extends_app|].
      split.
      + intros q. rewrite get_app, (in_len _ _ Hi). reflexivity.
      + intros q w. rewrite get_app. destruct (get (Idx q) st) as [x|] eqn:Ex; [intros Ew; inv Ew; eapply in_dz; eauto|].
        simpl. destruct (q =? d); [intros Ew; inv Ew; discriminate|discriminate].
      + intros a p0 Ha Ep0 q Hq Hpr. pose proof (agree_prefix _ _ _ _ (in_len _ _ Hi) (fun _ => eq_refl) Ha) as Ha'.
        destruct (Z.eqb_spec q d) as [->|Hne].
        * destruct (sig_find_path d sg st nolens a p0 _ Ha' Ep0 E2) as [_ Hin0]. rewrite (plen_fun a p0 d Ep0 Hin0). simpl.
          pose proof (length_agree top ltac:(congruence) _ _ _ _ _ Hlk Ha' El) as Hva. unfold vagree in Hva. rewrite En in Hva. lia.
        * eapply in_pos; eauto. intros Hx. apply Hpr. rewrite get_app, Hx. simpl. destruct (Z.eqb_spec q d); congruence.
      + intros a Ha Hr. apply (in_path _ _ Hi); [exact (agree_prefix _ _ _ _ (in_len _ _ Hi) (fun _ => eq_refl) Ha)|].
        simpl. destruct (spath r a); [discriminate|congruence].
    - rewrite Forall_forall in IH. pose proof Hn as Hn0. simpl in Hn. rewrite !andb_true_iff, !forallb_forall in Hn.
      destruct Hn as (HW & Hd & Hn). apply Z.ltb_lt in HW.
      assert (Hfl' : forall r, In r rs -> filled r = true) by (apply forallb_forall; destruct rs; [reflexivity|exact Hfl]).
      pose proof (Hp d st ltac:(intros ? ? H; exact H) ltac:(simpl; rewrite Z.eqb_refl; reflexivity)) as E2.
      simpl in E2. rewrite Z.eqb_refl in E2. intros E. cbn [sig_dim_tree] in E. rewrite (fe_run_dep _ _ _ _ _ _ _ E2) in E.
      apply out_cat_undef in E. apply in_map_iff in E. destruct E as ([k b] & E & Hin'). apply numbered_In in Hin'.
      cbn [fst snd] in E. rewrite Z.sub_0_r in Hin'. destruct Hin' as [Hk Hb]. rewrite nthz_map in Hb.
      destruct (nthz rs k) as [r|] eqn:Er; [|discriminate]. simpl in Hb. inv Hb.
      pose proof (nthz_In _ _ _ Er) as Hin. pose proof (nthz_Some_range _ _ _ Er) as Hrk.
      specialize (Hd _ Hin). apply negb_true_iff in Hd.
      destruct (sfresh_dep d rs r st (Sta k) Hf Hin Hd) as (Hgd & Hfr & _).
      rewrite with_fresh in E by exact Hgd. revert E. apply (IH r Hin); auto; [eapply pos_dep; eauto; lia|]. split.
      + intros q. rewrite get_app, (in_len _ _ Hi). reflexivity.
      + intros q w. rewrite get_app. destruct (get (Idx q) st) as [x|] eqn:Ex; [intros Ew; inv Ew; eapply in_dz; eauto|].
        simpl. destruct (q =? d); [intros Ew; inv Ew; discriminate|discriminate].
      + intros a p0 Ha Ep0 q Hq Hpr. pose proof (agree_prefix _ _ _ _ (in_len _ _ Hi) (fun _ => eq_refl) Ha) as Ha'.
        destruct (Z.eqb_spec q d) as [->|Hne].
        * destruct (sig_find_path d sg st nolens a p0 _ Ha' Ep0 E2) as (_ & Hin0 & _). rewrite (plen_dep a p0 d _ Ep0 Hin0). simpl.
          pose proof (spath_dep_range _ _ _ _ _ Ep0 Hin0). lia.
        * eapply in_pos; eauto. intros Hx. apply Hpr. rewrite get_app, Hx. simpl. destruct (Z.eqb_spec q d); congruence.
      + intros a Ha Hr. apply (in_path _ _ Hi); [exact (agree_prefix _ _ _ _ (in_len _ _ Hi) (fun _ => eq_refl) Ha)|].
        rewrite spath_dep. assert (Hka : a d = k).
        { assert (Hg0 : get (Idx d) (st ++ [(Idx d, Sta k)]) = Some (Sta k)) by (rewrite get_app, Hgd; simpl; rewrite Z.eqb_refl; reflexivity).
          pose proof (ag_idx _ _ _ Ha _ _ Hg0) as Hva. unfold vagree in Hva. simpl in Hva. rewrite u64_small in Hva by lia. auto. }
        rewrite Hka, Er. destruct (spath r a); [discriminate|congruence].
  Qed.
End RunDefined.

Theorem sections_defined t : uswf (top_struct t) = true -> distinct_dims (top_struct t) -> no_empty_tuple (top_struct t) ->
  lenok (top_struct t) nolens -> (forall a, good (top_struct t) nolens a) -> for_sections t [] <> Undefined.
Proof.
  intros Hw Hd He Hlk Hg. unfold for_sections, for_sections_with, for_tree. unfold distinct_dims, no_empty_tuple in *.
  destruct (signature (top_struct t)) as [sg|] eqn:Es; [|discriminate]. cbn [obind sections_tree].
  destruct (fe_ok _ _ _ _ _); [|discriminate].
  assert (H : fe_run (top_struct t) sg (sig_dim_tree sg) [] <> Undefined).
  { apply run_defined; auto; try (intros ? ?; reflexivity); try (intros ? ? ? ?; reflexivity). split; try (intros; discriminate).
    - reflexivity.
    - intros a p _ _ d _ H. exfalso. apply H. reflexivity.
    - auto. }
  destruct (fe_run _ _ _ _); [discriminate|congruence|discriminate].
Qed.

(** ** One structure *)

Lemma signature_one s : signature (Union [s]) = signature s.
Proof. cbn [signature omap]. destruct (signature s) as [sg|]; reflexivity. Qed.

Lemma dims_one s st : dims_of (Union [s]) st = dims_of s st.
Proof. unfold dims_of. rewrite signature_one. reflexivity. Qed.

Lemma index_one s st : index_list (Union [s]) st = index_list s st.
Proof. unfold index_list. rewrite dims_one. reflexivity. Qed.

Lemma length_false s q st : has_length s q st <> Some true -> length_ s q st = None.
Proof.
  unfold has_length, length_. destruct s; cbn [lenops fst snd]; [reflexivity| | | |]; cbv zeta; intros H;
    match goal with |- guard ?h _ = None => destruct h as [[|]|]; [congruence|reflexivity|reflexivity] end.
Qed.

Lemma length_one s q st sg : signature s = Some sg -> any_accept q sg = true -> length_ (Union [s]) q st = length_ s q st.
Proof.
  intros Es Ha. unfold length_. cbn [lenops map snd first_match]. rewrite Es, Ha.
  change (fst (lenops s) q st) with (has_length s q st). change (snd (lenops s) q st) with (length_ s q st).
  destruct (has_length s q st) as [[|]|] eqn:E; simpl.
  - reflexivity.
  - symmetry. apply length_false. congruence.
  - symmetry. apply length_false. congruence.
Qed.

Lemma names_one s st p : names_element (Union [s]) st p <-> names_element s st p.
Proof.
  unfold names_element. rewrite dims_one. split; intros [H1 H2]; (split; [exact H1|]); intros d k Hin; specialize (H2 d k Hin);
    (destruct k as [n|]; [exact H2|]); unfold dims_of in H1; destruct (signature s) as [sg|] eqn:Es; try discriminate; simpl in H1;
    pose proof (spath_accept _ _ _ H1 _ Hin) as Hacc; cbn [fst] in Hacc; destruct H2 as (ds & len & n & i & x & A & B & C);
    exists ds, len, n, i, x; (split; [exact A|]); (split; [|exact C]).
  - rewrite <- (length_one s d _ sg Es Hacc). exact B.
  - rewrite (length_one s d _ sg Es Hacc). exact B.
Qed.

Lemma enumerates_one s l : enumerates (Union [s]) l <-> enumerates s l.
Proof.
  split; intros [H1 H2 H3]; split.
  - intros st Hin. destruct (H1 st Hin) as [p Hp]. exists p. apply names_one, Hp.
  - intros st p Hp Hl. rewrite <- names_one in Hp. destruct (H2 st p Hp Hl) as (e & A & B & C). exists e.
    rewrite !dims_one, !index_one in *. auto.
  - erewrite map_ext; [exact H3|]. intros st. symmetry. apply index_one.
  - intros st Hin. destruct (H1 st Hin) as [p Hp]. exists p. apply names_one, Hp.
  - intros st p Hp Hl. rewrite names_one in Hp. destruct (H2 st p Hp Hl) as (e & A & B & C). exists e.
    rewrite !dims_one, !index_one in *. auto.
  - erewrite map_ext; [exact H3|]. intros st. apply index_one.
Qed.

Lemma for_each_enumerates ss l : distinct_dims (Union ss) -> lenok (Union ss) nolens -> for_each (traverser ss) [] = Done l ->
  enumerates (Union ss) l.
Proof.
  intros Hd Hlk E. destruct (each_enumerate (traverser ss) l) as (sts & He & _ & F); auto; [discriminate|].
  apply (enumerates_same_get _ sts); [|exact He]. cbn [tr_struct traverser] in F. change (top_struct (traverser ss)) with (Union ss) in F.
  clear -F. induction F as [|st s sts l (s' & E & H) F IH]; constructor; auto.
  apply state_at_self in E; [|discriminate]. subst s'. exact H.
Qed.

Lemma for_each_one s l : distinct_dims s -> lenok s nolens -> for_each (traverser [s]) [] = Done l -> enumerates s l.
Proof.
  intros Hd Hlk E. apply enumerates_one. apply for_each_enumerates; auto.
  - unfold distinct_dims. rewrite signature_one. exact Hd.
  - simpl. auto.
Qed.

Lemma ssorted_nodup l : StronglySorted lexlt l -> NoDup l.
Proof.
  induction 1 as [|x l Hl IH Hx]; constructor; auto. intros Hin. rewrite Forall_forall in Hx. exact (lexlt_irrefl _ (Hx _ Hin)).
Qed.

Lemma enumerates_nodup s l : enumerates s l -> NoDup (map (index_list s) l).
Proof. intros H. apply ssorted_nodup, H. Qed.

Lemma plen_one s l a q : plen (Union [s]) l a q = plen s l a q.
Proof.
  unfold plen. rewrite signature_one. destruct (signature s) as [sg|] eqn:Es; [|reflexivity].
  destruct (spath sg a) as [p|] eqn:Ep; [|reflexivity]. destruct (find (fun e => fst e =? q) p) as [[d k]|] eqn:Ef; [|reflexivity].
  destruct k; [reflexivity|]. apply find_some in Ef. destruct Ef as [Hin Eq]. cbn [fst] in Eq. apply Z.eqb_eq in Eq. subst d.
  pose proof (spath_accept _ _ _ Ep _ Hin) as Ha. cbn [fst] in Ha. cbn [ilen map]. cbn. rewrite Es, Ha. reflexivity.
Qed.

Lemma good_one s l a : good s l a -> good (Union [s]) l a.
Proof.
  intros H. split; [simpl; auto|]. constructor; [|constructor]. intros q. rewrite plen_one.
  destruct (plen s l a q); simpl; auto. lia.
Qed.
