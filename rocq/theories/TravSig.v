(** * The loops of a traverser follow the signature *)

From Coq Require Import Sorted.
From Verif Require Export TravFacts Foreign.

Lemma tree_contains q s : dtree_contains q (sig_dim_tree s) = any_accept q s.
Proof.
  induction s as [c| |d al r IH|d rs IH] using sig_ind'; simpl; auto.
  - rewrite IH, orb_false_r. reflexivity.
  - f_equal. induction IH as [|r rs Hr _ IHl]; simpl; congruence.
Qed.

Lemma tree_tnodup s : snodup s = true -> tnodup (sig_dim_tree s) = true.
Proof.
  induction s as [c| |d al r IH|d rs IH] using sig_ind'; intros H; auto.
  - apply snodup_fun in H. destruct H as [H1 H2]. simpl. rewrite tree_contains, H1, IH by exact H2. reflexivity.
  - simpl in H |- *. rewrite !andb_true_iff in H. destruct H as (_ & H1 & H2). apply andb_true_iff. split.
    + clear IH H2. induction rs as [|r rs IHl]; [reflexivity|]. simpl in *. apply andb_true_iff in H1. rewrite tree_contains.
      apply andb_true_iff. split; [apply H1|apply IHl, H1].
    + clear H1. induction IH as [|r rs Hr _ IHl]; [reflexivity|]. simpl in *. apply andb_true_iff in H2.
      apply andb_true_iff. split; [apply Hr, H2|apply IHl, H2].
Qed.

Lemma tree_tsmall s : snodup s = true -> tsmall (sig_dim_tree s) = true.
Proof.
  induction s as [c| |d al r IH|d rs IH] using sig_ind'; intros H; auto.
  - apply snodup_fun in H. simpl. rewrite IH by apply H. reflexivity.
  - simpl in H |- *. rewrite !andb_true_iff in H. destruct H as (H0 & _ & H2). rewrite map_length, H0. simpl.
    induction IH as [|r rs Hr _ IHl]; [reflexivity|]. simpl in *. apply andb_true_iff in H2.
    apply andb_true_iff. split; [apply Hr, H2|]. apply IHl; [|apply H2]. apply Z.ltb_lt in H0. apply Z.ltb_lt. lia.
Qed.

(** ** Filtered trees *)

Lemma filter_branches P bs bs' : omap (dtree_filter P) bs = Some bs' -> Forall2 (fun b b' => dtree_filter P b = Some b') bs bs'.
Proof. apply omap_Some_Forall2. Qed.

Lemma filter_contains P t : forall t' q, dtree_filter P t = Some t' -> dtree_contains q t' = true ->
  dtree_contains q t = true /\ P q = true.
Proof.
  induction t as [|d bs IH] using dtree_ind'; intros t' q E H; simpl in E.
  - inv E. discriminate.
  - rewrite Forall_forall in IH. destruct (P d) eqn:Ed.
    + destruct (omap (dtree_filter P) bs) as [bs'|] eqn:Eb; [|discriminate]. inv E. simpl in H. apply orb_true_iff in H.
      destruct H as [H|H]; [apply Z.eqb_eq in H; subst; simpl; rewrite Z.eqb_refl; auto|].
      apply existsb_exists in H. destruct H as (b' & Hb' & H). apply filter_branches in Eb.
      destruct (Forall2_In_r _ _ _ _ Eb Hb') as (b & Hb & Eb'). destruct (IH _ Hb _ _ Eb' H) as [H1 H2].
      split; [|exact H2]. simpl. apply orb_true_iff. right. apply existsb_exists. eauto.
    + destruct bs as [|b [|]]; try discriminate. destruct (IH b (or_introl eq_refl) _ _ E H) as [H1 H2].
      split; [|exact H2]. simpl. rewrite H1. rewrite orb_true_l, orb_true_r. reflexivity.
Qed.

Lemma filter_tnodup P t : forall t', dtree_filter P t = Some t' -> tnodup t = true -> tnodup t' = true.
Proof.
  induction t as [|d bs IH] using dtree_ind'; intros t' E H; simpl in E.
  - inv E. reflexivity.
  - rewrite Forall_forall in IH. simpl in H. apply andb_true_iff in H. destruct H as [H1 H2]. rewrite forallb_forall in H1, H2.
    destruct (P d) eqn:Ed.
    + destruct (omap (dtree_filter P) bs) as [bs'|] eqn:Eb; [|discriminate]. inv E. apply filter_branches in Eb. simpl.
      apply andb_true_iff. split; apply forallb_forall; intros b' Hb'; destruct (Forall2_In_r _ _ _ _ Eb Hb') as (b & Hb & Eb').
      * apply negb_true_iff. destruct (dtree_contains d b') eqn:Ec; [|reflexivity].
        destruct (filter_contains _ _ _ _ Eb' Ec) as [Hc _]. specialize (H1 _ Hb). rewrite Hc in H1. discriminate.
      * eapply IH; eauto.
    + destruct bs as [|b [|]]; try discriminate. apply (IH b); simpl; auto. apply H2. left. reflexivity.
Qed.

Lemma filter_tsmall P t : forall t', dtree_filter P t = Some t' -> tsmall t = true -> tsmall t' = true.
Proof.
  induction t as [|d bs IH] using dtree_ind'; intros t' E H; simpl in E.
  - inv E. reflexivity.
  - rewrite Forall_forall in IH. simpl in H. apply andb_true_iff in H. destruct H as [H1 H2]. rewrite forallb_forall in H2.
    destruct (P d) eqn:Ed.
    + destruct (omap (dtree_filter P) bs) as [bs'|] eqn:Eb; [|discriminate]. inv E. apply filter_branches in Eb. simpl.
      apply andb_true_iff. split.
      * rewrite <- (Forall2_len _ _ _ Eb). exact H1.
      * apply forallb_forall; intros b' Hb'; destruct (Forall2_In_r _ _ _ _ Eb Hb') as (b & Hb & Eb'). eapply IH; eauto.
    + destruct bs as [|b [|]]; try discriminate. apply (IH b); simpl; auto. apply H2. left. reflexivity.
Qed.

Lemma filter_true t : dtree_filter (fun _ => true) t = Some t.
Proof.
  induction t as [|d bs IH] using dtree_ind'; [reflexivity|]. simpl.
  replace (omap (dtree_filter (fun _ => true)) bs) with (Some bs); [reflexivity|]. symmetry.
  induction IH as [|b bs Hb _ IHl]; [reflexivity|]. cbn [omap]. rewrite Hb, IHl. reflexivity.
Qed.

(** ** The position of the loops in the signature *)

Definition extends (st st' : state) : Prop := forall d v, get (Idx d) st = Some v -> get (Idx d) st' = Some v.

Lemma extends_app st e : extends st (st ++ e).
Proof. intros d v H. rewrite get_app, H. reflexivity. Qed.
Lemma extends_trans a b c : extends a b -> extends b c -> extends a c.
Proof. intros H1 H2 d v H. auto. Qed.

Section Pos.
  Variable sg : sig.

  (** Below [r], looking up a dimension in [sg] is looking it up in [r] (or fails). *)
  Definition pos (r : sig) (st : state) : Prop := forall q st', extends st st' -> any_accept q r = true ->
    sig_find_dim q st' sg = sig_find_dim q st' r.
  Definition posw (r : sig) (st : state) : Prop := forall q st', extends st st' -> any_accept q r = true ->
    sig_find_dim q st' sg = sig_find_dim q st' r \/ sig_find_dim q st' sg = None.

  Lemma posw_fun d al r st st' : posw (SFun d al r) st -> any_accept d r = false -> extends st st' -> posw r st'.
  Proof.
    intros H Hd He q st2 He' Hq. destruct (H q st2) as [E|E].
    - eapply extends_trans; eauto.
    - simpl. rewrite Hq. apply orb_true_r.
    - left. rewrite E. simpl. destruct (Z.eqb_spec d q) as [->|]; [congruence|reflexivity].
    - right. exact E.
  Qed.

  Lemma posw_dep d rs k r st : posw (SDep d rs) st -> any_accept d r = false -> get (Idx d) st = None ->
    nthz rs k = Some r -> 0 <= k < W -> posw r (st ++ [(Idx d, Sta k)]).
  Proof.
    intros H Hd Hf Hr Hk q st2 He' Hq. destruct (H q st2) as [E|E].
    - eapply extends_trans; [apply extends_app|exact He'].
    - simpl. apply orb_true_iff. right. apply existsb_exists. exists r. split; [eapply nthz_In; eauto|exact Hq].
    - left. rewrite E. simpl. destruct (Z.eqb_spec d q) as [->|]; [congruence|].
      rewrite (He' d (Sta k)) by (rewrite get_app, Hf; simpl; rewrite Z.eqb_refl; reflexivity). simpl.
      rewrite u64_small by lia. rewrite nthz_map, Hr. reflexivity.
    - right. exact E.
  Qed.

  Lemma pos_posw r st : pos r st -> posw r st.
  Proof. intros H q st' He Hq. left. auto. Qed.

  Lemma pos_fun d al r st st' : pos (SFun d al r) st -> any_accept d r = false -> extends st st' -> pos r st'.
  Proof.
    intros H Hd He q st2 He' Hq. rewrite (H q st2).
    - simpl. destruct (Z.eqb_spec d q) as [->|]; [congruence|reflexivity].
    - eapply extends_trans; eauto.
    - simpl. rewrite Hq. apply orb_true_r.
  Qed.

  Lemma pos_dep d rs k r st : pos (SDep d rs) st -> any_accept d r = false -> get (Idx d) st = None ->
    nthz rs k = Some r -> 0 <= k < W -> pos r (st ++ [(Idx d, Sta k)]).
  Proof.
    intros H Hd Hf Hr Hk q st2 He' Hq. rewrite (H q st2).
    - simpl. destruct (Z.eqb_spec d q) as [->|]; [congruence|].
      rewrite (He' d (Sta k)) by (rewrite get_app, Hf; simpl; rewrite Z.eqb_refl; reflexivity). simpl.
      rewrite u64_small by lia. rewrite nthz_map, Hr. reflexivity.
    - eapply extends_trans; [apply extends_app|exact He'].
    - simpl. apply orb_true_iff. right. apply existsb_exists. exists r. split; [eapply nthz_In; eauto|exact Hq].
  Qed.

  Definition sfresh (r : sig) (st : state) : Prop := forall d, any_accept d r = true -> get (Idx d) st = None.

  Lemma sfresh_fun d al r st v : sfresh (SFun d al r) st -> any_accept d r = false ->
    get (Idx d) st = None /\ sfresh r (st ++ [(Idx d, v)]) /\ sfresh r st.
  Proof.
    intros H Hd. split; [apply H; simpl; rewrite Z.eqb_refl; reflexivity|].
    assert (H' : sfresh r st) by (intros q Hq; apply H; simpl; rewrite Hq; apply orb_true_r).
    split; [|exact H']. intros q Hq. rewrite get_app, H' by exact Hq. simpl.
    destruct (Z.eqb_spec q d) as [->|]; [congruence|reflexivity].
  Qed.

  Lemma sfresh_dep d rs r st v : sfresh (SDep d rs) st -> In r rs -> any_accept d r = false ->
    get (Idx d) st = None /\ sfresh r (st ++ [(Idx d, v)]) /\ sfresh r st.
  Proof.
    intros H Hr Hd. split; [apply H; simpl; rewrite Z.eqb_refl; reflexivity|].
    assert (H' : sfresh r st).
    { intros q Hq; apply H; simpl. apply orb_true_iff. right. apply existsb_exists. eauto. }
    split; [|exact H']. intros q Hq. rewrite get_app, H' by exact Hq. simpl.
    destruct (Z.eqb_spec q d) as [->|]; [congruence|reflexivity].
  Qed.

  Lemma full_nothing t st : (forall q, dtree_contains q t = true -> sig_find_dim q st sg = None) -> full sg t st.
  Proof.
    destruct t as [|d bs]; intros H; [exact I|]. simpl. rewrite H; [exact I|]. simpl. rewrite Z.eqb_refl. reflexivity.
  Qed.

  Lemma full_filter P r : forall t st, snodup r = true -> sfresh r st -> posw r st ->
    dtree_filter P (sig_dim_tree r) = Some t -> full sg t st.
  Proof.
    induction r as [c| |d al r IH|d rs IH] using sig_ind'; intros t st Hn Hf Hp E; simpl in E; try (inv E; exact I).
    - apply snodup_fun in Hn. destruct Hn as [Hd Hn]. destruct (P d) eqn:Ed.
      + destruct (dtree_filter P (sig_dim_tree r)) as [t'|] eqn:Er; [|discriminate]. injection E as <-. simpl.
        destruct (sig_find_dim d st sg) as [[c| |d' al' r'|d' rs']|] eqn:Ef; auto.
        * intros i. apply IH; auto; [exact (proj1 (proj2 (sfresh_fun _ _ _ _ (Dyn i) Hf Hd)))|]. eapply posw_fun; eauto using extends_app.
        * destruct (Hp d st ltac:(intros ? ? H; exact H)) as [E2|E2]; [simpl; rewrite Z.eqb_refl; reflexivity| |congruence].
          rewrite Ef in E2. simpl in E2. rewrite Z.eqb_refl in E2. discriminate.
      + apply IH; auto; [exact (proj2 (proj2 (sfresh_fun d al r st (Dyn 0) Hf Hd)))|]. eapply posw_fun; eauto. intros ? ? H; exact H.
    - rewrite Forall_forall in IH. pose proof Hn as Hn0. simpl in Hn. rewrite !andb_true_iff, !forallb_forall in Hn.
      destruct Hn as (HW & Hd & Hn). apply Z.ltb_lt in HW. destruct (P d) eqn:Ed.
      + destruct (omap (dtree_filter P) (map sig_dim_tree rs)) as [bs|] eqn:Eb; [|discriminate]. injection E as <-.
        apply filter_branches in Eb. simpl.
        assert (HL : List.length bs = List.length rs) by (rewrite <- (Forall2_len _ _ _ Eb), map_length; reflexivity).
        destruct (sig_find_dim d st sg) as [[c| |d' al' r'|d' rs']|] eqn:Ef; auto.
        * destruct (Hp d st ltac:(intros ? ? H; exact H)) as [E2|E2]; [simpl; rewrite Z.eqb_refl; reflexivity| |congruence].
          rewrite Ef in E2. simpl in E2. rewrite Z.eqb_refl in E2. discriminate.
        * destruct (Hp d st ltac:(intros ? ? H; exact H)) as [E2|E2]; [simpl; rewrite Z.eqb_refl; reflexivity| |congruence].
          rewrite Ef in E2. simpl in E2. rewrite Z.eqb_refl in E2. injection E2 as E2a E2b; subst d' rs'. split; [exact HL|].
          rewrite (full_branches (fun b k => full sg b (st ++ [(Idx d, Sta k)]))). intros j b Hj.
          pose proof (Forall2_nthz _ _ _ j Eb) as Hx. rewrite nthz_map, Hj in Hx. destruct (nthz rs j) as [r|] eqn:Er; [|contradiction].
          simpl in Hx. pose proof (nthz_In _ _ _ Er) as Hin. pose proof (nthz_Some_range _ _ _ Er) as Hrj.
          specialize (Hd _ Hin). apply negb_true_iff in Hd. rewrite Z.add_0_l.
          apply (IH r); auto; [exact (proj1 (proj2 (sfresh_dep _ _ _ _ (Sta j) Hf Hin Hd)))|]. eapply posw_dep; eauto; [|lia].
          exact (proj1 (sfresh_dep d rs r st (Dyn 0) Hf Hin Hd)).
      + destruct rs as [|r [|]]; try discriminate. simpl in E. apply full_nothing. intros q Hq.
        destruct (filter_contains _ _ _ _ E Hq) as [Hq' _]. rewrite tree_contains in Hq'.
        specialize (Hd r (or_introl eq_refl)). apply negb_true_iff in Hd.
        destruct (Hp q st ltac:(intros ? ? H; exact H)) as [E2|E2]; [simpl; rewrite Hq', orb_true_r; reflexivity| |exact E2].
        rewrite E2. simpl. destruct (Z.eqb_spec d q) as [->|]; [congruence|].
        rewrite (Hf d); [reflexivity|]. simpl. rewrite Z.eqb_refl. reflexivity.
  Qed.
End Pos.

(** ** The loops over the whole signature *)

Section Whole.
  Variables (top : struct) (sg : sig).

  Lemma visits_path r : forall st e l a, snodup r = true -> sfresh r st -> pos sg r st -> visits top sg (sig_dim_tree r) st e ->
    agree (st ++ e) l a ->
    exists p, spath r a = Some p /\ map fst e = map Idx (map fst p) /\
      (forall d k, In (d, k) p -> exists e1 v e2, e = e1 ++ (Idx d, v) :: e2 /\
         match k with
         | None => exists len n i, v = Dyn i /\ length_ top d (st ++ e1) = Some len /\ vz len = Some n /\ 0 <= i < n
         | Some n => exists i, v = Sta i
         end).
  Proof.
    induction r as [c| |d al r IH|d rs IH] using sig_ind'; intros st e l a Hn Hf Hp Hv Ha.
    - inv Hv. exists []. split; [reflexivity|]. split; [reflexivity|]. intros d k [].
    - inv Hv. exists []. split; [reflexivity|]. split; [reflexivity|]. intros d k [].
    - apply snodup_fun in Hn. destruct Hn as [Hd Hn].
      pose proof (Hp d st ltac:(intros ? ? H; exact H) ltac:(simpl; rewrite Z.eqb_refl; reflexivity)) as E2.
      simpl in E2. rewrite Z.eqb_refl in E2.
      inversion Hv as [|d1 bs1 st1 d2 rs2 k b e0 F0 Fk Fb Fv|d1 b1 st1 d2 al2 r2 len2 n2 i e0 F0 Fl Fn Fi Fv]; subst;
        [rewrite E2 in F0; discriminate|].
      replace (st ++ (Idx d, Dyn i) :: e0) with ((st ++ [(Idx d, Dyn i)]) ++ e0) in Ha by (rewrite <- app_assoc; reflexivity).
      destruct (IH _ e0 l a Hn (proj1 (proj2 (sfresh_fun _ _ _ _ (Dyn i) Hf Hd))) ltac:(eapply pos_fun; eauto using extends_app) Fv Ha) as (p & Ep & Em & Hx).
      exists ((d, None) :: p). simpl. rewrite Ep. split; [reflexivity|]. split; [congruence|]. intros q k [E|Hq].
      + inv E. exists [], (Dyn i), e0. split; [reflexivity|]. exists len2, n2, i. rewrite app_nil_r. auto.
      + destruct (Hx q k Hq) as (e1 & v & e2 & -> & H). exists ((Idx d, Dyn i) :: e1), v, e2. split; [reflexivity|].
        rewrite <- app_assoc in H. exact H.
    - rewrite Forall_forall in IH. simpl in Hn. rewrite !andb_true_iff, !forallb_forall in Hn.
      destruct Hn as (HW & Hd & Hn). apply Z.ltb_lt in HW.
      pose proof (Hp d st ltac:(intros ? ? H; exact H) ltac:(simpl; rewrite Z.eqb_refl; reflexivity)) as E2.
      simpl in E2. rewrite Z.eqb_refl in E2.
      inversion Hv as [|d1 bs1 st1 d2 rs2 k b e0 F0 Fk Fb Fv|d1 b1 st1 d2 al2 r2 len2 n2 i e0 F0 Fl Fn Fi Fv]; subst;
        [|rewrite E2 in F0; discriminate].
      rewrite nthz_map in Fb. destruct (nthz rs k) as [r|] eqn:Er; [|discriminate]. simpl in Fb. inv Fb.
      pose proof (nthz_In _ _ _ Er) as Hin. pose proof (nthz_Some_range _ _ _ Er) as Hrk.
      specialize (Hd _ Hin). apply negb_true_iff in Hd.
      destruct (sfresh_dep d rs r st (Sta k) Hf Hin Hd) as (Hgd & Hfr & _).
      assert (Hk : a d = k).
      { assert (Hg : get (Idx d) (st ++ (Idx d, Sta k) :: e0) = Some (Sta k)).
        { rewrite get_app, Hgd. simpl. rewrite Z.eqb_refl. reflexivity. }
        pose proof (ag_idx _ _ _ Ha _ _ Hg) as Hva. unfold vagree in Hva. simpl in Hva. rewrite u64_small in Hva by lia. auto. }
      replace (st ++ (Idx d, Sta k) :: e0) with ((st ++ [(Idx d, Sta k)]) ++ e0) in Ha by (rewrite <- app_assoc; reflexivity).
      destruct (IH r Hin _ e0 l a (Hn _ Hin) Hfr ltac:(eapply pos_dep; eauto; lia) Fv Ha) as (p & Ep & Em & Hx).
      exists ((d, Some (Z.of_nat (List.length rs))) :: p). rewrite spath_dep, Hk, Er, Ep. split; [reflexivity|].
      split; [simpl; congruence|]. intros q j [E|Hq].
      + injection E as E1 E2'. subst q j. exists [], (Sta k), e0. split; [reflexivity|]. eauto.
      + destruct (Hx q j Hq) as (e1 & v & e2 & -> & H). exists ((Idx d, Sta k) :: e1), v, e2. split; [reflexivity|].
        rewrite <- app_assoc in H. exact H.
  Qed.
End Whole.

(** ** States as sets of entries *)

Lemma same_get_srel st st' : same_get st st' -> srel eq (fun _ => True) st st'.
Proof. intros H d _. destruct (H d) as [-> ->]. split; (destruct (get _ st'); [reflexivity|exact I]). Qed.

Lemma srel_same_get st st' : srel eq (fun _ => True) st st' -> same_get st st'.
Proof.
  intros H d. destruct (H d I) as [H1 H2]. unfold orel in *. split.
  - destruct (get (Idx d) st), (get (Idx d) st'); congruence || contradiction.
  - destruct (get (Len d) st), (get (Len d) st'); congruence || contradiction.
Qed.

Lemma length_same_get s q st st' : signature s <> None -> same_get st st' -> length_ s q st = length_ s q st'.
Proof.
  intros Hs H. apply orel_eq.
  apply (lenops_rel eq congruence_eq (fun _ => True) s s (struct_rel_refl eq (fun x => eq_refl) s) Hs (fun _ _ => I)); auto.
  apply same_get_srel, H.
Qed.

Lemma asg_same_get st st' : same_get st st' -> forall d, asg_of st d = asg_of st' d.
Proof. intros H d. unfold asg_of. rewrite (proj1 (H d)). reflexivity. Qed.

Lemma dims_same_get s st st' : same_get st st' -> dims_of s st = dims_of s st'.
Proof.
  intros H. unfold dims_of. destruct (signature s) as [sg|]; [|reflexivity]. simpl. apply spath_eqf. exact (asg_same_get _ _ H).
Qed.

Lemma same_get_remove ts st st' : same_get st st' -> same_get (remove ts st) (remove ts st').
Proof. intros H d. rewrite !get_remove, (proj1 (H d)), (proj2 (H d)). auto. Qed.

Lemma names_same_get s st st' p : same_get st st' -> names_element s st p -> names_element s st' p.
Proof.
  intros H [Hd Hn]. assert (Hs : signature s <> None) by (unfold dims_of in Hd; destruct (signature s); [congruence|discriminate]).
  split; [rewrite <- (dims_same_get s _ _ H); exact Hd|]. intros d k Hin. specialize (Hn d k Hin). destruct k as [n|].
  - rewrite <- (proj1 (H d)). exact Hn.
  - destruct Hn as (ds & len & n & i & x & H1 & H2 & H3). exists ds, len, n, i, x. split; [exact H1|].
    rewrite <- (length_same_get s d (remove (map Idx ds) st)); auto using same_get_remove. rewrite <- (proj1 (H d)). auto.
Qed.

(** ** What is visited names an element *)

Lemma get_idx_in e : NoDup (map fst e) -> forall t v, In (t, v) e -> get t e = Some v.
Proof.
  induction e as [|[t0 v0] e IH]; simpl; intros Hn t v H; [destruct H|]. apply NoDup_cons_iff in Hn. destruct Hn as [H0 Hn].
  destruct H as [E|H]; [inv E; destruct (tag_eqb_spec t t); congruence|].
  destruct (tag_eqb_spec t t0) as [->|]; [|auto]. exfalso. apply H0. eapply in_fst; eauto.
Qed.

Lemma remove_all ts e : (forall x, In x e -> In (fst x) ts) -> remove ts e = [].
Proof.
  unfold remove. induction e as [|x e IH]; intros H; [reflexivity|]. simpl.
  replace (tag_mem (fst x) ts) with true; [apply IH; intros; apply H; right; auto|]. symmetry. unfold tag_mem.
  apply existsb_exists. exists (fst x). split; [apply H; left; reflexivity|]. destruct (tag_eqb_spec (fst x) (fst x)); congruence.
Qed.

Lemma remove_none ts e : (forall x, In x e -> ~ In (fst x) ts) -> remove ts e = e.
Proof.
  unfold remove. induction e as [|x e IH]; intros H; [reflexivity|]. simpl.
  replace (tag_mem (fst x) ts) with false; [simpl; f_equal; apply IH; intros; apply H; right; auto|]. symmetry.
  destruct (tag_mem (fst x) ts) eqn:E; [|reflexivity]. exfalso. apply (H x (or_introl eq_refl)).
  unfold tag_mem in E. apply existsb_exists in E. destruct E as (t & Ht & E). destruct (tag_eqb_spec (fst x) t); [subst; exact Ht|discriminate].
Qed.

Lemma remove_app ts a b : remove ts (a ++ b) = remove ts a ++ remove ts b.
Proof. apply filter_app. Qed.

Lemma remove_suffix e1 e2 : NoDup (map fst (e1 ++ e2)) -> remove (map fst e2) (e1 ++ e2) = e1.
Proof.
  intros Hn. rewrite remove_app, (remove_all _ e2), app_nil_r.
  - apply remove_none. intros x Hx H. rewrite map_app in Hn. clear -Hn Hx H. induction e1 as [|y e1 IH]; [destruct Hx|].
    simpl in Hn. apply NoDup_cons_iff in Hn. destruct Hn as [Hy Hn]. destruct Hx as [->|Hx]; [|auto].
    apply Hy, in_or_app. right. exact H.
  - intros x Hx. apply in_map, Hx.
Qed.

Lemma map_Idx_nodup ds : NoDup ds -> NoDup (map Idx ds).
Proof. intros H. apply FinFun.Injective_map_NoDup; [intros a b E; congruence|exact H]. Qed.

Lemma map_fst_Idx (e : state) ds : map fst e = map Idx ds -> forall d, get (Len d) e = None.
Proof.
  revert ds. induction e as [|[t v] e IH]; intros [|x ds] E d; simpl in E; try discriminate; [reflexivity|].
  inv E. simpl. eapply IH; eauto.
Qed.

Lemma visits_names top sg e : signature top = Some sg -> snodup sg = true -> visits top sg (sig_dim_tree sg) [] e ->
  exists p, names_element top e p /\ map fst e = map Idx (map fst p).
Proof.
  intros Hs Hn Hv.
  destruct (visits_path top sg sg [] e (lenv_of e) (asg_of e) Hn ltac:(intros ? ?; reflexivity) ltac:(intros ? ? ? ?; reflexivity) Hv (agree_of e))
    as (p & Ep & Em & Hx).
  assert (Hnd : NoDup (map fst e)) by (rewrite Em; apply map_Idx_nodup; eapply spath_nodup; eauto).
  exists p. split; [|exact Em]. split; [unfold dims_of; rewrite Hs; exact Ep|]. intros d k Hd.
  destruct (Hx d k Hd) as (e1 & v & e2 & E & H).
  assert (Hg : get (Idx d) e = Some v) by (apply get_idx_in; [exact Hnd|]; rewrite E; apply in_or_app; right; left; reflexivity).
  destruct k as [n|].
  - destruct H as (i & ->). exists (Sta i), (u64 i). auto.
  - destruct H as (len & n & i & -> & Hl & Hln & Hi). pose proof (vz_range _ _ Hln).
    assert (Hds : exists ds, map fst e2 = map Idx ds).
    { clear -E Em. subst e. rewrite map_app in Em. simpl in Em. revert Em. generalize (map fst p). clear p.
      induction e1 as [|x e1 IH]; intros [|y p] Em; simpl in Em; try discriminate; inv Em; eauto. }
    destruct Hds as [ds Hds]. exists (d :: ds), len, n, (Dyn i), i. split; [left; reflexivity|].
    replace (map Idx (d :: ds)) with (map fst ((Idx d, Dyn i) :: e2)) by (simpl; congruence).
    rewrite E in Hnd |- *. rewrite remove_suffix by exact Hnd. split; [exact Hl|]. split; [exact Hln|].
    rewrite <- E. split; [exact Hg|]. split; [simpl; rewrite u64_small by lia; reflexivity|lia].
Qed.
