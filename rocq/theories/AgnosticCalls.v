(** * Orders stated by a program: the calls *)

From Coq Require Import Permutation Sorted.
From Verif Require Import SpecAgnostic ReduceBagThms Sections3.
From Verif Require Export AgnosticSig.

Definition quiet (v : view) (t : struct) (l : lenv) : Prop := match v with VHoist _ | VReorder _ => True | _ => False end.

Lemma quiet_over w ss ds : over quiet (Union ss) (apply (stated w ds) (Union ss)) nolens.
Proof.
  assert (B : over quiet (Union ss) (Union ss) nolens) by (constructor; reflexivity). destruct w.
  - apply over_view; [exact I|exact B].
  - cbn [stated]. induction ds as [|d ds IH]; [exact B|]. rewrite apply_hoist. apply over_view; [exact I|exact IH].
Qed.

Lemma quiet_rearranges u s l : over quiet u s l -> over rearranges u s l.
Proof. apply over_mono. intros v t l' H. destruct v; try destruct H; (split; [split; [reflexivity|intros c; exact I]|exact I]). Qed.

Lemma quiet_lenok u s l : over quiet u s l -> lenok u l -> lenok s l.
Proof. induction 1 as [l Hl|v t l Hv Ho IH]; intros H; [exact H|]. destruct v; try destruct Hv; (split; [exact I|apply IH, H]). Qed.

Lemma quiet_good u s l : over quiet u s l -> forall a, good u l a -> good s l a.
Proof. induction 1 as [l Hl|v t l Hv Ho IH]; intros a H; [exact H|]. destruct v; try destruct Hv; (split; [exact I|]; split; [apply IH, H|exact I]). Qed.

Lemma quiet_plain u s l : over quiet u s l -> (forall su, signature u = Some su -> plain su = true) -> forall sg, signature s = Some sg -> plain sg = true.
Proof.
  induction 1 as [l Hl|v t l Hv Ho IH]; intros H sg Es; [auto|]. destruct (signature_View_inv _ _ _ Es) as (s0 & E0 & Ev). specialize (IH H s0 E0).
  destruct v; try destruct Hv; cbn [view_sig] in Ev.
  - eapply build_plain; eauto.
  - destruct (sig_find_dim d [] s0) as [[| |x al r|]|]; try discriminate. destruct (sreplace _ _ _) as [s1|] eqn:E1; [|discriminate]. inv Ev. rewrite plain_fun. eapply sreplace_plain; eauto.
Qed.

Lemma quiet_state ss s l : over quiet (Union ss) s l -> forall st x, state_at (Union ss) s st = Some x -> x = st.
Proof.
  intros H. induction H as [l Hl|v t l Hv Ho IH]; intros st x E; [eapply state_at_self; [|exact E]; discriminate|]. rewrite state_at_view in E by reflexivity.
  destruct v; try destruct Hv; cbn [sub_state view_sub_state obind] in E; apply IH, E.
Qed.

Lemma all_indices_sorted ls : StronglySorted lexlt (all_indices ls).
Proof.
  induction ls as [|[d n] ls IH]; cbn [all_indices]; [repeat constructor|]. apply (ssorted_flat lexlt Z.lt).
  - apply zseq_sorted.
  - intros i _. apply ssorted_map. eapply ssorted_cong; [exact IH|]. intros x y _ _ H. right. auto.
  - intros i j x y _ _ Hij Hx Hy. apply in_map_iff in Hx. destruct Hx as (x' & <- & _). apply in_map_iff in Hy. destruct Hy as (y' & <- & _). left. exact Hij.
Qed.

Section Stated.
  Variables (w : way) (ss : list struct) (lens : list (dim * Z)).
  Let u := Union ss.
  Let ds := map fst lens.
  Let t := order (traverser ss) (stated w ds).
  Let top := top_struct t.
  Hypothesis Hc : cubes ss lens.
  Hypothesis Hs : forall s, In s ss -> sound_struct s.

  Lemma stated_top : top = apply (stated w ds) u.
  Proof. unfold top, t. rewrite top_order. reflexivity. Qed.
  Let cases : w = Reordered \/ w = Hoisted.
  Proof. destruct w; auto. Qed.
  Lemma stated_quiet : over quiet u top nolens.
  Proof. rewrite stated_top. apply quiet_over. Qed.

  Lemma u_uswf : uswf u = true.
  Proof.
    unfold u. cbn [uswf]. apply andb_true_iff. split; [apply forallb_forall; intros s Hin; apply swf_uswf, (Hs s Hin)|].
    assert (H : forallb nodep ss = true) by (apply forallb_forall; intros s Hin; apply (cubes_no_tuples ss lens Hc s Hin)). destruct ss as [|s [|s' r]]; auto.
  Qed.
  Lemma u_lenok : lenok u nolens.
  Proof. apply lenok_all, Forall_forall. intros s Hin. apply (Hs s Hin). Qed.

  Lemma u_good a : good u nolens a.
  Proof.
    split.
    - assert (H : forall s, In s ss -> good s nolens a) by (intros s Hin; apply (Hs s Hin)). clear - H. induction ss as [|s r IH]; [exact I|]. split; [apply H; left; reflexivity|apply IH; intros x Hx; apply H; right; exact Hx].
    - apply Forall_forall. intros s Hin q. unfold plen at 2. destruct Hc as (_ & H & _). destruct (H s Hin) as (l & Hl & Hi). destruct (cube_sig _ _ Hl) as (sg & Es & Hp & Hd). rewrite Es, (plain_path _ a Hp).
      destruct (find _ _) as [[d k]|] eqn:Ef; [|destruct (plen _ _ _ _); exact I]. apply find_some in Ef. destruct Ef as [Hf Eq]. cbn [fst] in Eq. apply Z.eqb_eq in Eq. subst d.
      apply in_map_iff in Hf. destruct Hf as (d & E & Hq). injection E as -> <-. apply Hd in Hq. destruct (fst_in _ _ Hq) as [n Hn].
      rewrite (cube_ilen s l q n a Hl (proj1 (proj2 (Hs s Hin))) Hn). fold u. unfold plen. destruct (signature u) as [su|] eqn:Eu; [|exact I].
      destruct (cubes_dims ss lens Hc su Eu) as [Hpu _]. rewrite (plain_path _ a Hpu). destruct (find _ _) as [[d k]|] eqn:Ef; [|exact I].
      apply find_some in Ef. destruct Ef as [Hf Eq]. apply in_map_iff in Hf. destruct Hf as (x & E & _). injection E as <- <-. cbn [on_len]. unfold u. rewrite (cubes_ilen ss lens Hc q n a u_lenok (Hi _ Hn)). lia.
  Qed.

  Lemma u_plain su : signature u = Some su -> plain su = true.
  Proof. intros E. apply (cubes_dims ss lens Hc su E). Qed.

  Lemma stated_signature : signature top <> None -> exists su, signature u = Some su.
  Proof. intros H. destruct (signature u) as [su|] eqn:E; [eauto|]. exfalso. apply (over_signature _ _ _ _ stated_quiet H). exact E. Qed.

  Lemma stated_complete su : w = Reordered -> signature top <> None -> signature u = Some su -> view_complete (VReorder ds) u = true.
  Proof.
    intros Hw H E. apply (reorder_complete ds u su E (uswf_ends u su u_uswf E)).
    - rewrite stated_top, Hw in H. exact H.
    - intros q Hq. apply (proj2 (cubes_dims ss lens Hc su E) q). apply accept_sdims, Hq.
  Qed.

  Lemma stated_uswf : signature top <> None -> uswf top = true.
  Proof.
    intros H. destruct (stated_signature H) as (su & Eu). destruct cases as [Ew|Ew].
    - pose proof (stated_complete su Ew H Eu) as Hv. rewrite stated_top, Ew. cbn [stated]. unfold apply. cbn [fold_left apply_layer]. cbn [uswf]. fold u. rewrite u_uswf, andb_true_r. unfold view_swf. rewrite Eu.
      cbn [view_complete signature] in Hv. rewrite Eu in Hv. exact Hv.
    - rewrite stated_top, Ew in *. cbn [stated] in *. revert H. generalize ds. intros l. induction l as [|d l IH]; intros H; [exact u_uswf|]. rewrite apply_hoist in *. pose proof (signature_sub _ _ H) as H'.
      cbn [uswf]. rewrite (IH H'), andb_true_r. unfold view_swf. destruct (signature (apply (p_hoist l) u)); [reflexivity|congruence].
  Qed.

  Lemma stated_path st p : signature top <> None -> dims_of top st = Some p -> map fst p = ds.
  Proof.
    intros H Ep. destruct (stated_signature H) as (su & Eu). destruct (cubes_dims ss lens Hc su Eu) as [Hp Hd].
    assert (Hdu : distinct_dims u) by (apply uswf_distinct; [exact u_uswf|congruence]).
    assert (Epu : dims_of u st = Some (flat su)) by (unfold dims_of; rewrite Eu; cbn [obind]; apply plain_path, Hp).
    destruct cases as [Ew|Ew].
    - pose proof (stated_complete su Ew H Eu) as Hv. rewrite stated_top, Ew in Ep. apply (reorder_path ds u st p Hdu Hv Ep).
    - rewrite stated_top, Ew in H, Ep. cbn [stated] in H, Ep. destruct Hc as (Hn & _). destruct (hoists ds u st (flat su) Hn Hdu H Epu) as (_ & _ & rest & Er & Pr). rewrite Ep in Er. injection Er as ->.
      assert (Hnd : NoDup (map fst (map (fun x => (x, @None Z)) ds ++ rest))).
      { eapply Permutation_NoDup; [symmetry; apply (Permutation_map fst), Pr|]. unfold dims_of in Epu. rewrite Eu in Epu. eapply spath_nodup; [exact (uswf_snodup u su u_uswf Eu)|exact Epu]. }
      destruct rest as [|[q k] rest]; [rewrite app_nil_r, map_map; apply map_id|]. exfalso. rewrite map_app, map_map in Hnd. cbn [fst map] in Hnd. rewrite map_id in Hnd. apply NoDup_remove_2 in Hnd. apply Hnd.
      apply in_or_app. left. apply Hd. rewrite <- (flat_fst su). apply in_map_iff. exists (q, k). split; [reflexivity|]. eapply Permutation_in; [exact Pr|]. apply in_or_app. right. left. reflexivity.
  Qed.

  Lemma stated_defined : for_each t [] <> Undefined.
  Proof.
    destruct (signature top) as [sg|] eqn:E; [|unfold for_each, for_sections_with, for_tree; fold top; rewrite E; discriminate].
    apply each_defined; fold top.
    - apply stated_uswf. congruence.
    - unfold no_empty_tuple. rewrite E. apply plain_filled. eapply quiet_plain; [exact stated_quiet|exact u_plain|exact E].
    - eapply quiet_lenok; [exact stated_quiet|exact u_lenok].
    - intros a. eapply quiet_good; [exact stated_quiet|apply u_good].
  Qed.

  Theorem stated_calls calls : for_each t [] = Done calls -> map (fun st => map (asg_of st) ds) calls = all_indices lens.
  Proof.
    intros E. assert (Hx : forall v t, u <> View v t) by discriminate. pose proof (for_each_signature t calls E) as Hsg. fold top in Hsg. pose proof (stated_uswf Hsg) as Hw.
    pose proof (quiet_lenok _ _ _ stated_quiet u_lenok) as Hlk.
    destruct (run_of t calls E Hx Hw) as (sg & sts & Esg & R & _ & F). fold top in Esg, R, F. pose proof (uswf_snodup _ _ Hw Esg) as Hsn.
    assert (F' : Forall2 same_get sts calls).
    { pose proof stated_quiet as Hq. clear - F Hq. induction F as [|e r es rs (x & Ex & Hg) _ IH]; constructor; [|exact IH]. rewrite <- (quiet_state ss top nolens Hq e x Ex). exact Hg. }
    assert (Hn : forall e, In e sts -> exists p, names_element top e p /\ map fst p = ds).
    { intros e He. destruct (run_names top sg sts Esg Hsn R e He) as (p & Hp & _). exists p. split; [exact Hp|]. eapply stated_path; [exact Hsg|apply Hp]. }
    assert (Hk : map (index_list top) sts = map (fun st => map (asg_of st) ds) calls).
    { clear - F' Hn. induction F' as [|e r es rs Hg _ IH]; [reflexivity|]. cbn [map]. f_equal; [|apply IH; intros y Hy; apply Hn; right; exact Hy].
      destruct (Hn e (or_introl eq_refl)) as (p & [Hp _] & Hd). rewrite (index_list_eq _ _ _ Hp), Hd. apply map_ext. intros d. symmetry. apply same_asg, Hg. }
    assert (Hcm : forall r, In r calls -> complete u r).
    { intros r Hr. destruct (stated_signature Hsg) as (su & Eu). destruct (cubes_dims ss lens Hc su Eu) as [Hp Hd]. exists (flat su).
      split; [unfold dims_of; rewrite Eu; cbn [obind]; apply plain_path, Hp|]. intros d Hin. rewrite flat_fst in Hin. apply Hd in Hin.
      destruct (Forall2_In_r _ _ _ _ F' Hr) as (e & He & Hg). destruct (Hn e He) as (p & [_ Hp'] & Hdp). fold ds in Hin. rewrite <- Hdp in Hin. destruct (fst_in _ _ Hin) as [k Hk'].
      specialize (Hp' d k Hk'). rewrite <- (proj1 (Hg d)). destruct k as [n|]; [exact Hp'|]. destruct Hp' as (_ & _ & _ & i & z & _ & _ & _ & Hi & Hz & _). eauto. }
    rewrite <- Hk. apply sorted_unique; [rewrite Hk|apply all_indices_sorted|].
    - rewrite <- Hk. exact (run_ordered top sg sts Esg Hsn R).
    - rewrite Hk. intros x. pose proof (calls_box ss (stated w ds) lens calls Hc Hw Hlk (over_mono _ _ _ _ _ rearranges_documented (quiet_rearranges _ _ _ stated_quiet)) E Hcm (quiet_rearranges _ _ _ stated_quiet)) as P.
      split; apply Permutation_in; [exact P|symmetry; exact P].
  Qed.
End Stated.
