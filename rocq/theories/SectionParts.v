(** * Sections that are cut again: proofs *)

From Coq Require Import Permutation.
From Verif Require Export CudaFacts RangeThms Sections3.
From Verif Require Import SpecSectionKernel.

(** ** Fixed dimensions are gone *)

Lemma fix_sig_accept d i s q : forall s', snodup s = true -> view_sig (VFix d i) s = Some s' -> any_accept q s' = true -> any_accept q s = true /\ q <> d.
Proof.
  cbn [view_sig]. induction s as [c| |e al r IH|e rs IH] using sig_ind'; intros s' Hn E; cbn [sreplace] in E.
  - injection E as <-. discriminate.
  - injection E as <-. discriminate.
  - destruct (snodup_fun _ _ _ Hn) as [He Hr]. unfold mem in E. cbn [existsb] in E. rewrite orb_false_r in E. destruct (Z.eqb_spec e d) as [->|Hne].
    + injection E as <-. intros Hq. cbn [any_accept]. rewrite Hq. split; [apply orb_true_r|]. intros ->. congruence.
    + destruct (sreplace _ _ r) as [r'|] eqn:Er; [|discriminate]. injection E as <-. cbn [any_accept]. intros Hq. apply orb_true_iff in Hq. destruct Hq as [Hq|Hq].
      * rewrite Hq. split; [reflexivity|lia].
      * destruct (IH _ Hr eq_refl Hq) as [H1 H2]. rewrite H1. split; [apply orb_true_r|exact H2].
  - unfold mem in E. cbn [existsb] in E. rewrite orb_false_r in E. destruct (Z.eqb_spec e d) as [->|Hne].
    + destruct (vstatic i) as [k|]; [|discriminate]. intros Hq. destruct (snodup_dep _ _ _ _ Hn E) as [H1 _]. cbn [any_accept]. split; [|intros ->; congruence].
      apply orb_true_iff. right. apply existsb_exists. exists s'. split; [eapply nthz_In; eauto|exact Hq].
    + destruct (omap _ rs) as [rs'|] eqn:Er; [|discriminate]. injection E as <-. cbn [any_accept]. intros Hq. apply orb_true_iff in Hq. destruct Hq as [Hq|Hq].
      * rewrite Hq. split; [reflexivity|lia].
      * apply existsb_exists in Hq. destruct Hq as (r' & Hin & Hr'). apply (omap_Some_In _ _ _ Er) in Hin. destruct Hin as (r & Hin & Er').
        assert (Hsn : snodup r = true) by (cbn [snodup] in Hn; rewrite !andb_true_iff, !forallb_forall in Hn; apply Hn, Hin).
        rewrite Forall_forall in IH. destruct (IH _ Hin _ Hsn Er' Hr') as [H1 H2]. split; [|exact H2]. apply orb_true_iff. right. apply existsb_exists. eauto.
Qed.

Lemma fix_accept q e : forall t sg sge, idx_only e -> signature t = Some sg -> snodup sg = true -> signature (apply (p_fix e) t) = Some sge ->
  any_accept q sge = true -> any_accept q sg = true /\ get (Idx q) e = None.
Proof.
  induction e as [|[t0 v] e IH]; intros t sg sge Hi Es Hn Ee Hq.
  - cbn in Ee. rewrite Es in Ee. injection Ee as <-. auto.
  - destruct (idx_only_cons _ _ Hi) as [[d Hd] Hi']. cbn [fst] in Hd. subst t0. rewrite apply_fix_cons in Ee.
    assert (Hv : signature (View (VFix d v) t) <> None) by (apply (apply_sig (p_fix e)); congruence).
    destruct (signature (View (VFix d v) t)) as [s1|] eqn:E1; [|congruence].
    assert (Ev : view_sig (VFix d v) sg = Some s1) by (cbn [signature] in E1; rewrite Es in E1; exact E1).
    assert (Hn1 : snodup s1 = true) by (eapply view_snodup; eauto; exact I).
    destruct (IH _ _ _ Hi' E1 Hn1 Ee Hq) as [H1 H2]. destruct (fix_sig_accept d v sg q s1 Hn Ev H1) as [H3 H4]. split; [exact H3|].
    cbn [get]. destruct (tag_eqb_spec (Idx q) (Idx d)); [congruence|exact H2].
Qed.

(** ** Cutting a section *)

Definition accepts (sg : sig) (sts : list state) : Prop := forall e d v, In e sts -> In (Idx d, v) e -> any_accept d sg = true.

Section Again.
  Variables (t : trav) (sg sge : sig) (s1 s2 sub : list state) (e : state).
  Let top := top_struct t.
  Hypothesis Hp : parts t sg (s1 ++ e :: s2).
  Hypothesis Ha : accepts sg (s1 ++ e :: s2).
  Hypothesis Hp' : parts (inner t e) sge sub.
  Hypothesis Ha' : accepts sge sub.

  Let He : In e (s1 ++ e :: s2).
  Proof. apply in_or_app. right. left. reflexivity. Qed.
  Let Hold x : In x s1 \/ In x s2 -> In x (s1 ++ e :: s2).
  Proof. intros [H|H]; apply in_or_app; [left|right; right]; exact H. Qed.
  Let Hnew x : In x (s1 ++ map (app e) sub ++ s2) -> (In x s1 \/ In x s2) \/ exists y, In y sub /\ x = e ++ y.
  Proof. intros H. apply in_app_or in H. destruct H as [H|H]; [auto|]. apply in_app_or in H. destruct H as [H|H]; [|auto]. apply in_map_iff in H. destruct H as (y & <- & H). eauto. Qed.

  Lemma again_sig : signature (apply (p_fix e) top) = Some sge.
  Proof. destruct Hp' as (H & _). rewrite top_inner in H. exact H. Qed.

  Lemma again_idx y : In y sub -> forall x, In x y -> exists d, fst x = Idx d /\ any_accept d sg = true /\ get (Idx d) e = None.
  Proof.
    intros Hy [t0 v] Hx. destruct Hp' as (_ & _ & T' & _). destruct (T' y Hy) as ((ds & Hds) & _ & _).
    assert (Hin : In t0 (map Idx ds)) by (rewrite <- Hds; apply in_map_iff; exists (t0, v); auto). apply in_map_iff in Hin. destruct Hin as (d & <- & _).
    destruct Hp as (Es & Hn & T & _). destruct (T e He) as (Hi & _). exists d. split; [reflexivity|].
    exact (fix_accept d e top sg sge Hi Es Hn again_sig (Ha' y d v Hy Hx)).
  Qed.

  Lemma again_agree y a : In y sub -> (agree (e ++ y) nolens a <-> agree e nolens a /\ agree y nolens a).
  Proof.
    intros Hy. destruct Hp as (_ & _ & T & _). destruct (T e He) as (_ & _ & Le). destruct Hp' as (_ & _ & T' & _). destruct (T' y Hy) as (_ & _ & Ly). split.
    - intros [_ A]. split; (split; [intros d; rewrite ?Le, ?Ly; exact I|]); intros d v Hv; apply A; rewrite get_app; [rewrite Hv; reflexivity|].
      destruct (again_idx y Hy (Idx d, v) (get_In _ _ _ Hv)) as (q & E & _ & Hg). cbn [fst] in E. injection E as <-. rewrite Hg. exact Hv.
    - intros [[_ A] [_ B]]. split; [intros d; rewrite get_app, Le, Ly; exact I|]. intros d v Hv. rewrite get_app in Hv. destruct (get (Idx d) e) eqn:E; [injection Hv as <-; auto|auto].
  Qed.

  Lemma again_fixed a p : agree e nolens a -> spath sg a = Some p -> forall d v, get (Idx d) e = Some v -> vzd v = a d.
  Proof.
    intros A Ep d v Hv. destruct Hp as (_ & _ & _ & _ & V & _). pose proof (ag_idx _ _ _ A d v Hv) as Hva. apply get_In in Hv. destruct (V e a p He A Ep d v Hv) as (k & _ & Hk).
    destruct k; [subst v|destruct Hk as [-> _]]; exact Hva.
  Qed.
  Lemma again_same a p : agree e nolens a -> spath sg a = Some p -> eqf (fix_asg e a) a.
  Proof. intros A Ep q. rewrite fix_asg_get. destruct (get (Idx q) e) as [v|] eqn:E; [eapply again_fixed; eauto|reflexivity]. Qed.

  Lemma agree_self x : (forall d, get (Len d) x = None) -> agree x nolens (asg_of x).
  Proof. intros H. split; intros d; [rewrite H; exact I|]. intros v Hv. unfold asg_of. rewrite Hv. unfold vagree, vzd. destruct (vz v); auto. Qed.

  Lemma again_other x y : In x s1 \/ In x s2 -> In y sub -> x <> e ++ y.
  Proof.
    intros Hx Hy E. destruct Hp as (_ & _ & T & Nd & _ & _ & U). destruct (T x (Hold x Hx)) as (_ & _ & Lx). pose proof (agree_self x Lx) as A.
    pose proof A as A'. rewrite E in A' at 1. apply (again_agree y _ Hy) in A'. destruct A' as [A' _].
    pose proof (U x e _ (Hold x Hx) He A A') as ->. apply NoDup_remove_2 in Nd. apply Nd, in_or_app. exact Hx.
  Qed.

  Theorem again_parts : parts t sg (s1 ++ map (app e) sub ++ s2) /\ accepts sg (s1 ++ map (app e) sub ++ s2).
  Proof.
    pose proof Hp as (Es & Hn & T & Nd & V & C & U). pose proof Hp' as (_ & Hn' & T' & Nd' & V' & C' & U'). pose proof again_sig as Ee.
    destruct (T e He) as (Hi & Hnd & Hle). split; [split; [exact Es|]; split; [exact Hn|]; split; [|split; [|split; [|split]]]|].
    - intros x Hx. destruct (Hnew x Hx) as [H|(y & Hy & ->)]; [apply T, Hold, H|]. destruct (T' y Hy) as ((ds' & Hds') & Hnd' & Hly). destruct Hi as [ds Hds].
      split; [exists (ds ++ ds'); rewrite !map_app, Hds, Hds'; reflexivity|]. split; [|intros d; rewrite get_app, Hle, Hly; reflexivity].
      rewrite map_app. apply NoDup_app_intro; [exact Hnd|exact Hnd'|]. intros t0 H1 H2. apply in_map_iff in H2. destruct H2 as ([t1 v] & E & H2). cbn [fst] in E. subst t1.
      destruct (again_idx y Hy _ H2) as (d & E & _ & Hg). cbn [fst] in E. subst t0. apply in_map_iff in H1. destruct H1 as ([t1 w] & E & H1). cbn [fst] in E. subst t1.
      rewrite (get_idx_in e Hnd _ _ H1) in Hg. discriminate.
    - pose proof (NoDup_remove_1 _ _ _ Nd) as N12. assert (N1 : NoDup s1) by (clear - N12; induction s1 as [|x l IH]; [constructor|]; inversion N12; subst; constructor; [intros X; apply H1, in_or_app; auto|auto]).
      assert (N2 : NoDup s2) by (clear - N12; induction s1 as [|x l IH]; [exact N12|inversion N12; auto]).
      assert (Hd12 : forall x, In x s1 -> In x s2 -> False).
      { clear - N12. induction s1 as [|x l IH]; intros y H1 H2; [destruct H1|]. inversion N12; subst. destruct H1 as [->|H1]; [apply H3, in_or_app; auto|eauto]. }
      apply NoDup_app_intro; [exact N1| |].
      + apply NoDup_app_intro; [apply FinFun.Injective_map_NoDup; [intros x y E; exact (app_inv_head _ _ _ E)|exact Nd']|exact N2|].
        intros x H1 H2. apply in_map_iff in H1. destruct H1 as (y & <- & Hy). exact (again_other _ y (or_intror H2) Hy eq_refl).
      + intros x H1 H2. apply in_app_or in H2. destruct H2 as [H2|H2]; [|eauto]. apply in_map_iff in H2. destruct H2 as (y & <- & Hy). exact (again_other _ y (or_introl H1) Hy eq_refl).
    - intros x a p Hx A Ep d v Hv. destruct (Hnew x Hx) as [H|(y & Hy & ->)]; [exact (V x a p (Hold x H) A Ep d v Hv)|].
      apply (again_agree y a Hy) in A. destruct A as [A B]. apply in_app_or in Hv. destruct Hv as [Hv|Hv]; [exact (V e a p He A Ep d v Hv)|].
      pose proof (again_same a p A Ep) as Hs. destruct (fix_path e top sg sge Hi Es Hn Ee) as [_ F]. destruct (F a) as [_ F2].
      assert (Ep' : spath sge a = Some (filter (free e) p)) by (apply F2; rewrite (spath_eqf sg _ _ Hs); exact Ep).
      destruct (V' y a _ Hy B Ep' d v Hv) as (k & Hk & Hkv). apply filter_In in Hk. destruct Hk as [Hk _]. exists k. split; [exact Hk|]. destruct k; [exact Hkv|].
      rewrite top_inner in Hkv. fold top in Hkv |- *. rewrite fix_len in Hkv by exact Hi. rewrite (ilen_ext top nolens nolens (fix_asg e a) a d) in Hkv by (try exact Hs; apply eqf_refl). exact Hkv.
    - intros a p Va. destruct (C a p Va) as (x & Hx & A). apply in_app_or in Hx. destruct Hx as [Hx|[<-|Hx]].
      + exists x. split; [apply in_or_app; left; exact Hx|exact A].
      + pose proof (fix_valid_back e top sg sge a p Hi Es Hn Ee Va (again_fixed a p A (proj1 (proj2 Va)))) as Vb.
        destruct (C' a _ ltac:(rewrite top_inner; exact Vb)) as (y & Hy & B). exists (e ++ y). split; [apply in_or_app; right; apply in_or_app; left; apply in_map, Hy|].
        apply again_agree; auto.
      + exists x. split; [apply in_or_app; right; apply in_or_app; right; exact Hx|exact A].
    - intros x1 x2 a H1 H2 A1 A2. destruct (Hnew x1 H1) as [G1|(y1 & Y1 & ->)], (Hnew x2 H2) as [G2|(y2 & Y2 & ->)].
      + exact (U x1 x2 a (Hold _ G1) (Hold _ G2) A1 A2).
      + exfalso. apply (again_agree y2 a Y2) in A2. pose proof (U x1 e a (Hold _ G1) He A1 (proj1 A2)) as ->. apply NoDup_remove_2 in Nd. apply Nd, in_or_app, G1.
      + exfalso. apply (again_agree y1 a Y1) in A1. pose proof (U x2 e a (Hold _ G2) He A2 (proj1 A1)) as ->. apply NoDup_remove_2 in Nd. apply Nd, in_or_app, G2.
      + apply (again_agree y1 a Y1) in A1. apply (again_agree y2 a Y2) in A2. f_equal. exact (U' y1 y2 a Y1 Y2 (proj2 A1) (proj2 A2)).
    - intros x d v Hx Hv. destruct (Hnew x Hx) as [H|(y & Hy & ->)]; [exact (Ha x d v (Hold x H) Hv)|]. apply in_app_or in Hv. destruct Hv as [Hv|Hv]; [exact (Ha e d v He Hv)|].
      destruct (again_idx y Hy _ Hv) as (q & E & Hq & _). cbn [fst] in E. injection E as <-. exact Hq.
  Qed.
End Again.

(** ** All the ways to cut *)

Lemma cut_inner t st e : inner (inner t st) e = inner t (st ++ e).
Proof. unfold inner, order, p_fix. cbn [tr_struct tr_order]. rewrite flat_map_app, app_assoc. reflexivity. Qed.

Lemma zseq_threads d n : launch_threads [(d, n)] = map (fun i => [(Idx d, Dyn i)]) (zseq n).
Proof. cbn [launch_threads map]. induction (zseq n) as [|i l IH]; [reflexivity|]. cbn [flat_map map app]. rewrite IH. reflexivity. Qed.

Theorem cut_parts ss t us : cut_into t us -> forall p, t = order (traverser ss) p -> lenok (top_struct t) nolens ->
  (forall sg, signature (top_struct t) = Some sg -> snodup sg = true) -> exists sg sts, us = map (inner t) sts /\ parts t sg sts /\ accepts sg sts.
Proof.
  induction 1 as [t ds us Hd E|t ds us Hd He E|t ps us Hd Hnd Hev Hfit E|t r Hd E|t us1 u us2 vs H1 IH1 H2 IH2]; intros p -> Hlk Hsn.
  - exact (for_sections_parts ss p ds us Hd Hlk E).
  - exact (for_dims_parts ss p ds us Hd Hlk He E).
  - destruct (launch_parts ss p ps us Hd Hlk Hnd (fun d H => proj2 (Hev d H)) Hfit E) as (sg & sts & -> & Hp & Ht). exists sg, sts. split; [reflexivity|]. split; [exact Hp|].
    intros e d v Hin Hv. assert (Hq : In (Idx d) (map fst e)) by (apply in_map_iff; exists (Idx d, v); auto). rewrite (Ht e Hin) in Hq. apply in_map_iff in Hq.
    destruct Hq as (q & Eq & Hq). injection Eq as ->. destruct (Hev d Hq) as [Hh _]. unfold has_dim in Hh. rewrite (proj1 Hp) in Hh. exact Hh.
  - set (t := order (traverser ss) p) in *. destruct (range_inv t r Hd E) as (al & rs & len & n & Es & Hn & El & En & Hn0 & Er).
    assert (Esz : rg_size r = n) by (rewrite Er; unfold rg_size; cbn [rg_end rg_begin]; rewrite Z.sub_0_r; apply u64_small, Hn0).
    exists (SFun (rg_dim r) al rs), (launch_threads [(rg_dim r, n)]). rewrite zseq_threads, Esz. split; [|split].
    + rewrite map_map. apply map_ext_in. intros i Hi. apply Lib.zseq_In in Hi. rewrite Er. unfold rg_nth. cbn [rg_trav rg_dim rg_begin]. rewrite Z.add_0_l, u64_small by lia. reflexivity.
    + rewrite <- zseq_threads. apply threads_parts; auto.
      * constructor; [intros []|constructor].
      * intros d m a [Ei|[]]. injection Ei as <- <-. split; [exact Hn0|]. assert (A : agree [] nolens a) by (split; [intros q; exact I|intros q w Hw; discriminate]).
        pose proof (length_agree (top_struct t) ltac:(congruence) _ _ _ _ _ Hlk A El) as Hv. unfold vagree in Hv. rewrite En in Hv. congruence.
      * intros a q d m Ep [Ei|[]]. injection Ei as <- <-. cbn [spath] in Ep. destruct (spath rs a) as [q'|]; [|discriminate]. injection Ep as <-. left. reflexivity.
    + intros e d v He Hv. apply in_map_iff in He. destruct He as (i & <- & _). destruct Hv as [Ei|[]]. injection Ei as <- <-. cbn [any_accept]. rewrite Z.eqb_refl. reflexivity.
  - set (t := order (traverser ss) p) in *. destruct (IH1 p eq_refl Hlk Hsn) as (sg & sts & E1 & Hp & Ha). symmetry in E1. apply map_eq_app in E1. destruct E1 as (s1 & s' & -> & E1 & E2).
    destruct s' as [|e s2]; [discriminate|]. cbn [map] in E2. injection E2 as Eu E2.
    pose proof Hp as (Es & Hn & T & _). destruct (T e ltac:(apply in_or_app; right; left; reflexivity)) as (Hi & _).
    destruct (IH2 (p ++ p_fix e)) as (sge & sub & Ev & Hp' & Ha').
    + rewrite <- Eu. unfold inner, order, t. cbn [tr_struct tr_order]. rewrite app_assoc. reflexivity.
    + rewrite <- Eu, top_inner. apply fix_lenok; auto.
    + rewrite <- Eu, top_inner. intros sge Ee. apply (fix_path e (top_struct t) sg sge Hi Es Hn Ee).
    + rewrite <- Eu in Hp'. destruct (again_parts t sg sge s1 s2 sub e Hp Ha Hp' Ha') as [A B]. exists sg, (s1 ++ map (app e) sub ++ s2). split; [|auto].
      rewrite <- E1, <- E2, Ev, <- Eu, map_app, map_app, map_map. f_equal. f_equal. apply map_ext. intros y. apply cut_inner.
Qed.
