(** * The order in which sections visit the elements *)

From Coq Require Import Permutation Sorted.
From Verif Require Import SpecSections.
From Verif Require Export Defined Sections2.

Lemma lexlt_left a b x y : lexlt a b -> lexlt (a ++ x) (b ++ y).
Proof. revert b. induction a as [|u a IH]; intros [|v b]; cbn; try tauto. intros [H|[-> H]]; auto. Qed.

Lemma ssorted_flat {A B} (R : B -> B -> Prop) (S : A -> A -> Prop) (f : A -> list B) l :
  StronglySorted S l -> (forall a, In a l -> StronglySorted R (f a)) ->
  (forall a b x y, In a l -> In b l -> S a b -> In x (f a) -> In y (f b) -> R x y) -> StronglySorted R (flat_map f l).
Proof.
  induction 1 as [|a l Hl IH Ha]; intros H1 H2; [constructor|]. cbn [flat_map]. apply ssorted_app.
  - apply H1. left. reflexivity.
  - apply IH; [intros; apply H1; right; assumption|]. intros b c x y Hb Hc. apply H2; right; assumption.
  - intros x y Hx Hy. apply in_flat_map in Hy. destruct Hy as (b & Hb & Hy). rewrite Forall_forall in Ha.
    apply (H2 a b); auto; [left; reflexivity|right; exact Hb].
Qed.

Lemma ssorted_map {A B} (R : B -> B -> Prop) (f : A -> B) l : StronglySorted R (map f l) <-> StronglySorted (fun x y => R (f x) (f y)) l.
Proof.
  split.
  - induction l as [|a l IH]; cbn; intros H; [constructor|]. inv H. constructor; [auto|]. rewrite Forall_forall in *. intros x Hx. apply H3. apply in_map, Hx.
  - induction 1 as [|a l Hl IH Ha]; cbn; constructor; auto. rewrite Forall_forall in *. intros y Hy. apply in_map_iff in Hy. destruct Hy as (x & <- & Hx). auto.
Qed.

Lemma ssorted_cong {A} (R S : A -> A -> Prop) l : StronglySorted R l -> (forall x y, In x l -> In y l -> R x y -> S x y) -> StronglySorted S l.
Proof.
  induction 1 as [|a l Hl IH Ha]; intros H; constructor.
  - apply IH. intros; apply H; auto; right; assumption.
  - rewrite Forall_forall in *. intros x Hx. apply H; [left; reflexivity|right; exact Hx|auto].
Qed.

Lemma lexlt_trans a b c : lexlt a b -> lexlt b c -> lexlt a c.
Proof. revert b c. induction a as [|x a IH]; intros [|y b] [|z c]; cbn; try tauto. intros [H|[-> H]] [H'|[-> H']]; try (left; lia). right. split; [reflexivity|eauto]. Qed.

Lemma sorted_unique l m : StronglySorted lexlt l -> StronglySorted lexlt m -> (forall x, In x l <-> In x m) -> l = m.
Proof.
  intros Hl. revert m. induction Hl as [|x l Hl IH Hx]; intros m Hm H.
  - destruct m as [|y m]; [reflexivity|]. exfalso. apply (H y). left. reflexivity.
  - destruct Hm as [|y m Hm Hy]; [exfalso; apply (H x); left; reflexivity|]. rewrite Forall_forall in Hx, Hy.
    assert (x = y).
    { destruct (proj1 (H x) (or_introl eq_refl)) as [->|H1]; [reflexivity|]. destruct (proj2 (H y) (or_introl eq_refl)) as [->|H2]; [reflexivity|].
      exfalso. apply (lexlt_irrefl x). eapply lexlt_trans; eauto. }
    subst y. f_equal. apply IH; [exact Hm|]. intros z. split; intros Hz.
    + destruct (proj1 (H z) (or_intror Hz)) as [->|]; [|assumption]. exfalso. exact (lexlt_irrefl _ (Hx _ Hz)).
    + destruct (proj2 (H z) (or_intror Hz)) as [->|]; [|assumption]. exfalso. exact (lexlt_irrefl _ (Hy _ Hz)).
Qed.

(** ** Any loops outside *)

Section Order.
  Variables (t : trav) (sg : sig) (stsS : list state) (ls : list (list state)) (first : list (dim * option Z) -> list dim).
  Let u := tr_struct t.
  Let top := top_struct t.
  Definition first_then (p : list (dim * option Z)) : list dim := first p ++ filter (fun d => negb (mem d (first p))) (map fst p).
  Hypothesis Hx : forall v s, tr_struct t <> View v s.
  Hypothesis Hsig : signature top = Some sg.
  Hypothesis Hn : snodup sg = true.
  Hypothesis Hlk : lenok top nolens.
  Hypothesis sec_tags : forall e, In e stsS -> idx_only e /\ NoDup (map fst e) /\ forall d, get (Len d) e = None.
  Hypothesis sec_values : forall e a p, In e stsS -> agree e nolens a -> spath sg a = Some p ->
    forall d v, In (Idx d, v) e -> exists k, In (d, k) p /\
      match k with None => v = Dyn (a d) /\ 0 <= a d < ilen top nolens a d | Some _ => v = Sta (a d) end.
  Hypothesis sec_complete : forall a p, pvalid top nolens a sg p -> exists s, In s stsS /\ agree s nolens a.
  Hypothesis sec_sorted : StronglySorted lexlt (map values stsS).
  Hypothesis sec_first : forall e a p, In e stsS -> agree e nolens a -> spath sg a = Some p -> map fst e = map Idx (first p).
  Variable l1 : list state.
  Hypothesis E1 : for_each t [] = Done l1.
  Hypothesis E2 : Forall2 (fun e l => for_each (inner t e) [] = Done l) stsS ls.

  Lemma sec_index e sub e' : In e stsS -> sub_run t e sub -> In e' sub ->
    index_list_by first_then top (e' ++ rev e) = values e ++ index_list (apply (p_fix e) top) e'.
  Proof.
    intros He Hsub He'. destruct (sec_tags e He) as (Hi & Hnd & Hlen).
    destruct (sec_canonical t sg stsS Hsig Hn sec_tags sec_values e sub e' He Hsub He') as ((p & D & V & G) & Ag & Hfree).
    pose proof Hsub as (sge & Ee & Hne & Hlke & Er).
    pose proof (run_canonical _ _ _ e' Ee Hne Hlke Er He') as (p' & D' & V' & G').
    set (m := e' ++ rev e) in *.
    pose proof (sec_first e (asg_of m) p He Ag (proj1 (proj2 V))) as Hf.
    destruct (fix_valid e top sg sge _ p' Hi Hsig Hn V') as (q & Eq & Epp & _).
    assert (Hfr : forall x, get (Idx x) e <> None -> get (Idx x) e' = None).
    { intros x Hxx. destruct (G' x) as [_ ->]. apply entry_out. rewrite Epp. intros Hin. apply fst_in in Hin. destruct Hin as [k Hin].
      apply filter_In in Hin. destruct Hin as [_ Hf']. unfold free in Hf'. cbn [fst] in Hf'. destruct (get (Idx x) e); congruence. }
    assert (Hasg : eqf (asg_of m) (fix_asg e (asg_of e'))).
    { intros x. rewrite fix_asg_get. unfold m, asg_of at 1. rewrite get_app, get_rev by exact Hnd.
      destruct (get (Idx x) e) as [v|] eqn:Eg.
      - rewrite Hfr by congruence. reflexivity.
      - unfold asg_of. destruct (get (Idx x) e'); reflexivity. }
    assert (q = p).
    { rewrite <- (spath_eqf sg _ _ Hasg), (proj1 (proj2 V)) in Eq. congruence. }
    subst q.
    fold top in D. unfold index_list_by. rewrite D. unfold first_then. rewrite map_app. f_equal.
    - assert (Hv : forall x v, In (Idx x, v) e -> asg_of m x = vzd v).
      { intros x v Hxv. rewrite Hasg, fix_asg_get, (get_idx_in e Hnd _ _ Hxv). reflexivity. }
      unfold values. revert Hf Hv. generalize (asg_of m) as f, (first p) as ds. clear. intros f ds. revert ds. induction e as [|[t0 v] e IH]; intros [|d ds] Hf Hv; cbn in *; try discriminate; [reflexivity|].
      injection Hf as -> Hf. f_equal; [apply Hv; left; reflexivity|]. apply IH; [exact Hf|]. intros x w Hw. apply Hv. right. exact Hw.
    - unfold top. rewrite (index_list_eq _ _ _ D'), Epp.
      assert (Hm : forall x, get (Idx x) e = None <-> mem x (first p) = false).
      { intros x. split.
        - intros Hg. destruct (mem x (first p)) eqn:Em; [|reflexivity]. apply mem_In in Em. assert (Hin : In (Idx x) (map fst e)) by (rewrite Hf; apply in_map, Em).
          apply in_map_iff in Hin. destruct Hin as ([t0 v] & Et & Hin). cbn [fst] in Et. subst t0. rewrite (get_idx_in e Hnd _ _ Hin) in Hg. discriminate.
        - intros Em. destruct (get (Idx x) e) as [v|] eqn:Eg; [|reflexivity]. apply get_In in Eg. assert (Hin : In (Idx x) (map fst e)) by (apply in_map_iff; exists (Idx x, v); auto).
          rewrite Hf in Hin. apply in_map_iff in Hin. destruct Hin as (y & Ey & Hy). injection Ey as ->. apply mem_In in Hy. congruence. }
      assert (Hl : forall x, mem x (first p) = false -> asg_of m x = asg_of e' x).
      { intros x Hxx. apply Hm in Hxx. unfold asg_of. rewrite (Hfree x Hxx). reflexivity. }
      revert Hm Hl. generalize (first p) as F. clear. intros F Hm Hl. induction p as [|[x k] p IH]; [reflexivity|]. cbn [map filter fst].
      unfold free at 1. cbn [fst]. destruct (mem x F) eqn:Ex; cbn [negb].
      + destruct (get (Idx x) e) eqn:Eg; [exact IH|]. apply Hm in Eg. congruence.
      + rewrite (proj2 (Hm x) Ex). cbn [map fst]. f_equal; [apply Hl, Ex|exact IH].
  Qed.

  Lemma sections_list : exists M, StronglySorted lexlt (map (index_list_by first_then top) M) /\
    (forall m, In m M -> canonical top sg m) /\ (forall e, canonical top sg e -> In (index_list top e) (map (index_list top) M)) /\ Forall2 (leads u top) M (concat ls).
  Proof.
    destruct (sec_subs t sg stsS Hx Hsig Hn Hlk sec_tags stsS (fun _ H => H) ls E2) as (G & G1 & G2 & G3).
    set (M := flat_map (fun x => map (fun e' => e' ++ rev (fst x)) (snd x)) G) in *.
    assert (Gin : forall x, In x G -> In (fst x) stsS) by (intros x Hx'; rewrite <- G1; apply in_map, Hx').
    exists M. split; [|split; [|split; [|exact G3]]].
    - apply (proj2 (ssorted_map lexlt _ _)). rewrite <- G1 in sec_sorted. rewrite map_map in sec_sorted. pose proof (proj1 (ssorted_map lexlt _ G) sec_sorted) as Hso.
      eapply ssorted_flat; [exact Hso| |].
      + intros [e sub] HG. cbn [fst snd]. pose proof (G2 _ HG) as Hsub. pose proof (Gin _ HG) as Hes. cbn [fst snd] in Hsub, Hes.
        apply (proj2 (ssorted_map _ _ _)). pose proof Hsub as (sge & Ee & Hne & Hlke & Ers). pose proof (run_ordered _ sge sub Ee Hne Ers) as Ho. apply (proj1 (ssorted_map lexlt _ sub)) in Ho.
        eapply ssorted_cong; [exact Ho|]. intros a b Ha Hb Hab. cbv beta in *. fold top.
        rewrite (sec_index e sub a Hes Hsub Ha), (sec_index e sub b Hes Hsub Hb). apply lexlt_app. exact Hab.
      + intros [e sub] [e2 sub2] x y Hg1 Hg2 Hlt Hin1 Hin2. cbn [fst snd] in *. apply in_map_iff in Hin1, Hin2.
        destruct Hin1 as (a & <- & Ha), Hin2 as (b & <- & Hb). fold top.
        rewrite (sec_index e sub a (Gin _ Hg1) (G2 _ Hg1) Ha), (sec_index e2 sub2 b (Gin _ Hg2) (G2 _ Hg2) Hb). apply lexlt_left. exact Hlt.
    - intros m Hm. apply in_flat_map in Hm. destruct Hm as ([e sub] & HG & Hm). apply in_map_iff in Hm. destruct Hm as (e' & <- & He').
      cbn [fst snd] in *. destruct (sec_canonical t sg stsS Hsig Hn sec_tags sec_values e sub e' (Gin _ HG) (G2 _ HG) He') as (Hc & _ & _). exact Hc.
    - intros e He. exact (sec_all t sg stsS Hsig Hn sec_tags sec_values sec_complete G e G1 G2 He).
  Qed.

  Theorem order_of_sections : visited_in_order first_then t (concat ls).
  Proof.
    destruct sections_list as (M & H1 & H2 & H3 & H4). exists M. split; [|exact H4].
    destruct (each_run t l1 Hx ltac:(unfold distinct_dims; fold top; rewrite Hsig; exact Hn) E1) as (sg0 & sts & Es0 & Er & _).
    fold top in Es0, Er. rewrite Hsig in Es0. injection Es0 as <-. fold top. split; [| |exact H1].
    - intros m Hm. pose proof (H2 m Hm) as Hc. pose proof Hc as (p & D & V & _). destruct (run_reaches top sg sts Hsig Hn Hlk Er _ p V) as (e0 & He0 & _ & De & Hsame).
      destruct (run_names top sg sts Hsig Hn Er e0 He0) as (q & Hq & _).
      exists q. eapply names_same_get; [|exact Hq]. eapply canonical_same; [eapply run_canonical; eauto|exact Hc|].
      rewrite (index_list_eq _ _ _ De), (index_list_eq _ _ _ D). apply map_ext_in. exact Hsame.
    - intros st p Hnm Hl. destruct (names_valid top sg Hsig Hlk st p Hnm Hl) as [V1 V2].
      destruct (run_reaches top sg sts Hsig Hn Hlk Er (asg_of st) p (conj Hsig (conj V1 V2))) as (e0 & He0 & _ & De & Hsame).
      pose proof (H3 e0 (run_canonical _ _ _ _ Hsig Hn Hlk Er He0)) as Hin. apply in_map_iff in Hin. destruct Hin as (m & Em & Hm).
      assert (Dst : dims_of top st = Some p) by exact (proj1 Hnm).
      assert (Ei : index_list top e0 = index_list top st).
      { rewrite (index_list_eq _ _ _ De), (index_list_eq _ _ _ Dst). apply map_ext_in. exact Hsame. }
      exists m. split; [exact Hm|]. split; [|congruence].
      pose proof (H2 m Hm) as (q & D & V & _). rewrite D, Dst. f_equal.
      rewrite (index_list_at top m (asg_of m) q D), (index_list_at top e0 (asg_of e0) p De) in Em by auto.
      assert (Ep0 : spath sg (asg_of e0) = Some p) by (unfold dims_of in De; rewrite Hsig in De; exact De).
      destruct (path_of_index _ _ _ _ _ (proj1 (proj2 V)) Ep0 Em) as [-> _]. reflexivity.
  Qed.

  (** If the loops outside are the first ones, the order of the calls does not change. *)
  Theorem same_order : (forall m p, dims_of top m = Some p -> first_then p = map fst p) -> Forall2 same_get l1 (concat ls).
  Proof.
    intros Hft. destruct sections_list as (M & H1 & H2 & H3 & H4).
    destruct (each_run t l1 Hx ltac:(unfold distinct_dims; fold top; rewrite Hsig; exact Hn) E1) as (sg0 & sts & Es0 & Er & _ & F1).
    fold top in Es0, Er, F1. rewrite Hsig in Es0. injection Es0 as <-.
    assert (Hc : forall e, In e sts -> canonical top sg e) by (intros e He; eapply run_canonical; eauto).
    apply (leads_same t sg l1 Hsig sts M (concat ls) F1); auto. apply sorted_unique.
    - exact (run_ordered top sg sts Hsig Hn Er).
    - change (top_struct t) with top. replace (map (index_list top) M) with (map (index_list_by first_then top) M); [exact H1|]. apply map_ext_in. intros m Hm.
      destruct (H2 m Hm) as (p & D & _). unfold index_list_by. fold top in D. rewrite D, (index_list_eq _ _ _ D), (Hft m p D). reflexivity.
    - change (top_struct t) with top. intros x. split; intros Hin; apply in_map_iff in Hin; destruct Hin as (e & <- & He).
      + apply H3, Hc, He.
      + destruct (H2 e He) as (p & D & V & _). destruct (run_reaches top sg sts Hsig Hn Hlk Er _ p V) as (e0 & He0 & _ & De & Hsame).
        apply in_map_iff. exists e0. split; [|exact He0]. fold top in D. rewrite (index_list_eq _ _ _ De), (index_list_eq _ _ _ D). apply map_ext_in. exact Hsame.
  Qed.
End Order.

(** ** The loops of [for_sections] *)

Lemma visits_filter top sg P r : forall tr st e a p, snodup r = true -> dtree_filter P (sig_dim_tree r) = Some tr -> visits top sg tr st e ->
  TravFacts.fresh tr st -> agree (st ++ e) nolens a -> spath r a = Some p -> map fst e = map Idx (filter P (map fst p)).
Proof.
  induction r as [c| |d al r IH|d rs IH] using sig_ind'; intros tr st e a p Hn Ef Hv Hfr Ha Ep.
  - cbn in Ef. inv Ef. inv Hv. inv Ep. reflexivity.
  - cbn in Ef. inv Ef. inv Hv. inv Ep. reflexivity.
  - pose proof (filter_tnodup _ _ _ Ef (tree_tnodup _ Hn)) as Hnt.
    apply snodup_fun in Hn. destruct Hn as [Hd Hn]. cbn in Ep. destruct (spath r a) as [p'|] eqn:Er; [|discriminate]. inv Ep. cbn [map fst filter].
    cbn [sig_dim_tree dtree_filter] in Ef. destruct (P d).
    + cbn [omap] in Ef. destruct (dtree_filter P (sig_dim_tree r)) as [b|] eqn:Eb; [|discriminate]. cbn in Ef. injection Ef as <-.
      inversion Hv as [|d1 bs1 st1 d2 rs2 k2 b2 e0 G0 Gk Gb Gv|d1 b1 st1 d2 al2 r2 len2 n2 i2 e0 G0 Gl Gn Gi Gv]; subst; cbn [map fst]; f_equal.
      * apply nthz_In in Gb. destruct Gb as [<-|[]]. destruct (fresh_sub d [b] b st (Sta k2) Hfr Hnt (or_introl eq_refl)) as (_ & _ & Hf).
        eapply IH; [exact Hn|reflexivity|exact Gv|exact Hf|rewrite <- app_assoc; exact Ha|reflexivity || exact Er].
      * destruct (fresh_sub d [b] b st (Dyn i2) Hfr Hnt (or_introl eq_refl)) as (_ & _ & Hf).
        eapply IH; [exact Hn|reflexivity|exact Gv|exact Hf|rewrite <- app_assoc; exact Ha|reflexivity || exact Er].
    + eapply IH; eauto.
  - pose proof (filter_tnodup _ _ _ Ef (tree_tnodup _ Hn)) as Hnt.
    rewrite spath_dep in Ep. destruct (nthz rs (a d)) as [r|] eqn:En; [|discriminate].
    destruct (spath r a) as [p'|] eqn:Er; [|discriminate]. injection Ep as <-. cbn [map fst filter].
    pose proof (Forall_nthz _ _ _ _ IH En) as IHr. pose proof (proj2 (snodup_dep _ _ _ _ Hn En)) as Hr.
    cbn [sig_dim_tree dtree_filter] in Ef. destruct (P d).
    + destruct (omap (dtree_filter P) (map sig_dim_tree rs)) as [bs|] eqn:Eo; [|discriminate]. injection Ef as <-.
      apply omap_Some_Forall2 in Eo.
      assert (Hlen : Z.of_nat (List.length bs) < W).
      { cbn in Hn. apply andb_true_iff in Hn. destruct Hn as [HW _]. apply Z.ltb_lt in HW. clear - Eo HW. rewrite <- (map_length sig_dim_tree) in HW.
        replace (List.length bs) with (List.length (map sig_dim_tree rs)); [exact HW|]. clear HW. induction Eo; cbn; congruence. }
      assert (Hb : forall b, nthz bs (a d) = Some b -> dtree_filter P (sig_dim_tree r) = Some b).
      { intros b Hb. pose proof (Forall2_nthz _ _ _ (a d) Eo) as Hq. rewrite nthz_map, En, Hb in Hq. exact Hq. }
      inversion Hv as [|d1 bs1 st1 d2 rs2 k2 b2 e0 G0 Gk Gb Gv|d1 b1 st1 d2 al2 r2 len2 n2 i2 e0 G0 Gl Gn Gi Gv]; subst; cbn [map fst]; f_equal.
      * destruct (fresh_sub d bs b2 st (Sta k2) Hfr Hnt (nthz_In _ _ _ Gb)) as (Hd & _ & Hf).
        pose proof (agree_head st d (Sta k2) e0 a Hd Ha) as V. unfold vagree in V. cbn [vz] in V.
        pose proof (nthz_Some_range _ _ _ Gb) as Rk. rewrite u64_small in V by lia. subst k2.
        eapply IHr; [exact Hr|exact (Hb _ Gb)|exact Gv|exact Hf|rewrite <- app_assoc; exact Ha|exact Er].
      * destruct (fresh_sub d [b1] b1 st (Dyn i2) Hfr Hnt (or_introl eq_refl)) as (Hd & _ & Hf).
        assert (Ead : a d = 0).
        { pose proof (Forall2_nthz _ _ _ (a d) Eo) as Hq. rewrite nthz_map, En in Hq. cbn [option_map] in Hq.
          destruct (nthz [b1] (a d)) eqn:Eb'; [|destruct Hq]. apply nthz_Some_range in Eb'. cbn in Eb'. lia. }
        eapply IHr; [exact Hr|apply Hb; rewrite Ead; reflexivity|exact Gv|exact Hf|rewrite <- app_assoc; exact Ha|exact Er].
    + destruct rs as [|r0 [|r1 rs]]; cbn [map] in Ef; try discriminate.
      assert (r = r0) by (apply nthz_In in En; destruct En as [->|[]]; reflexivity). subst r0. eapply IHr; eauto.
Qed.

(** ** The loops of [for_dims] *)

(** The dimensions along the branches of a tree. *)
Fixpoint seqs (t : dtree) : list (list dim) :=
  match t with
  | DLeaf => [[]]
  | DNode d bs => map (cons d) (flat_map seqs bs)
  end.

Lemma visits_seqs top sg t st e : visits top sg t st e -> exists ds, In ds (seqs t) /\ map fst e = map Idx ds.
Proof.
  induction 1 as [st|d bs st d' rs k b e F0 Fk Fb Fv (ds & H1 & H2)|d b st d' al r len n i e F0 Fl Fn Fi Fv (ds & H1 & H2)].
  - exists []. split; [left; reflexivity|reflexivity].
  - exists (d :: ds). cbn [map fst]. rewrite H2. split; [|reflexivity]. cbn [seqs]. apply in_map. apply in_flat_map. exists b. split; [eapply nthz_In; eauto|exact H1].
  - exists (d :: ds). cbn [map fst]. rewrite H2. split; [|reflexivity]. cbn [seqs flat_map]. apply in_map. rewrite app_nil_r. exact H1.
Qed.

Lemma seqs_contains t : forall ds d, In ds (seqs t) -> In d ds -> dtree_contains d t = true.
Proof.
  induction t as [|q bs IH] using dtree_ind'; intros ds d Hs Hd.
  - destruct Hs as [<-|[]]. destruct Hd.
  - cbn [seqs] in Hs. apply in_map_iff in Hs. destruct Hs as (r & <- & Hr). apply in_flat_map in Hr. destruct Hr as (b & Hb & Hr). cbn.
    destruct Hd as [->|Hd]; [rewrite Z.eqb_refl; reflexivity|]. apply orb_true_iff. right. apply existsb_exists. exists b. split; [exact Hb|].
    rewrite Forall_forall in IH. eapply IH; eauto.
Qed.

Lemma filter_absent q ds : ~ In q ds -> filter (fun d => negb (d =? q)) ds = ds.
Proof. induction ds as [|d ds IH]; intros H; [reflexivity|]. cbn. destruct (Z.eqb_spec d q) as [->|_]; [exfalso; apply H; left; reflexivity|]. cbn. f_equal. apply IH. intros Hc. apply H. right. exact Hc. Qed.

Lemma fix_seqs q k t : forall t' ds, tnodup t = true -> dtree_fix q k t = Some t' -> In ds (seqs t') ->
  exists ds0, In ds0 (seqs t) /\ ds = filter (fun d => negb (d =? q)) ds0.
Proof.
  induction t as [|d bs IH] using dtree_ind'; intros t' ds Hn E Hs.
  - cbn in E. inv E. exists []. split; [left; reflexivity|]. destruct Hs as [<-|[]]. reflexivity.
  - cbn in Hn. apply andb_true_iff in Hn. destruct Hn as [Hn1 Hn2]. rewrite forallb_forall in Hn1, Hn2. cbn [dtree_fix] in E.
    destruct (Z.eqb_spec d q) as [->|Hne].
    + pose proof (nth_error_In _ _ E) as Hb. exists (q :: ds). split; [cbn [seqs]; apply in_map, in_flat_map; exists t'; auto|].
      cbn [filter]. rewrite Z.eqb_refl. cbn. symmetry. apply filter_absent. intros Hc. pose proof (seqs_contains t' ds q Hs Hc) as Hcc.
      specialize (Hn1 _ Hb). rewrite Hcc in Hn1. discriminate.
    + destruct (omap (dtree_fix q k) bs) as [bs'|] eqn:Eo; [|discriminate]. inv E. cbn [seqs] in Hs. apply in_map_iff in Hs. destruct Hs as (r & <- & Hr).
      apply in_flat_map in Hr. destruct Hr as (b' & Hb' & Hr). destruct (omap_In_back _ _ _ _ Eo Hb') as (b & Hb & Eb).
      rewrite Forall_forall in IH. destruct (IH b Hb b' r (Hn2 _ Hb) Eb Hr) as (r0 & Hr0 & ->). exists (d :: r0). split.
      * cbn [seqs]. apply in_map, in_flat_map. eauto.
      * cbn [filter]. destruct (Z.eqb_spec d q); [contradiction|]. reflexivity.
Qed.

Lemma reorder_seqs t ds : forall t' r, tnodup t = true -> tfull t = true -> NoDup ds -> (forall d, In d ds -> dtree_contains d t = true) ->
  dtree_reorder t ds = Some t' -> In r (seqs t') ->
  exists r0, In r0 (seqs t) /\ r = ds ++ filter (fun d => negb (mem d ds)) r0.
Proof.
  induction ds as [|d ds IH]; intros t' r Hn Hfu Hnd Hc E Hr.
  - cbn in E. inv E. exists r. split; [exact Hr|]. cbn. clear. induction r; cbn; congruence.
  - inv Hnd. cbn [dtree_reorder] in E. destruct (dtree_reorder t ds) as [t1|] eqn:E1; [|discriminate].
    destruct (reorder_tree t ds t1 Hn Hfu ltac:(intros; apply Hc; right; assumption) E1) as (Hn1 & _).
    unfold dtree_hoist in E. destruct (omap (fun k => dtree_fix d k t1) (seq 0 (dtree_branches d t1))) as [bs|] eqn:Eo; [|discriminate]. inv E.
    cbn [seqs] in Hr. apply in_map_iff in Hr. destruct Hr as (x & <- & Hx). apply in_flat_map in Hx. destruct Hx as (b & Hb & Hx).
    destruct (omap_In_back _ _ _ _ Eo Hb) as (k & _ & Eb). destruct (fix_seqs d k t1 b x Hn1 Eb Hx) as (y & Hy & ->).
    destruct (IH t1 y Hn Hfu H2 ltac:(intros; apply Hc; right; assumption) eq_refl Hy) as (r0 & Hr0 & ->). exists r0. split; [exact Hr0|].
    cbn [app]. f_equal. rewrite filter_app, filter_absent by assumption. f_equal. clear. induction r0 as [|q r0 IHr]; [reflexivity|]. cbn [filter].
    change (mem q (d :: ds)) with ((q =? d) || mem q ds). destruct (mem q ds); cbn [negb].
    + rewrite orb_true_r. exact IHr.
    + rewrite orb_false_r. cbn [filter]. destruct (q =? d); cbn [negb]; [exact IHr|f_equal; exact IHr].
Qed.

Lemma filter_seqs P t : forall t' r d, dtree_filter P t = Some t' -> In r (seqs t') -> In d r -> P d = true.
Proof.
  intros t' r d E Hr Hd. pose proof (seqs_contains t' r d Hr Hd) as Hc. apply contains_occ in Hc. destruct Hc as [n Ho].
  apply (proj1 (filter_occ P t d n t' E)) in Ho. apply Ho.
Qed.

(** ** The theorems *)

Lemma visited_cong f g t sts : (forall m p, dims_of (top_struct t) m = Some p -> f p = g p) -> visited_in_order f t sts -> visited_in_order g t sts.
Proof.
  intros H (tops & [A B C] & D). exists tops. split; [|exact D]. split; [exact A|exact B|].
  replace (map (index_list_by g (top_struct t)) tops) with (map (index_list_by f (top_struct t)) tops); [exact C|].
  apply map_ext. intros m. unfold index_list_by. destruct (dims_of (top_struct t) m) as [p|] eqn:E; [|reflexivity]. rewrite (H m p E). reflexivity.
Qed.

Section LoopOrder.
  Variables (t : trav) (sg : sig) (tr : dtree) (stsS : list state) (l1 : list state) (ls : list (list state)) (first : list (dim * option Z) -> list dim).
  Let top := top_struct t.
  Hypothesis Hx : forall v s, tr_struct t <> View v s.
  Hypothesis Hsig : signature top = Some sg.
  Hypothesis Hn : snodup sg = true.
  Hypothesis Hlk : lenok top nolens.
  Hypothesis Htn : tnodup tr = true.
  Hypothesis Hts : tsmall tr = true.
  Hypothesis Hfull : full sg tr [].
  Hypothesis ES : fe_run top sg tr [] = Done stsS.
  Hypothesis Hfirst : forall e a p, visits top sg tr [] e -> agree e nolens a -> spath sg a = Some p -> map fst e = map Idx (first p).
  Hypothesis E1 : for_each t [] = Done l1.
  Hypothesis E2 : Forall2 (fun e l => for_each (inner t e) [] = Done l) stsS ls.

  Let fresh0 : TravFacts.fresh tr [].
  Proof. intros ? ?. reflexivity. Qed.

  Lemma loops_order : visited_in_order (first_then first) t (concat ls) /\
    ((forall m p, dims_of top m = Some p -> first_then first p = map fst p) -> Forall2 same_get l1 (concat ls)).
  Proof.
    assert (Hin : forall e, In e stsS <-> visits top sg tr [] e) by (intros e; apply (sec_in t sg tr stsS); auto).
    assert (A : forall e, In e stsS -> idx_only e /\ NoDup (map fst e) /\ forall d, get (Len d) e = None).
    { intros e He. apply Hin in He. pose proof (visits_idx _ _ _ _ _ He) as Hi. split; [exact Hi|].
      split; [exact (proj2 (visits_tags _ _ _ _ _ He Htn fresh0))|]. destruct Hi as [ds Hi]. eapply map_fst_Idx; eauto. }
    assert (B : forall e a p, In e stsS -> agree e nolens a -> spath sg a = Some p ->
      forall d v, In (Idx d, v) e -> exists k, In (d, k) p /\
      match k with None => v = Dyn (a d) /\ 0 <= a d < ilen top nolens a d | Some _ => v = Sta (a d) end).
    { intros e a p He Ha Ep. apply (visits_values top sg Hsig Hlk tr [] e a p); auto. apply Hin, He. }
    assert (C : forall a p, pvalid top nolens a sg p -> exists s, In s stsS /\ agree s nolens a).
    { intros a p V. destruct (run_complete top sg Hsig Hlk tr [] stsS a p Htn fresh0 ES Hfull) as (s & Hvs & Hs).
      - split; [intros d; exact I|intros d v Hv; discriminate].
      - apply V.
      - intros d Hd. destruct V as (_ & _ & R). rewrite Forall_forall in R. exact (R _ Hd).
      - intros d n Hd. eapply snodup_small; eauto. apply V.
      - exists s. split; [apply Hin; exact Hvs|exact Hs]. }
    assert (D : StronglySorted lexlt (map values stsS)) by exact (run_sorted top sg tr [] stsS Htn Hts fresh0 ES).
    assert (E : forall e a p, In e stsS -> agree e nolens a -> spath sg a = Some p -> map fst e = map Idx (first p)).
    { intros e a p He. apply Hfirst. apply Hin, He. }
    split.
    - exact (order_of_sections t sg stsS ls first Hx Hsig Hn Hlk A B C D E l1 E1 E2).
    - exact (same_order t sg stsS ls first Hx Hsig Hn Hlk A B C D E l1 E1 E2).
  Qed.
End LoopOrder.

Lemma mem_filter (P : dim -> bool) l d : In d l -> mem d (filter P l) = P d.
Proof.
  intros Hd. destruct (P d) eqn:E.
  - apply mem_In. apply filter_In. auto.
  - destruct (mem d (filter P l)) eqn:Em; [|reflexivity]. apply mem_In in Em. apply filter_In in Em. destruct Em. congruence.
Qed.

Lemma filter_ext_in' {A} (P Q : A -> bool) l : (forall x, In x l -> P x = Q x) -> filter P l = filter Q l.
Proof. induction l as [|x l IH]; intros H; [reflexivity|]. cbn. rewrite (H x (or_introl eq_refl)), IH by (intros; apply H; right; assumption). reflexivity. Qed.

Lemma filter_all {A} (l : list A) : filter (fun _ => true) l = l.
Proof. induction l as [|x l IH]; cbn; congruence. Qed.
Lemma filter_none {A} (f : A -> bool) l : (forall x, In x l -> f x = false) -> filter f l = [].
Proof. induction l as [|x l IH]; intros H; cbn; [reflexivity|]. rewrite (H x (or_introl eq_refl)). apply IH. intros y Hy. apply H. right. exact Hy. Qed.

Lemma sections_both ss p ds l us ls : let t := order (traverser ss) p in
  distinct_dims (top_struct t) -> lenok (top_struct t) nolens ->
  for_each t [] = Done l -> for_sections t ds = Done us -> Forall2 (fun x lx => for_each x [] = Done lx) us ls ->
  visited_in_order (sections_first ds) t (concat ls) /\
  ((forall m q, dims_of (top_struct t) m = Some q -> sections_first ds q = map fst q) -> Forall2 same_get l (concat ls)).
Proof.
  intros t Hd Hlk El Eu F. unfold for_sections, for_sections_with in Eu. destruct (for_tree_run _ _ _ _ Eu) as (sg & tr & sts & Es & Et & Er & ->).
  rewrite Es in Et. cbn [obind] in Et. pose proof (distinct_snodup _ _ Hd Es) as Hn. apply Forall2_map_l in F.
  assert (Hfil : exists P, dtree_filter P (sig_dim_tree sg) = Some tr /\ forall q, first_then (fun p => filter P (map fst p)) q = sections_first ds q).
  { unfold sections_tree in Et. destruct ds as [|d0 ds0].
    - injection Et as <-. exists (fun _ => true). split; [apply filter_true|]. intros q. unfold first_then, sections_first. cbn [mem existsb negb].
      rewrite !filter_all, (filter_none (fun _ : dim => false)) by auto. rewrite filter_none; [rewrite app_nil_r; reflexivity|].
      intros x Hx. apply negb_false_iff, mem_In, Hx.
    - set (ds := d0 :: ds0) in *.
      destruct (dtree_filter _ _) as [tr'|] eqn:Ef; [|discriminate]. cbn [obind] in Et. destruct (forallb _ _); [|discriminate]. injection Et as ->.
      exists (fun d => mem d ds). split; [exact Ef|]. intros q. unfold first_then, sections_first. f_equal.
      apply filter_ext_in'. intros d Hin. rewrite mem_filter by exact Hin. reflexivity. }
  destruct Hfil as (P & Ef & Hff).
  destruct (loops_order t sg tr sts l ls (fun p => filter P (map fst p))) as [H1 H2]; auto.
  - discriminate.
  - eapply filter_tnodup; eauto. apply tree_tnodup, Hn.
  - eapply filter_tsmall; eauto. apply tree_tsmall, Hn.
  - apply (full_filter sg P sg); auto; [intros ? ?; reflexivity|]. intros q st' _ _. left. reflexivity.
  - intros e a q Hv Ha Ep. eapply visits_filter; [exact Hn|exact Ef|exact Hv| |exact Ha|exact Ep]. intros ? ?. reflexivity.
  - split.
    + eapply visited_cong; [|exact H1]. intros m q _. apply Hff.
    + intros H. apply H2. intros m q E. rewrite Hff. apply (H m q E).
Qed.

Theorem for_sections_order ss p ds l us ls : let t := order (traverser ss) p in
  distinct_dims (top_struct t) -> lenok (top_struct t) nolens ->
  for_each t [] = Done l -> for_sections t ds = Done us -> Forall2 (fun x lx => for_each x [] = Done lx) us ls ->
  visited_in_order (sections_first ds) t (concat ls).
Proof. intros t Hd Hlk El Eu F. exact (proj1 (sections_both ss p ds l us ls Hd Hlk El Eu F)). Qed.

Theorem for_dims_order ss p ds l us ls : let t := order (traverser ss) p in
  distinct_dims (top_struct t) -> lenok (top_struct t) nolens -> no_empty_tuple (top_struct t) -> NoDup ds ->
  for_each t [] = Done l -> for_dims t ds = Done us -> Forall2 (fun x lx => for_each x [] = Done lx) us ls ->
  visited_in_order (dims_first ds) t (concat ls).
Proof.
  intros t Hd Hlk He Hnd El Eu F. unfold for_dims in Eu. destruct (for_tree_run _ _ _ _ Eu) as (sg & tr & sts & Es & Et & Er & ->).
  rewrite Es in Et. cbn [obind] in Et. pose proof (distinct_snodup _ _ Hd Es) as Hn. apply Forall2_map_l in F.
  unfold no_empty_tuple in He. rewrite Es in He.
  unfold dims_tree in Et. destruct (dtree_filter _ _) as [tr0|] eqn:Ef; [|discriminate]. cbn [obind] in Et.
  destruct (forallb _ ds) eqn:Ec; [|discriminate]. rewrite forallb_forall in Ec.
  pose proof (filter_tnodup _ _ _ Ef (tree_tnodup _ Hn)) as Hn0. pose proof (filter_tsmall _ _ _ Ef (tree_tsmall _ Hn)) as Hs0.
  pose proof (filter_tfull _ _ _ Ef (filled_tfull _ He)) as Hf0.
  destruct (reorder_tree tr0 ds tr Hn0 Hf0 Ec Et) as (Hn1 & _ & Ho & Hu).
  apply (loops_order t sg tr sts l ls (fun _ => ds)); auto.
  - discriminate.
  - apply tsmall_occ. intros d n Hoc. apply (proj1 (tsmall_occ tr0) Hs0 d n). apply Ho, Hoc.
  - apply full_occ. intros d n n' A B. apply Ho in A. pose proof (proj1 (filter_occ _ _ d n tr0 Ef) A) as [_ HP].
    pose proof (proj2 (filter_occ _ _ d n' tr0 Ef) (conj B HP)) as B'. apply (Hu d); [apply mem_In; exact HP|exact A|exact B'].
  - intros e a q Hv _ _. destruct (visits_seqs _ _ _ _ _ Hv) as (r & Hr & Em). rewrite Em. f_equal.
    destruct (reorder_seqs tr0 ds tr r Hn0 Hf0 Hnd Ec Et Hr) as (r0 & Hr0 & ->).
    replace (filter (fun d => negb (mem d ds)) r0) with (@nil dim); [apply app_nil_r|].
    assert (H : forall d, In d r0 -> mem d ds = true) by (intros d Hin; exact (filter_seqs _ _ _ r0 d Ef Hr0 Hin)).
    clear - H. induction r0 as [|d r0 IH]; [reflexivity|]. cbn. rewrite (H d (or_introl eq_refl)). cbn. apply IH. intros; apply H; right; assumption.
Qed.

(** ** Outermost dimensions *)

Lemma accept_of r a p d : spath r a = Some p -> In d (map fst p) -> any_accept d r = true.
Proof. intros Ep Hd. apply in_map_iff in Hd. destruct Hd as (x & <- & Hx). eapply spath_accept; eauto. Qed.

Lemma outermost_path ds sg a : forall p, outermost ds sg = true -> spath sg a = Some p -> sections_first ds p = map fst p.
Proof.
  assert (N : forall r a p, forallb (fun q => negb (any_accept q r)) ds = true -> spath r a = Some p -> forall d, In d (map fst p) -> mem d ds = false).
  { intros r b p Hr Ep d Hd. destruct (mem d ds) eqn:Em; [|reflexivity]. apply mem_In in Em. rewrite forallb_forall in Hr. specialize (Hr d Em).
    rewrite (accept_of r b p d Ep Hd) in Hr. discriminate. }
  assert (N2 : forall l : list dim, (forall d, In d l -> mem d ds = false) -> filter (fun d => mem d ds) l = [] /\ filter (fun d => negb (mem d ds)) l = l).
  { induction l as [|d l IH]; intros H; [auto|]. cbn. rewrite (H d (or_introl eq_refl)). cbn. destruct IH as [A B]; [intros; apply H; right; assumption|]. rewrite A, B. auto. }
  induction sg as [c| |d al r IH|d rs IH] using sig_ind'; intros p Ho Ep.
  - inv Ep. reflexivity.
  - inv Ep. reflexivity.
  - cbn in Ep. destruct (spath r a) as [p'|] eqn:Er; [|discriminate]. inv Ep. cbn [outermost] in Ho. unfold sections_first. cbn [map fst filter]. destruct (mem d ds) eqn:Em; cbn [negb].
    + cbn [app]. f_equal. apply (IH p'); auto.
    + destruct (N2 (map fst p') (N r a p' Ho Er)) as [-> ->]. reflexivity.
  - rewrite spath_dep in Ep. destruct (nthz rs (a d)) as [r|] eqn:En; [|discriminate].
    destruct (spath r a) as [p'|] eqn:Er; [|discriminate]. injection Ep as <-. cbn [outermost] in Ho. unfold sections_first. cbn [map fst filter]. destruct (mem d ds) eqn:Em; cbn [negb].
    + cbn [app]. f_equal. rewrite forallb_forall in Ho. pose proof (Forall_nthz _ _ _ _ IH En) as IHr. apply (IHr p'); auto. apply Ho. eapply nthz_In; eauto.
    + rewrite forallb_forall in Ho. destruct (N2 (map fst p') (N r a p' (Ho r (nthz_In _ _ _ En)) Er)) as [-> ->]. reflexivity.
Qed.

Theorem for_sections_outer ss p ds l us ls : let t := order (traverser ss) p in
  distinct_dims (top_struct t) -> lenok (top_struct t) nolens -> outermost_dims ds (top_struct t) ->
  for_each t [] = Done l -> for_sections t ds = Done us -> Forall2 (fun x lx => for_each x [] = Done lx) us ls ->
  Forall2 same_get l (concat ls).
Proof.
  intros t Hd Hlk Ho El Eu F. apply (proj2 (sections_both ss p ds l us ls Hd Hlk El Eu F)). fold t.
  intros m q Eq. unfold outermost_dims in Ho. unfold dims_of in Eq. destruct (signature (top_struct t)) as [sg|]; [|destruct Ho].
  exact (outermost_path ds sg (asg_of m) q Ho Eq).
Qed.
