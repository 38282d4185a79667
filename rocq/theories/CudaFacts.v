(** * Facts about launches *)

From Verif Require Import Sections2.
From Verif Require Export SpecCuda.

Lemma out_list_done {A} (l : list (outcome A)) x : out_list l = Done x -> Forall2 (fun o y => o = Done y) l x.
Proof.
  revert x. induction l as [|o l IH]; intros x E; simpl in E; [injection E as <-; constructor|].
  destruct o as [| |y]; simpl in E; try discriminate. destruct (out_list l) as [| |z] eqn:El; simpl in E; try discriminate.
  injection E as <-. constructor; auto.
Qed.

Lemma threads_in ds : forall e, In e (launch_threads ds) <-> exists is, Forall2 (fun x i => 0 <= i < snd x) ds is /\
  e = map (fun y => (Idx (fst y), Dyn (snd y))) (combine (map fst ds) is).
Proof.
  induction ds as [|[d n] ds IH]; intros e; cbn [launch_threads].
  - split; [intros [<-|[]]; exists []; split; [constructor|reflexivity]|]. intros (is & F & ->). left. reflexivity.
  - rewrite in_flat_map. split.
    + intros (i & Hi & He). apply in_map_iff in He. destruct He as (e' & <- & He'). apply zseq_In in Hi. apply IH in He'.
      destruct He' as (is & F & ->). exists (i :: is). split; [constructor; auto|reflexivity].
    + intros (is & F & ->). inversion F as [|? i ? is0 H F0]; subst. exists i. cbn [snd] in H. split; [apply zseq_In; exact H|].
      cbn [map fst combine snd]. apply in_map, IH. eauto.
Qed.

Lemma combine_fst {A B} (l : list A) (m : list B) : List.length l = List.length m -> map fst (combine l m) = l.
Proof. revert m. induction l as [|x l IH]; intros [|y m] H; simpl in *; try discriminate; [reflexivity|]. f_equal. apply IH. lia. Qed.

Lemma threads_tags ds e : In e (launch_threads ds) -> map fst e = map Idx (map fst ds).
Proof.
  intros H. apply threads_in in H. destruct H as (is & F & ->). rewrite map_map. cbn [fst].
  rewrite <- (map_map fst Idx). rewrite combine_fst; [reflexivity|]. rewrite map_length. clear - F; induction F; simpl; congruence.
Qed.

Lemma threads_bound ds e d v : In e (launch_threads ds) -> In (Idx d, v) e -> exists n i, In (d, n) ds /\ v = Dyn i /\ 0 <= i < n.
Proof.
  revert e. induction ds as [|[q n] ds IH]; intros e He Hin; cbn [launch_threads] in He.
  - destruct He as [<-|[]]. destruct Hin.
  - apply in_flat_map in He. destruct He as (i & Hi & He). apply in_map_iff in He. destruct He as (e' & <- & He'). apply zseq_In in Hi.
    destruct Hin as [E|Hin].
    + injection E as <- <-. exists n, i. split; [left; reflexivity|auto].
    + destruct (IH e' He' Hin) as (n' & i' & H1 & H2). exists n', i'. split; [right; exact H1|exact H2].
Qed.

Lemma zseq_nodup n : NoDup (zseq n).
Proof. unfold zseq. apply FinFun.Injective_map_NoDup; [intros a b H; lia|apply seq_NoDup]. Qed.

Lemma threads_nodup ds : NoDup (launch_threads ds).
Proof.
  induction ds as [|[d n] ds IH]; cbn [launch_threads]; [repeat constructor; intros []|].
  rewrite <- (map_id (flat_map _ _)). apply nodup_flat.
  - apply zseq_nodup.
  - intros i _. rewrite map_id. apply FinFun.Injective_map_NoDup; [|exact IH]. intros a b H. injection H as ->. reflexivity.
  - intros i j b c _ _ Hb Hc Hk. apply in_map_iff in Hb, Hc. destruct Hb as (b' & <- & _), Hc as (c' & <- & _). injection Hk as -> _. reflexivity.
Qed.

(** The thread with the indices [a]. *)
Lemma threads_complete ds a : (forall d n, In (d, n) ds -> 0 <= a d < n) ->
  In (map (fun x => (Idx (fst x), Dyn (a (fst x)))) ds) (launch_threads ds).
Proof.
  induction ds as [|[d n] ds IH]; intros H; cbn [launch_threads map fst]; [left; reflexivity|].
  apply in_flat_map. exists (a d). split; [apply zseq_In, H; left; reflexivity|].
  apply in_map_iff. eexists. split; [reflexivity|]. apply IH. intros q m Hq. apply H. right. exact Hq.
Qed.

Lemma threads_unique ds : (forall d n, In (d, n) ds -> n <= W) -> forall e1 e2 a, In e1 (launch_threads ds) -> In e2 (launch_threads ds) ->
  (forall d v, In (Idx d, v) e1 -> vagree v (a d)) -> (forall d v, In (Idx d, v) e2 -> vagree v (a d)) -> e1 = e2.
Proof.
  induction ds as [|[d n] ds IH]; intros HW e1 e2 a H1 H2 A1 A2; cbn [launch_threads] in H1, H2.
  - destruct H1 as [<-|[]], H2 as [<-|[]]. reflexivity.
  - apply in_flat_map in H1, H2. destruct H1 as (i & Hi & H1), H2 as (j & Hj & H2). apply in_map_iff in H1, H2.
    destruct H1 as (f1 & <- & H1), H2 as (f2 & <- & H2). apply zseq_In in Hi, Hj.
    pose proof (HW d n (or_introl eq_refl)) as Hn.
    pose proof (A1 d _ (or_introl eq_refl)) as B1. pose proof (A2 d _ (or_introl eq_refl)) as B2. unfold vagree in B1, B2. cbn [vz] in B1, B2.
    rewrite u64_small in B1, B2 by lia. f_equal; [congruence|]. apply (IH (fun q m H => HW q m (or_intror H)) f1 f2 a); auto.
    + intros q v Hq. apply A1. right. exact Hq.
    + intros q v Hq. apply A2. right. exact Hq.
Qed.

(** A path depends only on the indices of the tuples on it. *)
Lemma path_state s sg a p : signature s = Some sg -> snodup sg = true -> spath sg a = Some p -> exists st, dims_of s st = Some p.
Proof.
  intros Es Hn Ep. set (st := map (fun x : dim * option Z => (Idx (fst x), Dyn (a (fst x)))) p). exists st. unfold dims_of. rewrite Es. cbn [obind].
  eapply spath_ext; [exact Ep|]. intros d n Hd. pose proof (spath_dep_range _ _ _ _ _ Ep Hd). pose proof (snodup_small _ _ _ _ _ Hn Ep Hd).
  assert (G : get (Idx d) st = Some (Dyn (a d))).
  { apply get_idx_in.
    - unfold st. rewrite map_map. cbn [fst]. rewrite <- (map_map fst Idx). apply FinFun.Injective_map_NoDup; [intros x y E; congruence|]. eapply spath_nodup; eauto.
    - unfold st. apply in_map_iff. exists (d, Some n). auto. }
  unfold asg_of. rewrite G. unfold vzd. cbn [vz]. apply u64_small. lia.
Qed.

Lemma launch_dims_done t ps ds : launch_dims t ps = Done ds ->
  map fst ds = cuda_order ps /\ forall d n, In (d, n) ds -> exists v k, length_ (top_struct t) d [] = Some v /\ vz v = Some k /\ n = u32 k.
Proof.
  intros E. apply out_list_done in E. revert E. generalize (cuda_order ps) as qs. intros qs. revert ds. induction qs as [|q qs IH]; intros ds E; inversion E as [|? [d n] ? ds0 H F]; subst.
  - split; [reflexivity|intros ? ? []].
  - unfold launch_dim in H. destruct (length_ (top_struct t) q []) as [v|] eqn:El; [|discriminate]. destruct (vz v) as [k|] eqn:Ek; [|discriminate].
    injection H as <- <-. destruct (IH _ F) as [H1 H2]. split; [cbn [map fst]; congruence|]. intros d n [E0|Hin]; [|eauto].
    injection E0 as <- <-. eauto.
Qed.

Lemma u32_le k : 0 <= k -> u32 k <= k.
Proof. intros H. unfold u32. apply Z.mod_le; [exact H|reflexivity]. Qed.

Lemma threads_parts t sg ds : signature (top_struct t) = Some sg -> snodup sg = true -> NoDup (map fst ds) ->
  (forall d n a, In (d, n) ds -> 0 <= n < W /\ ilen (top_struct t) nolens a d = n) ->
  (forall a q d n, spath sg a = Some q -> In (d, n) ds -> In (d, None) q) -> parts t sg (launch_threads ds).
Proof.
  intros Es Hn Hnd Hlen Hin.
  assert (Htags : forall e, In e (launch_threads ds) -> idx_only e /\ NoDup (map fst e) /\ (forall d, get (Len d) e = None)).
  { intros e He. pose proof (threads_tags _ _ He) as Ht. split; [exists (map fst ds); exact Ht|]. split.
    - rewrite Ht. apply FinFun.Injective_map_NoDup; [intros x y E; congruence|exact Hnd].
    - eapply map_fst_Idx; eauto. }
  assert (Hag : forall e a, In e (launch_threads ds) -> (agree e nolens a <-> forall d v, In (Idx d, v) e -> vagree v (a d))).
  { intros e a He. destruct (Htags e He) as (_ & Hnde & Hle). split.
    - intros A d v Hv. apply (ag_idx _ _ _ A). apply get_idx_in; assumption.
    - intros H. split; [intros q; rewrite Hle; exact I|]. intros d v Hv. apply H, get_In, Hv. }
  split; [exact Es|]. split; [exact Hn|]. split; [exact Htags|]. split; [apply threads_nodup|].
  split; [|split].
  - intros e a q He A Ep d v Hv. destruct (threads_bound _ _ _ _ He Hv) as (n & i & Hi & -> & Hr). exists None. split; [eapply Hin; eauto|].
    pose proof (proj1 (Hag e a He) A d _ Hv) as Hva. destruct (Hlen d n a Hi) as [HnW Hil]. unfold vagree in Hva. cbn [vz] in Hva.
    rewrite u64_small in Hva by lia. rewrite Hil. split; [congruence|lia].
  - intros a q V. exists (map (fun x => (Idx (fst x), Dyn (a (fst x)))) ds).
    assert (Hi : In (map (fun x => (Idx (fst x), Dyn (a (fst x)))) ds) (launch_threads ds)).
    { apply threads_complete. intros d n Hdn. destruct (Hlen d n a Hdn) as [_ Hil]. destruct V as (_ & Ep & R). rewrite Forall_forall in R.
      specialize (R _ (Hin a q d n Ep Hdn)). unfold in_range in R. cbn [fst snd] in R. lia. }
    split; [exact Hi|]. apply Hag; [exact Hi|]. intros d v Hv. apply in_map_iff in Hv. destruct Hv as ([q' n] & E & Hdn). cbn [fst] in E. injection E as -> <-.
    unfold vagree. cbn [vz]. destruct (Hlen d n a Hdn) as [HnW Hil]. apply u64_small. destruct V as (_ & Ep & R). rewrite Forall_forall in R.
    specialize (R _ (Hin a q d n Ep Hdn)). unfold in_range in R. cbn [fst snd] in R. lia.
  - intros e1 e2 a H1 H2 A1 A2. apply (threads_unique ds) with (a := a); auto; [|apply Hag; assumption|apply Hag; assumption].
    intros d n Hdn. destruct (Hlen d n (asg_of []) Hdn). lia.
Qed.

Lemma launch_parts ss p ps ts : let t := order (traverser ss) p in
  distinct_dims (top_struct t) -> lenok (top_struct t) nolens -> NoDup (cuda_order ps) ->
  (forall d, In d (cuda_order ps) -> every_element_has (top_struct t) d) -> lengths_fit t (cuda_order ps) ->
  cuda_launch t ps = Done ts -> exists sg sts, ts = map (inner t) sts /\ parts t sg sts /\ (forall e, In e sts -> map fst e = map Idx (cuda_order ps)).
Proof.
  intros t Hd Hlk Hnd Hev Hfit Et. unfold cuda_launch in Et. destruct (launch_dims t ps) as [| |ds] eqn:Ed; try discriminate. injection Et as <-.
  destruct (launch_dims_done _ _ _ Ed) as [Hf Hl].
  assert (Hsg : exists sg, signature (top_struct t) = Some sg) by (unfold distinct_dims in Hd; destruct (signature (top_struct t)); [eauto|destruct Hd]).
  destruct Hsg as [sg Es]. pose proof (distinct_snodup _ _ Hd Es) as Hn. exists sg, (launch_threads ds). split; [reflexivity|]. split.
  - apply threads_parts; auto; [rewrite Hf; exact Hnd| |].
    + intros d n a Hin. destruct (Hl d n Hin) as (v & k & Ev & Ek & ->).
      assert (Hq : In d (cuda_order ps)) by (rewrite <- Hf; apply in_map_iff; exists (d, u32 k); auto).
      pose proof (Hfit d v k Hq Ev Ek) as Hk. pose proof (vz_range _ _ Ek) as Hr.
      assert (Eu : u32 k = k) by (unfold u32; apply Z.mod_small; lia). rewrite Eu. split; [exact Hr|].
      assert (A : agree [] nolens a) by (split; [intros q; exact I|intros q w Hw; discriminate]).
      pose proof (length_agree (top_struct t) ltac:(congruence) _ _ _ _ _ Hlk A Ev) as Hv. unfold vagree in Hv. rewrite Ek in Hv. congruence.
    + intros a q d n Ep Hi. destruct (path_state _ _ _ _ Es Hn Ep) as [st Est]. apply (Hev d) with (st := st); [|exact Est].
      rewrite <- Hf. apply in_map_iff. exists (d, n). auto.
  - intros e He. rewrite <- Hf. apply threads_tags, He.
Qed.

Theorem launch_calls ss p ps l ts ls : let t := order (traverser ss) p in
  distinct_dims (top_struct t) -> lenok (top_struct t) nolens -> NoDup (cuda_order ps) ->
  (forall d, In d (cuda_order ps) -> every_element_has (top_struct t) d) -> lengths_fit t (cuda_order ps) ->
  for_each t [] = Done l -> cuda_launch t ps = Done ts -> Forall2 (fun x lx => for_each x [] = Done lx) ts ls ->
  exists l', Permutation l' (concat ls) /\ Forall2 same_get l l'.
Proof.
  intros t Hd Hlk Hnd Hev Hfit El Et F. destruct (launch_parts ss p ps ts Hd Hlk Hnd Hev Hfit Et) as (sg & sts & -> & Hp & _). apply Forall2_map_l in F.
  exact (perm_of_parts t sg sts l ls ltac:(discriminate) Hlk Hp El F).
Qed.

(** The test of [operator bool] is whether there are threads. *)
Lemma threads_empty ds : (forall d n, In (d, n) ds -> 0 <= n) -> (launch_threads ds = [] <-> exists d, In (d, 0) ds).
Proof.
  induction ds as [|[d n] ds IH]; intros H; cbn [launch_threads]; [split; [discriminate|intros [? []]]|].
  pose proof (H d n (or_introl eq_refl)) as Hn. specialize (IH (fun q m Hq => H q m (or_intror Hq))). split.
  - intros E. destruct (Z.eq_dec n 0) as [->|Hne]; [exists d; left; reflexivity|].
    destruct (launch_threads ds) as [|e l] eqn:El.
    + destruct (proj1 IH eq_refl) as [q Hq]. exists q. right. exact Hq.
    + exfalso. assert (Hin : In ((Idx d, Dyn 0) :: e) (flat_map (fun i => map (cons (Idx d, Dyn i)) (e :: l)) (zseq n))).
      { apply in_flat_map. exists 0. split; [apply zseq_In; lia|left; reflexivity]. }
      rewrite E in Hin. destruct Hin.
  - intros [q [E|Hq]].
    + injection E as -> ->. reflexivity.
    + rewrite (proj2 IH (ex_intro _ q Hq)). clear. induction (zseq n) as [|i l IHl]; [reflexivity|exact IHl].
Qed.

Theorem launch_bool t ps b ts : cuda_bool t ps = Done b -> cuda_launch t ps = Done ts -> lengths_fit t (cuda_order ps) ->
  (b = true <-> ts <> []).
Proof.
  intros Eb Et Hfit. unfold cuda_launch in Et. destruct (launch_dims t ps) as [| |ds] eqn:Ed; try discriminate. injection Et as <-.
  destruct (launch_dims_done _ _ _ Ed) as [Hf Hl]. unfold cuda_bool in Eb. destruct (out_list _) as [| |ns] eqn:En; try discriminate. injection Eb as <-.
  apply out_list_done in En.
  assert (Hord : forall d, In d (map snd ps ++ map fst ps) <-> In d (map fst ds)).
  { intros d. rewrite Hf. unfold cuda_order. rewrite in_app_iff, in_flat_map, !in_map_iff. split.
    - intros [(x & <- & Hx)|(x & <- & Hx)]; exists x; simpl; auto.
    - intros (x & Hx & [<-|[<-|[]]]); [left|right]; exists x; auto. }
  assert (Hval : forall d n, In (d, n) ds -> 0 <= n /\ exists v, length_ (top_struct t) d [] = Some v /\ vz v = Some n).
  { intros d n Hdn. destruct (Hl d n Hdn) as (v & k & Ev & Ek & ->).
    assert (Hq : In d (cuda_order ps)) by (rewrite <- Hf; apply in_map_iff; exists (d, u32 k); auto).
    pose proof (Hfit d v k Hq Ev Ek) as Hk. pose proof (vz_range _ _ Ek) as Hr.
    assert (Eu : u32 k = k) by (unfold u32; apply Z.mod_small; lia). rewrite Eu. split; [lia|eauto]. }
  rewrite forallb_forall.
  assert (Hns : forall n, In n ns <-> exists d, In (d, n) ds).
  { intros n. split.
    - intros Hin. assert (Hd : exists d, In d (map snd ps ++ map fst ps) /\ exists v, length_ (top_struct t) d [] = Some v /\ vz v = Some n).
      { clear - En Hin. revert En. generalize (map snd ps ++ map fst ps) as qs. intros qs. revert Hin. revert qs. induction ns as [|m ns IH]; intros qs Hin En; [destruct Hin|].
        destruct qs as [|q qs]; inversion En as [|? ? ? ? H F]; subst. destruct Hin as [->|Hin].
        - exists q. split; [left; reflexivity|]. destruct (length_ (top_struct t) q []) as [v|]; [|discriminate]. destruct (vz v) as [k|] eqn:Ek; [|discriminate]. injection H as ->. eauto.
        - destruct (IH qs Hin F) as (d & Hd & Hv). exists d. split; [right; exact Hd|exact Hv]. }
      destruct Hd as (d & Hd & v & Ev & Ek). apply Hord in Hd. apply in_map_iff in Hd. destruct Hd as ([d' m] & E & Hdm). cbn [fst] in E. subst d'.
      destruct (Hval d m Hdm) as (_ & v' & Ev' & Ek'). exists d. rewrite Ev in Ev'. injection Ev' as <-. rewrite Ek in Ek'. injection Ek' as <-. exact Hdm.
    - intros [d Hdn]. destruct (Hval d n Hdn) as (_ & v & Ev & Ek).
      assert (Hq : In d (map snd ps ++ map fst ps)) by (apply Hord, in_map_iff; exists (d, n); auto).
      clear - En Hq Ev Ek. revert En Hq. generalize (map snd ps ++ map fst ps) as qs. intros qs. revert ns. induction qs as [|q qs IH]; intros ns En Hq; [destruct Hq|].
      cbn [map] in En. inversion En as [|? m ? ns0 H F]; subst. destruct Hq as [->|Hq]; [|right; apply (IH _ F Hq)].
      rewrite Ev, Ek in H. injection H as <-. left. reflexivity. }
  pose proof (threads_empty ds (fun d n H => proj1 (Hval d n H))) as He. split.
  - intros Hall Hnil. apply map_eq_nil in Hnil. apply He in Hnil. destruct Hnil as [d Hd].
    assert (H0 : In 0 ns) by (apply Hns; eauto). specialize (Hall 0 H0). discriminate.
  - intros Hne n Hin. apply Hns in Hin. destruct Hin as [d Hd]. apply negb_true_iff, Z.eqb_neq. intros ->. apply Hne.
    rewrite (proj2 He (ex_intro _ d Hd)). reflexivity.
Qed.
