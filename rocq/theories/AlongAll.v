(** * [lower_bound_along] for every dimension it can see *)

From Verif Require Export LowerAll.
From Verif Require Import ViewFacts Defined Parts.

Lemma whole_grows s : forall q, whole q s = true -> grows false q s = true.
Proof.
  induction s as [c|d ts IH|d t IH|v t IH|ts IH] using struct_ind'; intros q H; try discriminate; cbn [whole grows] in *.
  - destruct (q =? d); [reflexivity|]. rewrite Forall_forall in IH. rewrite forallb_forall in *. auto.
  - destruct (q =? d); auto.
  - destruct v; try discriminate; try (apply IH; exact H).
    + destruct (q =? d); cbn [orb] in *; auto.
    + apply andb_true_iff in H. apply IH, H.
    + apply andb_true_iff in H. apply IH, H.
    + apply andb_true_iff in H. apply IH, H.
    + apply andb_true_iff in H. destruct H as [Hn H]. destruct (q =? d); [discriminate|]. apply IH, H.
    + destruct (q =? m); [rewrite orb_true_r in H; auto|]. destruct (q =? M); [auto|]. cbn [orb] in H. apply andb_true_iff in H. destruct H as [Hn H]. rewrite Hn. apply IH, H.
    + destruct (q =? m); [rewrite orb_true_r in H; auto|]. destruct (q =? M); [auto|]. cbn [orb] in H. destruct (q =? p); [reflexivity|]. cbn [orb] in H. apply andb_true_iff in H. destruct H as [Hn H]. rewrite Hn. apply IH, H.
    + destruct (q =? m); [rewrite orb_true_r in H; auto|]. destruct (q =? M); [auto|]. cbn [orb] in H. apply andb_true_iff in H. destruct H as [Hn H].
      cbn [mem existsb] in Hn. destruct (q =? d), (q =? b); try discriminate. apply IH, H.
    + apply andb_true_iff in H. destruct H as [Hn H]. rewrite Hn. apply IH, H.
Qed.

Lemma along_grows s : forall g r q, along g r q s = true -> grows r q s = true.
Proof.
  induction s as [c|d ts IH|d t IH|v t IH|ts IH] using struct_ind'; intros g r q H; try discriminate; cbn [along grows] in *.
  - destruct (q =? d); [exact H|]. rewrite Forall_forall in IH. rewrite forallb_forall in *. eauto.
  - destruct (q =? d); eauto.
  - assert (Hmaj : forall d, negb r && (if g then whole d t else grows false d t) = true -> grows r d t = true).
    { intros e He. destruct r; [discriminate|]. destruct g; [apply whole_grows|]; exact He. }
    assert (Hmin : forall d, negb r && whole d t = true -> grows r d t = true).
    { intros e He. destruct r; [discriminate|]. apply whole_grows; exact He. }
    destruct v; try discriminate; try (eapply IH; exact H).
    + destruct (q =? d); [reflexivity|]. eauto.
    + destruct (q =? d); eauto.
    + destruct (q =? d); eauto.
    + destruct (q =? d); eauto.
    + destruct (q =? d); [|eauto]. destruct g; [|eauto]. apply andb_true_iff in H. destruct H as [-> H]. eauto.
    + destruct (q =? m); [auto|]. destruct (q =? M); [auto|]. apply andb_true_iff in H. destruct H as [-> H]. eauto.
    + destruct (q =? m); [auto|]. destruct (q =? M); [auto|]. destruct (q =? p); [reflexivity|]. apply andb_true_iff in H. destruct H as [-> H]. eauto.
    + destruct (q =? m); [auto|]. destruct (q =? M); [auto|]. destruct (q =? b).
      * rewrite !andb_true_iff in H. destruct r; [intuition discriminate|]. rewrite !andb_true_iff. tauto.
      * apply andb_true_iff in H. destruct H as [-> H]. eauto.
    + apply andb_true_iff in H. destruct H as [-> H]. eapply IH, H.
Qed.

Lemma iofa_ext s l l' a a' q : eqf l l' -> eqf a a' -> iofa s l a q = iofa s l' a' q.
Proof.
  revert l l' a a' q. induction s as [c|d ts IH|d t IH|v t IH|ts IH] using struct_ind'; intros l l' a a' q Hl Ha; cbn [iofa]; auto.
  - rewrite (Ha d), !nthz_map. destruct (nthz ts (a' d)) as [t|] eqn:E; [|reflexivity]. simpl. eapply Forall_nthz in IH; [|exact E]. auto.
  - rewrite (Ha d), (isize_ext t _ (fupd l' d None)) by auto using fupd_ext. destruct (q =? d); [reflexivity|]. auto using fupd_ext.
  - assert (Hs : forall q', iofa t (view_lenv v l) (view_asg v (ilen t) l a) q' = iofa t (view_lenv v l') (view_asg v (ilen t) l' a') q').
    { intros q'. apply IH; [apply view_lenv_ext, Hl|apply view_asg_ext; auto using ilen_ext]. }
    assert (Hz : forall ds q', iofa t (view_lenv v l) (view_asg v (ilen t) l (zero ds a)) q' = iofa t (view_lenv v l') (view_asg v (ilen t) l' (zero ds a')) q').
    { intros ds q'. apply IH; [apply view_lenv_ext, Hl|apply view_asg_ext; auto using ilen_ext]. intros x. unfold zero. destruct (mem x ds); auto. }
    destruct v; rewrite ?Hz, ?Hs; reflexivity.
Qed.

(** The offset along a block index is a multiple of it. *)
Lemma blk_linear v d M m t l a sg p q : uswf (View v t) = true -> blk v = Some (d, M, m) -> signature (View v t) = Some sg -> spath sg a = Some p ->
  In (q, None) p -> steady q (View v t) = true -> q = M \/ q = m -> eqW (iofa (View v t) l a q) (a q * kf (View v t) l a q).
Proof.
  intros Hw Hb Es Ep Hq Hst HqM. set (a2 := fupd a q 0).
  pose proof (iofa_affine (View v t) Hw l a a2 sg p q Es Ep Hq Hst (fun x _ Hx => fupd_neq _ _ _ _ Hx)) as H.
  assert (H0 : iofa (View v t) l a2 q = 0).
  { rewrite (iofa_blocks v d M m) by exact Hb. cbn zeta. 
    assert (Hx : forall z, iofa t (view_lenv v l) (view_asg v (ilen t) l (zero z a2)) d = iofa t (view_lenv v l) (view_asg v (ilen t) l (zero (q :: z) a2)) d).
    { intros z. apply iofa_ext; [apply eqf_refl|apply view_asg_ext; auto using ilen_ext, eqf_refl]. intros x. unfold zero. cbn [mem existsb].
      destruct (Z.eqb_spec x q) as [->|]; cbn [orb]; [|reflexivity]. unfold a2. rewrite fupd_eq. destruct (mem q z); reflexivity. }
    destruct (Z.eqb_spec q M) as [->|]; [rewrite (Hx [m]); lia|]. destruct HqM as [|HqM]; [contradiction|]. subst q. rewrite Z.eqb_refl.
    rewrite (Hx [M]). replace (iofa t (view_lenv v l) (view_asg v (ilen t) l (zero [m; M] a2)) d) with (iofa t (view_lenv v l) (view_asg v (ilen t) l (zero [M; m] a2)) d); [lia|].
    apply iofa_ext; [apply eqf_refl|apply view_asg_ext; auto using ilen_ext, eqf_refl]. intros x. unfold zero. cbn [mem existsb]. destruct (x =? M), (x =? m); reflexivity. }
  rewrite H0 in H. unfold a2 in H. rewrite fupd_eq in H.
  transitivity (0 - (0 - iofa (View v t) l a q)); [apply eqW_eq; lia|]. rewrite H. apply eqW_eq. ring.
Qed.

Lemma agW_times u v x y : agW u x -> agW v y -> agW (vmul u v) (x * y).
Proof.
  intros Hu Hv z Hz. destruct (vz v) as [vv|] eqn:Ev.
  - rewrite (agW_mul u v x vv Hu Ev z Hz), (Hv vv Ev). reflexivity.
  - destruct v; try discriminate Ev. destruct u; cbn [vmul is_sta] in Hz; try discriminate Hz.
    destruct (Z.eqb_spec (u64 z0) 0) as [E0|E0]; [|discriminate Hz]. injection Hz as <-.
    rewrite <- (Hu _ eq_refl), E0, eqW_u64. reflexivity.
Qed.

(** A whole dimension: the answer is a multiple of the first index. *)
Theorem whole_int s : swf s = true -> forall st l a sg p q iv w x, pvalid s l a sg p -> lrange l -> good s l a -> In (q, None) p ->
  steady q s = true -> whole q s = true -> lenok s l -> agree st l a -> lendef st -> get (Idx q) st = None ->
  low_end false 0 iv x -> (a q = 0 -> eqW x 0) -> lower_bound s q st iv = Some w -> agW w (x * kf s l a q).
Proof.
  induction s as [c|d ts IH|d t IH|v t IH|ts IH] using struct_ind'; intros Hw st l a sg p q iv w x V Hl Hg Hq Hst Hwh Hlk Hag Hld Hop Hch Hz E; try discriminate.
  - cbn [lower_bound] in E. apply guard_Some in E. destruct E as [Eh E]. apply guard_Some in E. destruct E as [_ E]. cbn [whole has_lower_bound] in *.
    destruct (pvalid_tuple _ _ _ _ _ _ V) as (ss & t & s0 & p0 & -> & F & Hx & Et & En & -> & Hda & V').
    destruct Hq as [Hq|Hq]; [congruence|].
    assert (Hqd : q <> d).
    { intros ->. rewrite <- not_true_iff_false in Hx. apply Hx, existsb_exists. exists s0. split; [exact (nthz_In _ _ _ En)|]. destruct V' as (_ & Ep0 & _). exact (spath_accept' _ _ _ _ _ Ep0 Hq). }
    destruct (has (Idx d) st) eqn:Hi; [|injection Eh as Eh; apply Z.eqb_eq in Eh; contradiction].
    destruct (tuple_index d st) as [j|] eqn:Ek; [|discriminate]. cbn [obind] in E.
    assert (j = a d).
    { unfold tuple_index in Ek. destruct (get (Idx d) st) as [vi|] eqn:Ei; [|discriminate].
      pose proof (ag_idx _ _ _ Hag _ _ Ei) as Hvi. unfold vagree in Hvi. destruct vi; simpl in *; try discriminate. congruence. }
    subst j. rewrite nthz_map, Et in E. cbn [option_map ojoin] in E.
    pose proof (swf_tuple _ _ Hw) as Hws. rewrite forallb_forall in Hws. pose proof (nthz_In _ _ _ Et) as Hin. rewrite Forall_forall in IH.
    cbn [steady] in Hst. rewrite forallb_forall in Hst, Hwh. simpl in Hlk. apply lenok_all in Hlk. eapply Forall_nthz in Hlk; [|exact Et].
    cbn [kf]. rewrite nthz_map, Et. cbn [option_map].
    apply (IH t Hin (Hws t Hin) (remove [Idx d] st) l a s0 p0 q iv w x); auto using agree_remove_idx, lendef_remove_idx.
    + eapply good_tuple; eauto.
    + rewrite get_remove. destruct (tag_mem _ _); [reflexivity|exact Hop].
  - cbn [lower_bound] in E. apply guard_Some in E. destruct E as [_ E].
    destruct (pvalid_vector _ _ _ _ _ _ V) as (Hi & s0 & p0 & -> & -> & Hnd & V').
    cbn [steady whole] in Hst, Hwh. cbn [good] in Hg. cbn [kf].
    destruct (Z.eqb_spec q d) as [->|Hne].
    + destruct iv as [[mn en]|].
      * destruct (size_ t (remove [Idx d; Len d] st)) as [sz|] eqn:Ez; [|discriminate]. cbn [obind] in E. injection E as <-.
        assert (Hsz : vz sz = Some (u64 (isize t (fupd l d None)))).
        { eapply (size_spec t Hw); eauto using agree_remove_both, lendef_remove_both. destruct V' as [V' _]. congruence. }
        intros y Hy. rewrite (agW_mul_r _ _ _ _ Hsz Hch y Hy), eqW_u64. apply eqW_eq. lia.
      * injection E as <-. apply (agW_eqW _ 0); [|apply agW_Sta]. cbn [low_end] in Hch. rewrite Hch. apply eqW_eq. lia.
    + destruct Hq as [Hq|Hq]; [congruence|].
      apply (IH Hw (remove [Idx d; Len d] st) (fupd l d None) a s0 p0 q iv w x); auto using agree_remove_both, lendef_remove_both, lrange_None.
      rewrite get_remove. destruct (tag_mem _ _); [reflexivity|exact Hop].
  - pose proof (whole_grows _ _ Hwh) as Hgr.
    destruct (two_down v t l a a sg p p q None false Hw V V Hl Hg Hg Hq (fun _ _ _ => eq_refl) (fun _ _ _ => eq_refl) Hst Hgr)
      as (s0 & p' & p1 & E0 & Ev & R & V1 & _ & Hnd' & _ & Hl' & G1 & _ & F1 & _ & _).
    destruct (swf_view _ _ Hw) as [Hv Ht]. pose proof (swf_uswf _ Ht) as Hu. pose proof V1 as (_ & Ep' & Fr'). destruct (steady_down _ _ _ Hst) as [Hs1 Hs2].
    assert (Hs0 : signature (View v t) <> None) by (destruct V; congruence).
    pose proof (view_step v t s0 sg l a a p' p q Hu Hv E0 Ev Ep' R Hnd' Hq Hs1 (fun x _ _ => eq_refl)) as Hstep.
    assert (Hnb : fall v q = vnext v q).
    { destruct v; try reflexivity. cbn [fall vnext]. destruct (Z.eqb_spec q b) as [->|]; [|reflexivity]. exfalso. cbn [view_sig] in Ev. destruct (_ || _) eqn:Eb in Ev; [discriminate|].
      cbn [prel] in R. destruct R as [-> Hfun]. apply in_pm in Hq. destruct Hq as [[Hq1 Hq2]|(k & Hk & HE)].
      - cbn [fst] in Hq2. rewrite (spath_accept' _ _ _ _ _ Ep' Hq1) in Eb. lia.
      - pose proof (Hfun _ Hk) as ->. simpl in HE. destruct HE as [HE|[HE|[HE|[]]]]; injection HE; intros; try discriminate; lia. }
    assert (Hopen : forall q' st', vnext v q = Some q' -> sub_state v t st = Some st' -> get (Idx q') st' = None).
    { intros q' st' Hn Est. rewrite <- Hnb in Hn. apply (low_open v t st st' q q' false Est Hn Hgr); [| |exact Hop].
      - intros d i ->. cbn [prel] in R. subst p. apply in_pm in Hq. destruct Hq as [[_ Hne]|(k0 & _ & [])]. exact Hne.
      - intros ps ->. cbn [prel] in R. subst p. apply in_map_iff in Hq. destruct Hq as ([q0 k0] & Hqe & Hq'). cbn [fst snd] in Hqe. injection Hqe as <- ->.
        cbn [view_sig] in Ev. destruct (nodupb (map fst ps) && _ && _) eqn:Er in Ev; [|discriminate].
        assert (Hback : rename_in ps (rename_dim ps q0) = q0) by exact (rename_back ps s0 q0 Er (spath_accept' _ _ _ _ _ Ep' Hq')).
        rewrite !andb_true_iff, !nodupb_NoDup in Er. rewrite Hback. tauto. }
    cbn [kf]. set (l' := view_lenv v l) in *. set (b := view_asg v (ilen t) l a) in *.
    assert (Hsub : forall q' iv' w' x', vnext v q = Some q' -> whole q' t = true -> low_end false 0 iv' x' -> (b q' = 0 -> eqW x' 0) ->
      (do st' <- sub_state v t st; lower_bound t q' st' iv') = Some w' -> agW w' (x' * kf t l' b q')).
    { intros q' iv' w' x' Hn Hwh' Hch' Hz' E'. rewrite Hn in Hstep, Hs2. destruct Hstep as (Hq' & _ & _).
      destruct (sub_state v t st) as [st'|] eqn:Est; cbn [obind] in E'; [|discriminate]. pose proof (Hopen q' st' Hn eq_refl) as Hop'.
      apply (IH Ht st' l' b s0 p' q' iv' w' x' V1 Hl' G1 Hq' Hs2 Hwh' (proj2 Hlk)); auto.
      - exact (sub_state_refines _ _ _ _ _ _ Hs0 Hlk Hag Est).
      - exact (sub_lendef _ _ _ _ _ _ Hv Hs0 Hlk Hag Est Hld). }
    assert (Hplain : forall q', vnext v q = Some q' -> vcoef v t l a q = 1 -> b q' = a q -> whole q' t = true ->
      (do st' <- sub_state v t st; lower_bound t q' st' iv) = Some w -> agW w (x * (vcoef v t l a q * kf t l' b q'))).
    { intros q' Hn Hc Hb Hwh' E'. rewrite Hc, Z.mul_1_l. apply (Hsub q' iv w x Hn Hwh' Hch); [rewrite Hb; exact Hz|exact E']. }
    (* the index in a block *)
    assert (Hminor : forall d m, q = m -> vnext v q = Some d -> vcoef v t l a q = 1 -> (b d = 0 -> a q = 0) -> whole d t = true ->
      match iv with
      | None => do n <- length_ (View v t) m st; do st' <- sub_state v t st; lower_bound t d st' (Some (Sta 0, n))
      | Some _ => do st' <- sub_state v t st; lower_bound t d st' iv end = Some w -> agW w (x * (vcoef v t l a q * kf t l' b d))).
    { intros d m Hqm Hn Hc Hb Hwh' E'. rewrite Hc, Z.mul_1_l. destruct iv as [[mn en]|].
      - apply (Hsub d (Some (mn, en)) w x Hn Hwh' Hch); [intros Hbd; apply Hz, Hb, Hbd|exact E'].
      - destruct (length_ (View v t) m st) as [n|] eqn:En; [|discriminate]. cbn [obind] in E'.
        apply (Hsub d (Some (Sta 0, n)) w x Hn Hwh'); [apply (agW_eqW _ 0); [symmetry; exact Hch|apply agW_Sta]|intros Hbd; apply Hz, Hb, Hbd|exact E']. }
    (* the index of a block *)
    assert (Hmajor : forall d m, vnext v q = Some d -> (a q = 0 \/ vcoef v t l a q = ilen (View v t) l a m) -> (b d = 0 -> a q = 0) -> whole d t = true ->
      match iv with
      | None => Some (Sta 0)
      | Some (mn, en) => do n <- length_ (View v t) m st; do st' <- sub_state v t st; lower_bound t d st' (Some (vmul mn n, vmul en n)) end = Some w ->
      agW w (x * (vcoef v t l a q * kf t l' b d))).
    { intros d m Hn Hc Hb Hwh' E'. destruct iv as [[mn en]|].
      - destruct (length_ (View v t) m st) as [n|] eqn:En; [|discriminate]. cbn [obind] in E'. cbn [low_end] in Hch.
        apply (agW_eqW _ (x * ilen (View v t) l a m * kf t l' b d)).
        { destruct Hc as [Hc| ->]; [rewrite (Hz Hc); apply eqW_eq; ring|apply eqW_eq; ring]. }
        apply (Hsub d (Some (vmul mn n, vmul en n)) w _ Hn Hwh'); [| |exact E'].
        + cbn [low_end]. apply agW_times; [exact Hch|]. exact (agW_vagree _ _ (length_agree _ Hs0 st l a m n Hlk Hag En)).
        + intros Hbd. rewrite (Hz (Hb Hbd)). apply eqW_eq. lia.
      - injection E' as <-. apply (agW_eqW _ 0); [|apply agW_Sta]. cbn [low_end] in Hch. rewrite Hch. apply eqW_eq. lia. }
    assert (Hvs := Hv). unfold view_swf in Hvs. rewrite E0 in Hvs.
    cbn [lower_bound] in E. apply guard_Some in E. destruct E as [_ E].
    destruct v as [d|d i|d ln|d s|d s len|d s en|d s rr|d|d M m|d M m pd|d bb M m ml|M m d|sl gl d ds|ds|d|ps|xa xb d];
      cbn [whole vnext] in *; try discriminate; try (apply (Hplain q); [reflexivity|reflexivity|reflexivity|exact Hwh|exact E]).
    + (* bcast *) destruct (Z.eqb_spec q d) as [->|Hne].
      * injection E as <-. apply (agW_eqW _ 0); [apply eqW_eq; lia|apply agW_Sta].
      * apply (Hplain q); [reflexivity|reflexivity|reflexivity|exact Hwh|exact E].
    + (* fix *) assert (Hqd : q <> d).
      { cbn [prel] in R. subst p. apply in_pm in Hq. destruct Hq as [[_ Hne]|(k & _ & [])]. exact Hne. }
      apply (Hplain q); [reflexivity|reflexivity| |exact Hwh|exact E].
      unfold b. cbn [view_asg]. rewrite fupd_neq by exact Hqd. reflexivity.
    + (* shift *) apply andb_true_iff in Hwh. destruct Hwh as [Hne Hwh]. destruct (Z.eqb_spec q d); [discriminate|].
      apply (Hplain q); [reflexivity|reflexivity| |exact Hwh|exact E]. unfold b. cbn [view_asg]. rewrite fupd_neq by assumption. reflexivity.
    + (* slice *) apply andb_true_iff in Hwh. destruct Hwh as [Hne Hwh]. destruct (Z.eqb_spec q d); [discriminate|].
      apply (Hplain q); [reflexivity|reflexivity| |exact Hwh|exact E]. unfold b. cbn [view_asg]. rewrite fupd_neq by assumption. reflexivity.
    + (* span *) apply andb_true_iff in Hwh. destruct Hwh as [Hne Hwh]. destruct (Z.eqb_spec q d); [discriminate|].
      apply (Hplain q); [reflexivity|reflexivity| |exact Hwh|exact E]. unfold b. cbn [view_asg]. rewrite fupd_neq by assumption. reflexivity.
    + (* reverse *) apply andb_true_iff in Hwh. destruct Hwh as [Hne Hwh]. destruct (Z.eqb_spec q d) as [|Hqd]; [discriminate|].
      assert (Hb : b q = a q) by (unfold b; cbn [view_asg]; rewrite fupd_neq by assumption; reflexivity).
      assert (X := Hplain q eq_refl ltac:(cbn [vcoef]; destruct (Z.eqb_spec q d); [contradiction|reflexivity]) Hb Hwh).
      destruct iv as [[mn en]|]; apply X; exact E.
    + (* blocks *) cbn [view_sig] in Ev. destruct ((M =? m) || _ || _) eqn:Eb in Ev; [discriminate|]. destruct (Z.eqb_spec q m) as [Hm|Hm].
      { rewrite orb_true_r in *. destruct Hstep as (Hdp & _). destruct (F1 _ Hdp) as (H1 & H2 & H3 & _). cbn zeta in *. fold b in H1.
        apply (Hminor d m); [exact Hm|reflexivity| | |exact Hwh|exact E].
        - cbn [vcoef]. destruct (Z.eqb_spec q M); [lia|reflexivity].
        - intros Hbd. rewrite Hbd in H1. subst q. clear - H1 H2 H3. nia. }
      destruct (Z.eqb_spec q M) as [HM|HM].
      { cbn [orb] in *. destruct Hstep as (Hdp & _). destruct (F1 _ Hdp) as (H1 & H2 & H3 & _). cbn zeta in *. fold b in H1.
        apply (Hmajor d m); [reflexivity| | |exact Hwh|exact E].
        - right. cbn [vcoef ilen view_ilen]. destruct (Z.eqb_spec q M); [|contradiction]. rewrite Z.eqb_refl. reflexivity.
        - intros Hbd. rewrite Hbd in H1. subst q. clear - H1 H2 H3. nia. }
      cbn [orb mem existsb] in *. apply andb_true_iff in Hwh. destruct Hwh as [Hne Hwh]. destruct (Z.eqb_spec q d); [discriminate|].
      apply (Hplain q); [reflexivity| | |exact Hwh|exact E].
      * cbn [vcoef]. destruct (Z.eqb_spec q M); [contradiction|reflexivity].
      * unfold b. cbn [view_asg]. rewrite fupd_neq by assumption. reflexivity.
    + (* dynamic *) cbn [view_sig] in Ev. destruct ((M =? m) || _ || _ || _ || _ || _) eqn:Eb in Ev; [discriminate|]. destruct (Z.eqb_spec q m) as [Hm|Hm].
      { rewrite orb_true_r in *. destruct (Z.eqb_spec q pd) as [|Hp]; [lia|]. destruct Hstep as (Hdp & _). destruct (F1 _ Hdp) as (H1 & H2 & H3 & _). cbn zeta in *. fold b in H1.
        apply (Hminor d m); [exact Hm|reflexivity| | |exact Hwh|exact E].
        - cbn [vcoef]. destruct (Z.eqb_spec q M); [lia|reflexivity].
        - intros Hbd. rewrite Hbd in H1. subst q. clear - H1 H2 H3. nia. }
      destruct (Z.eqb_spec q M) as [HM|HM].
      { cbn [orb] in *. destruct (Z.eqb_spec q pd) as [|Hp]; [lia|]. destruct Hstep as (Hdp & _). destruct (F1 _ Hdp) as (H1 & H2 & H3 & _). cbn zeta in *. fold b in H1.
        apply (Hmajor d m); [reflexivity| | |exact Hwh|exact E].
        - right. cbn [vcoef ilen view_ilen]. destruct (Z.eqb_spec q M); [|contradiction]. destruct (Z.eqb_spec m pd); [lia|]. rewrite Z.eqb_refl. reflexivity.
        - intros Hbd. rewrite Hbd in H1. subst q. clear - H1 H2 H3. nia. }
      cbn [orb mem existsb] in *. destruct (Z.eqb_spec q pd) as [Hp|Hp].
      { injection E as <-. apply (agW_eqW _ 0); [apply eqW_eq; lia|apply agW_Sta]. }
      cbn [orb] in *. apply andb_true_iff in Hwh. destruct Hwh as [Hne Hwh]. destruct (Z.eqb_spec q d); [discriminate|].
      apply (Hplain q); [reflexivity| | |exact Hwh|exact E].
      * cbn [vcoef]. destruct (Z.eqb_spec q M); [contradiction|reflexivity].
      * unfold b. cbn [view_asg]. rewrite fupd_neq by assumption. reflexivity.
    + (* static *) cbn [view_sig] in Ev. destruct ((bb =? M) || _ || _ || _ || _ || _) eqn:Eb in Ev; [discriminate|]. destruct (Z.eqb_spec q m) as [Hm|Hm].
      { rewrite orb_true_r in *. destruct Hstep as (Hdp & _). destruct (F1 _ Hdp) as (H1 & H2 & H3). cbn zeta in *. fold b in H3.
        assert (HL : 0 <= Lof (VBlocksSta d bb M m ml) t l a d) by (rewrite (Lof_fun _ t s0 l a p' E0 Ep' Hnd' d Hdp); apply ilen_range, Hl').
        apply (Hminor d m); [exact Hm|reflexivity| | |exact Hwh|exact E].
        - cbn [vcoef]. destruct (Z.eqb_spec q M); [lia|reflexivity].
        - intros Hbd. rewrite Hbd in H3. subst q. clear - H1 H2 H3 HL. destruct H3 as [(_ & B1 & _ & B2 & _)|(_ & _ & _ & B2 & B3)]; [nia|].
          pose proof (Z.div_pos _ _ HL H1). nia. }
      destruct (Z.eqb_spec q M) as [HM|HM].
      { cbn [orb] in *. destruct Hstep as (Hdp & _). destruct (F1 _ Hdp) as (H1 & H2 & H3). cbn zeta in *. fold b in H3.
        apply (Hmajor d m); [reflexivity| | |exact Hwh|exact E].
        - cbn [vcoef ilen view_ilen]. destruct (Z.eqb_spec q M); [|contradiction]. destruct (Z.eqb_spec m bb); [lia|]. rewrite Z.eqb_refl. subst q.
          destruct H3 as [(B0 & _)|(_ & B1 & _)]; [right; rewrite B0; reflexivity|left; exact B1].
        - intros Hbd. rewrite Hbd in H3. subst q. clear - H1 H2 H3. destruct H3 as [(_ & B1 & _ & B2 & _)|(_ & B1 & _)]; [nia|exact B1]. }
      cbn [orb] in *. apply andb_true_iff in Hwh. destruct Hwh as [Hne Hwh]. apply negb_true_iff, mem_false in Hne. simpl in Hne.
      assert (q <> d /\ q <> bb) as (H1 & H4) by intuition. cbn [mem existsb] in E. destruct (Z.eqb_spec q bb); [contradiction|]. cbn [orb] in E.
      apply (Hplain q); [reflexivity| | |exact Hwh|exact E].
      * cbn [vcoef]. destruct (Z.eqb_spec q M); [contradiction|reflexivity].
      * unfold b. cbn [view_asg]. rewrite fupd_neq by assumption. reflexivity.
    + (* merge *) apply andb_true_iff in Hwh. destruct Hwh as [Hno Hwh]. apply negb_true_iff, mem_false in Hno. simpl in Hno.
      assert (q <> d /\ q <> M /\ q <> m) as (H1 & H2 & H3) by intuition. destruct (Z.eqb_spec q d); [contradiction|].
      apply (Hplain q); [reflexivity|reflexivity| |exact Hwh|exact E].
      unfold b. cbn [view_asg]. rewrite fupds_out by (simpl; intuition). reflexivity.
    + (* rename *) apply (Hplain (rename_in ps q)); [reflexivity|reflexivity| |exact Hwh|exact E].
      unfold b. cbn [view_asg]. cbn [prel] in R. subst p. apply in_map_iff in Hq. destruct Hq as ([q' k] & Hqe & Hq'). cbn [fst snd] in Hqe. injection Hqe as <- ->.
      cbn [view_sig] in Ev. destruct (nodupb (map fst ps) && _ && _) eqn:Er in Ev; [|discriminate].
      assert (Hback : rename_in ps (rename_dim ps q') = q') by exact (rename_back ps s0 q' Er (spath_accept' _ _ _ _ _ Ep' Hq')).
      rewrite Hback. reflexivity.
Qed.

(** ** The lower end of a dimension *)

Definition known (l : lenv) (q : dim) : bool := match l q with Some _ => true | None => false end.

Lemma settable_len t : forall l a q x, settable q t = true -> l q = Some x -> ilen t l a q = x.
Proof.
  induction t as [c|d ts IH|d t IH|v t IH|ts IH] using struct_ind'; intros l a q x Hs Hx; try discriminate.
  - cbn [settable ilen] in *. destruct (Z.eqb_spec q d) as [->|Hne]; [rewrite Hx; reflexivity|]. apply IH; [exact Hs|]. rewrite fupd_neq by exact Hne. exact Hx.
  - cbn [ilen]. destruct v; cbn [settable view_ilen] in *; try discriminate.
    + destruct (Z.eqb_spec q d) as [->|Hne]; [rewrite Hx; reflexivity|]. apply IH; [exact Hs|]. cbn [view_lenv]. rewrite fupd_neq by exact Hne. exact Hx.
    + apply andb_true_iff in Hs. destruct Hs as [Hne Hs]. apply negb_true_iff, Z.eqb_neq in Hne. apply IH; [exact Hs|]. cbn [view_lenv]. rewrite fupd_neq by exact Hne. exact Hx.
    + apply andb_true_iff in Hs. destruct Hs as [Hne Hs]. apply negb_true_iff, Z.eqb_neq in Hne. apply IH; [exact Hs|]. cbn [view_lenv]. rewrite fupd_neq by exact Hne. exact Hx.
    + destruct (Z.eqb_spec q d) as [->|Hne]; [rewrite Hx; reflexivity|]. apply IH; [exact Hs|]. cbn [view_lenv]. rewrite fupd_neq by exact Hne. exact Hx.
    + apply andb_true_iff in Hs. destruct Hs as [Hne Hs]. apply negb_true_iff in Hne. rewrite Hne. apply IH; [exact Hs|exact Hx].
    + apply andb_true_iff in Hs. destruct Hs as [Hne Hs]. apply negb_true_iff in Hne. rewrite Hne. apply IH; [exact Hs|exact Hx].
    + apply IH; [exact Hs|exact Hx].
    + apply IH; [exact Hs|exact Hx].
Qed.

Ltac other := repeat ((rewrite fupd_neq by assumption) || (rewrite fupds_out by (simpl; intuition congruence))).
Ltac hone := match goal with H : ?iv = None -> @eq bool _ true |- _ => let X := fresh in intros X; specialize (H X); unfold known in *;
  try match goal with |- context [?l' _] => subst l' end; cbn [view_lenv mem existsb] in *; other;
  repeat match goal with N : ?q <> ?x |- _ => rewrite (proj2 (Z.eqb_neq q x) N) in H end; cbn [orb] in H; try exact H end.

(** The answer is the offset along [q] of the element at the low end of the interval. *)
Theorem along_int s : swf s = true -> forall st l a sg p q r iv w, pvalid s l a sg p -> lrange l -> good s l a -> In (q, None) p ->
  steady q s = true -> along (given iv) r q s = true -> (iv = None -> one_length r (known l q) q s = true) -> lenok s l -> agree st l a -> lendef st -> get (Idx q) st = None ->
  low_end r (ilen s l a q) iv (a q) -> lower_bound s q st iv = Some w -> agW w (iofa s l a q).
Proof.
  induction s as [c|d ts IH|d t IH|v t IH|ts IH] using struct_ind'; intros Hw st l a sg p q r iv w V Hl Hg Hq Hst Hal Hone Hlk Hag Hld Hop Hch E; try discriminate.
  - cbn [lower_bound] in E. apply guard_Some in E. destruct E as [Eh E]. apply guard_Some in E. destruct E as [_ E]. cbn [along has_lower_bound] in *.
    destruct (pvalid_tuple _ _ _ _ _ _ V) as (ss & t & s0 & p0 & -> & F & Hx & Et & En & -> & Hda & V').
    destruct Hq as [Hq|Hq]; [congruence|].
    assert (Hqd : q <> d).
    { intros ->. rewrite <- not_true_iff_false in Hx. apply Hx, existsb_exists. exists s0. split; [exact (nthz_In _ _ _ En)|]. destruct V' as (_ & Ep0 & _). exact (spath_accept' _ _ _ _ _ Ep0 Hq). }
    destruct (has (Idx d) st) eqn:Hi; [|injection Eh as Eh; apply Z.eqb_eq in Eh; contradiction].
    destruct (tuple_index d st) as [j|] eqn:Ek; [|discriminate]. cbn [obind] in E.
    assert (j = a d).
    { unfold tuple_index in Ek. destruct (get (Idx d) st) as [vi|] eqn:Ei; [|discriminate].
      pose proof (ag_idx _ _ _ Hag _ _ Ei) as Hvi. unfold vagree in Hvi. destruct vi; simpl in *; try discriminate. congruence. }
    subst j. rewrite nthz_map, Et in E. cbn [option_map ojoin] in E. destruct (Z.eqb_spec q d); [contradiction|].
    pose proof (swf_tuple _ _ Hw) as Hws. rewrite forallb_forall in Hws. pose proof (nthz_In _ _ _ Et) as Hin. rewrite Forall_forall in IH.
    cbn [steady] in Hst. rewrite forallb_forall in Hst, Hal. simpl in Hlk. apply lenok_all in Hlk. eapply Forall_nthz in Hlk; [|exact Et].
    cbn [iofa]. rewrite nthz_map, Et. cbn [option_map].
    apply (IH t Hin (Hws t Hin) (remove [Idx d] st) l a s0 p0 q r iv w); auto using agree_remove_idx, lendef_remove_idx.
    + eapply good_tuple; eauto.
    + intros Hi'. specialize (Hone Hi'). cbn [one_length] in Hone. destruct (Z.eqb_spec q d); [contradiction|]. cbn [orb] in Hone. rewrite forallb_forall in Hone. apply Hone, Hin.
    + rewrite get_remove. destruct (tag_mem _ _); [reflexivity|exact Hop].
    + cbn [ilen] in Hch. destruct (Z.eqb_spec q d); [contradiction|]. rewrite nthz_map, Et in Hch. exact Hch.
  - cbn [lower_bound] in E. apply guard_Some in E. destruct E as [_ E].
    destruct (pvalid_vector _ _ _ _ _ _ V) as (Hi & s0 & p0 & -> & -> & Hnd & V').
    cbn [steady along] in Hst, Hal. cbn [good] in Hg. cbn [iofa]. cbn [ilen] in Hch.
    destruct (Z.eqb_spec q d) as [->|Hne].
    + destruct r; [discriminate|]. destruct iv as [[mn en]|].
      * destruct (size_ t (remove [Idx d; Len d] st)) as [sz|] eqn:Ez; [|discriminate]. cbn [obind] in E. injection E as <-.
        assert (Hsz : vz sz = Some (u64 (isize t (fupd l d None)))).
        { eapply (size_spec t Hw); eauto using agree_remove_both, lendef_remove_both. destruct V' as [V' _]. congruence. }
        intros y Hy. rewrite (agW_mul_r _ _ _ _ Hsz Hch y Hy), eqW_u64. apply eqW_eq. lia.
      * injection E as <-. apply (agW_eqW _ 0); [|apply agW_Sta]. cbn [low_end] in Hch. rewrite Hch. apply eqW_eq. lia.
    + destruct Hq as [Hq|Hq]; [congruence|].
      apply (IH Hw (remove [Idx d; Len d] st) (fupd l d None) a s0 p0 q r iv w); auto using agree_remove_both, lendef_remove_both, lrange_None.
      * intros Hi'. specialize (Hone Hi'). cbn [one_length] in Hone. destruct (Z.eqb_spec q d); [contradiction|]. unfold known. rewrite fupd_neq by exact Hne. exact Hone.
      * rewrite get_remove. destruct (tag_mem _ _); [reflexivity|exact Hop].
  - pose proof (along_grows _ _ _ _ Hal) as Hgr.
    destruct (two_down v t l a a sg p p q None r Hw V V Hl Hg Hg Hq (fun _ _ _ => eq_refl) (fun _ _ _ => eq_refl) Hst Hgr)
      as (s0 & p' & p1 & E0 & Ev & R & V1 & _ & Hnd' & _ & Hl' & G1 & _ & F1 & _ & _).
    destruct (swf_view _ _ Hw) as [Hv Ht]. pose proof (swf_uswf _ Ht) as Hu. pose proof V1 as (_ & Ep' & Fr'). destruct (steady_down _ _ _ Hst) as [Hs1 Hs2].
    assert (Hs0 : signature (View v t) <> None) by (destruct V; congruence). assert (Ht0 : signature t <> None) by congruence.
    pose proof (view_step v t s0 sg l a a p' p q Hu Hv E0 Ev Ep' R Hnd' Hq Hs1 (fun x _ _ => eq_refl)) as Hstep.
    assert (Hnob : match v with VBlocksSta _ b _ _ _ => q <> b | _ => True end).
    { destruct v; try exact I. intros ->. cbn [view_sig] in Ev. destruct (_ || _) eqn:Eb in Ev; [discriminate|].
      cbn [prel] in R. destruct R as [-> Hfun]. apply in_pm in Hq. destruct Hq as [[Hq1 Hq2]|(k & Hk & HE)].
      - cbn [fst] in Hq2. rewrite (spath_accept' _ _ _ _ _ Ep' Hq1) in Eb. lia.
      - pose proof (Hfun _ Hk) as ->. simpl in HE. destruct HE as [HE|[HE|[HE|[]]]]; injection HE; intros; try discriminate; lia. }
    assert (Hnb : fall v q = vnext v q).
    { destruct v; try reflexivity. cbn [fall vnext]. destruct (Z.eqb_spec q b); [contradiction|reflexivity]. }
    assert (Hopen : forall q' st', vnext v q = Some q' -> sub_state v t st = Some st' -> get (Idx q') st' = None).
    { intros q' st' Hn Est. rewrite <- Hnb in Hn. apply (low_open v t st st' q q' r Est Hn Hgr); [| |exact Hop].
      - intros d i ->. cbn [prel] in R. subst p. apply in_pm in Hq. destruct Hq as [[_ Hne]|(k0 & _ & [])]. exact Hne.
      - intros ps ->. cbn [prel] in R. subst p. apply in_map_iff in Hq. destruct Hq as ([q0 k0] & Hqe & Hq'). cbn [fst snd] in Hqe. injection Hqe as <- ->.
        cbn [view_sig] in Ev. destruct (nodupb (map fst ps) && _ && _) eqn:Er in Ev; [|discriminate].
        assert (Hback : rename_in ps (rename_dim ps q0) = q0) by exact (rename_back ps s0 q0 Er (spath_accept' _ _ _ _ _ Ep' Hq')).
        rewrite !andb_true_iff, !nodupb_NoDup in Er. rewrite Hback. tauto. }
    (* the block indices *)
    assert (Hblock : forall d M m, blk v = Some (d, M, m) -> q = M \/ q = m -> r = false -> whole q (View v t) = true -> agW w (iofa (View v t) l a q)).
    { intros d M m Hb HqM -> Hwh. pose proof V as (Es & Ep & _). apply (agW_eqW _ (a q * kf (View v t) l a q)).
      - symmetry. apply (blk_linear v d M m t l a sg p q (swf_uswf _ Hw) Hb Es Ep Hq Hst HqM).
      - apply (whole_int (View v t) Hw st l a sg p q iv w (a q) V Hl Hg Hq Hst Hwh Hlk Hag Hld Hop Hch); [intros ->; reflexivity|exact E]. }
    assert (Hfirst : forall d M m, blk v = Some (d, M, m) -> q = M \/ q = m -> r = false -> iv = None -> w = Sta 0 -> agW w (iofa (View v t) l a q)).
    { intros d M m Hb HqM -> -> ->. pose proof V as (Es & Ep & _). apply (agW_eqW _ (a q * kf (View v t) l a q)).
      - symmetry. apply (blk_linear v d M m t l a sg p q (swf_uswf _ Hw) Hb Es Ep Hq Hst HqM).
      - apply (agW_eqW _ 0); [cbn [low_end] in Hch; rewrite Hch; apply eqW_eq; lia|apply agW_Sta]. }
    set (l' := view_lenv v l) in *. set (b := view_asg v (ilen t) l a) in *.
    assert (Hsub : forall q' r' iv' w', vnext v q = Some q' -> along (given iv') r' q' t = true -> (iv' = None -> one_length r' (known l' q') q' t = true) -> low_end r' (ilen t l' b q') iv' (b q') ->
      (do st' <- sub_state v t st; lower_bound t q' st' iv') = Some w' -> agW w' (iofa t l' b q')).
    { intros q' r' iv' w' Hn Hal' Hone' Hch' E'. rewrite Hn in Hstep, Hs2. destruct Hstep as (Hq' & _ & _).
      destruct (sub_state v t st) as [st'|] eqn:Est; cbn [obind] in E'; [|discriminate]. pose proof (Hopen q' st' Hn eq_refl) as Hop'.
      apply (IH Ht st' l' b s0 p' q' r' iv' w' V1 Hl' G1 Hq' Hs2 Hal' Hone' (proj2 Hlk)); auto.
      - exact (sub_state_refines _ _ _ _ _ _ Hs0 Hlk Hag Est).
      - exact (sub_lendef _ _ _ _ _ _ Hv Hs0 Hlk Hag Est Hld). }
    assert (Hlen : forall e y, (do st' <- sub_state v t st; length_ t e st') = Some y -> agW y (ilen t l' b e)).
    { intros e y En. destruct (sub_state v t st) as [st'|] eqn:Est; [|discriminate]. cbn [obind] in En. apply agW_vagree.
      exact (length_agree t Ht0 st' l' b e y (proj2 Hlk) (sub_state_refines _ _ _ _ _ _ Hs0 Hlk Hag Est) En). }
    assert (Hplain : forall q', vnext v q = Some q' -> iofa (View v t) l a q = iofa t l' b q' -> b q' = a q -> ilen (View v t) l a q = ilen t l' b q' ->
      (iv = None -> one_length r (known l' q') q' t = true) -> along (given iv) r q' t = true -> (do st' <- sub_state v t st; lower_bound t q' st' iv) = Some w -> agW w (iofa (View v t) l a q)).
    { intros q' Hn Hio Hb Hil Hone' Hal' E'. rewrite Hio. apply (Hsub q' r iv w Hn Hal' Hone'); [|exact E']. rewrite Hb, <- Hil. exact Hch. }
    assert (Hmoved : forall start none, vnext v q = Some q -> iofa (View v t) l a q = iofa t l' b q -> eqW (b q) (a q + vzd start) ->
      along true r q t = true -> (iv = None -> r = true -> forall e, none = Some e -> agW e (b q + 1)) ->
      match iv with
       | None => do e <- none; do st' <- sub_state v t st; lower_bound t q st' (Some (start, e))
       | Some (mn, en) => do st' <- sub_state v t st; lower_bound t q st' (Some (vadd mn start, vadd en start)) end = Some w ->
       agW w (iofa (View v t) l a q)).
    { intros start none Hn Hio Hb Hal' Hnone E'. rewrite Hio. destruct iv as [[mn en]|].
      - apply (Hsub q r (Some (vadd mn start, vadd en start)) w Hn Hal'); [discriminate| |exact E']. unfold low_end in *. destruct r.
        + apply (agW_eqW _ (a q + 1 + vzd start)); [rewrite Hb; apply eqW_eq; lia|]. apply agW_add; [exact Hch|apply agW_self].
        + apply (agW_eqW _ (a q + vzd start)); [rewrite Hb; reflexivity|]. apply agW_add; [exact Hch|apply agW_self].
      - destruct none as [e|]; [|discriminate]. cbn [obind] in E'. apply (Hsub q r (Some (start, e)) w Hn Hal'); [discriminate| |exact E'].
        unfold low_end in *. destruct r; [apply (Hnone eq_refl eq_refl); reflexivity|]. apply (agW_eqW _ (0 + vzd start)); [|apply agW_self].
        rewrite Hb, Hch. reflexivity. }
    assert (Hvs := Hv). unfold view_swf in Hvs. rewrite E0 in Hvs.
    cbn [lower_bound] in E. apply guard_Some in E. destruct E as [_ E].
    destruct v as [d|d i|d n|d s|d s len|d s en|d s rr|d|d M m|d M m pd|d bb M m ml|M m d|sl gl d ds|ds|d|ps|xa xb d];
      cbn [along vnext one_length] in *; try discriminate;
      try (apply (Hplain q); [reflexivity|reflexivity|reflexivity|reflexivity|solve [hone]|exact Hal|exact E]).
    + (* bcast *) destruct (Z.eqb_spec q d) as [->|Hne].
      * cbn [iofa]. rewrite Z.eqb_refl. injection E as <-. apply agW_Sta.
      * apply (Hplain q); [reflexivity| |reflexivity| |hone|exact Hal|exact E].
        -- rewrite iofa_other by reflexivity. cbn [vnext]. destruct (Z.eqb_spec q d); [contradiction|reflexivity].
        -- cbn [ilen view_ilen]. destruct (Z.eqb_spec q d); [contradiction|reflexivity].
    + (* fix *) assert (Hqd : q <> d).
      { cbn [prel] in R. subst p. apply in_pm in Hq. destruct Hq as [[_ Hne]|(k & _ & [])]. exact Hne. }
      apply (Hplain q); [reflexivity|reflexivity| |reflexivity|hone|exact Hal|exact E].
      unfold b. cbn [view_asg]. rewrite fupd_neq by exact Hqd. reflexivity.
    + (* set_length *) apply (Hplain q); [reflexivity|reflexivity|reflexivity|reflexivity| |exact Hal|exact E].
      intros X. specialize (Hone X). unfold known, l'. cbn [view_lenv]. destruct (Z.eqb_spec q d) as [->|Hne]; [rewrite fupd_eq|rewrite fupd_neq by exact Hne]; exact Hone.
    + (* shift *) destruct (Z.eqb_spec q d) as [->|Hne].
      * assert (Hb : eqW (b d) (a d + vzd s)) by (unfold b; cbn [view_asg]; rewrite fupd_eq, eqW_u64; reflexivity).
        eapply (Hmoved s); [reflexivity|reflexivity|exact Hb|exact Hal| |exact E].
        intros -> -> e Ee. apply (agW_eqW _ (ilen t l' b d)); [|exact (Hlen _ _ Ee)]. rewrite Hb. cbn [low_end ilen view_ilen] in Hch. rewrite Z.eqb_refl in Hch.
        specialize (Hone eq_refl). unfold known in Hone. destruct (l d) as [x|] eqn:El; cbn [negb orb] in Hone.
        -- assert (Hx : l' d = Some (u64 (x + vzd s))) by (unfold l'; cbn [view_lenv]; rewrite fupd_eq, El; reflexivity).
           rewrite (settable_len t l' b d _ Hone Hx), eqW_u64, Hch. apply eqW_eq. lia.
        -- fold l' b in Hch. rewrite Hch, eqW_u64. apply eqW_eq. lia.
      * apply (Hplain q); [reflexivity|reflexivity| | |hone|exact Hal|exact E].
        -- unfold b. cbn [view_asg]. rewrite fupd_neq by exact Hne. reflexivity.
        -- cbn [ilen view_ilen]. destruct (Z.eqb_spec q d); [contradiction|reflexivity].
    + (* slice *) destruct (Z.eqb_spec q d) as [->|Hne].
      * assert (Hb : eqW (b d) (a d + vzd s)) by (unfold b; cbn [view_asg]; rewrite fupd_eq, eqW_u64; reflexivity).
        eapply (Hmoved s); [reflexivity|reflexivity|exact Hb|exact Hal| |exact E].
        intros -> -> e Ee. injection Ee as <-. cbn [low_end ilen view_ilen] in Hch. rewrite Z.eqb_refl in Hch.
        apply (agW_eqW _ (vzd s + vzd len)); [rewrite Hb, Hch; apply eqW_eq; lia|]. apply agW_add; apply agW_self.
      * apply (Hplain q); [reflexivity|reflexivity| | |hone|exact Hal|exact E].
        -- unfold b. cbn [view_asg]. rewrite fupd_neq by exact Hne. reflexivity.
        -- cbn [ilen view_ilen]. destruct (Z.eqb_spec q d); [contradiction|reflexivity].
    + (* span *) destruct (Z.eqb_spec q d) as [->|Hne].
      * assert (Hb : eqW (b d) (a d + vzd s)) by (unfold b; cbn [view_asg]; rewrite fupd_eq, eqW_u64; reflexivity).
        eapply (Hmoved s); [reflexivity|reflexivity|exact Hb|exact Hal| |exact E].
        intros -> -> e Ee. injection Ee as <-. cbn [low_end ilen view_ilen] in Hch. rewrite Z.eqb_refl in Hch.
        apply (agW_eqW _ (vzd en)); [rewrite Hb, Hch, eqW_u64; apply eqW_eq; lia|]. apply agW_self.
      * apply (Hplain q); [reflexivity|reflexivity| | |hone|exact Hal|exact E].
        -- unfold b. cbn [view_asg]. rewrite fupd_neq by exact Hne. reflexivity.
        -- cbn [ilen view_ilen]. destruct (Z.eqb_spec q d); [contradiction|reflexivity].
    + (* reverse *)
      assert (Hsame : ilen t l' a q = ilen t l' b q).
      { destruct Hstep as (Hq' & _ & _). apply andb_true_iff in Hvs. destruct Hvs as [_ Hvs].
        rewrite forallb_forall in Hvs. specialize (Hvs q (proj1 (accept_sdims _ _) (spath_accept' _ _ _ _ _ Ep' Hq'))).
        apply negb_true_iff, mem_false in Hvs.
        apply (uswf_loc t Hu l' s0 b a p' q E0 Ep' Hq'). intros x Hx _. unfold b. cbn [view_asg]. rewrite fupd_neq; [reflexivity|]. congruence. }
      destruct (Z.eqb_spec q d) as [->|Hne].
      * assert (Hb : eqW (b d) (ilen t l' b d - 1 - a d)).
        { rewrite <- Hsame. unfold b. cbn [view_asg]. rewrite fupd_eq, eqW_u64. reflexivity. }
        destruct iv as [[mn en]|]; cbn [given] in Hal.
        -- apply andb_true_iff in Hal. destruct Hal as [-> Hal].
           destruct (do st' <- sub_state (VReverse d) t st; length_ t d st') as [n|] eqn:En in E; try discriminate; cbn [obind] in E.
           apply (Hsub d false (Some (vsub n en, vsub (vsub n (Sta 1)) mn)) w eq_refl Hal); [discriminate| |exact E]. unfold low_end in *.
           apply (agW_eqW _ (ilen t l' b d - (a d + 1))); [rewrite Hb; apply eqW_eq; lia|]. apply agW_sub; [exact (Hlen d n En)|exact Hch].
        -- apply (Hsub d (negb r) None w eq_refl Hal); [exact Hone| |exact E]. unfold low_end in *. cbn [ilen view_ilen] in Hch. fold l' in Hch. rewrite Hsame in Hch.
           rewrite Hb, Hch. destruct r; apply eqW_eq; cbn [negb]; lia.
      * assert (X := Hplain q eq_refl eq_refl). destruct iv as [[mn en]|]; (apply X; [|exact Hsame|hone|exact Hal|exact E]).
        all: unfold b; cbn [view_asg]; rewrite fupd_neq by exact Hne; reflexivity.
    + (* blocks *) destruct (Z.eqb_spec q m) as [Hm|Hm].
      { apply andb_true_iff in Hal. destruct Hal as [Hr Hal]. destruct r; [discriminate|]. apply (Hblock d M m); auto. cbn [whole]. destruct (Z.eqb_spec q m); [|contradiction]. rewrite orb_true_r. exact Hal. }
      destruct (Z.eqb_spec q M) as [HM|HM].
      { apply andb_true_iff in Hal. destruct Hal as [Hr Hal]. destruct r; [discriminate|]. destruct iv as [[mn en]|]; cbn [given] in Hal.
        - apply (Hblock d M m); auto. cbn [whole]. destruct (Z.eqb_spec q M); [|contradiction]. exact Hal.
        - apply (Hfirst d M m); auto. injection E as <-. reflexivity. }
      destruct (Z.eqb_spec q d) as [|H1]; [discriminate|]. cbn [negb andb] in Hal. cbn [mem existsb] in E.
      apply (Hplain q); [reflexivity| | | |hone|exact Hal|exact E].
      -- rewrite (iofa_blocks _ d M m) by reflexivity. cbn zeta. cbn [vnext]. destruct (Z.eqb_spec q m); [contradiction|]. destruct (Z.eqb_spec q M); [contradiction|]. reflexivity.
      -- unfold b. cbn [view_asg]. rewrite fupd_neq by exact H1. reflexivity.
      -- cbn [ilen view_ilen]. destruct (Z.eqb_spec q m); [contradiction|]. destruct (Z.eqb_spec q M); [contradiction|]. reflexivity.
    + (* dynamic *) destruct (Z.eqb_spec q m) as [Hm|Hm].
      { apply andb_true_iff in Hal. destruct Hal as [Hr Hal]. destruct r; [discriminate|]. apply (Hblock d M m); auto. cbn [whole]. destruct (Z.eqb_spec q m); [|contradiction]. rewrite orb_true_r. exact Hal. }
      destruct (Z.eqb_spec q M) as [HM|HM].
      { apply andb_true_iff in Hal. destruct Hal as [Hr Hal]. destruct r; [discriminate|]. destruct iv as [[mn en]|]; cbn [given] in Hal.
        - apply (Hblock d M m); auto. cbn [whole]. destruct (Z.eqb_spec q M); [|contradiction]. exact Hal.
        - apply (Hfirst d M m); auto. injection E as <-. reflexivity. }
      cbn [mem existsb] in E. destruct (Z.eqb_spec q pd) as [Hp|Hp].
      { cbn [orb] in E. rewrite (iofa_blocks _ d M m) by reflexivity. cbn zeta. cbn [vnext].
        destruct (Z.eqb_spec q M); [contradiction|]. destruct (Z.eqb_spec q m); [contradiction|]. destruct (Z.eqb_spec q pd); [|contradiction].
        injection E as <-. apply agW_Sta. }
      destruct (Z.eqb_spec q d) as [|H1]; [discriminate|]. cbn [negb andb orb] in *.
      apply (Hplain q); [reflexivity| | | |hone|exact Hal|exact E].
      -- rewrite (iofa_blocks _ d M m) by reflexivity. cbn zeta. cbn [vnext]. destruct (Z.eqb_spec q m); [contradiction|]. destruct (Z.eqb_spec q M); [contradiction|]. destruct (Z.eqb_spec q pd); [contradiction|]. reflexivity.
      -- unfold b. cbn [view_asg]. rewrite fupd_neq by exact H1. reflexivity.
      -- cbn [ilen view_ilen]. destruct (Z.eqb_spec q m); [contradiction|]. destruct (Z.eqb_spec q M); [contradiction|]. destruct (Z.eqb_spec q pd); [contradiction|]. reflexivity.
    + (* static *) destruct (Z.eqb_spec q m) as [Hm|Hm].
      { apply andb_true_iff in Hal. destruct Hal as [Hr Hal]. destruct r; [discriminate|]. apply (Hblock d M m); auto. cbn [whole]. destruct (Z.eqb_spec q m); [|contradiction]. rewrite orb_true_r. exact Hal. }
      destruct (Z.eqb_spec q M) as [HM|HM].
      { apply andb_true_iff in Hal. destruct Hal as [Hr Hal]. destruct r; [discriminate|]. destruct iv as [[mn en]|]; cbn [given] in Hal.
        - apply (Hblock d M m); auto. cbn [whole]. destruct (Z.eqb_spec q M); [|contradiction]. exact Hal.
        - apply (Hfirst d M m); auto. injection E as <-. reflexivity. }
      destruct (Z.eqb_spec q bb) as [Hb|Hb]; [contradiction|].
      destruct (Z.eqb_spec q d) as [|H1]; [discriminate|]. cbn [negb andb orb] in *. cbn [mem existsb] in E. rewrite (proj2 (Z.eqb_neq q bb) Hb) in E. cbn [orb] in E.
      apply (Hplain q); [reflexivity| | | |hone|exact Hal|exact E].
      -- rewrite (iofa_blocks _ d M m) by reflexivity. cbn zeta. cbn [vnext]. destruct (Z.eqb_spec q m); [contradiction|]. destruct (Z.eqb_spec q M); [contradiction|]. reflexivity.
      -- unfold b. cbn [view_asg]. rewrite fupd_neq by exact H1. reflexivity.
      -- cbn [ilen view_ilen]. destruct (Z.eqb_spec q m); [contradiction|]. destruct (Z.eqb_spec q M); [contradiction|]. destruct (Z.eqb_spec q bb); [contradiction|]. reflexivity.
    + (* merge *) apply andb_true_iff in Hal. destruct Hal as [Hno Hal]. apply negb_true_iff, mem_false in Hno. simpl in Hno.
      assert (q <> d /\ q <> M /\ q <> m) as (H1 & H2 & H3) by intuition. destruct (Z.eqb_spec q d); [contradiction|].
      apply (Hplain q); [reflexivity|reflexivity| | |hone|exact Hal|exact E].
      -- unfold b. cbn [view_asg]. rewrite fupds_out by (simpl; intuition). reflexivity.
      -- cbn [ilen view_ilen]. destruct (Z.eqb_spec q d); [contradiction|]. reflexivity.
    + (* rename *) cbn [prel] in R. subst p. apply in_map_iff in Hq. destruct Hq as ([q' k] & Hqe & Hq'). cbn [fst snd] in Hqe. injection Hqe as <- ->.
      pose proof (spath_accept' _ _ _ _ _ Ep' Hq') as Hacc.
      cbn [view_sig] in Ev. destruct (nodupb (map fst ps) && _ && _) eqn:Er in Ev; [|discriminate].
      assert (Hback : rename_in ps (rename_dim ps q') = q') by exact (rename_back ps s0 q' Er Hacc).
      apply (Hplain (rename_in ps (rename_dim ps q'))); [reflexivity|reflexivity| |reflexivity| |exact Hal|exact E].
      * unfold b. cbn [view_asg]. rewrite Hback. reflexivity.
      * intros X. specialize (Hone X). rewrite Hback in *. unfold known, l' in *. cbn [view_lenv].
        destruct (mem q' (map fst ps)) eqn:Em; [exact Hone|]. destruct (mem q' (map snd ps)) eqn:En.
        -- exfalso. apply andb_true_iff in Er. destruct Er as [_ Er]. rewrite forallb_forall in Er. apply mem_In in En. specialize (Er _ En).
           rewrite Hacc, Em in Er. discriminate.
        -- apply mem_false in Em. rewrite (rename_dim_out _ _ Em) in Hone. exact Hone.
Qed.

(** ** Indices known at compile time *)

Definition dnext (v : view) (q : dim) : dim := match v with VRename ps => rename_in ps q | _ => q end.

(** Where the component of a tuple starts. *)
Fixpoint itup (s : struct) (l : lenv) (a : asg) (q : dim) : Z :=
  match s with
  | Scalar _ | Union _ => 0
  | Tuple d ts => if q =? d then total 0 (szs l (firstn (Z.to_nat (a d)) ts))
                  else match nthz (map (fun t => itup t l a q) ts) (a d) with Some k => k | None => 0 end
  | Vector d t => itup t (fupd l d None) a q
  | View v t =>
      let sub := itup t (view_lenv v l) (view_asg v (ilen t) l a) (dnext v q) in
      match v with VBlocksSta _ b _ _ _ => if q =? b then 0 else sub | _ => sub end
  end.

Definition dplain (v : view) (a b : asg) (q : dim) : Prop :=
  match v with
  | VBcast d | VFix d _ | VSetLength d _ | VReverse d | VHoist d => q <> d /\ b q = a q
  | VShift d s | VSlice d s _ | VSpan d s _ => if q =? d then eqW (b q) (a q + vzd s) else b q = a q
  | VBlocks d M m => q <> d /\ q <> M /\ q <> m /\ b q = a q
  | VBlocksDyn d M m p => q <> d /\ q <> M /\ q <> m /\ q <> p /\ b q = a q
  | VBlocksSta d x M m _ => q <> d /\ q <> M /\ q <> m /\ q <> x /\ b q = a q
  | VMerge M m d => q <> M /\ q <> m /\ q <> d /\ b q = a q
  | VRename ps => rename_hides ps q = false /\ b (rename_in ps q) = a q
  | VStep _ _ _ | VZCurve _ _ _ _ | VReorder _ | VJoin _ _ _ => False
  end.

Definition cuts (v : view) (q : dim) : bool := match v with VShift d _ | VSlice d _ _ | VSpan d _ _ => q =? d | _ => false end.

Lemma dep_view v t l a sg p q n g r : swf (View v t) = true -> pvalid (View v t) l a sg p -> lrange l -> good (View v t) l a -> In (q, Some n) p ->
  steady q (View v t) = true -> along g r q (View v t) = true ->
  let l' := view_lenv v l in let b := view_asg v (ilen t) l a in
  exists s0 p', signature t = Some s0 /\ view_sig v s0 = Some sg /\ prel v p' p /\ NoDup (map fst p') /\ pvalid t l' b s0 p' /\ lrange l' /\ good t l' b /\
   ((exists d M m ml, v = VBlocksSta d q M m ml /\ r = false /\ g = false /\ steady d t = true /\ In (d, None) p' /\ q <> M /\ q <> m) \/
    ((exists n', In (dnext v q, Some n') p') /\ steady (dnext v q) t = true /\ along (g || cuts v q) r (dnext v q) t = true /\ dplain v a b q)).
Proof.
  intros Hw V Hl Hg Hq Hst Hal l' b.
  destruct (two_down v t l a a sg p p q (Some n) r Hw V V Hl Hg Hg Hq (fun _ _ _ => eq_refl) (fun _ _ _ => eq_refl) Hst (along_grows _ _ _ _ Hal))
      as (s0 & p' & p1 & E0 & Ev & R & V1 & _ & Hnd' & _ & Hl' & G1 & _).
  exists s0, p'. do 7 (split; [assumption|]). pose proof V1 as (_ & Ep' & _). pose proof V as (Es & Ep & _).
  pose proof (swf_path_nodup _ _ _ _ Hw Es Ep) as Hnd. destruct (swf_view _ _ Hw) as [Hv Ht]. destruct (steady_down _ _ _ Hst) as [_ Hs2].
  assert (Hvs := Hv). unfold view_swf in Hvs. rewrite E0 in Hvs.
  assert (Hkeep : forall (f : option Z -> list (dim * option Z)) d, p = pm f d p' -> (forall k, ~ In (q, Some n) (f k)) -> In (q, Some n) p' /\ q <> d).
  { intros f d -> Hf. apply in_pm in Hq. destruct Hq as [H|(k & _ & H)]; [exact H|destruct (Hf _ H)]. }
  destruct v as [d|d i|d ln|d s|d s len|d s en|d s rr|d|d M m|d M m pd|d bb M m ml|M m d|sl gl d ds|ds|d|ps|xa xb d];
    cbn [along vnext prel dnext cuts dplain] in *; try discriminate; rewrite ?orb_false_r.
  - right. subst p. destruct Hq as [Hq|Hq]; [discriminate|]. assert (q <> d) by (intros ->; simpl in Hnd; inversion Hnd; subst; eapply H1, in_fst; exact Hq).
    rewrite (proj2 (Z.eqb_neq q d) H) in *. split; [eauto|]. split; [exact Hs2|]. split; [exact Hal|]. split; [exact H|reflexivity].
  - right. destruct (Hkeep _ _ R (fun _ H => H)) as [Hk Hne]. split; [eauto|]. split; [exact Hs2|]. split; [exact Hal|]. split; [exact Hne|].
    unfold b. cbn [view_asg]. rewrite fupd_neq by exact Hne. reflexivity.
  - right. destruct R as [-> Hf]. assert (q <> d) by (intros ->; specialize (Hf _ Hq); discriminate). split; [eauto|]. split; [exact Hs2|]. split; [exact Hal|]. split; [exact H|reflexivity].
  - right. destruct (Z.eqb_spec q d) as [->|Hne].
    + rewrite orb_true_r. subst p. apply in_pm in Hq. destruct Hq as [[_ Hq]|(k & Hk & Hq)]; [contradiction Hq; reflexivity|]. destruct k as [k|]; [|destruct Hq as [Hq|[]]; discriminate Hq].
      split; [eauto|]. split; [exact Hs2|]. split; [exact Hal|]. unfold b. cbn [view_asg]. rewrite fupd_eq, eqW_u64. reflexivity.
    + rewrite orb_false_r. destruct (Hkeep _ _ R) as [Hk _]; [intros k [Hk|[]]; congruence|]. split; [eauto|]. split; [exact Hs2|]. split; [exact Hal|].
      unfold b. cbn [view_asg]. rewrite fupd_neq by exact Hne. reflexivity.
  - right. destruct (Z.eqb_spec q d) as [->|Hne].
    + rewrite orb_true_r. subst p. apply in_pm in Hq. destruct Hq as [[_ Hq]|(k & Hk & Hq)]; [contradiction Hq; reflexivity|]. destruct k as [k|]; [|destruct Hq as [Hq|[]]; discriminate Hq].
      split; [eauto|]. split; [exact Hs2|]. split; [exact Hal|]. unfold b. cbn [view_asg]. rewrite fupd_eq, eqW_u64. reflexivity.
    + rewrite orb_false_r. destruct (Hkeep _ _ R) as [Hk _]; [intros k [Hk|[]]; congruence|]. split; [eauto|]. split; [exact Hs2|]. split; [exact Hal|].
      unfold b. cbn [view_asg]. rewrite fupd_neq by exact Hne. reflexivity.
  - right. destruct (Z.eqb_spec q d) as [->|Hne].
    + rewrite orb_true_r. subst p. apply in_pm in Hq. destruct Hq as [[_ Hq]|(k & Hk & Hq)]; [contradiction Hq; reflexivity|]. destruct k as [k|]; [|destruct Hq as [Hq|[]]; discriminate Hq].
      split; [eauto|]. split; [exact Hs2|]. split; [exact Hal|]. unfold b. cbn [view_asg]. rewrite fupd_eq, eqW_u64. reflexivity.
    + rewrite orb_false_r. destruct (Hkeep _ _ R) as [Hk _]; [intros k [Hk|[]]; congruence|]. split; [eauto|]. split; [exact Hs2|]. split; [exact Hal|].
      unfold b. cbn [view_asg]. rewrite fupd_neq by exact Hne. reflexivity.
  - right. subst p. assert (Hne : q <> d).
    { intros ->. apply andb_true_iff in Hvs. destruct Hvs as [Hvs _]. apply negb_true_iff, mem_false in Hvs. apply Hvs. exact (spath_sdep _ _ _ _ _ Ep' Hq). }
    rewrite (proj2 (Z.eqb_neq q d) Hne) in *. split; [eauto|]. split; [exact Hs2|]. split; [exact Hal|]. split; [exact Hne|].
    unfold b. cbn [view_asg]. rewrite fupd_neq by exact Hne. reflexivity.
  - right. destruct R as [R Hf]. destruct (Hkeep _ _ R) as [Hk Hne]; [intros k [H|[H|[]]]; discriminate|].
    pose proof (spath_accept' _ _ _ _ _ Ep' Hk) as Hacc. cbn [view_sig] in Ev. destruct (_ || _) eqn:Eb in Ev; [discriminate|].
    assert (HqM : q <> M) by (intros ->; rewrite Hacc in Eb; clear - Eb Hne; lia). assert (Hqm : q <> m) by (intros ->; rewrite Hacc in Eb; clear - Eb Hne; lia).
    rewrite (proj2 (Z.eqb_neq q M) HqM), (proj2 (Z.eqb_neq q m) Hqm) in *. cbn [orb] in *. apply andb_true_iff in Hal.
    split; [eauto|]. split; [exact Hs2|]. split; [apply Hal|]. do 3 (split; [assumption|]). unfold b. cbn [view_asg]. rewrite fupd_neq by exact Hne. reflexivity.
  - right. destruct R as [R Hf]. destruct (Hkeep _ _ R) as [Hk Hne]; [intros k [H|[H|[H|[]]]]; discriminate|].
    pose proof (spath_accept' _ _ _ _ _ Ep' Hk) as Hacc. cbn [view_sig] in Ev. destruct (_ || _) eqn:Eb in Ev; [discriminate|].
    assert (HqM : q <> M) by (intros ->; rewrite Hacc in Eb; clear - Eb Hne; lia). assert (Hqm : q <> m) by (intros ->; rewrite Hacc in Eb; clear - Eb Hne; lia).
    assert (Hqp : q <> pd) by (intros ->; rewrite Hacc in Eb; clear - Eb Hne; lia).
    rewrite (proj2 (Z.eqb_neq q M) HqM), (proj2 (Z.eqb_neq q m) Hqm), (proj2 (Z.eqb_neq q pd) Hqp) in *. cbn [orb] in *. apply andb_true_iff in Hal.
    split; [eauto|]. split; [exact Hs2|]. split; [apply Hal|]. do 4 (split; [assumption|]). unfold b. cbn [view_asg]. rewrite fupd_neq by exact Hne. reflexivity.
  - destruct R as [R Hf]. cbn [view_sig] in Ev. destruct (_ || _) eqn:Eb in Ev; [discriminate|]. destruct (Z.eqb_spec q bb) as [->|Hqb].
    + left. assert (HqM : bb <> M) by (clear - Eb; lia). assert (Hqm : bb <> m) by (clear - Eb; lia).
      rewrite (proj2 (Z.eqb_neq bb M) HqM), (proj2 (Z.eqb_neq bb m) Hqm) in *. rewrite !andb_true_iff, !negb_true_iff in Hal. destruct Hal as [[[-> ->] Hsd] _].
      exists d, M, m, ml. split; [reflexivity|]. do 3 (split; [auto|]). split; [|auto]. subst p. apply in_pm in Hq. destruct Hq as [[Hq Hne]|(k & Hk & _)].
      * exfalso. cbn [fst] in Hne. rewrite (spath_accept' _ _ _ _ _ Ep' Hq) in Eb. clear - Eb Hne. lia.
      * rewrite (Hf _ Hk) in Hk. exact Hk.
    + right. destruct (Hkeep _ _ R) as [Hk Hne]; [intros k [H|[H|[H|[]]]]; congruence|]. pose proof (spath_accept' _ _ _ _ _ Ep' Hk) as Hacc.
      assert (HqM : q <> M) by (intros ->; rewrite Hacc in Eb; clear - Eb Hne; lia). assert (Hqm : q <> m) by (intros ->; rewrite Hacc in Eb; clear - Eb Hne; lia).
      rewrite (proj2 (Z.eqb_neq q M) HqM), (proj2 (Z.eqb_neq q m) Hqm) in *. cbn [orb] in *. apply andb_true_iff in Hal.
      split; [eauto|]. split; [exact Hs2|]. split; [apply Hal|]. do 4 (split; [assumption|]). unfold b. cbn [view_asg]. rewrite fupd_neq by exact Hne. reflexivity.
  - right. apply andb_true_iff in Hal. destruct Hal as [Hno Hal]. apply negb_true_iff, mem_false in Hno. simpl in Hno.
    destruct (peeled_inv _ _ _ _ _ _ _ R Hq) as [(_ & E & _)|[Hq' Hni]]; [discriminate|]. split; [eauto|]. split; [exact Hs2|]. split; [exact Hal|].
    do 3 (split; [intuition|]). unfold b. cbn [view_asg]. rewrite fupds_out by (simpl; intuition). reflexivity.
  - right. destruct R as [Hd R]. subst p. destruct Hq as [Hq|Hq]; [discriminate|]. apply in_pm in Hq. destruct Hq as [[Hk Hne]|(k & _ & [])].
    split; [eauto|]. split; [exact Hs2|]. split; [exact Hal|]. split; [exact Hne|reflexivity].
  - right. subst p. apply in_map_iff in Hq. destruct Hq as ([q' k] & Hqe & Hq'). cbn [fst snd] in Hqe. injection Hqe as <- ->.
    pose proof (spath_accept' _ _ _ _ _ Ep' Hq') as Hacc.
    cbn [view_sig] in Ev. destruct (nodupb (map fst ps) && _ && _) eqn:Er in Ev; [|discriminate].
    assert (Hback : rename_in ps (rename_dim ps q') = q') by exact (rename_back ps s0 q' Er Hacc).
    rewrite Hback in *. split; [eauto|]. split; [exact Hs2|]. split; [exact Hal|]. split; [|reflexivity].
    unfold rename_hides. destruct (mem q' (map fst ps)) eqn:Em.
    + replace (mem (rename_dim ps q') (map snd ps)) with true; [apply andb_false_r|]. symmetry. apply mem_In. apply in_map_iff. exists (q', rename_dim ps q'). split; [reflexivity|]. apply rename_dim_in. apply mem_In, Em.
    + rewrite rename_dim_out by (apply mem_false, Em). rewrite Em. reflexivity.
Qed.

Lemma comp_begin d ts t k st l a w : swf (Tuple d ts) = true -> signature (Tuple d ts) <> None -> lenok (Tuple d ts) l ->
  agree (remove [Idx d] st) l a -> lendef (remove [Idx d] st) -> get (Idx d) st = Some (Sta k) -> nthz ts (u64 k) = Some t ->
  offset_of t (Tuple d ts) st (Sta 0) = Some w -> agW w (total 0 (szs l (firstn (Z.to_nat (u64 k)) ts))).
Proof.
  intros Hw Hs Hlk Hag Hld Hk Et E. rewrite (offset_down_tuple t d ts _ _ k t Hk Et) in E.
  - destruct (size_acc _ _) as [b|] eqn:Eb; [|discriminate]. cbn [obind] in E. rewrite offset_here in E by apply same_type_refl. injection E as <-.
    set (st' := remove [Idx d] st) in *.
    pose proof (swf_tuple _ _ Hw) as Hws. rewrite forallb_forall in Hws. pose proof (signature_tuple _ _ Hs) as Hss. rewrite Forall_forall in Hss.
    simpl in Hlk. apply lenok_all in Hlk. rewrite Forall_forall in Hlk.
    assert (Hsub : forall u, In u (firstn (Z.to_nat (u64 k)) ts) -> In u ts).
    { intros u Hu. rewrite <- (firstn_skipn (Z.to_nat (u64 k)) ts). apply in_or_app. left. exact Hu. }
    assert (Hb : vz b = Some (u64 (total 0 (szs l (firstn (Z.to_nat (u64 k)) ts))))).
    { apply (size_acc_spec l (comp_sizes (firstn (Z.to_nat (u64 k)) ts) st') (firstn (Z.to_nat (u64 k)) ts)) with (st := Sta 0) (x := 0); [| |reflexivity|exact Eb].
      - unfold comp_sizes. clear Eb. induction (firstn (Z.to_nat (u64 k)) ts) as [|u us IH]; constructor; [|apply IH; intros x Hx; apply Hsub; right; exact Hx].
        pose proof (Hsub u (or_introl eq_refl)) as Hin.
        destruct (align_ u st') as [al|] eqn:Ea; [|exact I]. destruct (size_ u st') as [sz|] eqn:Ez; [|exact I].
        split; [destruct (align_spec u (Hws _ Hin) (Hss _ Hin) _ _ Ea) as (y & -> & Hy); simpl; congruence|].
        exact (size_spec u (Hws _ Hin) (Hss _ Hin) st' l _ sz (Hlk _ Hin) Hag Hld Ez).
      - rewrite Forall_forall. intros u Hu. apply ialign_range; auto. }
    apply (agW_eqW _ (total 0 (szs l (firstn (Z.to_nat (u64 k)) ts)) + 0)); [apply eqW_eq; lia|]. apply agW_add; [|apply agW_Sta]. intros y Hy. rewrite Hb in Hy. injection Hy as <-. apply eqW_u64.
  - destruct (same_type t (Tuple d ts)) eqn:Ht; [|reflexivity]. apply same_type_weight in Ht.
    apply nthz_In, (in_map weight), list_sum_In in Et. simpl in Ht. lia.
Qed.

Lemma tuple_index_agree d st l a j : agree st l a -> tuple_index d st = Some j -> j = a d.
Proof.
  intros Hag Ek. unfold tuple_index in Ek. destruct (get (Idx d) st) as [vi|] eqn:Ei; [|discriminate].
  pose proof (ag_idx _ _ _ Hag _ _ Ei) as Hvi. unfold vagree in Hvi. destruct vi; simpl in *; try discriminate. congruence.
Qed.

(** [offset_along] of such an index. *)
Theorem along_dep s : swf s = true -> forall st l a sg p q n g r w, pvalid s l a sg p -> lrange l -> good s l a -> In (q, Some n) p ->
  steady q s = true -> along g r q s = true -> (r = false -> g = false -> a q = 0) -> lenok s l -> agree st l a -> lendef st ->
  offset_along s q st = Some w -> agW w (itup s l a q).
Proof.
  induction s as [c|d ts IH|d t IH|v t IH|ts IH] using struct_ind'; intros Hw st l a sg p q n g r w V Hl Hg Hq Hst Hal Hz Hlk Hag Hld E; try discriminate.
  - cbn [offset_along] in E. apply guard_Some in E. destruct E as [_ E].
    assert (Hs : signature (Tuple d ts) <> None) by (destruct V; congruence).
    destruct (pvalid_tuple _ _ _ _ _ _ V) as (ss & t & s0 & p0 & -> & F & Hx & Et & En & -> & Hda & V').
    destruct (tuple_index d st) as [j|] eqn:Ek; [|discriminate]. cbn [obind] in E. pose proof (tuple_index_agree _ _ _ _ _ Hag Ek) as ->.
    cbn [itup along steady] in *. destruct (Z.eqb_spec q d) as [->|Hqd].
    + rewrite Et in E. cbn [obind] in E. unfold tuple_index in Ek. destruct (get (Idx d) st) as [vi|] eqn:Ei; [|discriminate].
      destruct vi as [k| |]; cbn [vstatic] in Ek; try discriminate. injection Ek as Ek. rewrite <- Ek in *.
      apply (comp_begin d ts t k st l a w); auto using agree_remove_idx, lendef_remove_idx.
    + destruct Hq as [Hq|Hq]; [congruence|]. rewrite nthz_map, Et in E. rewrite nthz_map, Et. cbn [option_map ojoin] in *.
      pose proof (swf_tuple _ _ Hw) as Hws. rewrite forallb_forall in Hws, Hst, Hal. pose proof (nthz_In _ _ _ Et) as Hin. rewrite Forall_forall in IH.
      simpl in Hlk. apply lenok_all in Hlk. eapply Forall_nthz in Hlk; [|exact Et].
      apply (IH t Hin (Hws t Hin) (remove [Idx d] st) l a s0 p0 q n g r w); auto using agree_remove_idx, lendef_remove_idx. eapply good_tuple; eauto.
  - cbn [offset_along] in E. apply guard_Some in E. destruct E as [_ E].
    destruct (pvalid_vector _ _ _ _ _ _ V) as (Hi & s0 & p0 & -> & -> & Hnd & V'). destruct Hq as [Hq|Hq]; [discriminate|].
    assert (Hne : q <> d) by (intros ->; destruct V' as (_ & Ep0 & _); rewrite (spath_accept' _ _ _ _ _ Ep0 Hq) in Hnd; discriminate).
    cbn [steady along good itup] in *. rewrite (proj2 (Z.eqb_neq q d) Hne) in *.
    apply (IH Hw (remove [Idx d; Len d] st) (fupd l d None) a s0 p0 q n g r w); auto using agree_remove_both, lendef_remove_both, lrange_None.
  - destruct (dep_view v t l a sg p q n g r Hw V Hl Hg Hq Hst Hal) as (s0 & p' & E0 & Ev & R & Hnd' & V1 & Hl' & G1 & Hd).
    destruct (swf_view _ _ Hw) as [Hv Ht]. assert (Hs0 : signature (View v t) <> None) by (destruct V; congruence). pose proof V1 as (_ & Ep' & _). pose proof V as (Es & Ep & _).
    pose proof (swf_path_nodup _ _ _ _ Hw Es Ep) as Hnd. cbn [offset_along] in E. apply guard_Some in E. destruct E as [_ E].
    destruct Hd as [(d & M & m & ml & -> & -> & -> & Hsd & Hdp & HqM & Hqm)|([n' Hq'] & Hs' & Hal' & Hpl)].
    + cbn [itup]. rewrite Z.eqb_refl. rewrite (proj2 (Z.eqb_neq q M) HqM), (proj2 (Z.eqb_neq q m) Hqm), Z.eqb_refl in E.
      apply bind2_vsub in E. destruct E as (x & y & Ex & Ey & ->).
      assert (HM : In (M, None) p) by (cbn [prel] in R; destruct R as [-> _]; apply in_pm; right; exists None; split; [exact Hdp|simpl; tauto]).
      set (v := VBlocksSta d q M m ml) in *. assert (Hb : blk v = Some (d, M, m)) by reflexivity.
      pose proof (zero_path_below v d M m t s0 sg l a p' p [M; m] M Hb (swf_uswf _ Ht) Hv E0 Ev Ep Ep' R Hnd' Hnd HM (or_introl eq_refl) (incl_refl _)) as Hp.
      assert (Hext : forall e, zero [M; m; q] a e = zero [M; m] a e).
      { intros e. unfold zero. cbn [mem existsb]. destruct (e =? M); [reflexivity|]. destruct (e =? m); [reflexivity|]. destruct (Z.eqb_spec e q) as [->|]; [symmetry; apply (Hz eq_refl eq_refl)|reflexivity]. }
      assert (Hat : forall ds x, (forall e, zero ds a e = zero [M; m] a e) ->
        (do st' <- sub_state v t (with_ (map (fun d => (Idx d, Sta 0)) ds) st); offset_along t d st') = Some x ->
        agW x (iofa t (view_lenv v l) (view_asg v (ilen t) l (zero [M; m] a)) d)).
      { intros ds x' He Ex'. destruct (sub_state v t _) as [st'|] eqn:Est in Ex'; [|discriminate]. cbn [obind] in Ex'.
        pose proof (agree_zeros ds _ _ _ Hag) as Hag'. pose proof (lendef_zeros ds _ Hld) as Hld'.
        assert (Hag2 : agree (with_ (map (fun d => (Idx d, Sta 0)) ds) st) l (zero [M; m] a)).
        { destruct Hag' as [A1 A2]. split; [exact A1|]. intros e v' Hv'. rewrite <- He. apply A2, Hv'. }
        apply (offset_along_spec t Ht st' _ _ s0 p' d x' E0 Hp Hdp Hsd (proj2 Hlk) (sub_state_refines _ _ _ _ _ _ Hs0 Hlk Hag2 Est) (sub_lendef _ _ _ _ _ _ Hv Hs0 Hlk Hag' Est Hld') Ex'). }
      pose proof (agW_sub _ _ _ _ (Hat _ _ (fun _ => eq_refl) Ex) (Hat _ _ Hext Ey)) as X. rewrite Z.sub_diag in X. exact X.
    + assert (Hsub : (do st' <- sub_state v t st; offset_along t (dnext v q) st') = Some w -> agW w (itup t (view_lenv v l) (view_asg v (ilen t) l a) (dnext v q))).
      { intros Ew. destruct (sub_state v t st) as [st'|] eqn:Est; [|discriminate]. cbn [obind] in Ew.
        apply (IH Ht st' _ _ s0 p' (dnext v q) n' (g || cuts v q) r w V1 Hl' G1 Hq' Hs' Hal'); [|exact (proj2 Hlk)| | |exact Ew].
        - intros Hr0 Hgc. apply orb_false_iff in Hgc. destruct Hgc as [Hg0 Hc]. specialize (Hz Hr0 Hg0).
          destruct v; cbn [dnext dplain cuts] in *; try rewrite Hc in Hpl; try contradiction; try (rewrite Hpl; exact Hz); try (destruct Hpl as (_ & ->); exact Hz);
            destruct Hpl as (_ & _ & _ & Hpl); try (rewrite Hpl; exact Hz); destruct Hpl as (_ & ->); exact Hz.
        - exact (sub_state_refines _ _ _ _ _ _ Hs0 Hlk Hag Est).
        - exact (sub_lendef _ _ _ _ _ _ Hv Hs0 Hlk Hag Est Hld). }
      destruct v; cbn [dnext dplain itup] in *; try contradiction; try (apply Hsub; exact E).
      * destruct Hpl as [H1 _]. rewrite (proj2 (Z.eqb_neq _ _) H1) in E. apply Hsub, E.
      * destruct Hpl as (H1 & H2 & H3 & _). rewrite (proj2 (Z.eqb_neq _ _) H2), (proj2 (Z.eqb_neq _ _) H3) in E. apply Hsub, E.
      * destruct Hpl as (H1 & H2 & H3 & H4 & _). rewrite (proj2 (Z.eqb_neq _ _) H2), (proj2 (Z.eqb_neq _ _) H3), (proj2 (Z.eqb_neq _ _) H4) in E. apply Hsub, E.
      * destruct Hpl as (H1 & H2 & H3 & H4 & _). rewrite (proj2 (Z.eqb_neq _ _) H4). rewrite (proj2 (Z.eqb_neq _ _) H2), (proj2 (Z.eqb_neq _ _) H3), (proj2 (Z.eqb_neq _ _) H4) in E. apply Hsub, E.
      * destruct Hpl as (H1 & H2 & H3 & _). rewrite (proj2 (Z.eqb_neq _ _) H3) in E. apply Hsub, E.
      * destruct Hpl as [H1 _]. rewrite H1 in E. apply Hsub, E.
Qed.

(** [lower_bound_along] of such an index. *)
Theorem lower_dep s : swf s = true -> forall st l a sg p q n r iv w, pvalid s l a sg p -> lrange l -> good s l a -> In (q, Some n) p ->
  steady q s = true -> along (given iv) r q s = true -> (r = false -> low_end false 0 iv (a q)) -> lenok s l -> agree st l a -> lendef st ->
  get (Idx q) st = None -> lower_bound s q st iv = Some w -> agW w (itup s l a q).
Proof.
  induction s as [c|d ts IH|d t IH|v t IH|ts IH] using struct_ind'; intros Hw st l a sg p q n r iv w V Hl Hg Hq Hst Hal Hlow Hlk Hag Hld Hop E; try discriminate.
  - cbn [lower_bound] in E. apply guard_Some in E. destruct E as [Eh E]. apply guard_Some in E. destruct E as [Eiv E].
    assert (Hs : signature (Tuple d ts) <> None) by (destruct V; congruence).
    destruct (pvalid_tuple _ _ _ _ _ _ V) as (ss & t & s0 & p0 & -> & F & Hx & Et & En & -> & Hda & V').
    cbn [itup along steady has_lower_bound] in *. destruct (Z.eqb_spec q d) as [->|Hqd].
    + assert (Hdw : 0 <= a d < W).
      { pose proof Hw as Hw0. cbn [swf] in Hw0. apply andb_true_iff in Hw0. destruct Hw0 as [Hw0 _]. apply Z.ltb_lt in Hw0. pose proof (nthz_Some_range _ _ _ Et). lia. }
      destruct r; [discriminate|]. specialize (Hlow eq_refl). unfold has in E, Eh. rewrite Hop in E, Eh. destruct iv as [[mn en]|]; cbn [low_end] in Hlow.
      * destruct mn as [k| |]; try discriminate E. cbn [vstatic obind] in E.
        assert (Hk : u64 k = a d) by (specialize (Hlow _ eq_refl); rewrite eqW_u64 in Hlow; unfold eqW in Hlow; rewrite Hlow; apply u64_small, Hdw).
        rewrite Hk, Et in E. cbn [obind] in E. rewrite <- Hk.
        apply (comp_begin d ts t k (with_ [(Idx d, Sta k)] st) l a w); auto.
        -- destruct Hag as [A1 A2]. split; intros e; rewrite get_remove, get_with; cbn [get fst snd tag_eqb tag_mem existsb orb]; [apply A1|].
           intros v. destruct (Z.eqb_spec e d); cbn [orb]; [discriminate|apply A2].
        -- intros e v. rewrite get_remove, get_with. cbn [get fst snd tag_eqb tag_mem existsb orb]. apply Hld.
        -- rewrite get_with. simpl. rewrite Z.eqb_refl. reflexivity.
        -- congruence.
      * injection E as <-. replace (a d) with 0 by (unfold eqW in Hlow; rewrite !u64_small in Hlow by (pose proof W_pos; lia); congruence). apply agW_Sta.
    + destruct (has (Idx d) st) eqn:Hi; [|injection Eh as Eh; discriminate].
      destruct (tuple_index d st) as [j|] eqn:Ek; [|discriminate]. cbn [obind] in E. pose proof (tuple_index_agree _ _ _ _ _ Hag Ek) as ->.
      destruct Hq as [Hq|Hq]; [congruence|]. rewrite nthz_map, Et in E. rewrite nthz_map, Et. cbn [option_map ojoin] in *.
      pose proof (swf_tuple _ _ Hw) as Hws. rewrite forallb_forall in Hws, Hst, Hal. pose proof (nthz_In _ _ _ Et) as Hin. rewrite Forall_forall in IH.
      simpl in Hlk. apply lenok_all in Hlk. eapply Forall_nthz in Hlk; [|exact Et].
      apply (IH t Hin (Hws t Hin) (remove [Idx d] st) l a s0 p0 q n r iv w); auto using agree_remove_idx, lendef_remove_idx; [eapply good_tuple; eauto|].
      rewrite get_remove. destruct (tag_mem _ _); [reflexivity|exact Hop].
  - cbn [lower_bound] in E. apply guard_Some in E. destruct E as [_ E].
    destruct (pvalid_vector _ _ _ _ _ _ V) as (Hi & s0 & p0 & -> & -> & Hnd & V'). destruct Hq as [Hq|Hq]; [discriminate|].
    assert (Hne : q <> d) by (intros ->; destruct V' as (_ & Ep0 & _); rewrite (spath_accept' _ _ _ _ _ Ep0 Hq) in Hnd; discriminate).
    cbn [steady along good itup] in *. rewrite (proj2 (Z.eqb_neq q d) Hne) in *.
    apply (IH Hw (remove [Idx d; Len d] st) (fupd l d None) a s0 p0 q n r iv w); auto using agree_remove_both, lendef_remove_both, lrange_None.
    rewrite get_remove. destruct (tag_mem _ _); [reflexivity|exact Hop].
  - pose proof (along_grows _ _ _ _ Hal) as Hgr.
    destruct (dep_view v t l a sg p q n (given iv) r Hw V Hl Hg Hq Hst Hal) as (s0 & p' & E0 & Ev & R & Hnd' & V1 & Hl' & G1 & Hd).
    destruct (swf_view _ _ Hw) as [Hv Ht]. assert (Hs0 : signature (View v t) <> None) by (destruct V; congruence). pose proof V1 as (_ & Ep' & _).
    cbn [lower_bound] in E. apply guard_Some in E. destruct E as [_ E].
    destruct Hd as [(d & M & m & ml & -> & -> & Hiv & Hsd & Hdp & HqM & Hqm)|([n' Hq'] & Hs' & Hal' & Hpl)].
    + cbn [itup]. rewrite Z.eqb_refl. rewrite (proj2 (Z.eqb_neq q M) HqM), (proj2 (Z.eqb_neq q m) Hqm) in E. cbn [mem existsb] in E. rewrite Z.eqb_refl in E. cbn [orb] in E.
      injection E as <-. apply agW_Sta.
    + set (l' := view_lenv v l) in *. set (b := view_asg v (ilen t) l a) in *.
      assert (Hfall : fall v q = Some (dnext v q)).
      { destruct v; cbn [fall vnext dnext dplain] in *; try reflexivity; try contradiction.
        - destruct Hpl as [H1 _]. rewrite (proj2 (Z.eqb_neq _ _) H1). reflexivity.
        - destruct Hpl as (H1 & H2 & H3 & _). rewrite (proj2 (Z.eqb_neq _ _) H2), (proj2 (Z.eqb_neq _ _) H3). reflexivity.
        - destruct Hpl as (H1 & H2 & H3 & H4 & _). rewrite (proj2 (Z.eqb_neq _ _) H2), (proj2 (Z.eqb_neq _ _) H3), (proj2 (Z.eqb_neq _ _) H4). reflexivity.
        - destruct Hpl as (H1 & H2 & H3 & H4 & _). rewrite (proj2 (Z.eqb_neq _ _) H2), (proj2 (Z.eqb_neq _ _) H3), (proj2 (Z.eqb_neq _ _) H4). reflexivity. }
      assert (Hsub : forall iv' w', given iv' = given iv || cuts v q -> (r = false -> low_end false 0 iv' (b (dnext v q))) ->
        (do st' <- sub_state v t st; lower_bound t (dnext v q) st' iv') = Some w' -> agW w' (itup t l' b (dnext v q))).
      { intros iv' w' Hg' Hl0 Ew. destruct (sub_state v t st) as [st'|] eqn:Est; [|discriminate]. cbn [obind] in Ew.
        apply (IH Ht st' _ _ s0 p' (dnext v q) n' r iv' w' V1 Hl' G1 Hq' Hs'); [rewrite Hg'; exact Hal'|exact Hl0|exact (proj2 Hlk)| | | |exact Ew].
        - exact (sub_state_refines _ _ _ _ _ _ Hs0 Hlk Hag Est).
        - exact (sub_lendef _ _ _ _ _ _ Hv Hs0 Hlk Hag Est Hld).
        - apply (low_open v t st st' q (dnext v q) r Est Hfall Hgr); [| |exact Hop].
          + intros d i ->. exact (proj1 Hpl).
          + intros ps ->. cbn [view_sig] in Ev. destruct (nodupb (map fst ps) && _ && _) eqn:Er in Ev; [|discriminate].
            cbn [prel] in R. subst p. apply in_map_iff in Hq. destruct Hq as ([q0 k0] & Hqe & Hq0). cbn [fst snd] in Hqe. injection Hqe as <- ->.
            assert (Hback : rename_in ps (rename_dim ps q0) = q0) by exact (rename_back ps s0 q0 Er (spath_accept' _ _ _ _ _ Ep' Hq0)).
            rewrite !andb_true_iff, !nodupb_NoDup in Er. rewrite Hback. tauto. }
      assert (Hplain : cuts v q = false -> b (dnext v q) = a q -> (do st' <- sub_state v t st; lower_bound t (dnext v q) st' iv) = Some w -> agW w (itup t l' b (dnext v q))).
      { intros Hc Hb. apply Hsub; [rewrite Hc, orb_false_r; reflexivity|]. rewrite Hb. exact Hlow. }
      assert (Hmoved : forall start none, cuts v q = true -> eqW (b (dnext v q)) (a q + vzd start) ->
        match iv with
        | None => do e <- none; do st' <- sub_state v t st; lower_bound t (dnext v q) st' (Some (start, e))
        | Some (mn, en) => do st' <- sub_state v t st; lower_bound t (dnext v q) st' (Some (vadd mn start, vadd en start)) end = Some w -> agW w (itup t l' b (dnext v q))).
      { intros start none Hc Hb Ew. destruct iv as [[mn en]|].
        - apply (Hsub (Some (vadd mn start, vadd en start)) w eq_refl); [|exact Ew]. intros Hr. cbn [low_end] in *. apply (agW_eqW _ (a q + vzd start)); [rewrite Hb; reflexivity|]. apply agW_add; [apply Hlow, Hr|apply agW_self].
        - destruct none as [e|]; [|discriminate]. cbn [obind] in Ew. apply (Hsub (Some (start, e)) w); [rewrite Hc; reflexivity| |exact Ew].
          intros Hr. specialize (Hlow Hr). cbn [low_end] in *. apply (agW_eqW _ (0 + vzd start)); [rewrite Hb, Hlow; reflexivity|apply agW_self]. }
      destruct v; cbn [dnext dplain itup cuts] in *; try contradiction.
      * destruct Hpl as [H1 H2]. rewrite (proj2 (Z.eqb_neq _ _) H1) in E. exact (Hplain eq_refl H2 E).
      * exact (Hplain eq_refl (proj2 Hpl) E).
      * exact (Hplain eq_refl (proj2 Hpl) E).
      * destruct (Z.eqb_spec q d) as [->|_]; [exact (Hmoved _ _ eq_refl Hpl E)|exact (Hplain eq_refl Hpl E)].
      * destruct (Z.eqb_spec q d) as [->|_]; [exact (Hmoved _ (Some (vadd start len)) eq_refl Hpl E)|exact (Hplain eq_refl Hpl E)].
      * destruct (Z.eqb_spec q d) as [->|_]; [exact (Hmoved _ (Some end_) eq_refl Hpl E)|exact (Hplain eq_refl Hpl E)].
      * destruct Hpl as [H1 H2]. rewrite (proj2 (Z.eqb_neq _ _) H1) in E. apply (Hplain eq_refl H2). destruct iv as [[mn en]|]; exact E.
      * destruct Hpl as (H1 & H2 & H3 & H4). rewrite (proj2 (Z.eqb_neq _ _) H2), (proj2 (Z.eqb_neq _ _) H3) in E. exact (Hplain eq_refl H4 E).
      * destruct Hpl as (H1 & H2 & H3 & H4 & H5). cbn [mem existsb] in E. rewrite (proj2 (Z.eqb_neq _ _) H2), (proj2 (Z.eqb_neq _ _) H3), (proj2 (Z.eqb_neq _ _) H4) in E. exact (Hplain eq_refl H5 E).
      * destruct Hpl as (H1 & H2 & H3 & H4 & H5). cbn [mem existsb] in E. rewrite (proj2 (Z.eqb_neq _ _) H4). rewrite (proj2 (Z.eqb_neq _ _) H2), (proj2 (Z.eqb_neq _ _) H3), (proj2 (Z.eqb_neq _ _) H4) in E. exact (Hplain eq_refl H5 E).
      * destruct Hpl as (H1 & H2 & H3 & H4). rewrite (proj2 (Z.eqb_neq _ _) H3) in E. exact (Hplain eq_refl H4 E).
      * exact (Hplain eq_refl (proj2 Hpl) E).
      * exact (Hplain eq_refl (proj2 Hpl) E).
Qed.

Theorem along_api s q k r st0 st p iv x y w o z z2 : used_correctly s st -> fits s st -> names_element s st p -> In (q, k) p ->
  steady q s = true -> along (given iv) r q s = true -> (iv = None -> one_length r (has (Len q) st) q s = true) ->
  with_fewer_indices q st0 st -> interval s q st0 iv x y -> x < y -> at_index st q (if r then y - 1 else x) ->
  lower_bound s q st0 iv = Some w -> vz w = Some z -> offset_along s q st = Some o -> vz o = Some z2 ->
  z = z2 /\ lowest s q x y st.
Proof.
  intros U Hf N Hq Hst Hal Hone Hfe Hiv Hxy Hat E Hz Eo Hz2. pose proof (at_index_is _ _ _ Hat) as Ha. change (if r then y - 1 else x) with (low_index r x y) in Ha.
  split; [|eapply grows_lowest; eauto using along_grows]. pose proof U as (Hw & Hlk & G1 & L1).
  destruct (signature s) as [sg|] eqn:Es; [|destruct N as [N _]; unfold dims_of in N; rewrite Es in N; discriminate].
  destruct (names_pvalid s st sg p Hw Hlk Es N) as [V P1]. pose proof V as (_ & Ep & _). destruct (fewer_agree _ _ _ p Hfe L1 P1) as (Hag & Hld & _).
  assert (Hend : forall r', low_end r' (ilen s (lenv_of st) (asg_of st) q) iv (low_index r' x y)) by (intros r'; eapply low_end_ok; eauto; congruence).
  enough (H : exists u, agW w u /\ agW o u).
  { destruct H as (u & H1 & H2). specialize (H1 z Hz). specialize (H2 z2 Hz2). unfold eqW in *. rewrite <- H2 in H1. rewrite !u64_small in H1; eauto using vz_range. }
  destruct k as [n|].
  - exists (itup s (lenv_of st) (asg_of st) q). split.
    + apply (lower_dep s Hw st0 (lenv_of st) (asg_of st) sg p q n r iv w V (lrange_of st) G1 Hq Hst Hal); auto using (fewer_open _ _ _ Hfe).
      intros ->. rewrite Ha. apply (Hend false).
    + apply (along_dep s Hw st (lenv_of st) (asg_of st) sg p q n (given iv) r o V (lrange_of st) G1 Hq Hst Hal); auto using agree_of.
      intros -> Hg. rewrite Ha. destruct iv as [[mn en]|]; [discriminate|]. exact (proj1 Hiv).
  - exists (iofa s (lenv_of st) (asg_of st) q). split.
    + apply (along_int s Hw st0 (lenv_of st) (asg_of st) sg p q r iv w V (lrange_of st) G1 Hq Hst Hal); auto using (fewer_open _ _ _ Hfe).
      * intros Hi. specialize (Hone Hi). unfold known, lenv_of. unfold has in Hone. destruct (get (Len q) st); exact Hone.
      * rewrite Ha. apply Hend.
    + exact (offset_along_spec s Hw st _ _ sg p q o Es Ep Hq Hst Hlk (agree_of st) L1 Eo).
Qed.
