(** * Memory accesses through the API: proofs *)

From Verif Require Export Ext Spec.

Lemma lrange_of st : lrange (lenv_of st).
Proof.
  intros d x. unfold lenv_of. destruct (get (Len d) st); [|discriminate]. intros E. inv E. apply vzd_range.
Qed.

Lemma vzd_vz v x : vz v = Some x -> vzd v = x.
Proof. unfold vzd. intros ->. reflexivity. Qed.

Lemma agree_removed ds st : agree (remove (map Idx ds) st) (lenv_of st) (asg_of st).
Proof.
  apply (agree_mono st); [apply agree_of| |].
  - intros d. rewrite get_remove. replace (tag_mem (Len d) (map Idx ds)) with false; [reflexivity|].
    induction ds as [|x ds IH]; [reflexivity|]. exact IH.
  - intros d v. rewrite get_remove. destruct (tag_mem _ _); [discriminate|auto].
Qed.

Lemma names_pvalid s st sg p : swf s = true -> lenok s (lenv_of st) -> signature s = Some sg -> names_element s st p ->
  pvalid s (lenv_of st) (asg_of st) sg p /\ pdef p st.
Proof.
  intros Hw Hlk Es [Ep H]. unfold dims_of in Ep. rewrite Es in Ep. simpl in Ep. split.
  - split; [exact Es|]. split; [exact Ep|]. apply Forall_forall. intros [d k] Hd. unfold in_range. cbn [fst snd].
    destruct k as [n|]; [eapply spath_dep_range; eauto|].
    destruct (H _ _ Hd) as (ds & len & n & i & x & _ & Hl & Hn & Hi & Hx & Hlt).
    pose proof (length_agree s ltac:(congruence) _ _ _ _ _ Hlk (agree_removed ds st) Hl) as Hv.
    unfold vagree in Hv. rewrite Hn in Hv. rewrite <- Hv. unfold asg_of. rewrite Hi, (vzd_vz _ _ Hx).
    pose proof (vz_range _ _ Hx). lia.
  - intros d w Hd Hw'. destruct (fst_in _ _ Hd) as [k Hk]. specialize (H _ _ Hk). unfold dz. destruct k as [n|].
    + destruct H as (i & x & Hi & Hx). congruence.
    + destruct H as (ds & len & n & i & x & _ & _ & _ & Hi & Hx & _). congruence.
Qed.

Lemma access_offset s st p o : used_correctly s st -> names_element s st p -> offset s st = Some o ->
  exists sg c, signature s = Some sg /\ pvalid s (lenv_of st) (asg_of st) sg p /\
    scalar_t s st = Some c /\ leaf s (lenv_of st) (asg_of st) = Some c /\
    vz o = Some (u64 (ioff s (lenv_of st) (asg_of st))).
Proof.
  intros (Hw & Hlk & Hg & Hd) Hn E. unfold offset in E. destruct (scalar_t s st) as [c|] eqn:Ec; [|discriminate]. cbn [obind] in E.
  destruct (signature s) as [sg|] eqn:Es; [|unfold scalar_t in Ec; rewrite Es in Ec; discriminate].
  destruct (names_pvalid s st sg p Hw Hlk Es Hn) as [Hv Hp]. exists sg, c.
  destruct (offset_spec s Hw st _ _ sg p c (Sta 0) 0 o Hv Hlk (lrange_of st) Hg (agree_of st) Hd Hp eq_refl E) as [H1 H2].
  auto.
Qed.

Lemma access_in_bounds s st p o n : used_correctly s st -> names_element s st p -> fits s st ->
  offset s st = Some o -> get_size s st = Some n ->
  exists ov nv c, vz o = Some ov /\ vz n = Some nv /\ scalar_t s st = Some c /\ ov + ct_size c <= nv.
Proof.
  intros Hu Hn Hf Eo En. destruct (access_offset _ _ _ _ Hu Hn Eo) as (sg & c & Es & Hv & Ec & El & Ho).
  destruct Hu as (Hw & Hlk & Hg & Hd).
  destruct (int_in_bounds s _ _ sg p Hw (lrange_of st) Hg Hv) as (c' & El' & H1 & H2 & H3).
  rewrite El in El'. inv El'. unfold fits in Hf. rewrite u64_small in Ho by lia.
  pose proof (size_spec s Hw ltac:(congruence) st _ _ n Hlk (agree_of st) Hd En) as Hs.
  rewrite u64_small in Hs by lia. eauto 10.
Qed.

Lemma same_lenv st1 st2 : same_lengths st1 st2 -> forall d, lenv_of st1 d = lenv_of st2 d.
Proof. intros H d. unfold lenv_of. rewrite H. reflexivity. Qed.

Lemma access_no_alias s st1 st2 p1 p2 o1 o2 :
  nobcast s = true -> same_lengths st1 st2 -> used_correctly s st1 -> used_correctly s st2 -> fits s st1 ->
  names_element s st1 p1 -> names_element s st2 p2 -> offset s st1 = Some o1 -> offset s st2 = Some o2 ->
  (p1 = p2 /\ forall d, In d (map fst p1) -> asg_of st1 d = asg_of st2 d) \/
  exists c1 c2 x1 x2, scalar_t s st1 = Some c1 /\ scalar_t s st2 = Some c2 /\ vz o1 = Some x1 /\ vz o2 = Some x2 /\
    (x1 + ct_size c1 <= x2 \/ x2 + ct_size c2 <= x1).
Proof.
  intros Hb Hl U1 U2 Hf N1 N2 E1 E2.
  destruct (access_offset _ _ _ _ U1 N1 E1) as (sg & c1 & Es & V1 & C1 & L1 & O1).
  destruct (access_offset _ _ _ _ U2 N2 E2) as (sg' & c2 & Es' & V2 & C2 & L2 & O2).
  assert (sg' = sg) by congruence. subst sg'.
  pose proof (same_lenv _ _ Hl) as Hlv. destruct U1 as (Hw & Hlk & Hg1 & Hd1), U2 as (_ & _ & Hg2 & Hd2).
  assert (Hv2 : pvalid s (lenv_of st1) (asg_of st2) sg p2).
  { destruct V2 as (? & ? & Hr). split; [assumption|]. split; [assumption|]. revert Hr. apply Forall_impl. intros [d k].
    unfold in_range. cbn [fst snd]. destruct k; [auto|].
    rewrite (ilen_ext s (lenv_of st2) (lenv_of st1) (asg_of st2) (asg_of st2)); auto using eqf_refl. exact (eqf_sym _ _ Hlv). }
  assert (Hg2' : good s (lenv_of st1) (asg_of st2)) by (eapply good_ext; [| |exact Hg2]; [exact (eqf_sym _ _ Hlv)|apply eqf_refl]).
  rewrite <- (leaf_ext s (lenv_of st1) _ (asg_of st2) _ Hlv (eqf_refl _)) in L2.
  rewrite <- (ioff_ext s (lenv_of st1) _ (asg_of st2) _ Hlv (eqf_refl _)) in O2.
  destruct (int_in_bounds s _ _ sg p1 Hw (lrange_of st1) Hg1 V1) as (c1' & L1' & B1 & B2 & B3).
  destruct (int_in_bounds s _ _ sg p2 Hw (lrange_of st1) Hg2' Hv2) as (c2' & L2' & D1 & D2 & D3).
  rewrite L1 in L1'. inv L1'. rewrite L2 in L2'. inv L2'. unfold fits in Hf. rewrite u64_small in O1, O2 by lia.
  destruct (int_no_alias s _ _ _ sg p1 p2 Hw Hb (lrange_of st1) Hg1 Hg2' V1 Hv2) as [H|H]; [left; exact H|right].
  destruct H as (ca & cb & Ha & Hb' & H). rewrite L1 in Ha. rewrite L2 in Hb'. inv Ha. inv Hb'.
  exists ca, cb, (ioff s (lenv_of st1) (asg_of st1)), (ioff s (lenv_of st1) (asg_of st2)). auto 10.
Qed.
