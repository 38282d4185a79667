(** * Lower bounds along all dimensions: proofs *)

From Verif Require Export LowerFacts.
From Verif Require Import ViewFacts Defined.
From Verif Require Views2.

(** ** Paths of assignments that differ in one index *)

Lemma spath_keep sg : forall a a2 p p2 q k, spath sg a = Some p -> spath sg a2 = Some p2 -> NoDup (map fst p) ->
  In (q, k) p -> differ_at q p a a2 -> In (q, k) p2.
Proof.
  induction sg as [c| |d al s IH|d ss IH] using sig_ind'; intros a a2 p p2 q k E E2 Hnd Hq Hd.
  - injection E as <-. destruct Hq.
  - injection E as <-. destruct Hq.
  - cbn [spath] in E, E2. destruct (spath s a) as [p0|] eqn:Ep; [|discriminate]. destruct (spath s a2) as [p1|] eqn:Ep1; [|discriminate].
    injection E as <-. injection E2 as <-. cbn [map] in Hnd. apply NoDup_cons_iff in Hnd. destruct Hnd as [_ Hnd].
    destruct Hq as [Hq|Hq]; [left; exact Hq|right]. apply (IH a a2 p0 p1 q k Ep Ep1 Hnd Hq). intros x Hx. apply Hd. right. exact Hx.
  - rewrite spath_dep in E, E2. destruct (nthz ss (a d)) as [sr|] eqn:Er; [|discriminate]. destruct (spath sr a) as [p0|] eqn:Ep; [|discriminate].
    injection E as <-. destruct (nthz ss (a2 d)) as [sr2|] eqn:Er2; [|discriminate]. destruct (spath sr2 a2) as [p1|] eqn:Ep1; [|discriminate].
    injection E2 as <-. cbn [map] in Hnd. apply NoDup_cons_iff in Hnd. destruct Hnd as [Hni Hnd].
    destruct Hq as [Hq|Hq]; [left; exact Hq|right].
    assert (Hqd : d <> q) by (intros ->; apply Hni; eapply in_fst; exact Hq).
    rewrite (Hd d) in Er2 by (try (left; reflexivity); exact Hqd). rewrite Er in Er2. injection Er2 as <-.
    rewrite Forall_forall in IH. apply (IH sr (nthz_In _ _ _ Er) a a2 p0 p1 q k Ep Ep1 Hnd Hq). intros x Hx. apply Hd. right. exact Hx.
Qed.

(** The dimension below a view that changes with [q]. *)
Definition fall (v : view) (q : dim) : option dim :=
  match v with
  | VBlocksSta d b M m _ => Some (if (q =? b) || ((q =? M) || (q =? m)) then d else q)
  | _ => vnext v q
  end.

Section FallStep.
  Variables (v : view) (t : struct) (s0 sg : sig) (l : lenv) (a a2 : asg) (p' p : path) (q : dim) (k : option Z).
  Hypothesis Ht : uswf t = true.
  Hypothesis Hw : view_swf v t = true.
  Hypothesis E0 : signature t = Some s0.
  Hypothesis Ev : view_sig v s0 = Some sg.
  Hypothesis Ep' : spath s0 (view_asg v (ilen t) l a) = Some p'.
  Hypothesis R : prel v p' p.
  Hypothesis Hnd : NoDup (map fst p').
  Hypothesis Hq : In (q, k) p.
  Hypothesis Hst : steady_view q v t = true.
  Hypothesis Hd : differ_at q p a a2.

  Lemma fall_step : match fall v q with
    | None => forall x, In x (map fst p') -> view_asg v (ilen t) l a2 x = view_asg v (ilen t) l a x
    | Some q' => (exists k', In (q', k') p') /\
        (forall x, In x (map fst p') -> x <> q' -> view_asg v (ilen t) l a2 x = view_asg v (ilen t) l a x) end.
  Proof.
    assert (Hsb := same_below' v t s0 sg l a a2 p' p q Ht Hw E0 Ev Ep' R Hnd Hd).
    assert (Hw' := Hw). unfold view_swf in Hw'. rewrite E0 in Hw'.
    assert (Hacc : forall x, In x (map fst p') -> any_accept x s0 = true).
    { intros x Hx. destruct (fst_in _ _ Hx) as [n Hn]. exact (spath_accept _ _ _ Ep' _ Hn). }
    destruct v as [d|d i|d n|d st|d st len|d st en|d st sr|d|d M m|d M m pd|d b M m ml|M m d|sl gl d ds|ds|d|ps|xa xb d];
      cbn [fall vnext view_adep steady_view prel] in *.
    - (* bcast *) subst p. destruct (Z.eqb_spec q d) as [->|Hne].
      + intros x Hx. apply Hsb; [exact Hx|]. intros [<-|[]]. rewrite (Hacc _ Hx) in Hw'. discriminate.
      + destruct Hq as [Hq'|Hq']; [congruence|]. split; [eauto|].
        intros x Hx Hxq. apply Hsb; [exact Hx|]. intros [E|[]]; congruence.
    - (* fix *) subst p. apply in_pm in Hq. destruct Hq as [[Hq' Hne]|(k0 & _ & [])]. split; [eauto|].
      intros x Hx Hxq. apply Hsb; [exact Hx|]. destruct (Z.eqb_spec x d); [intros []|intros [E|[]]; congruence].
    - destruct R as [-> _]. split; [eauto|]. intros x Hx Hxq. apply Hsb; [exact Hx|]. intros [E|[]]; congruence.
    - subst p. split; [|intros x Hx Hxq; apply Hsb; [exact Hx|]; intros [E|[]]; congruence].
      apply in_pm in Hq. destruct Hq as [[Hq' Hne]|(k0 & Hk & [E|[]])]; [eauto|]. injection E as <- _. eauto.
    - subst p. split; [|intros x Hx Hxq; apply Hsb; [exact Hx|]; intros [E|[]]; congruence].
      apply in_pm in Hq. destruct Hq as [[Hq' Hne]|(k0 & Hk & [E|[]])]; [eauto|]. injection E as <- _. eauto.
    - subst p. split; [|intros x Hx Hxq; apply Hsb; [exact Hx|]; intros [E|[]]; congruence].
      apply in_pm in Hq. destruct Hq as [[Hq' Hne]|(k0 & Hk & [E|[]])]; [eauto|]. injection E as <- _. eauto.
    - subst p. split; [|intros x Hx Hxq; apply Hsb; [exact Hx|]; intros [E|[]]; congruence].
      apply in_pm in Hq. destruct Hq as [[Hq' Hne]|(k0 & Hk & [E|[]])]; [eauto|]. injection E as <- _. eauto.
    - (* reverse *) subst p. split; [eauto|]. intros x Hx Hxq. apply Hsb; [exact Hx|].
      destruct (Z.eqb_spec x d) as [->|Hne]; [|intros [E|[]]; congruence].
      intros [E|Hin]; [congruence|]. apply orb_true_iff in Hst. destruct Hst as [Hst'|Hst']; [lia|].
      apply negb_true_iff, mem_false in Hst'. contradiction.
    - (* blocks *) cbn [view_sig] in Ev. destruct ((M =? m) || _ || _) eqn:Eb in Ev; [discriminate|]. rewrite !orb_false_iff in Eb.
      destruct Eb as [[HMm HM] Hm]. destruct R as [-> Hfun]. apply negb_true_iff, mem_false in Hw', Hst.
      assert (Hfr : forall e x, negb (e =? d) && any_accept e s0 = false -> In x (map fst p') -> x <> d -> x <> e).
      { intros e x He Hx Hxd ->. rewrite (Hacc _ Hx) in He. destruct (Z.eqb_spec e d); [contradiction|discriminate]. }
      apply in_pm in Hq. destruct Hq as [[Hq' Hne]|(k0 & Hk & HE)].
      + cbn [fst] in Hne. pose proof (Hfr M q HM (in_fst _ _ _ Hq') Hne). pose proof (Hfr m q Hm (in_fst _ _ _ Hq') Hne).
        replace ((q =? M) || (q =? m)) with false by lia. split; [eauto|].
        intros x Hx Hxq. apply Hsb; [exact Hx|]. destruct (Z.eqb_spec x d) as [->|]; [|intros [E|[]]; congruence].
        intros [E|[E|Hin]]; congruence.
      + assert (HqM : q = M \/ q = m) by (destruct HE as [E|[E|[]]]; injection E; auto).
        replace ((q =? M) || (q =? m)) with true by lia. split; [eauto|].
        intros x Hx Hxd. apply Hsb; [exact Hx|]. destruct (Z.eqb_spec x d) as [->|]; [contradiction|].
        intros [E|[]]. subst x. destruct HqM as [->| ->]; [apply (Hfr M M)|apply (Hfr m m)]; auto.
    - (* blocks dynamic *) cbn [view_sig] in Ev. destruct ((M =? m) || _ || _ || _ || _ || _) eqn:Eb in Ev; [discriminate|].
      rewrite !orb_false_iff in Eb. destruct Eb as [[[[[HMm HMp] Hmp] HM] Hm] Hp]. pose proof R as [HR Hfun]. apply negb_true_iff, mem_false in Hw'.
      assert (Hfr : forall e x, negb (e =? d) && any_accept e s0 = false -> In x (map fst p') -> x <> d -> x <> e).
      { intros e x He Hx Hxd ->. rewrite (Hacc _ Hx) in He. destruct (Z.eqb_spec e d); [contradiction|discriminate]. }
      destruct (Z.eqb_spec q pd) as [Hqp|Hqp].
      + assert (Hk : k = None).
        { pose proof Hq as Hq0. rewrite HR in Hq0. apply in_pm in Hq0. destruct Hq0 as [[Hq' Hne]|(k0 & Hk & HE)].
          - exfalso. cbn [fst] in Hne. subst q. exact (Hfr pd pd Hp (in_fst _ _ _ Hq') Hne eq_refl).
          - destruct HE as [E|[E|[E|[]]]]; congruence. }
        pose proof Hq as Hq0. rewrite Hk in Hq0.
        assert (X := view_step (VBlocksDyn d M m pd) t s0 sg l a a2 p' p q Ht Hw E0 ltac:(cbn [view_sig]; rewrite HMm, HMp, Hmp, HM, Hm, Hp; exact Ev) Ep' R Hnd Hq0 ltac:(cbn [steady_view]; subst q; rewrite Z.eqb_refl; reflexivity) Hd).
        cbn [vnext] in X. subst q. rewrite Z.eqb_refl in X. exact X.
      + cbn [orb] in Hst. apply negb_true_iff, mem_false in Hst. subst p. apply in_pm in Hq. destruct Hq as [[Hq' Hne]|(k0 & Hk & HE)].
        * cbn [fst] in Hne. pose proof (Hfr M q HM (in_fst _ _ _ Hq') Hne). pose proof (Hfr m q Hm (in_fst _ _ _ Hq') Hne).
          replace ((q =? M) || (q =? m)) with false by lia. split; [eauto|].
          intros x Hx Hxq. apply Hsb; [exact Hx|]. destruct (Z.eqb_spec x d) as [->|]; [|intros [E|[]]; congruence].
          intros [E|[E|Hin]]; congruence.
        * assert (HqM : q = M \/ q = m) by (destruct HE as [E|[E|[E|[]]]]; injection E; auto; congruence).
          replace ((q =? M) || (q =? m)) with true by lia. split; [eauto|].
          intros x Hx Hxd. apply Hsb; [exact Hx|]. destruct (Z.eqb_spec x d) as [->|]; [contradiction|].
          intros [E|[]]. subst x. destruct HqM as [->| ->]; [apply (Hfr M M)|apply (Hfr m m)]; auto.
    - (* blocks static *) cbn [view_sig] in Ev. destruct ((b =? M) || _ || _ || _ || _ || _) eqn:Eb in Ev; [discriminate|].
      rewrite !orb_false_iff in Eb. destruct Eb as [[[[[HbM Hbm] HMm] HM] Hm] Hb]. destruct R as [-> Hfun].
      apply andb_true_iff in Hw'. destruct Hw' as [_ Hw']. apply negb_true_iff, mem_false in Hw', Hst.
      assert (Hfr : forall e x, negb (e =? d) && any_accept e s0 = false -> In x (map fst p') -> x <> d -> x <> e).
      { intros e x He Hx Hxd ->. rewrite (Hacc _ Hx) in He. destruct (Z.eqb_spec e d); [contradiction|discriminate]. }
      apply in_pm in Hq. destruct Hq as [[Hq' Hne]|(k0 & Hk & HE)].
      + cbn [fst] in Hne. pose proof (Hfr M q HM (in_fst _ _ _ Hq') Hne). pose proof (Hfr m q Hm (in_fst _ _ _ Hq') Hne).
        pose proof (Hfr b q Hb (in_fst _ _ _ Hq') Hne).
        replace ((q =? b) || ((q =? M) || (q =? m))) with false by lia. split; [eauto|].
        intros x Hx Hxq. apply Hsb; [exact Hx|]. destruct (Z.eqb_spec x d) as [->|]; [|intros [E|[]]; congruence].
        intros [E|[E|[E|Hin]]]; congruence.
      + assert (HqM : q = b \/ q = M \/ q = m) by (destruct HE as [E|[E|[E|[]]]]; injection E; auto; congruence).
        replace ((q =? b) || ((q =? M) || (q =? m))) with true by lia. split; [eauto|].
        intros x Hx Hxd. apply Hsb; [exact Hx|]. destruct (Z.eqb_spec x d) as [->|]; [contradiction|].
        intros [E|[]]. subst x. destruct HqM as [->|[->| ->]]; [apply (Hfr b b)|apply (Hfr M M)|apply (Hfr m m)]; auto.
    - (* merge *) apply andb_true_iff in Hst. destruct Hst as [Hqd Hql]. apply negb_true_iff in Hqd, Hql. apply mem_false in Hql.
      destruct (peeled_inv _ _ _ _ _ _ _ R Hq) as [(E & _)|[Hq' Hni]]; [lia|]. split; [eauto|].
      intros x Hx Hxq. apply Hsb; [exact Hx|]. destruct ((x =? M) || (x =? m)); [|intros [E|[]]; congruence].
      intros [E|Hin]; [lia|contradiction].
    - (* z-curve *) apply andb_true_iff in Hst. destruct Hst as [Hqd Hql]. apply negb_true_iff in Hqd, Hql. apply mem_false in Hql.
      destruct (peeled_inv _ _ _ _ _ _ _ R Hq) as [(E & _)|[Hq' Hni]]; [lia|]. split; [eauto|].
      intros x Hx Hxq. apply Hsb; [exact Hx|]. destruct (mem x ds); [|intros [E|[]]; congruence].
      intros [E|Hin]; [lia|contradiction].
    - (* reorder *) split; [exists k; eapply Permutation_in; [exact R|exact Hq]|].
      intros x Hx Hxq. apply Hsb; [exact Hx|]. intros [E|[]]; congruence.
    - (* hoist *) destruct R as [Hin ->]. split.
      + destruct Hq as [E|Hq']; [injection E as <- _; eauto|]. apply in_pm in Hq'. destruct Hq' as [[Hq' _]|(k0 & _ & [])]. eauto.
      + intros x Hx Hxq. apply Hsb; [exact Hx|]. intros [E|[]]; congruence.
    - (* rename *) subst p. apply in_map_iff in Hq. destruct Hq as ([q' k0] & Hqe & Hq'). cbn [fst snd] in Hqe.
      injection Hqe as <- ->. cbn [view_sig] in Ev. destruct (nodupb (map fst ps) && _ && _) eqn:Er in Ev; [|discriminate].
      assert (Hback : forall x, In x (map fst p') -> rename_in ps (rename_dim ps x) = x).
      { intros x Hx. exact (rename_back ps s0 x Er (Hacc x Hx)). }
      rewrite Hback by (eapply in_fst; eauto). split; [eauto|].
      intros x Hx Hxq. apply Hsb; [exact Hx|]. intros [E|[]]. apply Hxq.
      rewrite <- (Hback x Hx), E. apply Hback. eapply in_fst; eauto.
    - discriminate.
  Qed.
End FallStep.

(** ** Two elements that differ in one index, seen below a view *)

Lemma grows_steady r q v t q' : steady q (View v t) = true -> grows r q (View v t) = true -> fall v q = Some q' -> steady q' t = true.
Proof.
  intros Hst Hlo Hf. destruct (steady_down _ _ _ Hst) as [_ Hs].
  destruct v as [d|d i|d ln|d st|d st len|d st en|d st sr|d|d M m|d M m pd|d b M m ml|M m d|sl gl d ds|ds|d|ps|xa xb d];
    cbn [fall] in Hf; try (rewrite Hf in Hs; exact Hs).
  injection Hf as <-. cbn [vnext] in Hs. destruct (Z.eqb_spec q b) as [->|Hb]; cbn [orb]; [|exact Hs].
  cbn [grows] in Hlo. destruct (Z.eqb_spec b m) as [->|]; [rewrite orb_true_r in Hs; exact Hs|].
  destruct (Z.eqb_spec b M) as [->|]; [exact Hs|]. rewrite Z.eqb_refl in Hlo. apply andb_true_iff in Hlo. apply Hlo.
Qed.

Lemma two_down v t l a a2 sg p p2 q k r : swf (View v t) = true -> pvalid (View v t) l a sg p -> pvalid (View v t) l a2 sg p2 -> lrange l ->
  good (View v t) l a -> good (View v t) l a2 -> In (q, k) p -> differ_at q p a a2 -> differ_at q p2 a2 a ->
  steady q (View v t) = true -> grows r q (View v t) = true ->
  let l' := view_lenv v l in let b := view_asg v (ilen t) l a in let b2 := view_asg v (ilen t) l a2 in
  exists s0 p' p1, signature t = Some s0 /\ view_sig v s0 = Some sg /\ prel v p' p /\ pvalid t l' b s0 p' /\ pvalid t l' b2 s0 p1 /\
    NoDup (map fst p') /\ NoDup (map fst p1) /\ lrange l' /\ good t l' b /\ good t l' b2 /\
    vfacts v (Lof v t l a) l a b p' /\ vfacts v (Lof v t l a2) l a2 b2 p1 /\
    match fall v q with
    | None => forall x, In x (map fst p') -> b2 x = b x
    | Some q' => exists k', In (q', k') p' /\ In (q', k') p1 /\ differ_at q' p' b b2 /\ differ_at q' p1 b2 b /\ steady q' t = true end.
Proof.
  intros Hw Hv Hv2 Hl Hg Hg2 Hq Hd Hd2 Hst Hlo l' b b2.
  destruct (swf_view _ _ Hw) as [Hvw Ht]. pose proof (swf_uswf _ Ht) as Hu. pose proof Hg as (Hga & Hgb & _). pose proof Hg2 as (Hgc & Hgd & _).
  destruct (pvalid_view v t l a sg p (swf_uswf _ Hw) Hl Hga Hv) as (s0 & p' & Ev & R & Hsn & Hnd' & V').
  destruct (pvalid_view v t l a2 sg p2 (swf_uswf _ Hw) Hl Hgc Hv2) as (s1 & p1 & _ & R2 & _ & Hnd1 & V2').
  pose proof V' as (E0 & Ep' & _). pose proof V2' as (E1 & Ep1 & _). assert (s1 = s0) by congruence. subst s1.
  destruct (steady_down _ _ _ Hst) as [Hs1 _].
  assert (Hq2 : In (q, k) p2).
  { destruct Hv as (Es & Ep & _), Hv2 as (_ & Ep2 & _). apply (spath_keep sg a a2 p p2 q k Ep Ep2 (swf_path_nodup _ _ _ _ Hw Es Ep) Hq Hd). }
  pose proof (fall_step v t s0 sg l a a2 p' p q k Hu Hvw E0 Ev Ep' R Hnd' Hq Hs1 Hd) as S1.
  pose proof (fall_step v t s0 sg l a2 a p1 p2 q k Hu Hvw E0 Ev Ep1 R2 Hnd1 Hq2 Hs1 Hd2) as S2.
  exists s0, p', p1. do 7 (split; [assumption|]). split; [unfold l'; eapply view_lrange; eauto|]. split; [exact Hgb|]. split; [exact Hgd|].
  split; [destruct Hv as (_ & _ & Fp); eapply (vfacts_ok v t s0 sg l a p' p); eauto using swf_uswf; apply swf_loc, Ht|].
  split; [destruct Hv2 as (_ & _ & Fp); eapply (vfacts_ok v t s0 sg l a2 p1 p2); eauto using swf_uswf; apply swf_loc, Ht|].
  pose proof (grows_steady r q v t) as Hls.
  destruct (fall v q) as [q'|]; [|exact S1]. destruct S1 as [[k' Hk'] S1], S2 as [_ S2]. exists k'. split; [exact Hk'|].
  split; [|split; [exact S1|split; [exact S2|apply Hls; auto]]].
  apply (spath_keep s0 b b2 p' p1 q' k' Ep' Ep1 Hnd' Hk' S1).
Qed.

Definition flips (v : view) (q : dim) : bool := match v with VReverse d => q =? d | _ => false end.

(** How the index below a view moves with the index above. *)
Lemma fall_index v t l a a2 sg p p2 q k r : swf (View v t) = true -> pvalid (View v t) l a sg p -> pvalid (View v t) l a2 sg p2 -> lrange l ->
  good (View v t) l a -> good (View v t) l a2 -> In (q, k) p -> differ_at q p a a2 -> differ_at q p2 a2 a ->
  steady q (View v t) = true -> grows r q (View v t) = true ->
  let b := view_asg v (ilen t) l a in let b2 := view_asg v (ilen t) l a2 in
  match fall v q with
  | None => True
  | Some q' => (a q <= a2 q -> if flips v q then b2 q' <= b q' else b q' <= b2 q') /\ (b2 q' = b q' -> a2 q = a q) end.
Proof.
  intros Hw Hv Hv2 Hl Hg Hg2 Hq Hd Hd2 Hst Hlo b b2.
  destruct (two_down v t l a a2 sg p p2 q k r Hw Hv Hv2 Hl Hg Hg2 Hq Hd Hd2 Hst Hlo)
    as (s0 & p' & p1 & E0 & Ev & R & V1 & V2 & Hnd' & Hnd1 & Hl' & G1 & G2 & F1 & F2 & Hf). fold b b2 in V1, V2, G1, G2, F1, F2, Hf.
  destruct (swf_view _ _ Hw) as [Hvw Ht]. pose proof (swf_uswf _ Ht) as Hu. pose proof V1 as (_ & Ep' & _). pose proof V2 as (_ & Ep1 & _).
  destruct (fall v q) as [q'|] eqn:Ef; [|exact I]. destruct Hf as (k' & Hk & Hk1 & D1 & D2 & Hs').
  assert (HL : ~ In q' (ldeps t q') -> Lof v t l a2 q' = Lof v t l a q').
  { intros Hn. destruct k' as [c|].
    - rewrite (Lof_dep v t s0 l a p' E0 Ep' Hnd' q' c Hk), (Lof_dep v t s0 l a2 p1 E0 Ep1 Hnd1 q' c Hk1). reflexivity.
    - rewrite (Lof_fun v t s0 l a p' E0 Ep' Hnd' q' Hk), (Lof_fun v t s0 l a2 p1 E0 Ep1 Hnd1 q' Hk1).
      apply (uswf_loc t Hu _ s0 b b2 p' q' E0 Ep' Hk). intros y Hy Hyp. apply D1; [exact Hyp|congruence]. }
  assert (Hvs := Hvw). unfold view_swf in Hvs. rewrite E0 in Hvs.
  assert (Hmoved : forall d c, q' = q -> q = d -> (forall k, In (d, k) p' -> b d = a d + c) -> (forall k, In (d, k) p1 -> b2 d = a2 d + c) ->
    (a q <= a2 q -> b q' <= b2 q') /\ (b2 q' = b q' -> a2 q = a q)).
  { intros d c -> -> H1 H2. rewrite (H1 _ Hk), (H2 _ Hk1). split; lia. }
  assert (Hplain : b q' = a q -> b2 q' = a2 q -> (a q <= a2 q -> b q' <= b2 q') /\ (b2 q' = b q' -> a2 q = a q)).
  { intros -> ->. split; auto. }
  assert (Hfr : forall e x, negb (e =? x) && any_accept e s0 = false -> In (e, k') p' -> e = x).
  { intros e x He Hx. destruct (Z.eqb_spec e x) as [E|_]; [exact E|]. rewrite (spath_accept' _ _ _ _ _ Ep' Hx) in He. discriminate. }
  destruct v as [d|d i|d ln|d s|d s len|d s en|d s rr|d|d M m|d M m pd|d bb M m ml|M m d|sl gl d ds|ds|d|ps|xa xb d];
    cbn [fall vnext flips grows vfacts] in *; try discriminate; try (injection Ef as <-; apply Hplain; reflexivity).
  - (* bcast *) destruct (Z.eqb_spec q d) as [->|Hne]; [discriminate|]. injection Ef as <-. apply Hplain; reflexivity.
  - (* fix *) injection Ef as <-. assert (Hqd : q <> d) by (cbn [prel] in R; subst p; apply in_pm in Hq; destruct Hq as [[_ Hne]|(k0 & _ & [])]; exact Hne).
    apply Hplain; unfold b, b2; cbn [view_asg]; rewrite fupd_neq by exact Hqd; reflexivity.
  - (* shift *) injection Ef as <-. destruct (Z.eq_dec q d) as [->|Hne].
    + apply (Hmoved d (vzd s)); auto; intros k0 Hk0; [apply (F1 k0 Hk0)|apply (F2 k0 Hk0)].
    + apply Hplain; unfold b, b2; cbn [view_asg]; rewrite fupd_neq by exact Hne; reflexivity.
  - (* slice *) injection Ef as <-. destruct (Z.eq_dec q d) as [->|Hne].
    + apply (Hmoved d (vzd s)); auto; intros k0 Hk0; [apply (F1 k0 Hk0)|apply (F2 k0 Hk0)].
    + apply Hplain; unfold b, b2; cbn [view_asg]; rewrite fupd_neq by exact Hne; reflexivity.
  - (* span *) injection Ef as <-. destruct (Z.eq_dec q d) as [->|Hne].
    + apply (Hmoved d (vzd s)); auto; intros k0 Hk0; [apply (F1 k0 Hk0)|apply (F2 k0 Hk0)].
    + apply Hplain; unfold b, b2; cbn [view_asg]; rewrite fupd_neq by exact Hne; reflexivity.
  - (* reverse *) injection Ef as <-. destruct (Z.eqb_spec q d) as [->|Hne].
    + destruct (F1 _ Hk) as [H1 H1'], (F2 _ Hk1) as [H2 H2']. rewrite H1, H2.
      assert (E : Lof (VReverse d) t l a2 d = Lof (VReverse d) t l a d).
      { apply HL. apply andb_true_iff in Hvs. destruct Hvs as [_ Hvs]. rewrite forallb_forall in Hvs.
        specialize (Hvs d (proj1 (accept_sdims _ _) (spath_accept' _ _ _ _ _ Ep' Hk))). apply negb_true_iff, mem_false in Hvs. exact Hvs. }
      rewrite E. split; lia.
    + apply Hplain; unfold b, b2; cbn [view_asg]; rewrite fupd_neq by exact Hne; reflexivity.
  - (* blocks *) apply negb_true_iff, mem_false in Hvs. injection Ef as <-. cbn [view_sig] in Ev. destruct ((M =? m) || _ || _) eqn:Eb in Ev; [discriminate|].
    destruct ((q =? M) || (q =? m)) eqn:EqM.
    + destruct (F1 _ Hk) as (H1 & H2 & H3 & _), (F2 _ Hk1) as (H1' & _ & H3' & _). specialize (HL Hvs). cbn zeta in *. rewrite H1, H1', HL in *.
      destruct R as [-> _]. destruct (Z.eqb_spec q M) as [HqM|HqM].
      * assert (Hm : a2 m = a m) by (apply Hd; [eapply pm_new; [exact Hk|simpl; tauto]|lia]). rewrite Hm. subst q. clear - H2 H3. split; nia.
      * assert (HM : a2 M = a M) by (apply Hd; [eapply pm_new; [exact Hk|simpl; tauto]|lia]). rewrite HM. replace q with m by lia. split; lia.
    + destruct (Z.eqb_spec q m); [lia|]. destruct (Z.eqb_spec q M); [lia|]. apply andb_true_iff in Hlo. destruct Hlo as [Hne _].
      apply Hplain; unfold b, b2; cbn [view_asg]; rewrite fupd_neq by (apply negb_true_iff, Z.eqb_neq in Hne; exact Hne); reflexivity.
  - (* dynamic *) apply negb_true_iff, mem_false in Hvs. destruct (Z.eqb_spec q pd) as [->|Hqp]; [discriminate|].
    injection Ef as <-. cbn [view_sig] in Ev. destruct ((M =? m) || _ || _ || _ || _ || _) eqn:Eb in Ev; [discriminate|].
    destruct ((q =? M) || (q =? m)) eqn:EqM.
    + destruct (F1 _ Hk) as (H1 & H2 & H3 & _), (F2 _ Hk1) as (H1' & _ & H3' & _). specialize (HL Hvs). cbn zeta in *. rewrite H1, H1', HL in *.
      destruct R as [-> _]. destruct (Z.eqb_spec q M) as [HqM|HqM].
      * assert (Hm : a2 m = a m) by (apply Hd; [eapply pm_new; [exact Hk|simpl; tauto]|lia]). rewrite Hm. subst q. clear - H2 H3. split; nia.
      * assert (HM : a2 M = a M) by (apply Hd; [eapply pm_new; [exact Hk|simpl; tauto]|lia]). rewrite HM. replace q with m by lia. split; lia.
    + destruct (Z.eqb_spec q m); [lia|]. destruct (Z.eqb_spec q M); [lia|]. apply andb_true_iff in Hlo. destruct Hlo as [Hne _].
      apply Hplain; unfold b, b2; cbn [view_asg]; rewrite fupd_neq by (apply negb_true_iff, Z.eqb_neq in Hne; exact Hne); reflexivity.
  - (* static *) apply andb_true_iff in Hvs. destruct Hvs as [_ Hvs]. apply negb_true_iff, mem_false in Hvs. injection Ef as <-. cbn [view_sig] in Ev.
    destruct ((bb =? M) || _ || _ || _ || _ || _) eqn:Eb in Ev; [discriminate|].
    destruct ((q =? bb) || ((q =? M) || (q =? m))) eqn:EqM.
    + destruct (F1 _ Hk) as (H0 & H1 & H2), (F2 _ Hk1) as (_ & H1' & H2'). specialize (HL Hvs). cbn zeta in *. rewrite HL in H2'.
      destruct R as [-> _]. assert (Hin : forall x kx, In (x, kx) [(bb, Some 2); (M, None); (m, None)] -> x <> q -> a2 x = a x).
      { intros x kx Hx Hxq. apply Hd; [eapply pm_new; [exact Hk|exact Hx]|exact Hxq]. }
      assert (Hne : bb <> M /\ bb <> m /\ M <> m) by (clear - Eb; lia).
      destruct (Z.eqb_spec q bb) as [Hqb|Hqb]; [|destruct (Z.eqb_spec q M) as [HqM|HqM]].
      * pose proof (Hin M _ ltac:(simpl; tauto) ltac:(clear - Hne Hqb EqM; lia)) as XM. pose proof (Hin m _ ltac:(simpl; tauto) ltac:(clear - Hne Hqb EqM; lia)) as Xm. subst q.
        destruct H2 as [(B & B0 & B1 & B2 & B3)|(B & B0 & B1 & B2 & B3)], H2' as [(B' & B0' & B1' & B2' & B3')|(B' & B0' & B1' & B2' & B3')]; rewrite B2, B2', B, B'; try lia;
          rewrite XM, Xm in *; split; intros; lia.
      * pose proof (Hin bb _ ltac:(simpl; tauto) ltac:(clear - Hne Hqb HqM EqM; lia)) as XM. pose proof (Hin m _ ltac:(simpl; tauto) ltac:(clear - Hne Hqb HqM EqM; lia)) as Xm. subst q. clear - H0 H2 H2' XM Xm.
        destruct H2 as [(B & B0 & B1 & B2 & B3)|(B & B0 & B1 & B2 & B3)], H2' as [(B' & B0' & B1' & B2' & B3')|(B' & B0' & B1' & B2' & B3')]; rewrite B2, B2'; try lia;
          rewrite Xm; split; nia.
      * pose proof (Hin bb _ ltac:(simpl; tauto) ltac:(clear - Hne Hqb HqM EqM; lia)) as XM. pose proof (Hin M _ ltac:(simpl; tauto) ltac:(clear - Hne Hqb HqM EqM; lia)) as Xm. replace q with m by (clear - EqM Hqb HqM; lia). clear - H0 H2 H2' XM Xm.
        destruct H2 as [(B & B0 & B1 & B2 & B3)|(B & B0 & B1 & B2 & B3)], H2' as [(B' & B0' & B1' & B2' & B3')|(B' & B0' & B1' & B2' & B3')]; rewrite B2, B2'; try lia;
          rewrite ?Xm; split; nia.
    + destruct (Z.eqb_spec q m); [lia|]. destruct (Z.eqb_spec q M); [lia|]. destruct (Z.eqb_spec q bb); [lia|]. apply andb_true_iff in Hlo. destruct Hlo as [Hne _].
      apply Hplain; unfold b, b2; cbn [view_asg]; rewrite fupd_neq by (apply negb_true_iff, Z.eqb_neq in Hne; exact Hne); reflexivity.
  - (* merge *) injection Ef as <-. apply andb_true_iff in Hlo. destruct Hlo as [Hno _]. apply negb_true_iff, mem_false in Hno. simpl in Hno.
    apply Hplain; unfold b, b2; cbn [view_asg]; rewrite fupds_out by (simpl; intuition); reflexivity.
  - (* rename *) injection Ef as <-. cbn [prel] in R. subst p. apply in_map_iff in Hq. destruct Hq as ([q0 k0] & Hqe & Hq'). cbn [fst snd] in Hqe. injection Hqe as <- ->.
    cbn [view_sig] in Ev. destruct (nodupb (map fst ps) && _ && _) eqn:Er in Ev; [|discriminate].
    assert (Hback : rename_in ps (rename_dim ps q0) = q0) by exact (rename_back ps s0 q0 Er (spath_accept' _ _ _ _ _ Ep' Hq')).
    rewrite Hback in *. apply Hplain; reflexivity.
Qed.

(** ** Offsets grow or fall with the index *)

Lemma comp_order d ts l a a2 sg p p2 : swf (Tuple d ts) = true -> pvalid (Tuple d ts) l a sg p -> pvalid (Tuple d ts) l a2 sg p2 -> lrange l ->
  good (Tuple d ts) l a -> good (Tuple d ts) l a2 -> differ_at d p a a2 -> a d <= a2 d -> ioff (Tuple d ts) l a <= ioff (Tuple d ts) l a2.
Proof.
  intros Hw Hv Hv2 Hl Hg Hg2 Hd Hle. destruct (Z.eq_dec (a d) (a2 d)) as [E|Hne].
  - pose proof Hv as (Es & Ep & _). rewrite (ioff_local (Tuple d ts) (swf_uswf _ Hw) l a a2 sg p Es Ep); [lia|].
    intros x Hx. destruct (Z.eq_dec x d) as [->|Hx']; [congruence|]. apply Hd; assumption.
  - destruct (pvalid_tuple _ _ _ _ _ _ Hv) as (ss & t & s0 & p0 & -> & F & _ & Et & En & -> & Hda & V).
    destruct (pvalid_tuple _ _ _ _ _ _ Hv2) as (ss' & t2 & s1 & p1 & Hss & _ & _ & Et2 & _ & -> & _ & V2). injection Hss as <-.
    pose proof (swf_tuple _ _ Hw) as Hws. pose proof Hws as Hws'. rewrite forallb_forall in Hws'.
    pose proof (good_tuple _ _ _ _ _ Hg Et) as G. pose proof (good_tuple _ _ _ _ _ Hg2 Et2) as G2.
    destruct (int_in_bounds t l a s0 p0 (Hws' t (nthz_In _ _ _ Et)) Hl G V) as (c & _ & A1 & A2 & A3).
    destruct (int_in_bounds t2 l a2 s1 p1 (Hws' t2 (nthz_In _ _ _ Et2)) Hl G2 V2) as (c2 & _ & B1 & B2 & B3).
    destruct (comp_fits l ts ss (a d) t Hws Hl F Et) as (_ & C1 & C2 & _). specialize (C2 (a2 d) ltac:(lia)).
    cbn [ioff]. rewrite !nthz_map, Et, Et2. cbn [option_map]. unfold szs in *. lia.
Qed.

Theorem grows_mono s : swf s = true -> forall l a a2 sg p p2 q k r, pvalid s l a sg p -> pvalid s l a2 sg p2 -> lrange l ->
  good s l a -> good s l a2 -> In (q, k) p -> differ_at q p a a2 -> differ_at q p2 a2 a -> steady q s = true -> grows r q s = true -> a q <= a2 q ->
  if r then ioff s l a2 <= ioff s l a else ioff s l a <= ioff s l a2.
Proof.
  induction s as [c|d ts IH|d t IH|v t IH|ts IH] using struct_ind'; intros Hw l a a2 sg p p2 q k r Hv Hv2 Hl Hg Hg2 Hq Hd Hd2 Hst Hlo Hle; try discriminate.
  - cbn [grows] in Hlo. destruct (Z.eqb_spec q d) as [->|Hqd].
    { destruct r; [discriminate|]. eapply comp_order; eauto. }
    destruct (pvalid_tuple _ _ _ _ _ _ Hv) as (ss & t & s0 & p0 & -> & F & Hx & Et & En & -> & Hda & V').
    destruct Hq as [Hq|Hq]; [congruence|].
    assert (Hdd : a2 d = a d) by (apply Hd; [left; reflexivity|congruence]).
    destruct (pvalid_tuple _ _ _ _ _ _ Hv2) as (ss' & t' & s1 & p1 & Hss & _ & _ & Et' & En' & -> & _ & V2'). injection Hss as <-.
    rewrite Hdd, Et in Et'. injection Et' as <-. rewrite Hdd, En in En'. injection En' as <-.
    pose proof (swf_tuple _ _ Hw) as Hws. rewrite forallb_forall in Hws. pose proof (nthz_In _ _ _ Et) as Hin. rewrite Forall_forall in IH.
    cbn [steady] in Hst. rewrite forallb_forall in Hst, Hlo. cbn [good] in Hg, Hg2. rewrite nthz_map, Et in Hg. rewrite nthz_map, Hdd, Et in Hg2.
    assert (X : if r then ioff t l a2 <= ioff t l a else ioff t l a <= ioff t l a2).
    { apply (IH t Hin (Hws t Hin) l a a2 s0 p0 p1 q k r); auto.
      - intros x Hx'. apply Hd. right. exact Hx'.
      - intros x Hx'. apply Hd2. right. exact Hx'. }
    cbn [ioff]. rewrite Hdd, !nthz_map, Et. cbn [option_map]. destruct r; lia.
  - destruct (pvalid_vector _ _ _ _ _ _ Hv) as (Hi & s0 & p0 & -> & -> & Hnd & Hv').
    destruct (pvalid_vector _ _ _ _ _ _ Hv2) as (Hi2 & s1 & p1 & Hs1 & -> & _ & Hv2'). injection Hs1 as <-.
    pose proof Hv' as (E0 & Ep0 & _). cbn [steady grows] in Hst, Hlo. cbn [good] in Hg, Hg2. cbn [ioff].
    destruct (Z.eqb_spec q d) as [->|Hne].
    + destruct r; [discriminate|].
      rewrite (ioff_local t (swf_uswf t Hw) (fupd l d None) a a2 s0 p0 E0 Ep0).
      * pose proof (isize_nonneg t (fupd l d None) Hw ltac:(congruence) (lrange_None _ _ Hl)). nia.
      * intros x Hx. apply Hd; [right; exact Hx|]. intros ->. destruct (fst_in _ _ Hx) as [k0 Hk]. rewrite (spath_accept' _ _ _ _ _ Ep0 Hk) in Hnd. discriminate.
    + destruct Hq as [Hq|Hq]; [congruence|].
      assert (X : if r then ioff t (fupd l d None) a2 <= ioff t (fupd l d None) a else ioff t (fupd l d None) a <= ioff t (fupd l d None) a2).
      { apply (IH Hw (fupd l d None) a a2 s0 p0 p1 q k r); auto using lrange_None.
        - intros x Hx. apply Hd. right. exact Hx.
        - intros x Hx. apply Hd2. right. exact Hx. }
      rewrite (Hd d) by (try (left; reflexivity); congruence). destruct r; lia.
  - pose proof (two_down v t l a a2 sg p p2 q k r Hw Hv Hv2 Hl Hg Hg2 Hq Hd Hd2 Hst Hlo) as TD. cbn zeta in TD.
    pose proof (fall_index v t l a a2 sg p p2 q k r Hw Hv Hv2 Hl Hg Hg2 Hq Hd Hd2 Hst Hlo) as FI. cbn zeta in FI.
    destruct (swf_view _ _ Hw) as [Hvw Ht]. pose proof (swf_uswf _ Ht) as Hu. cbn [ioff].
    destruct TD as (s0 & p' & p1 & E0 & Ev & R & V1 & V2 & Hnd' & Hnd1 & Hl' & G1 & G2 & _ & _ & Hf).
    set (l' := view_lenv v l) in *. set (b := view_asg v (ilen t) l a) in *. set (b2 := view_asg v (ilen t) l a2) in *.
    destruct (fall v q) as [q'|] eqn:Ef.
    2:{ destruct V1 as (_ & Ep' & _). rewrite (ioff_local t Hu l' b b2 s0 p' E0 Ep' Hf). destruct r; lia. }
    destruct Hf as (k' & Hk & Hk1 & D1 & D2 & Hs'). destruct FI as [FI _]. specialize (FI Hle).
    assert (Hsub : forall r', grows r' q' t = true -> r = xorb (flips v q) r' ->
      if r then ioff t l' b2 <= ioff t l' b else ioff t l' b <= ioff t l' b2).
    { intros r' Hlo' ->. destruct (flips v q); cbn [xorb].
      - pose proof (IH Ht l' b2 b s0 p1 p' q' k' r' V2 V1 Hl' G2 G1 Hk1 D2 D1 Hs' Hlo' FI) as X. destruct r'; exact X.
      - pose proof (IH Ht l' b b2 s0 p' p1 q' k' r' V1 V2 Hl' G1 G2 Hk D1 D2 Hs' Hlo' FI) as X. destruct r'; exact X. }
    destruct v as [d|d i|d ln|d s|d s len|d s en|d s rr|d|d M m|d M m pd|d bb M m ml|M m d|sl gl d ds|ds|d|ps|xa xb d];
      cbn [fall vnext flips grows] in *; try discriminate; try (injection Ef as <-; apply (Hsub r); [exact Hlo|destruct r; reflexivity]).
    + destruct (Z.eqb_spec q d); [discriminate|]. injection Ef as <-. apply (Hsub r); [exact Hlo|destruct r; reflexivity].
    + injection Ef as <-. destruct (q =? d); (eapply Hsub; [exact Hlo|]); destruct r; reflexivity.
    + injection Ef as <-. destruct (Z.eqb_spec q m) as [Hm|Hm].
      { rewrite orb_true_r in *. apply (Hsub r); [exact Hlo|destruct r; reflexivity]. }
      destruct (Z.eqb_spec q M) as [HM|HM]; cbn [orb] in *; [|apply andb_true_iff in Hlo; destruct Hlo as [_ Hlo]]; (apply (Hsub r); [exact Hlo|destruct r; reflexivity]).
    + destruct (Z.eqb_spec q pd) as [Hp|Hp]; [discriminate|]. injection Ef as <-. destruct (Z.eqb_spec q m) as [Hm|Hm].
      { rewrite orb_true_r in *. apply (Hsub r); [exact Hlo|destruct r; reflexivity]. }
      destruct (Z.eqb_spec q M) as [HM|HM]; cbn [orb] in *; [|apply andb_true_iff in Hlo; destruct Hlo as [_ Hlo]]; (apply (Hsub r); [exact Hlo|destruct r; reflexivity]).
    + injection Ef as <-. destruct (Z.eqb_spec q m) as [Hm|Hm].
      { rewrite !orb_true_r in *. apply (Hsub r); [exact Hlo|destruct r; reflexivity]. }
      destruct (Z.eqb_spec q M) as [HM|HM]; [rewrite !orb_true_r in *; apply (Hsub r); [exact Hlo|destruct r; reflexivity]|].
      destruct (Z.eqb_spec q bb) as [Hb|Hb]; cbn [orb] in *; apply andb_true_iff in Hlo; destruct Hlo as [_ Hlo]; (apply (Hsub r); [exact Hlo|destruct r; reflexivity]).
    + injection Ef as <-. apply andb_true_iff in Hlo. apply (Hsub r); [apply Hlo|destruct r; reflexivity].
Qed.

(** ** Lengths of static dimensions *)

Lemma dep_loc s : swf s = true -> forall l sg a a2 p q c r, signature s = Some sg -> spath sg a = Some p -> In (q, Some c) p ->
  grows r q s = true -> (forall x k, In (x, Some k) p -> a2 x = a x) -> ilen s l a2 q = ilen s l a q.
Proof.
  induction s as [ct|d ts IH|d t IH|v t IH|ts IH] using struct_ind'; intros Hw l sg a a2 p q c r Es Ep Hq Hlo Hd; try discriminate.
  - destruct (signature_Tuple_inv _ _ _ Es) as (ss & F & Hx & ->). pose proof (swf_tuple _ _ Hw) as Hws.
    rewrite spath_dep in Ep. destruct (nthz ss (a d)) as [sr|] eqn:Er; [|discriminate].
    destruct (spath sr a) as [pr|] eqn:Epr; [|discriminate]. injection Ep as <-.
    pose proof (Forall2_nthz _ _ _ (a d) F) as Ht. rewrite Er in Ht. destruct (nthz ts (a d)) as [t|] eqn:Et; [|contradiction].
    cbn [ilen grows] in *. destruct (Z.eqb_spec q d) as [->|Hne]; [reflexivity|]. destruct Hq as [Hq|Hq]; [congruence|].
    rewrite (Hd d _ ltac:(left; reflexivity)). rewrite !nthz_map, Et. cbn [option_map].
    rewrite Forall_forall in IH. rewrite forallb_forall in Hws, Hlo. pose proof (nthz_In _ _ _ Et) as Hin.
    apply (IH t Hin (Hws t Hin) l sr a a2 pr q c r Ht Epr Hq (Hlo t Hin)). intros x k Hk. apply (Hd x k). right. exact Hk.
  - destruct (signature_Vector_inv _ _ _ Es) as (s0 & E0 & Hdd & ->). cbn [spath] in Ep.
    destruct (spath s0 a) as [pr|] eqn:Epr; [|discriminate]. injection Ep as <-. destruct Hq as [Hq|Hq]; [discriminate|].
    cbn [ilen grows] in *. destruct (q =? d); [reflexivity|].
    apply (IH Hw (fupd l d None) s0 a a2 pr q c r E0 Epr Hq Hlo). intros x k Hk. apply (Hd x k). right. exact Hk.
  - destruct (view_down _ _ _ _ _ l Hw Es Ep) as (s0 & p' & E0 & Ev & Hsn & Ep' & R & Hnd').
    destruct (swf_view _ _ Hw) as [Hv Ht]. assert (Hvs := Hv). unfold view_swf in Hvs. rewrite E0 in Hvs. cbn [ilen].
    set (l' := view_lenv v l) in *. set (b := view_asg v (ilen t) l a) in *. set (b2 := view_asg v (ilen t) l a2) in *.
    assert (Hsub : forall q' r', In (q', Some c) p' -> grows r' q' t = true -> (forall x k, In (x, Some k) p' -> b2 x = b x) ->
      ilen t l' b2 q' = ilen t l' b q').
    { intros q' r' H1 H2 H3. exact (IH Ht l' s0 b b2 p' q' c r' E0 Ep' H1 H2 H3). }
    assert (Hfr : forall e x k, negb (e =? x) && any_accept e s0 = false -> In (e, k) p' -> e = x).
    { intros e x k He Hx. destruct (Z.eqb_spec e x) as [E|_]; [exact E|]. rewrite (spath_accept' _ _ _ _ _ Ep' Hx) in He. discriminate. }
    destruct v as [d|d i|d ln|d s|d s len|d s en|d s rr|d|d M m|d M m pd|d bb M m ml|M m d|sl gl d ds|ds|d|ps|xa xb d];
      cbn [grows view_ilen prel] in *; try discriminate; fold l' b b2.
    + subst p. destruct Hq as [Hq|Hq]; [discriminate|]. destruct (q =? d); [reflexivity|].
      apply (Hsub q r Hq Hlo). intros x k Hk. apply (Hd x k). right. exact Hk.
    + subst p. apply in_pm in Hq. destruct Hq as [[Hq Hne]|(k0 & _ & [])]. apply (Hsub q r Hq Hlo). intros x k Hk.
      unfold b, b2. cbn [view_asg]. unfold fupd. destruct (Z.eqb_spec x d); [reflexivity|]. apply (Hd x k). apply in_pm. left. auto.
    + destruct R as [-> _]. apply (Hsub q r Hq Hlo). exact Hd.
    + assert (Hbb : forall x k, In (x, Some k) p' -> b2 x = b x).
      { intros x k Hk. unfold b, b2. cbn [view_asg]. unfold fupd. subst p. destruct (Z.eqb_spec x d) as [->|Hne].
        - erewrite Hd; [reflexivity|]. apply in_pm. right. exists (Some k). split; [exact Hk|left; reflexivity].
        - apply (Hd x k). apply in_pm. left. auto. }
      subst p. apply in_pm in Hq. destruct Hq as [[Hq Hne]|([k0|] & Hk & [E|[]])]; cbn [option_map] in *.
      * cbn [fst] in Hne. destruct (Z.eqb_spec q d); [contradiction|]. eapply Hsub; eauto.
      * injection E as <- Ec. rewrite Z.eqb_refl in *. destruct (l d); [reflexivity|]. do 2 f_equal.
        exact (IH Ht l' s0 b b2 p' d k0 r E0 Ep' Hk Hlo Hbb).
      * discriminate.
    + destruct (Z.eqb_spec q d) as [->|Hne]; [reflexivity|]. subst p. apply in_pm in Hq. destruct Hq as [[Hq _]|(k0 & Hk & [E|[]])]; [|congruence].
      eapply Hsub; eauto. intros x k Hk. unfold b, b2. cbn [view_asg]. unfold fupd. destruct (Z.eqb_spec x d) as [->|Hx].
      * erewrite Hd; [reflexivity|]. apply in_pm. right. exists (Some k). split; [exact Hk|left; reflexivity].
      * apply (Hd x k). apply in_pm. left. auto.
    + destruct (Z.eqb_spec q d) as [->|Hne]; [reflexivity|]. subst p. apply in_pm in Hq. destruct Hq as [[Hq _]|(k0 & Hk & [E|[]])]; [|congruence].
      eapply Hsub; eauto. intros x k Hk. unfold b, b2. cbn [view_asg]. unfold fupd. destruct (Z.eqb_spec x d) as [->|Hx].
      * erewrite Hd; [reflexivity|]. apply in_pm. right. exists (Some k). split; [exact Hk|left; reflexivity].
      * apply (Hd x k). apply in_pm. left. auto.
    + subst p. apply andb_true_iff in Hvs. destruct Hvs as [Hnd _]. apply negb_true_iff, mem_false in Hnd.
      assert (Hraw : spath s0 a = Some p').
      { eapply spath_ext; [exact Ep'|]. intros e k He. unfold b. cbn [view_asg]. rewrite fupd_neq; [reflexivity|]. intros ->. apply Hnd. eapply spath_sdep; eauto. }
      assert (exists r', grows r' q t = true) as (r' & Hlo') by (destruct (q =? d); eauto).
      exact (IH Ht l' s0 a a2 p' q c r' E0 Hraw Hq Hlo' Hd).
    + destruct R as [-> Hfun]. cbn [view_sig] in Ev. destruct ((M =? m) || _ || _) eqn:Eb in Ev; [discriminate|]. rewrite !orb_false_iff in Eb. destruct Eb as [[_ EM] Em].
      apply in_pm in Hq. destruct Hq as [[Hq Hne]|(k0 & Hk & Hq)]; [|destruct Hq as [Hq|[Hq|[]]]; discriminate]. cbn [fst] in Hne.
      assert (q <> M) by (intros ->; apply Hne; eapply Hfr; eauto). assert (q <> m) by (intros ->; apply Hne; eapply Hfr; eauto).
      destruct (Z.eqb_spec q m); [contradiction|]. destruct (Z.eqb_spec q M); [contradiction|]. apply andb_true_iff in Hlo.
      apply (Hsub q r Hq (proj2 Hlo)). intros x k Hk. unfold b, b2. cbn [view_asg]. unfold fupd. destruct (Z.eqb_spec x d) as [->|Hx]; [discriminate (Hfun _ Hk)|].
      apply (Hd x k). apply in_pm. left. auto.
    + destruct R as [-> Hfun]. cbn [view_sig] in Ev. destruct ((M =? m) || _ || _ || _ || _ || _) eqn:Eb in Ev; [discriminate|]. rewrite !orb_false_iff in Eb. destruct Eb as [[[[[_ _] _] EM] Em] Epd].
      apply in_pm in Hq. destruct Hq as [[Hq Hne]|(k0 & Hk & Hq)]; [|destruct Hq as [Hq|[Hq|[Hq|[]]]]; discriminate]. cbn [fst] in Hne.
      assert (q <> M) by (intros ->; apply Hne; eapply Hfr; eauto). assert (q <> m) by (intros ->; apply Hne; eapply Hfr; eauto).
      assert (q <> pd) by (intros ->; apply Hne; eapply Hfr; eauto).
      destruct (Z.eqb_spec q m); [contradiction|]. destruct (Z.eqb_spec q M); [contradiction|]. destruct (Z.eqb_spec q pd); [contradiction|]. apply andb_true_iff in Hlo.
      apply (Hsub q r Hq (proj2 Hlo)). intros x k Hk. unfold b, b2. cbn [view_asg]. unfold fupd. destruct (Z.eqb_spec x d) as [->|Hx]; [discriminate (Hfun _ Hk)|].
      apply (Hd x k). apply in_pm. left. auto.
    + destruct R as [-> Hfun]. cbn [view_sig] in Ev. destruct ((bb =? M) || _ || _ || _ || _ || _) eqn:Eb in Ev; [discriminate|]. rewrite !orb_false_iff in Eb. destruct Eb as [[[[[_ _] _] EM] Em] Epd].
      destruct (Z.eqb_spec q bb) as [Hqb|Hqb]; [reflexivity|].
      apply in_pm in Hq. destruct Hq as [[Hq Hne]|(k0 & Hk & Hq)]; [|destruct Hq as [Hq|[Hq|[Hq|[]]]]; congruence]. cbn [fst] in Hne.
      assert (q <> M) by (intros ->; apply Hne; eapply Hfr; eauto). assert (q <> m) by (intros ->; apply Hne; eapply Hfr; eauto).
      destruct (Z.eqb_spec q m); [contradiction|]. destruct (Z.eqb_spec q M); [contradiction|]. apply andb_true_iff in Hlo.
      apply (Hsub q r Hq (proj2 Hlo)). intros x k Hk. unfold b, b2. cbn [view_asg]. unfold fupd. destruct (Z.eqb_spec x d) as [->|Hx]; [discriminate (Hfun _ Hk)|].
      apply (Hd x k). apply in_pm. left. auto.
    + destruct (peeled_inv _ _ _ _ _ _ _ R Hq) as [(_ & E & _)|[Hq' Hni]]; [discriminate|].
      apply andb_true_iff in Hlo. destruct Hlo as [Hno Hlo]. apply negb_true_iff, mem_false in Hno. simpl in Hno. destruct (Z.eqb_spec q d); [intuition|].
      apply (Hsub q r Hq' Hlo). intros x k Hk. 
      assert (Hx : ~ In x [M; m]).
      { intros Hx. discriminate (proj2 R x (Some k) Hk Hx). }
      unfold b, b2. cbn [view_asg]. rewrite !fupds_out by (simpl in *; tauto). apply (Hd x k).
      eapply Permutation_in; [apply Permutation_sym, (proj1 R)|]. apply in_or_app. right. apply filter_In. split; [exact Hk|].
      apply negb_true_iff, mem_false, Hx.
    + destruct R as [Hin ->]. assert (Hq' : In (q, Some c) p').
      { destruct Hq as [Hq|Hq]; [discriminate|]. apply in_pm in Hq. destruct Hq as [[Hq _]|(k0 & _ & [])]. exact Hq. }
      apply (Hsub q r Hq' Hlo). intros x k Hk. apply (Hd x k). right. apply in_pm. left. split; [exact Hk|]. cbn [fst]. intros ->.
      pose proof (nodup_fst_eq _ _ _ _ Hnd' Hk Hin). discriminate.
    + subst p. apply in_map_iff in Hq. destruct Hq as ([q0 k0] & Hqe & Hq'). cbn [fst snd] in Hqe. injection Hqe as <- ->.
      cbn [view_sig] in Ev. destruct (nodupb (map fst ps) && _ && _) eqn:Er in Ev; [|discriminate].
      assert (Hback : rename_in ps (rename_dim ps q0) = q0) by exact (rename_back ps s0 q0 Er (spath_accept' _ _ _ _ _ Ep' Hq')).
      rewrite Hback in Hlo. change (rename_dim (swap_pairs ps) (rename_dim ps q0)) with (rename_in ps (rename_dim ps q0)). rewrite Hback.
      apply (Hsub q0 r Hq' Hlo). intros x k Hk. unfold b, b2. cbn [view_asg]. apply (Hd _ k). apply in_map_iff. exists (x, Some k). auto.
Qed.

(** ** The answer of [lower_bound_at] *)

(** The index of [q] stays unknown below a view. *)
Lemma low_open v t st st' q q' r : sub_state v t st = Some st' -> fall v q = Some q' -> grows r q (View v t) = true ->
  (forall d i, v = VFix d i -> q <> d) ->
  (forall ps, v = VRename ps -> NoDup (map fst ps) /\ NoDup (map snd ps) /\ rename_dim ps (rename_in ps q) = q) ->
  get (Idx q) st = None -> get (Idx q') st' = None.
Proof.
  intros E Hn Hlo Hfix Hren Hq. unfold sub_state in E.
  assert (Hkeep : renames v = false -> q' = q -> ~ In q (touched v) -> ~ In q (fresh v) -> get (Idx q') st' = None).
  { intros H1 -> H2 H3. rewrite (st_kept v _ _ st st' q E H1 H2 H3). exact Hq. }
  destruct v as [d|d i|d ln|d s|d s len|d s en|d s rr|d|d M m|d M m pd|d bb M m ml|M m d|sl gl d ds|ds|d|ps|xa xb d];
    cbn [grows fall vnext touched fresh renames] in *; try discriminate.
  - destruct (Z.eqb_spec q d); [discriminate|]. injection Hn as <-. apply Hkeep; simpl; intuition congruence.
  - injection Hn as <-. pose proof (Hfix d i eq_refl). apply Hkeep; simpl; intuition congruence.
  - injection Hn as <-. apply Hkeep; simpl; intuition congruence.
  - injection Hn as <-. destruct (Z.eq_dec q d) as [->|]; [|apply Hkeep; simpl; intuition congruence].
    cbn [view_sub_state] in E. rewrite Hq in E. injection E as <-. destruct (get (Len d) st); rewrite ?get_with, get_remove; teq; rewrite Z.eqb_refl; reflexivity.
  - injection Hn as <-. destruct (Z.eq_dec q d) as [->|]; [|apply Hkeep; simpl; intuition congruence].
    cbn [view_sub_state] in E. rewrite Hq in E. injection E as <-. exact Hq.
  - injection Hn as <-. destruct (Z.eq_dec q d) as [->|]; [|apply Hkeep; simpl; intuition congruence].
    cbn [view_sub_state] in E. rewrite Hq in E. injection E as <-. exact Hq.
  - injection Hn as <-. destruct (Z.eq_dec q d) as [->|]; [|apply Hkeep; simpl; intuition congruence].
    cbn [view_sub_state] in E. rewrite Hq in E. injection E as <-. exact Hq.
  - injection Hn as <-. destruct (Z.eqb_spec q M) as [HM|HM], (Z.eqb_spec q m) as [Hm|Hm]; cbn [orb].
    4: { apply andb_true_iff in Hlo. destruct Hlo as [Hno _]. apply negb_true_iff, Z.eqb_neq in Hno. apply Hkeep; simpl; intuition congruence. }
    all: assert (Hc : get (Idx d) (clean_blocks d M m st) = None) by (unfold clean_blocks; rewrite get_remove; teq; rewrite Z.eqb_refl; cbn [orb]; rewrite ?orb_true_r; reflexivity).
    all: cbn [view_sub_state] in E; subst q; rewrite ?Hq in E.
    all: destruct (get (Len M) st), (get (Len m) st); try (destruct (has_length t d _) as [[|]|]; cbn [obind negb] in E);
      try destruct (get (Idx M) st); try destruct (get (Idx m) st); cbn [obind] in E.
    all: try discriminate E; try (injection E as <-; rewrite ?get_with; teq; exact Hc).
  - destruct (Z.eqb_spec q pd); [discriminate|]. injection Hn as <-. destruct (clean_blocks_dyn d M m pd st) as [cs|] eqn:Ec; [|cbn [view_sub_state] in E; rewrite Ec in E; discriminate].
    destruct (Z.eqb_spec q M) as [HM|HM], (Z.eqb_spec q m) as [Hm|Hm]; cbn [orb].
    4: { apply andb_true_iff in Hlo. destruct Hlo as [Hno _]. apply negb_true_iff, Z.eqb_neq in Hno. apply Hkeep; simpl; intuition congruence. }
    all: assert (Hc : get (Idx d) cs = None) by (unfold clean_blocks_dyn in Ec; destruct (has _ _) in Ec; [discriminate|]; injection Ec as <-; rewrite get_remove; teq; rewrite Z.eqb_refl; cbn [orb]; rewrite ?orb_true_r; reflexivity).
    all: cbn [view_sub_state] in E; rewrite Ec in E; cbn [obind] in E; subst q; rewrite ?Hq in E.
    all: destruct (get (Len M) st), (get (Len m) st); try destruct (get (Idx M) st); try destruct (get (Idx m) st); cbn [obind] in E.
    all: try discriminate E; try (injection E as <-; rewrite ?get_with; teq; exact Hc).
  - injection Hn as <-.
    assert (Hc : forall cs, clean_blocks_sta d bb M m st = Some cs -> get (Idx d) cs = None) by (unfold clean_blocks_sta; destruct (_ || _ || _); [discriminate|]; intros cs Ec; injection Ec as <-; rewrite get_remove; teq; rewrite Z.eqb_refl; cbn [orb]; rewrite ?orb_true_r; reflexivity).
    destruct (Z.eqb_spec q m) as [Hm|Hm]; [|destruct (Z.eqb_spec q M) as [HM|HM]; [|destruct (Z.eqb_spec q bb) as [Hb|Hb]]].
    4: { cbn [orb]. apply andb_true_iff in Hlo. destruct Hlo as [Hno _]. apply negb_true_iff, Z.eqb_neq in Hno. apply Hkeep; simpl; intuition congruence. }
    all: rewrite ?orb_true_r; cbn [orb].
    all: cbn [view_sub_state] in E; subst q; rewrite ?Hq in E.
    all: destruct (get (Idx bb) st); try destruct (get (Idx M) st); try destruct (get (Idx m) st); auto; try discriminate.
  - injection Hn as <-. apply andb_true_iff in Hlo. destruct Hlo as [Hd _]. apply negb_true_iff, mem_false in Hd. simpl in Hd. apply Hkeep; simpl; intuition congruence.
  - injection Hn as <-. apply Hkeep; simpl; intuition congruence.
  - injection Hn as <-. destruct (Hren ps eq_refl) as (H1 & H2 & H3). cbn [view_sub_state] in E. injection E as <-.
    rewrite get_rename_state by assumption. rewrite Views2.ext_name_alt by assumption. destruct (_ && _); [reflexivity|]. rewrite H3. exact Hq.
Qed.

(** The end of the interval where the offset is the lowest. *)
Definition low_end (r : bool) (L : Z) (iv : option (val * val)) (x : Z) : Prop :=
  match iv with
  | None => eqW x (if r then L - 1 else 0)
  | Some (mn, en) => if r then agW en (x + 1) else agW mn x
  end.

(** There is only one index along [q]. *)
Definition lone (s : struct) (l : lenv) (a : asg) (q : dim) : Prop := forall sg p k a2 p2,
  pvalid s l a sg p -> pvalid s l a2 sg p2 -> good s l a2 -> In (q, k) p -> differ_at q p a a2 -> differ_at q p2 a2 a -> a2 q = a q.

Lemma lone_up v t l a q q' r : swf (View v t) = true -> lrange l -> good (View v t) l a -> steady q (View v t) = true ->
  grows r q (View v t) = true -> fall v q = Some q' -> lone t (view_lenv v l) (view_asg v (ilen t) l a) q' -> lone (View v t) l a q.
Proof.
  intros Hw Hl Hg Hst Hlo Hf Hlone sg p k a2 p2 V V2 Hg2 Hq Hd Hd2.
  pose proof (two_down v t l a a2 sg p p2 q k r Hw V V2 Hl Hg Hg2 Hq Hd Hd2 Hst Hlo) as TD. cbn zeta in TD.
  pose proof (fall_index v t l a a2 sg p p2 q k r Hw V V2 Hl Hg Hg2 Hq Hd Hd2 Hst Hlo) as FI. cbn zeta in FI.
  destruct TD as (s0 & p' & p1 & E0 & Ev & R & V1 & V2' & Hnd' & Hnd1 & Hl' & G1 & G2 & _ & _ & TD). rewrite Hf in *.
  destruct TD as (k' & Hk & Hk1 & D1 & D2 & _). apply (proj2 FI). exact (Hlone s0 p' k' _ p1 V1 V2' G2 Hk D1 D2).
Qed.


Lemma turns_grows s : forall q, turns false q s = true -> grows false q s = true.
Proof.
  induction s as [c|d ts IH|d t IH|v t IH|ts IH] using struct_ind'; intros q H; try discriminate.
  - cbn [turns grows] in *. destruct (q =? d); [reflexivity|]. rewrite Forall_forall in IH. rewrite forallb_forall in *. auto.
  - cbn [turns grows] in *. destruct (q =? d); auto.
  - destruct v; cbn [turns grows] in *; try discriminate; auto.
    all: cbn [mem existsb] in *.
    all: repeat match goal with |- context [?u =? ?w] => destruct (u =? w); cbn [orb negb andb] in * end; auto; try discriminate.
    all: rewrite ?orb_true_r in H; discriminate.
Qed.

Lemma lows_grows s : forall n g r q, lows n g r q s = true -> grows r q s = true.
Proof.
  induction s as [c|d ts IH|d t IH|v t IH|ts IH] using struct_ind'; intros n g r q H; try discriminate.
  - cbn [lows grows] in *. destruct (q =? d); [exact H|]. rewrite Forall_forall in IH. rewrite forallb_forall in *. eauto.
  - cbn [lows grows] in *. destruct (q =? d); eauto.
  - assert (Hb : forall d, (if r then n && g && lows false false true d t else turns false d t) = true -> grows r d t = true).
    { intros d. destruct r; [|apply turns_grows]. intros E. apply andb_true_iff in E. eapply IH, E. }
    assert (Ha : forall x y, x && y = true -> x = true /\ y = true) by (intros x y; apply andb_true_iff).
    destruct v; cbn [lows grows] in *; try discriminate; try exact (IH _ _ _ _ H).
    all: cbn [mem existsb] in *.
    all: repeat match goal with H : context [?u =? ?w] |- _ => destruct (u =? w); cbn [orb negb andb] in * end; try discriminate; try reflexivity; try exact (IH _ _ _ _ H);
      try exact (Hb _ H).
    + apply Ha in H. exact (IH _ _ _ _ (proj2 H)).
    + destruct g; [|exact (IH _ _ _ _ H)]. apply Ha in H. destruct H as [-> H]. exact (IH _ _ _ _ H).
    + apply Ha in H. destruct H as [-> H]. exact (Hb _ H).
Qed.

(** A dimension of length one. *)
Lemma lone_one t l a sg p q : swf t = true -> pvalid t l a sg p -> In (q, None) p -> ~ In q (ldeps t q) -> ilen t l a q = 1 -> lone t l a q.
Proof.
  intros Hw V Hq Hn H1 sg' p' k a2 p2 V' V2 _ _ Hd _. pose proof V as (Es & Ep & Fp). destruct V' as (Es' & Ep' & _).
  assert (sg' = sg) by congruence. subst sg'. assert (p' = p) by congruence. subst p'. destruct V2 as (_ & Ep2 & Fp2).
  pose proof (spath_keep sg a a2 p p2 q None Ep Ep2 (swf_path_nodup _ _ _ _ Hw Es Ep) Hq Hd) as Hq2.
  rewrite Forall_forall in Fp, Fp2. specialize (Fp _ Hq). specialize (Fp2 _ Hq2). unfold in_range in Fp, Fp2. cbn [fst snd] in Fp, Fp2.
  rewrite (uswf_loc t (swf_uswf t Hw) l sg a a2 p q Es Ep Hq) in Fp2; [lia|]. intros x Hx Hxp. apply Hd; [exact Hxp|congruence].
Qed.

Definition low_ok (n r : bool) (s : struct) (l : lenv) (a : asg) (q : dim) (iv : option (val * val)) (w : val) (x : Z) : Prop :=
  agW w x \/ (n = true /\ lone s l a q /\ (given iv = true -> r = true) /\ forall x', low_end (negb r) (ilen s l a q) iv x' -> agW w x').

Lemma same_return_r x y w : same_return false x y = Some w -> w = y.
Proof. destruct x, y; cbn [same_return]; try discriminate; try (intros E; injection E as <-; reflexivity). destruct (Z.eqb_spec z z0); [|discriminate]. intros E. injection E as <-. congruence. Qed.

Theorem low_int s : swf s = true -> forall st l a sg p q k n r iv w x, pvalid s l a sg p -> lrange l -> good s l a -> In (q, k) p ->
  steady q s = true -> lows n (given iv) r q s = true -> lenok s l -> agree st l a -> lendef st -> get (Idx q) st = None ->
  low_end r (ilen s l a q) iv x -> lower_bound_at s q st iv = Some w -> low_ok n r s l a q iv w x.
Proof.
  induction s as [c|d ts IH|d t IH|v t IH|ts IH] using struct_ind'; intros Hw st l a sg p q k n r iv w x V Hl Hg Hq Hst Hlo Hlk Hag Hld Hop Hch E; try discriminate.
  - cbn [lower_bound_at] in E. apply guard_Some in E. destruct E as [Eh E]. apply guard_Some in E. destruct E as [_ E]. cbn [lows has_lower_bound] in *.
    destruct (pvalid_tuple _ _ _ _ _ _ V) as (ss & t & s0 & p0 & -> & F & Hx & Et & En & -> & Hda & V').
    destruct (Z.eqb_spec q d) as [->|Hqd].
    { destruct r; [discriminate|]. unfold has in E. rewrite Hop in E. left. destruct iv as [[mn en]|]; injection E as <-; [exact Hch|].
      apply (agW_eqW _ 0); [symmetry; exact Hch|apply agW_Sta]. }
    destruct Hq as [Hq|Hq]; [congruence|]. destruct (has (Idx d) st) eqn:Hi; [|discriminate].
    destruct (tuple_index d st) as [j|] eqn:Ek; [|discriminate]. cbn [obind] in E.
    assert (j = a d).
    { unfold tuple_index in Ek. destruct (get (Idx d) st) as [vi|] eqn:Ei; [|discriminate].
      pose proof (ag_idx _ _ _ Hag _ _ Ei) as Hvi. unfold vagree in Hvi. destruct vi; simpl in *; try discriminate. congruence. }
    subst j. rewrite nthz_map, Et in E. cbn [option_map ojoin] in E.
    pose proof (swf_tuple _ _ Hw) as Hws. rewrite forallb_forall in Hws. pose proof (nthz_In _ _ _ Et) as Hin. rewrite Forall_forall in IH.
    cbn [steady] in Hst. rewrite forallb_forall in Hst, Hlo. simpl in Hlk. apply lenok_all in Hlk. eapply Forall_nthz in Hlk; [|exact Et].
    assert (Hil : ilen (Tuple d ts) l a q = ilen t l a q).
    { cbn [ilen]. destruct (Z.eqb_spec q d); [contradiction|]. rewrite nthz_map, Et. reflexivity. }
    destruct (IH t Hin (Hws t Hin) (remove [Idx d] st) l a s0 p0 q k n r iv w x) as [H|(Hn & Ho & Hr & H)]; auto using agree_remove_idx, lendef_remove_idx.
    + eapply good_tuple; eauto.
    + rewrite get_remove. destruct (tag_mem _ _); [reflexivity|exact Hop].
    + rewrite <- Hil. exact Hch.
    + left. exact H.
    + right. split; [exact Hn|]. split; [|split; [exact Hr|rewrite Hil; exact H]].
      intros sg' p' k' a2 p2 U1 U2 G2 Hq2 D1 D2.
      destruct (pvalid_tuple _ _ _ _ _ _ U1) as (ss1 & t1 & s1 & p1 & -> & _ & _ & Et1 & En1 & -> & _ & U1').
      destruct (pvalid_tuple _ _ _ _ _ _ U2) as (ss2 & t2 & s2 & p3 & Hss & _ & _ & Et2 & En2 & -> & _ & U2'). injection Hss as <-.
      assert (Hdd : a2 d = a d) by (apply D1; [left; reflexivity|congruence]).
      rewrite Hdd in Et2, En2. rewrite Et in Et1, Et2. injection Et1 as <-. injection Et2 as <-. rewrite En1 in En2. injection En2 as <-.
      destruct Hq2 as [Hq2|Hq2]; [congruence|].
      apply (Ho s1 p1 k' a2 p3 U1' U2'); auto.
      * eapply good_tuple; [exact G2|]. rewrite Hdd. exact Et.
      * intros y Hy. apply D1. right. exact Hy.
      * intros y Hy. apply D2. right. exact Hy.
  - cbn [lower_bound_at] in E. apply guard_Some in E. destruct E as [_ E].
    destruct (pvalid_vector _ _ _ _ _ _ V) as (Hi & s0 & p0 & -> & -> & Hnd & V').
    cbn [steady lows] in Hst, Hlo. cbn [good] in Hg.
    destruct (Z.eqb_spec q d) as [->|Hne].
    + destruct r; [discriminate|]. left. destruct iv as [[mn en]|]; injection E as <-; [exact Hch|].
      apply (agW_eqW _ 0); [symmetry; exact Hch|apply agW_Sta].
    + destruct Hq as [Hq|Hq]; [congruence|].
      assert (Hil : ilen (Vector d t) l a q = ilen t (fupd l d None) a q) by (cbn [ilen]; destruct (Z.eqb_spec q d); [contradiction|reflexivity]).
      destruct (IH Hw (remove [Idx d; Len d] st) (fupd l d None) a s0 p0 q k n r iv w x) as [H|(Hn & Ho & Hr & H)]; auto using agree_remove_both, lendef_remove_both, lrange_None.
      * rewrite get_remove. destruct (tag_mem _ _); [reflexivity|exact Hop].
      * rewrite <- Hil. exact Hch.
      * left. exact H.
      * right. split; [exact Hn|]. split; [|split; [exact Hr|rewrite Hil; exact H]].
        intros sg' p' k' a2 p2 U1 U2 G2 Hq2 D1 D2.
        destruct (pvalid_vector _ _ _ _ _ _ U1) as (_ & s1 & p1 & -> & -> & _ & U1').
        destruct (pvalid_vector _ _ _ _ _ _ U2) as (_ & s2 & p3 & Hs2 & -> & _ & U2'). injection Hs2 as <-.
        destruct Hq2 as [Hq2|Hq2]; [congruence|].
        apply (Ho s1 p1 k' a2 p3 U1' U2'); auto.
        -- intros y Hy. apply D1. right. exact Hy.
        -- intros y Hy. apply D2. right. exact Hy.
  - destruct (two_down v t l a a sg p p q k r Hw V V Hl Hg Hg Hq (fun _ _ _ => eq_refl) (fun _ _ _ => eq_refl) Hst (lows_grows _ _ _ _ _ Hlo))
      as (s0 & p' & p1 & E0 & Ev & R & V1 & _ & Hnd' & _ & Hl' & G1 & _ & F1 & _ & Hf).
    destruct (swf_view _ _ Hw) as [Hv Ht]. pose proof (swf_uswf _ Ht) as Hu. pose proof V1 as (_ & Ep' & Fr').
    assert (Hs0 : signature (View v t) <> None) by (destruct V; congruence). assert (Ht0 : signature t <> None) by congruence.
    assert (Hlift : forall q', fall v q = Some q' -> lone t (view_lenv v l) (view_asg v (ilen t) l a) q' -> lone (View v t) l a q).
    { intros q'. apply (lone_up v t l a q q' r Hw Hl Hg Hst (lows_grows _ _ _ _ _ Hlo)). }
    assert (Hopen : forall q' st', fall v q = Some q' -> sub_state v t st = Some st' -> get (Idx q') st' = None).
    { intros q' st' Hn Est. apply (low_open v t st st' q q' r Est Hn (lows_grows _ _ _ _ _ Hlo)); [| |exact Hop].
      - intros d i ->. cbn [prel] in R. subst p. apply in_pm in Hq. destruct Hq as [[_ Hne]|(k0 & _ & [])]. exact Hne.
      - intros ps ->. cbn [prel] in R. subst p. apply in_map_iff in Hq. destruct Hq as ([q0 k0] & Hqe & Hq'). cbn [fst snd] in Hqe. injection Hqe as <- ->.
        cbn [view_sig] in Ev. destruct (nodupb (map fst ps) && _ && _) eqn:Er in Ev; [|discriminate].
        assert (Hback : rename_in ps (rename_dim ps q0) = q0) by exact (rename_back ps s0 q0 Er (spath_accept' _ _ _ _ _ Ep' Hq')).
        rewrite !andb_true_iff, !nodupb_NoDup in Er. rewrite Hback. tauto. }
    set (l' := view_lenv v l) in *. set (b := view_asg v (ilen t) l a) in *.
    assert (Hsub : forall q' n' r' iv' w' x', fall v q = Some q' -> lows n' (given iv') r' q' t = true -> low_end r' (ilen t l' b q') iv' x' ->
      (do st' <- sub_state v t st; lower_bound_at t q' st' iv') = Some w' -> low_ok n' r' t l' b q' iv' w' x').
    { intros q' n' r' iv' w' x' Hn Hlo' Hch' E'. rewrite Hn in Hf. destruct Hf as (k' & Hk & _ & _ & _ & Hs').
      destruct (sub_state v t st) as [st'|] eqn:Est; cbn [obind] in E'; [|discriminate]. pose proof (Hopen q' st' Hn eq_refl) as Hop'.
      apply (IH Ht st' l' b s0 p' q' k' n' r' iv' w' x' V1 Hl' G1 Hk Hs' Hlo' (proj2 Hlk)); auto.
      - exact (sub_state_refines _ _ _ _ _ _ Hs0 Hlk Hag Est).
      - exact (sub_lendef _ _ _ _ _ _ Hv Hs0 Hlk Hag Est Hld). }
    assert (Hlen : forall e y, (do st' <- sub_state v t st; length_ t e st') = Some y -> agW y (ilen t l' b e)).
    { intros e y En. destruct (sub_state v t st) as [st'|] eqn:Est; [|discriminate]. cbn [obind] in En. apply agW_vagree.
      exact (length_agree t Ht0 st' l' b e y (proj2 Hlk) (sub_state_refines _ _ _ _ _ _ Hs0 Hlk Hag Est) En). }
    (* a view that leaves [q] alone *)
    assert (Hplain : forall q', fall v q = Some q' -> ilen (View v t) l a q = ilen t l' b q' -> lows n (given iv) r q' t = true ->
      (do st' <- sub_state v t st; lower_bound_at t q' st' iv) = Some w -> low_ok n r (View v t) l a q iv w x).
    { intros q' Hn Hil Hlo' E'. destruct (Hsub q' n r iv w x Hn Hlo' ltac:(rewrite <- Hil; exact Hch) E') as [H|(H1 & H2 & H3 & H4)]; [left; exact H|right].
      split; [exact H1|]. split; [exact (Hlift q' Hn H2)|]. split; [exact H3|]. rewrite Hil. exact H4. }
    (* a view that moves [q] by a constant *)
    assert (Hmoved : forall start none, fall v q = Some q -> lows n true r q t = true ->
      (iv = None -> r = true -> forall e, none = Some e -> agW e (ilen (View v t) l a q + vzd start)) ->
      match iv with
      | None => do e <- none; do y <- (do st' <- sub_state v t st; lower_bound_at t q st' (Some (start, e))); Some (vsub y start)
      | Some (mn, en) => do y <- (do st' <- sub_state v t st; lower_bound_at t q st' (Some (vadd mn start, vadd en start))); Some (vsub y start) end = Some w ->
      low_ok n r (View v t) l a q iv w x).
    { intros start none Hn Hlo' Hnone E'.
      assert (exists iv' y, given iv' = true /\ (do st' <- sub_state v t st; lower_bound_at t q st' iv') = Some y /\ w = vsub y start /\
        (forall r' x', (r' = true -> r = true) -> low_end r' (ilen (View v t) l a q) iv x' -> low_end r' (ilen t l' b q) iv' (x' + vzd start))) as (iv' & y & Hgiv & Ey & -> & Hend).
      { destruct iv as [[mn en]|].
        - destruct (do st' <- sub_state v t st; lower_bound_at t q st' _) as [y|] eqn:Ey in E'; [|discriminate]. cbn [obind] in E'. injection E' as <-.
          exists (Some (vadd mn start, vadd en start)), y. do 3 (split; [assumption || reflexivity|]). intros r' x' _ H. unfold low_end in *. destruct r'.
          + apply (agW_eqW _ (x' + 1 + vzd start)); [apply eqW_eq; lia|]. apply agW_add; [exact H|apply agW_self].
          + apply agW_add; [exact H|apply agW_self].
        - destruct none as [e|]; [|discriminate]. cbn [obind] in E'.
          destruct (do st' <- sub_state v t st; lower_bound_at t q st' _) as [y|] eqn:Ey in E'; [|discriminate]. cbn [obind] in E'. injection E' as <-.
          exists (Some (start, e)), y. do 3 (split; [assumption || reflexivity|]). intros r' x' Hr H. unfold low_end in *. destruct r'.
          + apply (agW_eqW _ (ilen (View v t) l a q + vzd start)); [rewrite H; apply eqW_eq; lia|]. apply Hnone; auto.
          + apply (agW_eqW _ (vzd start)); [rewrite H; reflexivity|apply agW_self]. }
      assert (Hback : forall x', agW y (x' + vzd start) -> agW (vsub y start) x').
      { intros x' H. apply (agW_eqW _ (x' + vzd start - vzd start)); [apply eqW_eq; lia|]. apply agW_sub; [exact H|apply agW_self]. }
      assert (Hlo2 : lows n (given iv') r q t = true) by (rewrite Hgiv; exact Hlo').
      destruct (Hsub q n r iv' y (x + vzd start) Hn Hlo2 (Hend r x (fun e => e) Hch) Ey) as [H|(H1 & H2 & H3 & H4)]; [left; auto|right].
      specialize (H3 Hgiv). subst r. split; [exact H1|]. split; [exact (Hlift q Hn H2)|]. split; [reflexivity|].
      intros x' Hx'. apply Hback, H4, Hend; [discriminate|exact Hx']. }
    (* the index in a block *)
    assert (Hminor : forall d m, q = m -> fall v q = Some d -> lows n true r d t = true ->
      match iv with
      | None => do y <- length_ (View v t) m st; do st' <- sub_state v t st; lower_bound_at t d st' (Some (Sta 0, y))
      | Some _ => do st' <- sub_state v t st; lower_bound_at t d st' iv end = Some w -> low_ok n r (View v t) l a q iv w x).
    { intros d m Hqm Hn Hlo' E'.
      assert (exists iv', given iv' = true /\ (do st' <- sub_state v t st; lower_bound_at t d st' iv') = Some w /\
        (forall r' x', low_end r' (ilen (View v t) l a q) iv x' -> low_end r' (ilen t l' b d) iv' x')) as (iv' & Hgiv & Ey & Hend).
      { destruct iv as [[mn en]|].
        - exists (Some (mn, en)). do 2 (split; [assumption || reflexivity|]). intros r' x' H. exact H.
        - destruct (length_ (View v t) m st) as [y|] eqn:En; [|discriminate]. cbn [obind] in E'. exists (Some (Sta 0, y)).
          do 2 (split; [assumption || reflexivity|]). intros r' x' H. unfold low_end in *. destruct r'.
          + apply (agW_eqW _ (ilen (View v t) l a q)); [rewrite H; apply eqW_eq; lia|]. subst m. exact (agW_vagree _ _ (length_agree _ Hs0 st l a q y Hlk Hag En)).
          + apply (agW_eqW _ 0); [rewrite H; reflexivity|apply agW_Sta]. }
      assert (Hlo2 : lows n (given iv') r d t = true) by (rewrite Hgiv; exact Hlo').
      destruct (Hsub d n r iv' w x Hn Hlo2 (Hend r x Hch) Ey) as [H|(H1 & H2 & H3 & H4)]; [left; exact H|right].
      specialize (H3 Hgiv). subst r. split; [exact H1|]. split; [exact (Hlift d Hn H2)|]. split; [reflexivity|]. intros x' Hx'. apply H4, Hend, Hx'. }
    (* the index of a block *)
    assert (Hmajor : forall d (none : option val) (y0 : val -> val), fall v q = Some d -> (forall k', In (d, k') p' -> k' = None) -> ~ In d (ldeps t d) ->
      (if r then n && given iv && lows false false true d t else turns false d t) = true ->
      (do z <- (do st' <- sub_state v t st; lower_bound_at t d st' None);
       match iv with
       | None => do y <- none; same_return (is_zero z) (Sta 0) (y0 y)
       | Some (mn, en) => same_return (is_zero z) mn (vsub en (Sta 1)) end) = Some w -> low_ok n r (View v t) l a q iv w x).
    { intros d none y0 Hn Hfun Hnl Hb E'. pose proof Hf as Hf'. rewrite Hn in Hf'. destruct Hf' as (k' & Hk & _ & _ & _ & Hs'). pose proof (Hfun _ Hk) as ->.
      destruct (do st' <- sub_state v t st; lower_bound_at t d st' None) as [z|] eqn:Ez in E'; [|discriminate]. cbn [obind] in E'. destruct r.
      - apply andb_true_iff in Hb. destruct Hb as [Hb Hlo']. apply andb_true_iff in Hb. destruct Hb as [Hnt Hgiv]. destruct iv as [[mn en]|]; [|discriminate].
        destruct (Hsub d false true None z (ilen t l' b d - 1) Hn Hlo' ltac:(reflexivity) Ez) as [Hz|(H & _)]; [|discriminate].
        destruct (is_zero z) eqn:Ei.
        + apply same_return_l in E'. subst w. right. split; [exact Hnt|]. split; [|split; [reflexivity|intros x' H; exact H]].
          apply (Hlift d Hn). apply (lone_one t l' b s0 p' d Ht V1 Hk Hnl). unfold is_zero in Ei. destruct (vz z) as [zv|] eqn:Ezv; [|discriminate].
          assert (zv = 0) by (destruct zv; [reflexivity|discriminate|discriminate]). subst zv. specialize (Hz 0 Ezv).
          pose proof (ilen_range t l' b d Hl') as Hr. rewrite Forall_forall in Fr'. specialize (Fr' _ Hk). unfold in_range in Fr'. cbn [fst snd] in Fr'.
          unfold eqW in Hz. rewrite !u64_small in Hz by (pose proof W_pos; lia). lia.
        + apply same_return_r in E'. subst w. left. apply (agW_eqW _ (x + 1 - 1)); [apply eqW_eq; lia|]. apply agW_sub; [exact Hch|apply agW_Sta].
      - left. assert (Hz : is_zero z = true).
        { destruct (sub_state v t st) as [st'|] eqn:Est; cbn [obind] in Ez; [|discriminate]. pose proof (Hopen d st' Hn eq_refl) as Hop'.
          set (b' := fupd b d 0).
          assert (Hb' : forall y, y <> d -> b' y = b y) by (intros y Hy; apply fupd_neq, Hy). assert (Hd' : b' d = 0) by apply fupd_eq.
          assert (Epb : spath s0 b' = Some p').
          { eapply spath_ext; [exact Ep'|]. intros e y He. apply Hb'. intros ->. discriminate (Hfun _ He). }
          destruct (proj2 (lower_int t Ht st' l' b' s0 p' d false None z E0 Epb Hk Hs' Hb (never_false _ _) (proj2 Hlk)
            ltac:(destruct (sub_state_refines _ _ _ _ _ _ Hs0 Hlk Hag Est) as [Hg1 Hg2]; split; [exact Hg1|]; intros y vy Hy; rewrite Hb'; [apply Hg2, Hy|congruence])
            (sub_lendef _ _ _ _ _ _ Hv Hs0 Hlk Hag Est Hld) Hop' ltac:(unfold chosen; rewrite Hd'; reflexivity)) Ez) as [Z1 Z2].
          specialize (Z2 eq_refl I). unfold is_zero. destruct (vz z) as [zv|] eqn:Ezv; [|congruence]. specialize (Z1 zv Ezv). rewrite Hd' in Z1.
          unfold eqW in Z1. rewrite !u64_small in Z1 by (try (eapply vz_range; exact Ezv); pose proof W_pos; lia). subst zv. reflexivity. }
        rewrite Hz in E'. destruct iv as [[mn en]|].
        + apply same_return_l in E'. subst w. exact Hch.
        + destruct none as [y|]; [|discriminate]. cbn [obind] in E'. apply same_return_l in E'. subst w.
          apply (agW_eqW _ 0); [symmetry; exact Hch|apply agW_Sta]. }
    assert (Hvs := Hv). unfold view_swf in Hvs. rewrite E0 in Hvs.
    cbn [lower_bound_at] in E. apply guard_Some in E. destruct E as [_ E].
    destruct v as [d|d i|d ln|d s|d s len|d s en|d s rr|d|d M m|d M m pd|d bb M m ml|M m d|sl gl d ds|ds|d|ps|xa xb d];
      cbn [lows fall vnext] in *; try discriminate; try (apply (Hplain q); [reflexivity|reflexivity|exact Hlo|exact E]).
    + (* bcast *) destruct (Z.eqb_spec q d) as [->|Hne].
      * destruct r; [discriminate|]. left. destruct iv as [[mn en]|]; injection E as <-; [exact Hch|].
        apply (agW_eqW _ 0); [symmetry; exact Hch|apply agW_Sta].
      * apply (Hplain q); [reflexivity| |exact Hlo|exact E]. cbn [ilen view_ilen]. destruct (Z.eqb_spec q d); [contradiction|reflexivity].
    + (* shift *) destruct (Z.eqb_spec q d) as [->|Hne].
      * apply andb_true_iff in Hlo. destruct Hlo as [Hg0 Hlo]. eapply Hmoved; [reflexivity|exact Hlo| |exact E].
        intros -> ->. discriminate.
      * apply (Hplain q); [reflexivity| |exact Hlo|exact E]. cbn [ilen view_ilen]. destruct (Z.eqb_spec q d); [contradiction|reflexivity].
    + (* slice *) destruct (Z.eqb_spec q d) as [->|Hne].
      * eapply Hmoved; [reflexivity|exact Hlo| |exact E]. intros _ _ e Ee. injection Ee as <-. cbn [ilen view_ilen]. rewrite Z.eqb_refl.
        apply (agW_eqW _ (vzd s + vzd len)); [apply eqW_eq; lia|]. apply agW_add; apply agW_self.
      * apply (Hplain q); [reflexivity| |exact Hlo|exact E]. cbn [ilen view_ilen]. destruct (Z.eqb_spec q d); [contradiction|reflexivity].
    + (* span *) destruct (Z.eqb_spec q d) as [->|Hne].
      * eapply Hmoved; [reflexivity|exact Hlo| |exact E]. intros _ _ e Ee. injection Ee as <-. cbn [ilen view_ilen]. rewrite Z.eqb_refl.
        apply (agW_eqW _ (vzd en)); [rewrite eqW_u64; apply eqW_eq; lia|]. apply agW_self.
      * apply (Hplain q); [reflexivity| |exact Hlo|exact E]. cbn [ilen view_ilen]. destruct (Z.eqb_spec q d); [contradiction|reflexivity].
    + (* reverse *)
      cbn [prel] in R. subst p'. apply andb_true_iff in Hvs. destruct Hvs as [Hdep Hvs]. rewrite forallb_forall in Hvs. apply negb_true_iff, mem_false in Hdep.
      assert (Hsame : forall n' g' r', lows n' g' r' q t = true -> ilen t l' a q = ilen t l' b q).
      { intros n' g' r' Hlo'. destruct k as [c|].
        - apply (dep_loc t Ht l' s0 b a p q c r' E0 Ep' Hq (lows_grows _ _ _ _ _ Hlo')). intros y ky Hy. unfold b. cbn [view_asg]. rewrite fupd_neq; [reflexivity|].
          intros ->. apply Hdep. eapply spath_sdep; eauto.
        - specialize (Hvs q (proj1 (accept_sdims _ _) (spath_accept' _ _ _ _ _ Ep' Hq))). apply negb_true_iff, mem_false in Hvs.
          apply (uswf_loc t Hu l' s0 b a p q E0 Ep' Hq). intros y Hy _. unfold b. cbn [view_asg]. rewrite fupd_neq; [reflexivity|]. congruence. }
      destruct (Z.eqb_spec q d) as [->|Hne].
      * destruct (do st' <- sub_state (VReverse d) t st; length_ t d st') as [y|] eqn:En in E; [|discriminate]. cbn [obind] in E.
        pose proof (Hlen d y En) as Hy.
        assert (Hback : forall z x', agW z (ilen t l' b d - 1 - x') -> agW (vsub (vsub y (Sta 1)) z) x').
        { intros z x' Hz. apply (agW_eqW _ (ilen t l' b d - 1 - (ilen t l' b d - 1 - x'))); [apply eqW_eq; lia|].
          apply agW_sub; [apply agW_sub; [exact Hy|apply agW_Sta]|exact Hz]. }
        destruct iv as [[mn en]|].
        -- cbn [given] in Hlo. apply andb_true_iff in Hlo. destruct Hlo as [-> Hlo].
           destruct (do st' <- sub_state _ t st; lower_bound_at t d st' _) as [z|] eqn:Ez in E; [|discriminate]. cbn [obind] in E. injection E as <-.
           destruct (Hsub d n false (Some (vsub y en, vsub (vsub y (Sta 1)) mn)) z (ilen t l' b d - 1 - x) eq_refl Hlo) as [H|(_ & _ & H & _)]; auto.
           ++ unfold low_end in *. apply (agW_eqW _ (ilen t l' b d - (x + 1))); [apply eqW_eq; lia|]. apply agW_sub; [exact Hy|exact Hch].
           ++ left. apply Hback, H.
           ++ discriminate (H eq_refl).
        -- cbn [given] in Hlo. specialize (Hsame _ _ _ Hlo).
           destruct (do st' <- sub_state _ t st; lower_bound_at t d st' _) as [z|] eqn:Ez in E; [|discriminate]. cbn [obind] in E. injection E as <-.
           assert (Hend : forall r' x', low_end r' (ilen (View (VReverse d) t) l a d) None x' -> low_end (negb r') (ilen t l' b d) None (ilen t l' b d - 1 - x')).
           { intros r' x' H. unfold low_end in *. cbn [ilen view_ilen] in H. fold l' in H. rewrite Hsame in H. rewrite H. apply eqW_eq. destruct r'; cbn [negb]; lia. }
           destruct (Hsub d n (negb r) None z (ilen t l' b d - 1 - x) eq_refl Hlo (Hend r x Hch) Ez) as [H|(H1 & H2 & _ & H4)]; [left; apply Hback, H|right].
           split; [exact H1|]. split; [exact (Hlift d eq_refl H2)|]. split; [discriminate|]. intros x' Hx'. apply Hback, H4, Hend, Hx'.
      * apply (Hplain q); [reflexivity| |exact Hlo|exact E]. cbn [ilen view_ilen]. fold l'. exact (Hsame _ _ _ Hlo).
    + (* blocks *) apply negb_true_iff, mem_false in Hvs. destruct (Z.eqb_spec q m) as [Hm|Hm].
      { apply (Hminor d m Hm); [rewrite orb_true_r; reflexivity|exact Hlo|exact E]. }
      destruct (Z.eqb_spec q M) as [HM|HM].
      { apply (Hmajor d (length_ (View (VBlocks d M m) t) m st) (fun y => vsub y (Sta 1))); [reflexivity|exact (proj2 R)|exact Hvs|exact Hlo|exact E]. }
      apply andb_true_iff in Hlo. destruct Hlo as [Hno Hlo].
      apply (Hplain q); [reflexivity| |exact Hlo|exact E]. cbn [ilen view_ilen]. destruct (Z.eqb_spec q m); [contradiction|]. destruct (Z.eqb_spec q M); [contradiction|]. reflexivity.
    + (* dynamic *) destruct iv; [discriminate|]. apply negb_true_iff, mem_false in Hvs.
      assert (Hne : M <> m /\ M <> pd /\ m <> pd) by (cbn [view_sig] in Ev; destruct (_ || _) eqn:Eb in Ev; [discriminate|]; clear - Eb; lia).
      destruct (Z.eqb_spec q m) as [Hm|Hm].
      { apply (Hminor d m Hm); [rewrite orb_true_r; destruct (Z.eqb_spec q pd); [clear - Hne Hm e; lia|reflexivity]|exact Hlo|exact E]. }
      destruct (Z.eqb_spec q M) as [HM|HM].
      { apply (Hmajor d (length_ (View (VBlocksDyn d M m pd) t) m st) (fun y => vsub y (Sta 1))); [|exact (proj2 R)|exact Hvs|exact Hlo|exact E].
        destruct (Z.eqb_spec q pd); [clear - Hne HM e; lia|reflexivity]. }
      destruct (Z.eqb_spec q pd) as [Hp|Hp].
      { destruct r; [discriminate|]. left. injection E as <-. apply (agW_eqW _ 0); [symmetry; exact Hch|apply agW_Sta]. }
      apply andb_true_iff in Hlo. destruct Hlo as [Hno Hlo].
      apply (Hplain q); [reflexivity| |exact Hlo|exact E]. cbn [ilen view_ilen]. destruct (Z.eqb_spec q pd); [contradiction|]. destruct (Z.eqb_spec q m); [contradiction|]. destruct (Z.eqb_spec q M); [contradiction|]. reflexivity.
    + (* static *) apply andb_true_iff in Hvs. destruct Hvs as [_ Hvs]. apply negb_true_iff, mem_false in Hvs.
      destruct (Z.eqb_spec q m) as [Hm|Hm].
      { apply (Hminor d m Hm); [rewrite !orb_true_r; reflexivity|exact Hlo|exact E]. }
      destruct (Z.eqb_spec q M) as [HM|HM].
      { apply (Hmajor d (length_ (View (VBlocksSta d bb M m ml) t) m st) (fun y => vsub y (Sta 1))); [rewrite orb_true_r; reflexivity|exact (proj2 R)|exact Hvs|exact Hlo|exact E]. }
      destruct (Z.eqb_spec q bb) as [Hb|Hb].
      { apply andb_true_iff in Hlo. destruct Hlo as [_ Hlo].
        apply (Hmajor d (Some (Sta 0)) (fun _ => Sta 1)); [reflexivity|exact (proj2 R)|exact Hvs|exact Hlo|].
        destruct (do st' <- sub_state _ t st; lower_bound_at t d st' None) as [z|] eqn:Ez in E; [|discriminate]. rewrite Ez. cbn [obind] in *.
        destruct iv as [[mn en]|]; [|exact E]. destruct (length_ _ m st); [exact E|discriminate]. }
      apply andb_true_iff in Hlo. destruct Hlo as [Hno Hlo].
      apply (Hplain q); [reflexivity| |exact Hlo|exact E]. cbn [ilen view_ilen]. destruct (Z.eqb_spec q m); [contradiction|]. destruct (Z.eqb_spec q M); [contradiction|]. destruct (Z.eqb_spec q bb); [contradiction|]. reflexivity.
    + (* merge *) apply andb_true_iff in Hlo. destruct Hlo as [Hno Hlo]. apply negb_true_iff, mem_false in Hno. simpl in Hno.
      assert (q <> d) as H1 by intuition. destruct (Z.eqb_spec q d); [contradiction|].
      apply (Hplain q); [reflexivity| |exact Hlo|exact E]. cbn [ilen view_ilen]. destruct (Z.eqb_spec q d); [contradiction|]. reflexivity.
    + (* rename *) apply (Hplain (rename_in ps q)); [reflexivity|reflexivity|exact Hlo|exact E].
Qed.
(** ** Through the API *)

Lemma differ_setup2 s st1 st2 p1 p2 q k : used_correctly s st1 -> used_correctly s st2 -> names_element s st1 p1 -> names_element s st2 p2 ->
  differ_in q st1 st2 -> In (q, k) p1 ->
  exists sg, pvalid s (lenv_of st1) (asg_of st1) sg p1 /\ pvalid s (lenv_of st1) (asg_of st2) sg p2 /\ good s (lenv_of st1) (asg_of st2) /\
    differ_at q p1 (asg_of st1) (asg_of st2) /\ differ_at q p2 (asg_of st2) (asg_of st1) /\ In (q, k) p2 /\
    ioff s (lenv_of st2) (asg_of st2) = ioff s (lenv_of st1) (asg_of st2).
Proof.
  intros (Hw & Hlk & Hg1 & Hd1) (_ & Hlk2 & Hg2 & Hd2) N1 N2 Hd Hq.
  destruct (signature s) as [sg|] eqn:Es; [|destruct N1 as [N1 _]; unfold dims_of in N1; rewrite Es in N1; discriminate].
  destruct (names_pvalid s st1 sg p1 Hw Hlk Es N1) as [V1 P1]. destruct (names_pvalid s st2 sg p2 Hw Hlk2 Es N2) as [V2 P2].
  assert (Hlv : forall d, lenv_of st1 d = lenv_of st2 d) by (intros d; unfold lenv_of; rewrite (Hd (Len d)) by discriminate; reflexivity).
  assert (Hda : forall x, x <> q -> asg_of st2 x = asg_of st1 x).
  { intros x Hx. unfold asg_of. rewrite (Hd (Idx x)) by congruence. reflexivity. }
  assert (Hd12 : differ_at q p1 (asg_of st1) (asg_of st2)) by (intros x _ Hx; apply Hda, Hx).
  exists sg. split; [exact V1|]. split; [|split; [|split; [exact Hd12|split; [intros x _ Hx; symmetry; apply Hda, Hx|split]]]].
  - destruct V2 as (_ & Ep2 & Hr2). split; [exact Es|]. split; [exact Ep2|]. revert Hr2. apply Forall_impl. intros [d j]. unfold in_range. cbn [fst snd]. destruct j; [auto|].
    rewrite (ilen_ext s (lenv_of st2) (lenv_of st1) (asg_of st2) (asg_of st2)); auto using eqf_refl. exact (eqf_sym _ _ Hlv).
  - eapply good_ext; [| |exact Hg2]; [exact (eqf_sym _ _ Hlv)|apply eqf_refl].
  - destruct V1 as (_ & Ep1 & _), V2 as (_ & Ep2 & _). exact (spath_keep sg _ _ p1 p2 q k Ep1 Ep2 (swf_path_nodup _ _ _ _ Hw Es Ep1) Hq Hd12).
  - apply ioff_ext; [exact (eqf_sym _ _ Hlv)|apply eqf_refl].
Qed.

Lemma at_index_is st q i : at_index st q i -> asg_of st q = i.
Proof. intros (w & Hw & Hi). unfold asg_of. rewrite Hw. apply vzd_vz, Hi. Qed.

(** An element below all others of the interval, or the only one. *)
Lemma grows_lowest s q k r st p x y : used_correctly s st -> fits s st -> names_element s st p -> In (q, k) p ->
  steady q s = true -> grows r q s = true -> x < y -> (asg_of st q = low_index r x y \/ lone s (lenv_of st) (asg_of st) q) -> lowest s q x y st.
Proof.
  intros U Hf N Hq Hst Hgr Hxy Ha st2 p2 i2 o o2 z z2 U2 N2 Hd Hi2 Hr E E2 Hz Hz2.
  destruct (differ_setup2 _ _ _ _ _ _ _ U U2 N N2 Hd Hq) as (sg & V1 & V2 & G2 & D1 & D2 & Hq2 & Hio).
  destruct (access_offset _ _ _ _ U N E) as (_ & _ & _ & _ & _ & _ & O1).
  destruct (access_offset _ _ _ _ U2 N2 E2) as (_ & _ & _ & _ & _ & _ & O2). rewrite Hio in O2.
  destruct U as (Hw & Hlk & G1 & L1). pose proof (at_index_is _ _ _ Hi2) as Ha2.
  destruct (int_in_bounds s _ _ sg p Hw (lrange_of st) G1 V1) as (c1 & _ & A1 & A2 & A3).
  destruct (int_in_bounds s _ _ sg p2 Hw (lrange_of st) G2 V2) as (c2 & _ & B1 & B2 & B3).
  unfold fits in Hf. rewrite u64_small in O1, O2 by lia. rewrite Hz in O1. rewrite Hz2 in O2. injection O1 as ->. injection O2 as ->.
  pose proof (grows_mono s Hw _ _ _ sg p p2 q k r V1 V2 (lrange_of st) G1 G2 Hq D1 D2 Hst Hgr) as M1.
  pose proof (grows_mono s Hw _ _ _ sg p2 p q k r V2 V1 (lrange_of st) G2 G1 Hq2 D2 D1 Hst Hgr) as M2.
  destruct Ha as [Ha|Ho].
  - destruct r; cbn [low_index] in Ha; [apply M2|apply M1]; lia.
  - specialize (Ho sg p k _ p2 V1 V2 G2 Hq D1 D2). destruct r; [apply M2|apply M1]; lia.
Qed.

Lemma low_end_ok s q r st0 l a iv x y : signature s <> None -> lenok s l -> agree st0 l a ->
  interval s q st0 iv x y -> low_end r (ilen s l a q) iv (low_index r x y).
Proof.
  intros Hs Hlk Hag Hiv. unfold low_end, low_index. destruct iv as [[mn en]|]; cbn [interval] in Hiv.
  - destruct Hiv as [Hx Hy]. destruct r.
    + intros z Hz. rewrite Hy in Hz. injection Hz as <-. apply eqW_eq. lia.
    + intros z Hz. rewrite Hx in Hz. injection Hz as <-. reflexivity.
  - destruct Hiv as (-> & n & En & Hn). destruct r; [|reflexivity].
    pose proof (length_agree s Hs st0 l a q n Hlk Hag En) as H. unfold vagree in H. rewrite Hn in H. rewrite H. reflexivity.
Qed.

Theorem low_at_api s q k r st0 st p iv x y w i : used_correctly s st -> fits s st -> names_element s st p -> In (q, k) p ->
  steady q s = true -> lows true (given iv) r q s = true -> with_fewer_indices q st0 st -> interval s q st0 iv x y -> x < y ->
  lower_bound_at s q st0 iv = Some w -> vz w = Some i -> at_index st q i -> x <= i < y /\ lowest s q x y st.
Proof.
  intros U Hf N Hq Hst Hlo Hfe Hiv Hxy E Hi Hat. pose proof (at_index_is _ _ _ Hat) as Ha.
  pose proof (interval_range _ _ _ _ _ _ Hiv) as [Hx Hy]. pose proof U as (Hw & Hlk & G1 & L1).
  destruct (signature s) as [sg|] eqn:Es; [|destruct N as [N _]; unfold dims_of in N; rewrite Es in N; discriminate].
  destruct (names_pvalid s st sg p Hw Hlk Es N) as [V P1]. destruct (fewer_agree _ _ _ p Hfe L1 P1) as (Hag & Hld & _).
  assert (Hend : forall r', low_end r' (ilen s (lenv_of st) (asg_of st) q) iv (low_index r' x y)) by (intros r'; eapply low_end_ok; eauto; congruence).
  assert (Hr : forall r', 0 <= low_index r' x y < W /\ x <= low_index r' x y < y) by (intros r'; unfold low_index; destruct r'; lia).
  destruct (low_int s Hw st0 (lenv_of st) (asg_of st) sg p q k true r iv w (low_index r x y) V (lrange_of st) G1 Hq Hst Hlo Hlk Hag Hld (fewer_open _ _ _ Hfe) (Hend r) E)
    as [H|(_ & Ho & _ & H)].
  - pose proof (agW_exact w i _ H Hi (proj1 (Hr r))) as ->. split; [apply Hr|]. eapply grows_lowest; eauto using lows_grows.
  - pose proof (agW_exact w i _ (H _ (Hend (negb r))) Hi (proj1 (Hr (negb r)))) as ->. split; [apply Hr|]. eapply grows_lowest; eauto using lows_grows.
Qed.
