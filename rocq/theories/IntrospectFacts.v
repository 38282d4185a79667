(** * Facts about the introspection queries *)

From Coq Require Import Setoid Morphisms.
From Verif Require Export SpecIntrospect Access Select Parts.

(** ** Arithmetic modulo 2^64 *)

Definition eqW (x y : Z) : Prop := u64 x = u64 y.
Lemma eqW_word x y : eqW x y -> same_word x y.
Proof. unfold eqW, same_word, u64. rewrite W_eq. auto. Qed.
#[global] Instance eqW_equiv : Equivalence eqW.
Proof. split; unfold eqW; [intros x|intros x y|intros x y z]; congruence. Qed.
#[global] Instance eqW_add : Proper (eqW ==> eqW ==> eqW) Z.add.
Proof. intros x y H x2 y2 H2. unfold eqW in *. rewrite <- (u64_add_l x), <- (u64_add_r _ x2), H, H2, u64_add_r, u64_add_l. reflexivity. Qed.
#[global] Instance eqW_sub : Proper (eqW ==> eqW ==> eqW) Z.sub.
Proof. intros x y H x2 y2 H2. unfold eqW in *. rewrite <- (u64_sub_l x), <- (u64_sub_r _ x2), H, H2, u64_sub_r, u64_sub_l. reflexivity. Qed.
#[global] Instance eqW_mul : Proper (eqW ==> eqW ==> eqW) Z.mul.
Proof. intros x y H x2 y2 H2. unfold eqW in *. rewrite <- (u64_mul_l x), <- (u64_mul_r _ x2), H, H2, u64_mul_r, u64_mul_l. reflexivity. Qed.
Lemma eqW_u64 x : eqW (u64 x) x.
Proof. unfold eqW. apply u64_u64. Qed.
#[global] Instance eqW_wrap : Proper (eqW ==> eqW) u64.
Proof. intros x y H. unfold eqW in *. rewrite !u64_u64. exact H. Qed.
Lemma eqW_eq x y : x = y -> eqW x y.
Proof. intros ->. reflexivity. Qed.

(** ** What a view does to a change of one index *)

(** The dimension below that changes with [q], if any, and by how much. *)
Definition vnext (v : view) (q : dim) : option dim :=
  match v with
  | VBcast d => if q =? d then None else Some q
  | VBlocks d M m | VBlocksSta d _ M m _ => Some (if (q =? M) || (q =? m) then d else q)
  | VBlocksDyn d M m p => if q =? p then None else Some (if (q =? M) || (q =? m) then d else q)
  | VRename ps => Some (rename_in ps q)
  | _ => Some q
  end.

Definition vcoef (v : view) (t : struct) (l : lenv) (a : asg) (q : dim) : Z :=
  match v with
  | VStep d _ r => if q =? d then vzd r else 1
  | VReverse d => if q =? d then -1 else 1
  | VBlocks d M m => if q =? M then minor_len l M m (ilen t (view_lenv v l) a d) else 1
  | VBlocksDyn d M m _ => if q =? M then minor_len_up l M m (ilen t (view_lenv v l) a d) else 1
  | VBlocksSta d b M m ml => if q =? M then (if a b =? 0 then vzd ml else 0) else 1
  | _ => 1
  end.

Definition steady_view (q : dim) (v : view) (t : struct) : bool :=
  match v with
  | VReverse d => (q =? d) || negb (mem q (ldeps t d))
  | VBlocks d _ _ | VBlocksSta d _ _ _ _ => negb (mem q (ldeps t d))
  | VBlocksDyn d _ _ p => (q =? p) || negb (mem q (ldeps t d))
  | VMerge M m d => negb (q =? d) && negb (mem q (ldeps t m))
  | VZCurve _ _ d ds => negb (q =? d) && negb (mem q (flat_map (ldeps t) ds))
  | VJoin _ _ _ => false
  | _ => true
  end.

Section ViewStep.
  Variables (v : view) (t : struct) (s0 sg : sig) (l : lenv) (a a2 : asg) (p' p : path) (q : dim).
  Hypothesis Ht : uswf t = true.
  Hypothesis Hw : view_swf v t = true.
  Hypothesis E0 : signature t = Some s0.
  Hypothesis Ev : view_sig v s0 = Some sg.
  Hypothesis Ep' : spath s0 (view_asg v (ilen t) l a) = Some p'.
  Hypothesis R : prel v p' p.
  Hypothesis Hnd : NoDup (map fst p').
  Hypothesis Hq : In (q, None) p.
  Hypothesis Hst : steady_view q v t = true.
  Hypothesis Hd : forall x, In x (map fst p) -> x <> q -> a2 x = a x.

  Lemma same_below' x : In x (map fst p') -> ~ In q (view_adep v (ldeps t) x) ->
    view_asg v (ilen t) l a2 x = view_asg v (ilen t) l a x.
  Proof.
    intros Hx Hn. apply (adep_ok v t s0 sg l a p' p (uswf_loc t Ht) Hw E0 Ev Ep' R Hnd); [exact Hx|].
    intros y Hy Hyp. apply Hd; [exact Hyp|]. congruence.
  Qed.

  Lemma len_below d : (match v with VBlocks e _ _ | VBlocksDyn e _ _ _ | VBlocksSta e _ _ _ _ | VReverse e => e = d | _ => False end) ->
    In (d, None) p' -> ~ In q (ldeps t d) -> ~ In d (ldeps t d) ->
    ilen t (view_lenv v l) a2 d = ilen t (view_lenv v l) a d.
  Proof.
    intros Hv Hin Hq' Hdd. apply (uswf_loc t Ht _ s0 a a2 p' d E0); [|exact Hin|].
    - eapply spath_ext; [exact Ep'|]. intros e n He.
      assert (e <> d) by (intros ->; pose proof (nodup_fst_eq _ _ _ _ Hnd He Hin); discriminate).
      destruct v; try contradiction; subst; cbn [view_asg]; rewrite fupd_neq by assumption; reflexivity.
    - intros x Hx Hxp. apply Hd; [|congruence]. assert (x <> d) by congruence.
      destruct v; try contradiction; subst; cbn [prel] in R; try (destruct R as [-> _]; apply pm_keep; assumption).
      subst p. exact Hxp.
  Qed.

  Lemma view_step : match vnext v q with
    | None => forall x, In x (map fst p') -> view_asg v (ilen t) l a2 x = view_asg v (ilen t) l a x
    | Some q' => In (q', None) p' /\
        (forall x, In x (map fst p') -> x <> q' -> view_asg v (ilen t) l a2 x = view_asg v (ilen t) l a x) /\
        eqW (view_asg v (ilen t) l a2 q' - view_asg v (ilen t) l a q') ((a2 q - a q) * vcoef v t l a q) end.
  Proof.
    pose proof same_below' as Hsb. pose proof len_below as Hlb. pose proof Hw as Hw'. unfold view_swf in Hw'. rewrite E0 in Hw'.
    assert (Hacc : forall x, In x (map fst p') -> any_accept x s0 = true).
    { intros x Hx. destruct (fst_in _ _ Hx) as [n Hn]. exact (spath_accept _ _ _ Ep' _ Hn). }
    destruct v as [d|d i|d n|d st|d st len|d st en|d st sr|d|d M m|d M m pd|d b M m ml|M m d|sl gl d ds|ds|d|ps|xa xb d];
      cbn [vnext vcoef view_adep steady_view prel] in *.
    - (* bcast *) subst p. destruct (Z.eqb_spec q d) as [->|Hne].
      + intros x Hx. apply Hsb; [exact Hx|]. intros [<-|[]]. rewrite (Hacc _ Hx) in Hw'. discriminate.
      + destruct Hq as [Hq'|Hq']; [congruence|]. split; [exact Hq'|]. split; [|apply eqW_eq; cbn [view_asg]; lia].
        intros x Hx Hxq. apply Hsb; [exact Hx|]. intros [E|[]]; congruence.
    - (* fix *) cbn [prel] in R. subst p. apply in_pm in Hq. destruct Hq as [[Hq' Hne]|(k & _ & [])]. cbn [fst] in Hne.
      split; [exact Hq'|]. split.
      + intros x Hx Hxq. apply Hsb; [exact Hx|]. destruct (Z.eqb_spec x d); [intros []|intros [E|[]]; congruence].
      + cbn [view_asg]. rewrite !fupd_neq by exact Hne. apply eqW_eq. lia.
    - (* set_length *) destruct R as [-> _]. split; [exact Hq|]. split; [|apply eqW_eq; cbn [view_asg]; lia].
      intros x Hx Hxq. apply Hsb; [exact Hx|]. intros [E|[]]; congruence.
    - (* shift *) cbn [prel] in R. subst p. apply in_pm in Hq. destruct Hq as [[Hq' Hne]|(k & Hk & [E|[]])].
      + cbn [fst] in Hne. split; [exact Hq'|]. split.
        * intros x Hx Hxq. apply Hsb; [exact Hx|]. intros [E|[]]; congruence.
        * cbn [view_asg]. rewrite !fupd_neq by exact Hne. apply eqW_eq. lia.
      + injection E as <- E. destruct k; [discriminate|]. split; [exact Hk|]. split.
        * intros x Hx Hxq. apply Hsb; [exact Hx|]. intros [E1|[]]; congruence.
        * cbn [view_asg]. rewrite !fupd_eq. rewrite !eqW_u64. apply eqW_eq. lia.
    - (* slice *) cbn [prel] in R. subst p. apply in_pm in Hq. destruct Hq as [[Hq' Hne]|(k & Hk & [E|[]])].
      + cbn [fst] in Hne. split; [exact Hq'|]. split.
        * intros x Hx Hxq. apply Hsb; [exact Hx|]. intros [E|[]]; congruence.
        * cbn [view_asg]. rewrite !fupd_neq by exact Hne. apply eqW_eq. lia.
      + injection E as <- E. destruct k; [discriminate|]. split; [exact Hk|]. split.
        * intros x Hx Hxq. apply Hsb; [exact Hx|]. intros [E1|[]]; congruence.
        * cbn [view_asg]. rewrite !fupd_eq. rewrite !eqW_u64. apply eqW_eq. lia.
    - (* span *) cbn [prel] in R. subst p. apply in_pm in Hq. destruct Hq as [[Hq' Hne]|(k & Hk & [E|[]])].
      + cbn [fst] in Hne. split; [exact Hq'|]. split.
        * intros x Hx Hxq. apply Hsb; [exact Hx|]. intros [E|[]]; congruence.
        * cbn [view_asg]. rewrite !fupd_neq by exact Hne. apply eqW_eq. lia.
      + injection E as <- E. destruct k; [discriminate|]. split; [exact Hk|]. split.
        * intros x Hx Hxq. apply Hsb; [exact Hx|]. intros [E1|[]]; congruence.
        * cbn [view_asg]. rewrite !fupd_eq. rewrite !eqW_u64. apply eqW_eq. lia.
    - (* step *) cbn [prel] in R. subst p. apply in_pm in Hq. destruct Hq as [[Hq' Hne]|(k & Hk & [E|[]])].
      + cbn [fst] in Hne. split; [exact Hq'|]. split.
        * intros x Hx Hxq. apply Hsb; [exact Hx|]. intros [E|[]]; congruence.
        * cbn [view_asg]. rewrite !fupd_neq by exact Hne. destruct (Z.eqb_spec q d); [contradiction|]. apply eqW_eq. lia.
      + injection E as <- E. destruct k; [discriminate|]. split; [exact Hk|]. split.
        * intros x Hx Hxq. apply Hsb; [exact Hx|]. intros [E1|[]]; congruence.
        * cbn [view_asg]. rewrite !fupd_eq, Z.eqb_refl. rewrite !eqW_u64. apply eqW_eq. ring.
    - (* reverse *) cbn [prel] in R. subst p. split; [exact Hq|]. apply andb_true_iff in Hw'. destruct Hw' as [_ Hld].
      rewrite forallb_forall in Hld. split.
      + intros x Hx Hxq. apply Hsb; [exact Hx|]. destruct (Z.eqb_spec x d) as [->|Hne]; [|intros [E|[]]; congruence].
        intros [E|Hin]; [congruence|]. apply orb_true_iff in Hst. destruct Hst as [Hst'|Hst']; [lia|].
        apply negb_true_iff, mem_false in Hst'. contradiction.
      + cbn [view_asg]. destruct (Z.eqb_spec q d) as [->|Hne].
        * rewrite !fupd_eq, !eqW_u64.
          assert (Hdd : ~ In d (ldeps t d)).
          { specialize (Hld d). intros Hin. apply mem_In in Hin. rewrite Hin in Hld. discriminate Hld.
            apply accept_sdims. apply Hacc. eapply in_fst; eauto. }
          rewrite (Hlb d eq_refl Hq Hdd Hdd). apply eqW_eq. ring.
        * rewrite !fupd_neq by exact Hne. apply eqW_eq. lia.
    - (* blocks *) cbn [view_sig] in Ev. destruct ((M =? m) || _ || _) eqn:Eb in Ev; [discriminate|]. rewrite !orb_false_iff in Eb.
      destruct Eb as [[HMm HM] Hm]. destruct R as [-> Hfun]. apply negb_true_iff, mem_false in Hw', Hst.
      assert (Hfr : forall e x, negb (e =? d) && any_accept e s0 = false -> In x (map fst p') -> x <> d -> x <> e).
      { intros e x He Hx Hxd ->. rewrite (Hacc _ Hx) in He. destruct (Z.eqb_spec e d); [contradiction|discriminate]. }
      apply in_pm in Hq. destruct Hq as [[Hq' Hne]|(k & Hk & HE)].
      + cbn [fst] in Hne. pose proof (Hfr M q HM (in_fst _ _ _ Hq') Hne). pose proof (Hfr m q Hm (in_fst _ _ _ Hq') Hne).
        replace ((q =? M) || (q =? m)) with false by lia. split; [exact Hq'|]. split.
        * intros x Hx Hxq. apply Hsb; [exact Hx|]. destruct (Z.eqb_spec x d) as [->|]; [|intros [E|[]]; congruence].
          intros [E|[E|Hin]]; congruence.
        * cbn [view_asg]. rewrite !fupd_neq by exact Hne. destruct (Z.eqb_spec q M); [contradiction|]. apply eqW_eq. lia.
      + pose proof (Hfun _ Hk) as ->. assert (HqM : q = M \/ q = m) by (destruct HE as [E|[E|[]]]; injection E; auto).
        replace ((q =? M) || (q =? m)) with true by lia. split; [exact Hk|]. split.
        * intros x Hx Hxd. apply Hsb; [exact Hx|]. destruct (Z.eqb_spec x d) as [->|]; [contradiction|].
          intros [E|[]]. subst x. destruct HqM as [->| ->]; [apply (Hfr M M)|apply (Hfr m m)]; auto.
        * cbn [view_asg]. rewrite !fupd_eq. rewrite (Hlb d eq_refl Hk Hst Hw'). rewrite !eqW_u64.
          destruct (Z.eqb_spec q M) as [->|HqM'].
          -- rewrite (Hd m); [|eapply pm_new; [exact Hk|simpl; tauto]|lia]. apply eqW_eq. ring.
          -- assert (q = m) as -> by tauto. rewrite (Hd M); [|eapply pm_new; [exact Hk|simpl; tauto]|lia]. apply eqW_eq. ring.
    - (* blocks dynamic *) cbn [view_sig] in Ev. destruct ((M =? m) || _ || _ || _ || _ || _) eqn:Eb in Ev; [discriminate|].
      rewrite !orb_false_iff in Eb. destruct Eb as [[[[[HMm HMp] Hmp] HM] Hm] Hp]. destruct R as [-> Hfun]. apply negb_true_iff, mem_false in Hw'.
      assert (Hfr : forall e x, negb (e =? d) && any_accept e s0 = false -> In x (map fst p') -> x <> d -> x <> e).
      { intros e x He Hx Hxd ->. rewrite (Hacc _ Hx) in He. destruct (Z.eqb_spec e d); [contradiction|discriminate]. }
      apply in_pm in Hq. destruct Hq as [[Hq' Hne]|(k & Hk & HE)].
      + cbn [fst] in Hne. pose proof (Hfr M q HM (in_fst _ _ _ Hq') Hne). pose proof (Hfr m q Hm (in_fst _ _ _ Hq') Hne).
        pose proof (Hfr pd q Hp (in_fst _ _ _ Hq') Hne). replace (q =? pd) with false in * by lia. cbn [orb] in Hst. apply negb_true_iff, mem_false in Hst.
        replace ((q =? M) || (q =? m)) with false by lia. split; [exact Hq'|]. split.
        * intros x Hx Hxq. apply Hsb; [exact Hx|]. destruct (Z.eqb_spec x d) as [->|]; [|intros [E|[]]; congruence].
          intros [E|[E|Hin]]; congruence.
        * cbn [view_asg]. rewrite !fupd_neq by exact Hne. destruct (Z.eqb_spec q M); [contradiction|]. apply eqW_eq. lia.
      + pose proof (Hfun _ Hk) as ->. destruct (Z.eqb_spec q pd) as [->|Hqp].
        * intros x Hx. cbn [view_asg]. unfold fupd. destruct (Z.eqb_spec x d) as [->|Hxd].
          -- rewrite (Hd M); [|eapply pm_new; [exact Hk|simpl; tauto]|lia]. rewrite (Hd m); [|eapply pm_new; [exact Hk|simpl; tauto]|lia].
             do 4 f_equal. apply (uswf_loc t Ht _ s0 a a2 p' d E0); [|exact Hk|].
             ++ eapply spath_ext; [exact Ep'|]. intros e n He. cbn [view_asg]. rewrite fupd_neq; [reflexivity|].
                intros ->. specialize (Hfun _ He). discriminate.
             ++ intros x Hx2 Hxp. assert (Hxd : x <> d) by congruence. apply Hd; [apply pm_keep; assumption|]. apply (Hfr pd x Hp Hxp Hxd).
          -- apply Hd; [apply pm_keep; assumption|]. apply (Hfr pd x Hp Hx Hxd).
        * cbn [orb] in Hst. apply negb_true_iff, mem_false in Hst.
          assert (HqM : q = M \/ q = m) by (destruct HE as [E|[E|[E|[]]]]; injection E; auto; congruence).
          replace ((q =? M) || (q =? m)) with true by lia. split; [exact Hk|]. split.
          -- intros x Hx Hxd. apply Hsb; [exact Hx|]. destruct (Z.eqb_spec x d) as [->|]; [contradiction|].
             intros [E|[]]. subst x. destruct HqM as [->| ->]; [apply (Hfr M M)|apply (Hfr m m)]; auto.
          -- cbn [view_asg]. rewrite !fupd_eq. rewrite (Hlb d eq_refl Hk Hst Hw'). rewrite !eqW_u64.
             destruct (Z.eqb_spec q M) as [->|HqM'].
             ++ rewrite (Hd m); [|eapply pm_new; [exact Hk|simpl; tauto]|lia]. apply eqW_eq. ring.
             ++ assert (q = m) as -> by tauto. rewrite (Hd M); [|eapply pm_new; [exact Hk|simpl; tauto]|lia]. apply eqW_eq. ring.
    - (* blocks static *) cbn [view_sig] in Ev. destruct ((b =? M) || _ || _ || _ || _ || _) eqn:Eb in Ev; [discriminate|].
      rewrite !orb_false_iff in Eb. destruct Eb as [[[[[HbM Hbm] HMm] HM] Hm] Hb]. destruct R as [-> Hfun].
      apply andb_true_iff in Hw'. destruct Hw' as [_ Hw']. apply negb_true_iff, mem_false in Hw', Hst.
      assert (Hfr : forall e x, negb (e =? d) && any_accept e s0 = false -> In x (map fst p') -> x <> d -> x <> e).
      { intros e x He Hx Hxd ->. rewrite (Hacc _ Hx) in He. destruct (Z.eqb_spec e d); [contradiction|discriminate]. }
      apply in_pm in Hq. destruct Hq as [[Hq' Hne]|(k & Hk & HE)].
      + cbn [fst] in Hne. pose proof (Hfr M q HM (in_fst _ _ _ Hq') Hne). pose proof (Hfr m q Hm (in_fst _ _ _ Hq') Hne).
        pose proof (Hfr b q Hb (in_fst _ _ _ Hq') Hne).
        replace ((q =? M) || (q =? m)) with false by lia. split; [exact Hq'|]. split.
        * intros x Hx Hxq. apply Hsb; [exact Hx|]. destruct (Z.eqb_spec x d) as [->|]; [|intros [E|[]]; congruence].
          intros [E|[E|[E|Hin]]]; congruence.
        * cbn [view_asg]. rewrite !fupd_neq by exact Hne. destruct (Z.eqb_spec q M); [contradiction|]. apply eqW_eq. lia.
      + pose proof (Hfun _ Hk) as ->. assert (HqM : q = M \/ q = m) by (destruct HE as [E|[E|[E|[]]]]; injection E; auto; congruence).
        replace ((q =? M) || (q =? m)) with true by lia. split; [exact Hk|]. split.
        * intros x Hx Hxd. apply Hsb; [exact Hx|]. destruct (Z.eqb_spec x d) as [->|]; [contradiction|].
          intros [E|[]]. subst x. destruct HqM as [->| ->]; [apply (Hfr M M)|apply (Hfr m m)]; auto.
        * cbn [view_asg]. rewrite !fupd_eq. rewrite (Hlb d eq_refl Hk Hst Hw'). rewrite !eqW_u64.
          rewrite (Hd b); [|eapply pm_new; [exact Hk|simpl; tauto]|destruct HqM; lia].
          destruct (Z.eqb_spec q M) as [->|HqM'].
          -- rewrite (Hd m); [|eapply pm_new; [exact Hk|simpl; tauto]|lia]. apply eqW_eq. destruct (a b =? 0); ring.
          -- assert (q = m) as -> by tauto. rewrite (Hd M); [|eapply pm_new; [exact Hk|simpl; tauto]|lia]. apply eqW_eq. ring.
    - (* merge *) apply andb_true_iff in Hst. destruct Hst as [Hqd Hql]. apply negb_true_iff in Hqd, Hql. apply mem_false in Hql.
      destruct (peeled_inv _ _ _ _ _ _ _ R Hq) as [(E & _)|[Hq' Hni]]; [lia|]. split; [exact Hq'|]. split.
      + intros x Hx Hxq. apply Hsb; [exact Hx|]. destruct ((x =? M) || (x =? m)); [|intros [E|[]]; congruence].
        intros [E|Hin]; [lia|contradiction].
      + cbn [view_asg]. rewrite !fupds_out by exact Hni. apply eqW_eq. lia.
    - (* z-curve *) apply andb_true_iff in Hst. destruct Hst as [Hqd Hql]. apply negb_true_iff in Hqd, Hql. apply mem_false in Hql.
      destruct (peeled_inv _ _ _ _ _ _ _ R Hq) as [(E & _)|[Hq' Hni]]; [lia|]. split; [exact Hq'|]. split.
      + intros x Hx Hxq. apply Hsb; [exact Hx|]. destruct (mem x ds); [|intros [E|[]]; congruence].
        intros [E|Hin]; [lia|contradiction].
      + cbn [view_asg]. rewrite !fupds_out; [apply eqW_eq; lia| |].
        all: rewrite map_fst_combine; [exact Hni|rewrite map_length, zc_indices_length, map_length; reflexivity].
    - (* reorder *) cbn [prel] in R. split; [eapply Permutation_in; [exact R|exact Hq]|]. split; [|apply eqW_eq; cbn [view_asg]; lia].
      intros x Hx Hxq. apply Hsb; [exact Hx|]. intros [E|[]]; congruence.
    - (* hoist *) destruct R as [Hin ->]. split; [|split; [|apply eqW_eq; cbn [view_asg]; lia]].
      + destruct Hq as [E|Hq']; [injection E as <-; exact Hin|]. apply in_pm in Hq'. destruct Hq' as [[Hq' _]|(k & _ & [])]. exact Hq'.
      + intros x Hx Hxq. apply Hsb; [exact Hx|]. intros [E|[]]; congruence.
    - (* rename *) cbn [prel] in R. subst p. apply in_map_iff in Hq. destruct Hq as ([q' k] & Hqe & Hq'). cbn [fst snd] in Hqe.
      injection Hqe as <- ->. cbn [view_sig] in Ev. destruct (nodupb (map fst ps) && _ && _) eqn:Er in Ev; [|discriminate].
      assert (Hback : forall x, In x (map fst p') -> rename_in ps (rename_dim ps x) = x).
      { intros x Hx. exact (rename_back ps s0 x Er (Hacc x Hx)). }
      rewrite Hback by (eapply in_fst; eauto). split; [exact Hq'|]. split; [|apply eqW_eq; cbn [view_asg]; lia].
      intros x Hx Hxq. apply Hsb; [exact Hx|]. intros [E|[]]. apply Hxq.
      rewrite <- (Hback x Hx), E. apply Hback. eapply in_fst; eauto.
    - discriminate.
  Qed.
End ViewStep.

(** ** Offsets depend on the path only *)

Lemma ioff_local s : uswf s = true -> forall l a a2 sg p, signature s = Some sg -> spath sg a = Some p ->
  (forall x, In x (map fst p) -> a2 x = a x) -> ioff s l a2 = ioff s l a.
Proof.
  induction s as [c|d ts IH|d t IH|v t IH|ts IH] using struct_ind'; intros Hw l a a2 sg p Es Ep H; cbn [ioff].
  - reflexivity.
  - destruct (signature_Tuple_inv _ _ _ Es) as (ss & F & Hx & ->). simpl in Hw. apply andb_true_iff in Hw. destruct Hw as [_ Hw].
    rewrite spath_dep in Ep. destruct (nthz ss (a d)) as [r|] eqn:Er; [|discriminate].
    destruct (spath r a) as [pr|] eqn:Epr; [|discriminate]. injection Ep as <-.
    pose proof (Forall2_nthz _ _ _ (a d) F) as Ht. rewrite Er in Ht. destruct (nthz ts (a d)) as [t|] eqn:Et; [|contradiction].
    rewrite (H d) by (left; reflexivity). f_equal. rewrite !nthz_map, Et. cbn [option_map].
    rewrite Forall_forall in IH. rewrite forallb_forall in Hw. pose proof (nthz_In _ _ _ Et) as Hin.
    apply (IH t Hin (Hw t Hin) l a a2 r pr Ht Epr). intros x Hx'. apply H. right. exact Hx'.
  - destruct (signature_Vector_inv _ _ _ Es) as (s0 & E0 & Hd & ->). simpl in Hw. cbn [spath] in Ep.
    destruct (spath s0 a) as [pr|] eqn:Epr; [|discriminate]. injection Ep as <-.
    rewrite (H d) by (left; reflexivity). f_equal. apply (IH Hw _ a a2 s0 pr E0 Epr). intros x Hx. apply H. right. exact Hx.
  - destruct (uview_down _ _ _ _ _ l Hw Es Ep) as (s0 & p' & E0 & Ev & Hsn & Ep' & R & Hnd').
    destruct (uswf_view _ _ Hw) as [Hv Ht]. apply (IH Ht _ (view_asg v (ilen t) l a) _ s0 p' E0 Ep').
    intros x Hx. apply (adep_ok v t s0 sg l a p' p (uswf_loc t Ht) Hv E0 Ev Ep' R Hnd' a2 x Hx). intros y _. apply H.
  - reflexivity.
Qed.

(** ** One step of the recursion through a view *)

Lemma steady_down q v t : steady q (View v t) = true ->
  steady_view q v t = true /\ match vnext v q with Some q' => steady q' t = true | None => True end.
Proof.
  destruct v as [d|d i|d n|d st|d st len|d st en|d st sr|d|d M m|d M m pd|d b M m ml|M m d|sl gl d ds|ds|d|ps|xa xb d];
    cbn [steady steady_view vnext]; rewrite ?andb_true_iff; auto.
  - destruct (q =? d); auto.
  - destruct (q =? pd); cbn [orb]; rewrite ?andb_true_iff; auto.
  - discriminate.
Qed.

Lemma own_down q v t : own_steps q (View v t) = true -> match vnext v q with Some q' => own_steps q' t = true | None => True end.
Proof.
  destruct v; cbn [own_steps vnext]; auto.
  - destruct (q =? _); auto.
  - rewrite andb_true_iff. tauto.
  - destruct (q =? _); auto.
Qed.

Definition differ_at (q : dim) (p : path) (a a2 : asg) : Prop := forall x, In x (map fst p) -> x <> q -> a2 x = a x.

Section Down.
  Variables (v : view) (t : struct) (sg : sig) (l : lenv) (a a2 : asg) (p : path) (q : dim) (st st' : state).
  Hypothesis Hw : swf (View v t) = true.
  Hypothesis Hlk : lenok (View v t) l.
  Hypothesis Hl : lrange l.
  Hypothesis Hg : good (View v t) l a.
  Hypothesis Hg2 : good (View v t) l a2.
  Hypothesis Hv : pvalid (View v t) l a sg p.
  Hypothesis Hv2 : pvalid (View v t) l a2 sg p.
  Hypothesis Hag : agree st l a.
  Hypothesis Hld : lendef st.
  Hypothesis Hpd : pdef p st.
  Hypothesis Hq : In (q, None) p.
  Hypothesis Hst : steady q (View v t) = true.
  Hypothesis Hd : differ_at q p a a2.
  Hypothesis Est : sub_state v t st = Some st'.
  Let l' := view_lenv v l.
  Let b := view_asg v (ilen t) l a.
  Let b2 := view_asg v (ilen t) l a2.

  Lemma down : match vnext v q with
    | None => True
    | Some q' => exists s0 p', swf t = true /\ lenok t l' /\ lrange l' /\ good t l' b /\ good t l' b2 /\
        pvalid t l' b s0 p' /\ pvalid t l' b2 s0 p' /\ agree st' l' b /\ lendef st' /\ pdef p' st' /\
        In (q', None) p' /\ steady q' t = true /\ differ_at q' p' b b2 /\
        eqW (b2 q' - b q') ((a2 q - a q) * vcoef v t l a q) end.
  Proof.
    destruct (swf_view _ _ Hw) as [Hvw Ht]. pose proof (swf_uswf _ Ht) as Hu.
    pose proof Hv as (Es & Ep & Rg). pose proof Hg as (Hga & Hgb & _). pose proof Hg2 as (Hgc & Hgd & _).
    destruct (view_down _ _ _ _ _ l Hw Es Ep) as (s0 & p' & E0 & Ev & Hsn & Ep' & R & Hnd').
    pose proof (swf_path_nodup _ _ _ _ Hw Es Ep) as Hnd.
    assert (Hv' : pvalid t l' b s0 p').
    { split; [exact E0|]. split; [exact Ep'|]. eapply view_transfer; eauto using swf_loc, swf_uswf. }
    destruct (steady_down _ _ _ Hst) as [Hs1 Hs2].
    pose proof (view_step v t s0 sg l a a2 p' p q Hu Hvw E0 Ev Ep' R Hnd' Hq Hs1 Hd) as Hstep.
    destruct (vnext v q) as [q'|].
    - destruct Hstep as (Hq' & Hd' & Hc). exists s0, p'.
      assert (Hs0 : signature (View v t) <> None) by congruence.
      destruct (sub_dfn v t s0 sg l a p' p st (length_defined _ Hu) Hvw Hu E0 Ev Ep' Ep R Hnd' Hnd Hlk Hl Hg Hag Hld
        (pdef_idef _ _ _ _ _ _ Hw Hv Hnd Hpd) st' Est) as [Hld' Hid'].
      repeat (match goal with |- _ /\ _ => split end); auto using view_lrange.
      + apply Hlk.
      + unfold l'. eapply view_lrange; eauto.
      + destruct (pvalid_view v t l a2 sg p (swf_uswf _ Hw) Hl Hgc Hv2) as (s1 & p1 & _ & _ & _ & _ & Hp1).
        destruct Hp1 as (E1 & Ep1 & Hr1). assert (s1 = s0) by congruence. subst s1.
        assert (Hx : spath s0 b2 = Some p').
        { eapply spath_ext; [exact Ep'|]. intros e n He. apply Hd'; [eapply in_fst; eauto|].
          intros ->. pose proof (nodup_fst_eq _ _ _ _ Hnd' He Hq'). discriminate. }
        unfold b2 in Hx. rewrite Ep1 in Hx. injection Hx as ->. split; [exact E0|]. split; [exact Ep1|exact Hr1].
      + exact (sub_state_refines _ _ _ _ _ _ Hs0 Hlk Hag Est).
      + intros y wy Hy Hwy. eapply Hid'; eauto.
    - exact I.
  Qed.
End Down.

Lemma down_none v t sg l a a2 p q : swf (View v t) = true -> pvalid (View v t) l a sg p -> In (q, None) p ->
  steady q (View v t) = true -> differ_at q p a a2 -> vnext v q = None -> ioff (View v t) l a2 = ioff (View v t) l a.
Proof.
  intros Hw Hv Hq Hst Hd Hn. destruct (swf_view _ _ Hw) as [Hvw Ht]. pose proof (swf_uswf _ Ht) as Hu. pose proof Hv as (Es & Ep & Rg).
  destruct (view_down _ _ _ _ _ l Hw Es Ep) as (s0 & p' & E0 & Ev & Hsn & Ep' & R & Hnd').
  destruct (steady_down _ _ _ Hst) as [Hs1 _].
  pose proof (view_step v t s0 sg l a a2 p' p q Hu Hvw E0 Ev Ep' R Hnd' Hq Hs1 Hd) as Hstep. rewrite Hn in Hstep.
  cbn [ioff]. exact (ioff_local t Hu _ _ _ s0 p' E0 Ep' Hstep).
Qed.

(** ** Strides *)

Lemma guard_Some {A} b (x : option A) y : guard b x = Some y -> b = Some true /\ x = Some y.
Proof. destruct b as [[|]|]; cbn [guard]; intros; try discriminate; auto. Qed.

Lemma vector_offset_self d t st k o : same_type t (Vector d t) = false ->
  offset_of t (Vector d t) (with_ [(Idx d, Sta k)] st) (Sta 0) = Some o ->
  exists n, get (Len d) st = Some n /\
    (is_sta 1 n = true /\ o = Sta 0 \/ exists st2 sz, size_ t st2 = Some sz /\ o = vadd (vmul (Sta k) sz) (Sta 0) /\
      (forall x, get (Len x) st2 = get (Len x) (remove [Idx d; Len d] st)) /\
      (forall x v, get (Idx x) st2 = Some v -> get (Idx x) (remove [Idx d; Len d] st) = Some v)).
Proof.
  intros Hs E. rewrite offset_down_vector in E by exact Hs. rewrite !get_with in E. revert E. teq. rewrite Z.eqb_refl. cbn [obind].
  intros E. destruct (get (Len d) st) as [n|] eqn:En; [|discriminate]. cbn [obind] in E. exists n. split; [reflexivity|].
  assert (Hself : forall st2 x y, offset_of t t st2 x = Some y -> y = x).
  { intros st2 x y. destruct t; cbn [offset_of]; rewrite same_type_refl; intros H; apply guard_Some in H; destruct H; congruence. }
  destruct (is_sta 1 n); [left; split; [reflexivity|eapply Hself; exact E]|right].
  set (st2 := remove [Idx d; Len d] (with_ [(Idx d, Sta k)] st)) in *. destruct (size_ t st2) as [sz|] eqn:Ez; [|discriminate].
  cbn [obind] in E. exists st2, sz. split; [exact Ez|]. split; [eapply Hself; exact E|]. unfold st2. split.
  - intros x. rewrite !get_remove, get_with. teq. reflexivity.
  - intros x v. rewrite !get_remove, get_with. teq. rewrite !orb_false_r. destruct (x =? d); [discriminate|]. auto.
Qed.

Lemma same_type_below d t : same_type t (Vector d t) = false.
Proof.
  destruct (same_type t (Vector d t)) eqn:E; [|reflexivity]. apply same_type_weight in E. simpl in E. lia.
Qed.

Lemma spath_accept' s a p d k : spath s a = Some p -> In (d, k) p -> any_accept d s = true.
Proof. intros E H. exact (spath_accept _ _ _ E _ H). Qed.

(** The number of elements of a block, as the library computes it. *)
Lemma block_len v t sg l a p st d M m n :
  match v with VBlocks d' M' m' | VBlocksDyn d' M' m' _ | VBlocksSta d' _ M' m' _ => d' = d /\ M' = M /\ m' = m | _ => False end ->
  swf (View v t) = true -> lenok (View v t) l -> lrange l -> good (View v t) l a -> pvalid (View v t) l a sg p ->
  agree st l a -> lendef st -> pdef p st -> In (M, None) p ->
  has_length (View v t) m st = Some true -> length_ (View v t) m st = Some n ->
  vz n = Some (ilen (View v t) l a m).
Proof.
  intros Hvd Hw Hlk Hl Hg Hv Hag Hld Hpd HM Hh E. pose proof Hv as (Es & Ep & Rg).
  pose proof (swf_path_nodup _ _ _ _ Hw Es Ep) as Hnd.
  apply vz_vagree; [|apply (length_agree (View v t) ltac:(congruence) st l a m n Hlk Hag E)].
  destruct (view_down _ _ _ _ _ l Hw Es Ep) as (s0 & p' & E0 & Ev & Hsn & Ep' & R & Hnd').
  assert (Hm : In (m, None) p /\ get (Idx m) st = None).
  { rewrite has_length_View in Hh.
    assert (Hnone : has (Idx m) st = false -> get (Idx m) st = None).
    { unfold has. destruct (get (Idx m) st); [discriminate|reflexivity]. }
    destruct v; try contradiction; destruct Hvd as (-> & -> & ->); cbn [view_sig] in Ev.
    - destruct ((M =? m) || _ || _) eqn:Eb in Ev; [discriminate|]. rewrite !orb_false_iff in Eb. destruct Eb as [[HMm HM'] Hm'].
      destruct R as [-> Hfun]. split.
      + apply in_pm in HM. destruct HM as [[HM1 Hne]|(k & Hk & HE)].
        * cbn [fst] in Hne. destruct (Z.eqb_spec M d); [contradiction|]. rewrite (spath_accept' _ _ _ _ _ Ep' HM1) in HM'. discriminate.
        * pose proof (Hfun _ Hk) as ->. apply in_pm. right. exists None. split; [exact Hk|]. simpl. tauto.
      + apply Hnone. cbn [view_has_length] in Hh. rewrite Z.eqb_refl in Hh. destruct (has (Idx m) st); [discriminate|reflexivity].
    - destruct ((M =? m) || _ || _ || _ || _ || _) eqn:Eb in Ev; [discriminate|].
      rewrite !orb_false_iff in Eb. destruct Eb as [[[[[HMm HMp] Hmp] HM'] Hm'] Hp]. destruct R as [-> Hfun]. split.
      + apply in_pm in HM. destruct HM as [[HM1 Hne]|(k & Hk & HE)].
        * cbn [fst] in Hne. destruct (Z.eqb_spec M d); [contradiction|]. rewrite (spath_accept' _ _ _ _ _ Ep' HM1) in HM'. discriminate.
        * pose proof (Hfun _ Hk) as ->. apply in_pm. right. exists None. split; [exact Hk|]. simpl. tauto.
      + apply Hnone. cbn [view_has_length] in Hh. rewrite Hmp in Hh. rewrite Z.eqb_refl in Hh. destruct (has (Idx m) st); [discriminate|reflexivity].
    - destruct ((_ =? M) || _ || _ || _ || _ || _) eqn:Eb in Ev; [discriminate|].
      rewrite !orb_false_iff in Eb. destruct Eb as [[[[[HbM Hbm] HMm] HM'] Hm'] Hb]. destruct R as [-> Hfun]. split.
      + apply in_pm in HM. destruct HM as [[HM1 Hne]|(k & Hk & HE)].
        * cbn [fst] in Hne. destruct (Z.eqb_spec M d); [contradiction|]. rewrite (spath_accept' _ _ _ _ _ Ep' HM1) in HM'. discriminate.
        * pose proof (Hfun _ Hk) as ->. apply in_pm. right. exists None. split; [exact Hk|]. simpl. tauto.
      + apply Hnone. cbn [view_has_length] in Hh. destruct (has (Idx m) st); [discriminate|reflexivity]. }
  destruct Hm as [Hm1 Hm2].
  exact (length_defined (View v t) (swf_uswf _ Hw) st l a sg p m n Es Ep Hnd Hlk Hl Hg Hag Hld
    (pdef_idef _ _ _ _ _ _ Hw Hv Hnd Hpd) Hm2 Hm1 E).
Qed.

Theorem stride_int s : swf s = true -> forall st l a a2 sg p q v,
  pvalid s l a sg p -> pvalid s l a2 sg p -> lenok s l -> lrange l -> good s l a -> good s l a2 ->
  agree st l a -> lendef st -> pdef p st -> In (q, None) p -> differ_at q p a a2 -> steady q s = true -> own_steps q s = true ->
  stride_along s q st = Some v ->
  exists x, vz v = Some x /\ eqW (ioff s l a2 - ioff s l a) ((a2 q - a q) * x).
Proof.
  induction s as [c|d ts IH|d t IH|v t IH|ts IH] using struct_ind'; intros Hw st l a a2 sg p q w Hv Hv2 Hlk Hl Hg Hg2 Hag Hld Hpd Hq Hd Hst Hos E;
    cbn [stride_along] in E; apply guard_Some in E; destruct E as [Eh E]; try discriminate.
  - destruct (pvalid_vector _ _ _ _ _ _ Hv) as (Hi & s0 & p0 & -> & -> & Hnd & Hv').
    destruct (pvalid_vector _ _ _ _ _ _ Hv2) as (Hi2 & s1 & p1 & Hs1 & Hp1 & _ & Hv2'). injection Hs1 as <-. injection Hp1 as <-.
    pose proof Hv' as (E0 & Ep0 & _).
    assert (Hdp : ~ In d (map fst p0)).
    { intros Hin. destruct (fst_in _ _ Hin) as [k Hk]. rewrite (spath_accept' _ _ _ _ _ Ep0 Hk) in Hnd. discriminate. }
    cbn [ioff]. destruct (Z.eqb_spec q d) as [->|Hne].
    + destruct (offset_of t (Vector d t) (with_ [(Idx d, Sta 1)] st) (Sta 0)) as [o1|] eqn:E1; [|discriminate].
      destruct (offset_of t (Vector d t) (with_ [(Idx d, Sta 0)] st) (Sta 0)) as [o0|] eqn:E2; [|discriminate]. cbn [obind] in E. inv E.
      pose proof (same_type_below d t) as Hself.
      destruct (vector_offset_self _ _ _ _ _ Hself E1) as (n & En & H1). destruct (vector_offset_self _ _ _ _ _ Hself E2) as (n' & En' & H2).
      rewrite En in En'. injection En' as <-. destruct (agree_len_Some _ _ _ _ _ Hag En) as (xl & Hxl & Hvl).
      pose proof (vz_vagree _ _ (Hld _ _ En) Hvl) as Hvn.
      rewrite (ioff_local t (swf_uswf t Hw) (fupd l d None) a a2 s0 p0 E0 Ep0).
      2:{ intros x Hx. apply Hd; [right; exact Hx|]. congruence. }
      destruct H1 as [[H11 ->]|(st1 & sz1 & Hz1 & -> & HL1 & HI1)].
      * destruct H2 as [[_ ->]|(st2 & sz2 & Hz2 & -> & HL2 & HI2)].
        -- exists 0. split; [reflexivity|]. assert (xl = 1) by (apply is_sta_vz in H11; congruence). subst xl. rewrite Hxl in Hi, Hi2. cbn [odef] in *.
           replace (a2 d) with 0 by lia. replace (a d) with 0 by lia. apply eqW_eq. lia.
        -- pose proof H11 as Hn1. apply is_sta_vz in H11. assert (xl = 1) by congruence. subst xl. rewrite Hxl in Hi, Hi2. cbn [odef] in *.
           assert (Hz : vz sz2 = Some (u64 (isize t (fupd l d None)))).
           { eapply (size_spec t Hw ltac:(congruence) st2 _ a sz2); [exact Hlk| | |exact Hz2].
             - eapply agree_mono; [apply agree_remove_both, Hag|exact HL2|exact HI2].
             - intros y wy. rewrite HL2. apply lendef_remove_both, Hld. }
           eexists. split.
           ++ rewrite (vz_vsub' (Sta 0) _ 0 (u64 (u64 (0 * u64 (isize t (fupd l d None))) + 0))); [reflexivity|reflexivity|].
              apply vz_vadd'; [|reflexivity]. apply vz_vmul'; [reflexivity|exact Hz].
           ++ replace (a2 d) with 0 by lia. replace (a d) with 0 by lia. apply eqW_eq. lia.
      * destruct H2 as [[H21 ->]|(st2 & sz2 & Hz2 & -> & HL2 & HI2)].
        -- assert (Hz : vz sz1 = Some (u64 (isize t (fupd l d None)))).
           { eapply (size_spec t Hw ltac:(congruence) st1 _ a sz1); [exact Hlk| | |exact Hz1].
             - eapply agree_mono; [apply agree_remove_both, Hag|exact HL1|exact HI1].
             - intros y wy. rewrite HL1. apply lendef_remove_both, Hld. }
           assert (xl = 1) by (apply is_sta_vz in H21; congruence). subst xl. rewrite Hxl in Hi, Hi2. cbn [odef] in *.
           eexists. split.
           ++ apply vz_vsub'; [|reflexivity]. apply vz_vadd'; [|reflexivity]. apply vz_vmul'; [reflexivity|exact Hz].
           ++ replace (a2 d) with 0 by lia. replace (a d) with 0 by lia. apply eqW_eq. lia.
        -- assert (Hz1' : vz sz1 = Some (u64 (isize t (fupd l d None)))).
           { eapply (size_spec t Hw ltac:(congruence) st1 _ a sz1); [exact Hlk| | |exact Hz1].
             - eapply agree_mono; [apply agree_remove_both, Hag|exact HL1|exact HI1].
             - intros y wy. rewrite HL1. apply lendef_remove_both, Hld. }
           assert (Hz2' : vz sz2 = Some (u64 (isize t (fupd l d None)))).
           { eapply (size_spec t Hw ltac:(congruence) st2 _ a sz2); [exact Hlk| | |exact Hz2].
             - eapply agree_mono; [apply agree_remove_both, Hag|exact HL2|exact HI2].
             - intros y wy. rewrite HL2. apply lendef_remove_both, Hld. }
           eexists. split.
           ++ apply vz_vsub'; (apply vz_vadd'; [|reflexivity]); (apply vz_vmul'; [|eassumption]); unfold vz; rewrite u64_small by (rewrite W_eq; lia); reflexivity.
           ++ repeat rewrite eqW_u64. apply eqW_eq. ring.
    + destruct Hq as [Hq|Hq]; [congruence|].
      destruct (IH Hw (remove [Idx d; Len d] st) (fupd l d None) a a2 s0 p0 q w) as (x & Hx & HxW); auto using lrange_None, agree_remove_both, lendef_remove_both.
      * intros y wy Hy. rewrite get_remove. teq. destruct (y =? d); [discriminate|]. apply Hpd. right. exact Hy.
      * intros y Hy. apply Hd. right. exact Hy.
      * cbn [steady] in Hst. destruct (Z.eqb_spec q d); [contradiction|exact Hst].
      * cbn [own_steps] in Hos. destruct (Z.eqb_spec q d); [contradiction|exact Hos].
      * exists x. split; [exact Hx|]. rewrite (Hd d) by (try (left; reflexivity); congruence). rewrite <- HxW. apply eqW_eq. lia.
  - destruct (swf_view _ _ Hw) as [Hvw Ht]. cbn [ioff].
    assert (Hsub : forall st' q' w', vnext v q = Some q' -> sub_state v t st = Some st' -> stride_along t q' st' = Some w' ->
      exists x, vz w' = Some x /\ eqW (ioff t (view_lenv v l) (view_asg v (ilen t) l a2) - ioff t (view_lenv v l) (view_asg v (ilen t) l a))
        ((a2 q - a q) * vcoef v t l a q * x)).
    { intros st' q' w' Hn Est Ew. pose proof (down v t sg l a a2 p q st st' Hw Hlk Hl Hg Hg2 Hv Hv2 Hag Hld Hpd Hq Hst Hd Est) as HD.
      pose proof (own_down _ _ _ Hos) as Ho. rewrite Hn in HD, Ho.
      destruct HD as (s0 & p' & H1 & H2 & H3 & H4 & H5 & H6 & H7 & H8 & H9 & H10 & H11 & H12 & H13 & H14).
      destruct (IH H1 st' _ _ _ s0 p' q' w' H6 H7 H2 H3 H4 H5 H8 H9 H10 H11 H13 H12 Ho Ew) as (x & Hx & HxW).
      exists x. split; [exact Hx|]. rewrite HxW, H14. reflexivity. }
    pose proof (down_none v t sg l a a2 p q Hw Hv Hq Hst Hd) as Hnone. cbn [ioff] in Hnone.
    assert (Hplain : vnext v q = Some q -> vcoef v t l a q = 1 ->
      (do st' <- sub_state v t st; stride_along t q st') = Some w ->
      exists x, vz w = Some x /\ eqW (ioff t (view_lenv v l) (view_asg v (ilen t) l a2) - ioff t (view_lenv v l) (view_asg v (ilen t) l a))
        ((a2 q - a q) * x)).
    { intros Hn Hc Ew. destruct (sub_state v t st) as [st'|] eqn:Est; [|discriminate]. cbn [obind] in Ew.
      destruct (Hsub st' q w Hn eq_refl Ew) as (x & Hx & HxW). exists x. split; [exact Hx|]. rewrite HxW, Hc. apply eqW_eq. ring. }
    destruct v as [d|d i|d n|d s|d s len|d s en|d s r|d|d M m|d M m pd|d b M m ml|M m d|sl gl d ds|ds|d|ps|xa xb d];
      cbn [vnext vcoef] in *; try (apply Hplain; [reflexivity|reflexivity|exact E]); try discriminate.
    + destruct (Z.eqb_spec q d) as [->|Hne]; [|apply Hplain; [reflexivity|reflexivity|exact E]].
      exists 0. injection E as <-. split; [reflexivity|].
      rewrite Hnone by (rewrite ?Z.eqb_refl; reflexivity). apply eqW_eq. lia.
    + destruct (sub_state _ t st) as [st'|] eqn:Est; [|discriminate]. cbn [obind] in E.
      destruct (stride_along t q st') as [x0|] eqn:Ex; [|discriminate]. cbn [obind] in E. inv E.
      destruct (Hsub st' q x0 eq_refl eq_refl Ex) as (x & Hx & HxW). cbn [own_steps] in Hos. apply andb_true_iff in Hos.
      destruct Hos as [Hqd _]. rewrite Hqd in HxW. unfold view_swf in Hvw. destruct (signature t) as [s0|]; [|discriminate].
      destruct (vz s) as [zs|]; [|discriminate]. destruct (vz r) as [zr|] eqn:Er; [|discriminate].
      eexists. split; [apply vz_vmul'; [exact Hx|exact Er]|]. rewrite HxW, eqW_u64. unfold vzd. rewrite Er. apply eqW_eq. ring.
    + destruct (sub_state _ t st) as [st'|] eqn:Est; [|discriminate]. cbn [obind] in E.
      destruct (stride_along t q st') as [x0|] eqn:Ex; [|discriminate]. cbn [obind] in E. inv E.
      destruct (Hsub st' q x0 eq_refl eq_refl Ex) as (x & Hx & HxW). destruct (q =? d).
      * exists (u64 (- x)). split; [rewrite vz_vneg, Hx; reflexivity|]. rewrite HxW, eqW_u64. apply eqW_eq. ring.
      * exists x. split; [exact Hx|]. rewrite HxW. apply eqW_eq. ring.
    + (* blocks *) cbn [has_stride_along] in Eh. destruct (Z.eqb_spec q m) as [->|Hqm].
      * destruct (sub_state _ t st) as [st'|] eqn:Est; [|discriminate]. cbn [obind] in E. rewrite orb_true_r in Hsub.
        destruct (Hsub st' d w eq_refl eq_refl E) as (x & Hx & HxW). exists x. split; [exact Hx|].
        pose proof Hv as (Es & _ & _). destruct (signature_View_inv _ _ _ Es) as (s0 & E0 & Ev). cbn [view_sig] in Ev.
        destruct ((M =? m) || _ || _) eqn:Eb in Ev; [discriminate|]. replace (m =? M) with false in HxW by lia. rewrite HxW. apply eqW_eq. ring.
      * destruct (Z.eqb_spec q M) as [->|HqM].
        -- cbn [orb] in Hsub. destruct (length_ (View (VBlocks d M m) t) m st) as [n|] eqn:En; [|discriminate]. cbn [obind] in E.
           destruct (sub_state _ t st) as [st'|] eqn:Est; [|discriminate]. cbn [obind] in E.
           destruct (stride_along t d st') as [x0|] eqn:Ex; [|discriminate]. cbn [obind] in E. inv E.
           destruct (Hsub st' d x0 eq_refl eq_refl Ex) as (x & Hx & HxW).
           destruct (has_length (View (VBlocks d M m) t) m st) as [[|]|] eqn:Ehl; try discriminate.
           pose proof (block_len (VBlocks d M m) t sg l a p st d M m n (conj eq_refl (conj eq_refl eq_refl)) Hw Hlk Hl Hg Hv Hag Hld Hpd Hq Ehl En) as Hn.
           eexists. split; [apply vz_vmul'; [exact Hn|exact Hx]|]. rewrite HxW, eqW_u64. cbn [ilen view_ilen]. rewrite !Z.eqb_refl. apply eqW_eq. ring.
        -- apply Hplain; [reflexivity|reflexivity|exact E].
    + (* dynamic *) cbn [has_stride_along] in Eh.
      pose proof Hv as (Es & _ & _). destruct (signature_View_inv _ _ _ Es) as (s0 & E0 & Ev). cbn [view_sig] in Ev.
      destruct ((M =? m) || _ || _ || _ || _ || _) eqn:Eb in Ev; [discriminate|]. rewrite !orb_false_iff in Eb.
      destruct Eb as [[[[[HMm HMp] Hmp] _] _] _].
      destruct (Z.eqb_spec q m) as [->|Hqm].
      * destruct (sub_state _ t st) as [st'|] eqn:Est; [|discriminate]. cbn [obind] in E. rewrite orb_true_r in Hsub. rewrite Hmp in Hsub.
        destruct (Hsub st' d w eq_refl eq_refl E) as (x & Hx & HxW). exists x. split; [exact Hx|].
        replace (m =? M) with false in HxW by lia. rewrite HxW. apply eqW_eq. ring.
      * destruct (Z.eqb_spec q M) as [->|HqM].
        -- cbn [orb] in Hsub. rewrite HMp in Hsub. destruct (length_ (View (VBlocksDyn d M m pd) t) m st) as [n|] eqn:En; [|discriminate]. cbn [obind] in E.
           destruct (sub_state _ t st) as [st'|] eqn:Est; [|discriminate]. cbn [obind] in E.
           destruct (stride_along t d st') as [x0|] eqn:Ex; [|discriminate]. cbn [obind] in E. inv E.
           destruct (Hsub st' d x0 eq_refl eq_refl Ex) as (x & Hx & HxW).
           destruct (has_length (View (VBlocksDyn d M m pd) t) m st) as [[|]|] eqn:Ehl; try discriminate.
           pose proof (block_len (VBlocksDyn d M m pd) t sg l a p st d M m n (conj eq_refl (conj eq_refl eq_refl)) Hw Hlk Hl Hg Hv Hag Hld Hpd Hq Ehl En) as Hn.
           eexists. split; [apply vz_vmul'; [exact Hn|exact Hx]|]. rewrite HxW, eqW_u64. cbn [ilen view_ilen]. rewrite Hmp, !Z.eqb_refl. apply eqW_eq. ring.
        -- destruct (Z.eqb_spec q pd) as [->|Hqp]; [|apply Hplain; [reflexivity|reflexivity|exact E]].
           injection E as <-. exists 0. split; [reflexivity|]. rewrite Hnone by (rewrite ?Z.eqb_refl; reflexivity). apply eqW_eq. lia.
    + (* static *) cbn [has_stride_along] in Eh.
      pose proof Hv as (Es & _ & _). destruct (signature_View_inv _ _ _ Es) as (s0 & E0 & Ev). cbn [view_sig] in Ev.
      destruct ((b =? M) || _ || _ || _ || _ || _) eqn:Eb in Ev; [discriminate|]. rewrite !orb_false_iff in Eb.
      destruct Eb as [[[[[HbM Hbm] HMm] HMa] _] _].
      destruct (Z.eqb_spec q m) as [->|Hqm].
      * destruct (sub_state _ t st) as [st'|] eqn:Est; [|discriminate]. cbn [obind] in E. rewrite orb_true_r in Hsub.
        destruct (Hsub st' d w eq_refl eq_refl E) as (x & Hx & HxW). exists x. split; [exact Hx|].
        replace (m =? M) with false in HxW by lia. rewrite HxW. apply eqW_eq. ring.
      * destruct (Z.eqb_spec q M) as [->|HqM].
        -- cbn [orb] in Hsub. destruct (length_ (View (VBlocksSta d b M m ml) t) m st) as [n|] eqn:En; [|discriminate]. cbn [obind] in E.
           destruct (sub_state _ t st) as [st'|] eqn:Est; [|discriminate]. cbn [obind] in E.
           destruct (stride_along t d st') as [x0|] eqn:Ex; [|discriminate]. cbn [obind] in E. inv E.
           destruct (Hsub st' d x0 eq_refl eq_refl Ex) as (x & Hx & HxW).
           destruct (has_length (View (VBlocksSta d b M m ml) t) m st) as [[|]|] eqn:Ehl; try discriminate.
           pose proof (block_len (VBlocksSta d b M m ml) t sg l a p st d M m n (conj eq_refl (conj eq_refl eq_refl)) Hw Hlk Hl Hg Hv Hag Hld Hpd Hq Ehl En) as Hn.
           eexists. split; [apply vz_vmul'; [exact Hn|exact Hx]|]. rewrite HxW, eqW_u64. cbn [ilen view_ilen].
           replace (m =? b) with false by lia. rewrite !Z.eqb_refl. destruct (Z.eqb_spec (a b) 0) as [Hb0|Hb0]; [apply eqW_eq; ring|].
           assert (Hb2 : a2 b = a b).
           { apply Hd; [|lia]. destruct Hv as (_ & Ep & _). destruct (view_down _ _ _ _ _ l Hw Es Ep) as (s1 & p' & E1 & _ & _ & Ep' & R & _).
             destruct R as [-> Hfun]. pose proof Hq as HM. apply in_pm in HM.
             destruct HM as [[HM1 Hne]|(k & Hk & HE)].
             - exfalso. cbn [fst] in Hne. pose proof (spath_accept' _ _ _ _ _ Ep' HM1) as Hacc. assert (s1 = s0) by congruence. subst s1.
               rewrite Hacc in HMa. destruct (Z.eqb_spec M d); [contradiction|discriminate].
             - pose proof (Hfun _ Hk) as ->. eapply pm_new; [exact Hk|]. simpl. tauto. }
           pose proof Hv as (_ & _ & Hr1). pose proof Hv2 as (_ & _ & Hr2). rewrite Forall_forall in Hr1, Hr2.
           specialize (Hr1 _ Hq). specialize (Hr2 _ Hq). unfold in_range in Hr1, Hr2. cbn [fst snd ilen view_ilen] in Hr1, Hr2.
           replace (M =? b) with false in * by lia. replace (M =? m) with false in * by lia. rewrite Z.eqb_refl in Hr1, Hr2. rewrite Hb2 in Hr2.
           destruct (Z.eqb_spec (a b) 0); [contradiction|]. replace (a2 M) with 0 by lia. replace (a M) with 0 by lia. apply eqW_eq. ring.
        -- apply Hplain; [|reflexivity|exact E]. reflexivity.
    + (* rename *) destruct (sub_state _ t st) as [st'|] eqn:Est; [|discriminate]. cbn [obind] in E.
      destruct (Hsub st' _ w eq_refl eq_refl E) as (x & Hx & HxW). exists x. split; [exact Hx|]. rewrite HxW. apply eqW_eq. ring.
Qed.
