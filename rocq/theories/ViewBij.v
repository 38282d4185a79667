(** * Views select distinct elements, and which elements they select *)

From Verif Require Export ViewFacts.

(** ** Different indices select different elements *)

Section Same.
  Variables (v : view) (t : struct) (s0 sg : sig) (l : lenv) (a b : asg) (p' p : path) (La Lb : dim -> Z).
  Hypothesis Hnb : is_bcast v = false.
  Hypothesis Hw : view_swf v t = true.
  Hypothesis E0 : signature t = Some s0.
  Hypothesis Ev : view_sig v s0 = Some sg.
  Hypothesis Ep' : spath s0 (view_asg v (ilen t) l a) = Some p'.
  Hypothesis R : prel v p' p.
  Hypothesis Hnd : NoDup (map fst p').
  Hypothesis Hab : forall x, In x (map fst p') -> view_asg v (ilen t) l a x = view_asg v (ilen t) l b x.
  Hypothesis HL : forall x, In x (map fst p') -> La x = Lb x.
  Hypothesis Fa : vfacts v La l a (view_asg v (ilen t) l a) p'.
  Hypothesis Fb : vfacts v Lb l b (view_asg v (ilen t) l b) p'.

  Theorem view_same x : In x (map fst p) -> a x = b x.
  Proof.
    intros Hx. destruct (fst_in _ _ Hx) as [k Hk].
    unfold view_swf in Hw. rewrite E0 in Hw.
    destruct v as [d|d i|d n|d st|d st len|d st en|d st sr|d|d M m|d M m pd|d c M m ml|M m d|sl gl d ds|ds|d|ps|xa xb d];
      cbn [vfacts prel] in Fa, Fb, R.
    - discriminate.
    - subst p. apply in_pm in Hk. destruct Hk as [[Hk Hne]|(n & _ & [])]. simpl in Hne.
      specialize (Hab x (in_fst _ _ _ Hk)). cbn [view_asg] in Hab. rewrite !fupd_neq in Hab by exact Hne. exact Hab.
    - destruct R as [-> _]. apply Hab. exact Hx.
    - subst p. apply in_pm in Hk. destruct Hk as [[Hk Hne]|(n & Hn & Hk)].
      + simpl in Hne. specialize (Hab x (in_fst _ _ _ Hk)). cbn [view_asg] in Hab. rewrite !fupd_neq in Hab by exact Hne. exact Hab.
      + destruct Hk as [Hk|[]]. inv Hk. specialize (Hab x (in_fst _ _ _ Hn)). specialize (Fa _ Hn). specialize (Fb _ Hn). lia.
    - subst p. apply in_pm in Hk. destruct Hk as [[Hk Hne]|(n & Hn & Hk)].
      + simpl in Hne. specialize (Hab x (in_fst _ _ _ Hk)). cbn [view_asg] in Hab. rewrite !fupd_neq in Hab by exact Hne. exact Hab.
      + destruct Hk as [Hk|[]]. inv Hk. specialize (Hab x (in_fst _ _ _ Hn)). specialize (Fa _ Hn). specialize (Fb _ Hn). lia.
    - subst p. apply in_pm in Hk. destruct Hk as [[Hk Hne]|(n & Hn & Hk)].
      + simpl in Hne. specialize (Hab x (in_fst _ _ _ Hk)). cbn [view_asg] in Hab. rewrite !fupd_neq in Hab by exact Hne. exact Hab.
      + destruct Hk as [Hk|[]]. inv Hk. specialize (Hab x (in_fst _ _ _ Hn)). specialize (Fa _ Hn). specialize (Fb _ Hn). lia.
    - (* step *) subst p. apply in_pm in Hk. destruct Hk as [[Hk Hne]|(n & Hn & Hk)].
      + simpl in Hne. specialize (Hab x (in_fst _ _ _ Hk)). cbn [view_asg] in Hab. rewrite !fupd_neq in Hab by exact Hne. exact Hab.
      + destruct Hk as [Hk|[]]. inv Hk. specialize (Hab x (in_fst _ _ _ Hn)). specialize (Fa _ Hn). specialize (Fb _ Hn).
        apply andb_true_iff in Hw. destruct Hw as [Hr _]. destruct (vz st); [|discriminate].
        destruct (vz sr) as [zr|] eqn:Er; [|discriminate]. assert (0 < vzd sr) by (unfold vzd; rewrite Er; lia). nia.
    - (* reverse *) subst p. destruct (Z.eq_dec x d) as [E|Hne].
      + subst x. specialize (Hab d Hx). specialize (Fa _ Hk). specialize (Fb _ Hk). specialize (HL d Hx). lia.
      + specialize (Hab x Hx). cbn [view_asg] in Hab. rewrite !fupd_neq in Hab by exact Hne. exact Hab.
    - (* blocks *) destruct R as [-> _]. apply in_pm in Hk. destruct Hk as [[Hk Hne]|(n & Hn & Hk)].
      + simpl in Hne. specialize (Hab x (in_fst _ _ _ Hk)). cbn [view_asg] in Hab. rewrite !fupd_neq in Hab by exact Hne. exact Hab.
      + specialize (Hab d (in_fst _ _ _ Hn)). specialize (HL d (in_fst _ _ _ Hn)).
        destruct (Fa _ Hn) as (A1 & A2 & A3 & _). destruct (Fb _ Hn) as (B1 & B2 & B3 & _). rewrite <- HL in B1, B3.
        rewrite A1, B1 in Hab. destruct (eucl_uniq _ _ _ _ _ A3 B3 Hab) as [E1 E2].
        simpl in Hk. destruct Hk as [Hk|[Hk|[]]]; inv Hk; assumption.
    - (* blocks dynamic *) destruct R as [-> _]. apply in_pm in Hk. destruct Hk as [[Hk Hne]|(n & Hn & Hk)].
      + simpl in Hne. specialize (Hab x (in_fst _ _ _ Hk)). cbn [view_asg] in Hab. rewrite !fupd_neq in Hab by exact Hne. exact Hab.
      + specialize (Hab d (in_fst _ _ _ Hn)). specialize (HL d (in_fst _ _ _ Hn)).
        destruct (Fa _ Hn) as (A1 & A2 & A3 & _ & A4). destruct (Fb _ Hn) as (B1 & B2 & B3 & _ & B4). rewrite <- HL in B1, B3.
        rewrite A1, B1 in Hab. destruct (eucl_uniq _ _ _ _ _ A3 B3 Hab) as [E1 E2].
        simpl in Hk. destruct Hk as [Hk|[Hk|[Hk|[]]]]; inv Hk; congruence.
    - (* blocks static *) destruct R as [-> _]. apply in_pm in Hk. destruct Hk as [[Hk Hne]|(n & Hn & Hk)].
      + simpl in Hne. specialize (Hab x (in_fst _ _ _ Hk)). cbn [view_asg] in Hab. rewrite !fupd_neq in Hab by exact Hne. exact Hab.
      + specialize (Hab d (in_fst _ _ _ Hn)). specialize (HL d (in_fst _ _ _ Hn)).
        destruct (Fa _ Hn) as (A1 & A2 & A3). destruct (Fb _ Hn) as (_ & B2 & B3). rewrite <- HL in B3. clear Fa Fb Hw HL.
        assert (E : a c = b c /\ a M = b M /\ a m = b m).
        { destruct A3 as [(Aa & Ab & Ac & Ad & Ae)|(Aa & Ab & Ac & Ad & Ae)], B3 as [(Ba & Bb & Bc & Bd & Be)|(Ba & Bb & Bc & Bd & Be)]; try lia.
          rewrite Ad, Bd in Hab. destruct (eucl_uniq _ _ _ _ _ (conj A2 Ac) (conj B2 Bc) Hab) as [E1 E2]. lia. }
        simpl in Hk. destruct Hk as [Hk|[Hk|[Hk|[]]]]; inv Hk; tauto.
    - (* merge *)
      assert (HMm : M <> m) by (cbn [view_sig] in Ev; intros ->; rewrite Z.eqb_refl in Ev; discriminate).
      assert (HND : NoDup [M; m]) by (repeat constructor; simpl; intuition congruence).
      destruct (peeled_inv _ _ _ _ _ _ _ R Hk) as [(-> & _ & Hl)|[Hk' Hout]].
      + pose proof (proj1 (inside_all [M; m] p' HND Hnd) Hl) as Hall. destruct R as [_ Hfun].
        assert (Hin : forall y, In y [M; m] -> In (y, None) p').
        { intros y Hy. destruct (fst_in _ _ (Hall y Hy)) as [j Hj]. rewrite <- (Hfun y j Hj Hy). exact Hj. }
        destruct (Fa (Hin M ltac:(simpl; auto)) (Hin m ltac:(simpl; auto))) as (A1 & A2 & A3 & A4).
        destruct (Fb (Hin M ltac:(simpl; auto)) (Hin m ltac:(simpl; auto))) as (B1 & B2 & B3 & B4).
        pose proof (Hab M (Hall M ltac:(simpl; auto))) as HM. pose proof (Hab m (Hall m ltac:(simpl; auto))) as Hm.
        rewrite <- (HL m (Hall m ltac:(simpl; auto))) in B2, B3, B4. rewrite A3, B3 in HM. rewrite A4, B4 in Hm.
        rewrite (Z.div_mod (a d) (La m)), (Z.div_mod (b d) (La m)) by lia. congruence.
      + specialize (Hab x (in_fst _ _ _ Hk')). cbn [view_asg] in Hab. rewrite !fupds_out in Hab by exact Hout. exact Hab.
    - (* zcurve *)
      rewrite !andb_true_iff in Hw. destruct Hw as [[[[Hdis H2] H32] Hsl] Htog].
      cbn [view_sig] in Ev. destruct (_ && _ && _ && _ && nodupb ds && _) eqn:Ef in Ev; [|discriminate].
      rewrite !andb_true_iff in Ef. destruct Ef as [[[[[Hsg Hgl] _] _] HND] Hdd]. apply nodupb_NoDup in HND.
      apply Nat.leb_le in H2, H32, Hsg. apply Nat.ltb_lt in Hsl, Hgl.
      destruct (peeled_inv _ _ _ _ _ _ _ R Hk) as [(-> & _ & Hl)|[Hk' Hout]].
      + pose proof (proj1 (inside_all ds p' HND Hnd) Hl) as Hall. destruct R as [_ Hfun].
        assert (Hin : forall y, In y ds -> In (y, None) p').
        { intros y Hy. destruct (fst_in _ _ (Hall y Hy)) as [j Hj]. rewrite <- (Hfun y j Hj Hy). exact Hj. }
        destruct (Fa Hin) as (A1 & A2 & A3 & A4). destruct (Fb Hin) as (B1 & B2 & B3 & B4).
        assert (EL : map La ds = map Lb ds) by (apply map_ext_in; intros y Hy; apply HL, Hall, Hy).
        assert (EA : map (view_asg (VZCurve sl gl d ds) (ilen t) l a) ds = map (view_asg (VZCurve sl gl d ds) (ilen t) l b) ds)
          by (apply map_ext_in; intros y Hy; apply Hab, Hall, Hy).
        rewrite A4, B4, <- EL in EA. rewrite <- EL in B1.
        apply (zc_f_inj sl gl (map La ds)); rewrite ?map_length; auto.
      + specialize (Hab x (in_fst _ _ _ Hk')). cbn [view_asg] in Hab.
        rewrite !fupds_out in Hab by (rewrite map_fst_combine; [exact Hout|rewrite map_length, zc_indices_length, map_length; reflexivity]).
        exact Hab.
    - apply Hab. eapply Permutation_in; [apply Permutation_map, R|exact Hx].
    - destruct R as [Hd ->]. apply Hab. destruct Hk as [Hk|Hk]; [inv Hk; eapply in_fst; eauto|].
      apply in_pm in Hk. destruct Hk as [[Hk _]|(n & _ & [])]. eapply in_fst; eauto.
    - subst p. apply in_map_iff in Hk. destruct Hk as ([x' k'] & E & Hk). simpl in E. inv E.
      apply (Hab x' (in_fst _ _ _ Hk)).
    - destruct R.
  Qed.
End Same.

(** ** Which elements a view selects *)

(** [cover v L l c p']: the element [c] of the sub-structure, on path [p'], is selected by the
    view.  [L] gives the lengths of the sub-structure. *)
Definition cover (v : view) (L : dim -> Z) (l : lenv) (c : asg) (p' : path) : Prop :=
  match v with
  | VBcast d => 0 < odef (l d)
  | VFix d i => In d (map fst p') -> c d = vzd i
  | VShift d s => In d (map fst p') -> vzd s <= c d /\ match l d with Some x => c d < x + vzd s | None => True end
  | VSlice d s k => In d (map fst p') -> vzd s <= c d < vzd s + vzd k
  | VSpan d s e => In d (map fst p') -> vzd s <= c d < vzd e
  | VStep d s r => In d (map fst p') -> vzd s <= c d /\ (c d - vzd s) mod vzd r = 0
  | VBlocks d M m => In d (map fst p') ->
      match l M, l m with
      | Some x, Some y => c d < x * y
      | Some x, None => c d < x * (L d / x)
      | None, Some y => c d < L d / y * y
      | None, None => False end
  | VBlocksDyn d M m _ => In d (map fst p') ->
      match l M, l m with
      | Some x, Some y => c d < x * y
      | None, None => False
      | _, _ => True end
  | _ => True
  end.

Lemma sdep_sdims s d : In d (sdep_dims s) -> In d (sdims s).
Proof.
  induction s as [c| |q al r IH|q rs IH] using sig_ind'; simpl; auto.
  intros [H|H]; [auto|]. right. apply in_flat_map in H. destruct H as (r & Hr & H). apply in_flat_map. exists r.
  split; [exact Hr|]. rewrite Forall_forall in IH. auto.
Qed.

Lemma sreplace_nodep d f s s' : snodup s = true -> sreplace [d] f s = Some s' ->
  (forall rs, f (SDep d rs) = None) -> ~ In d (sdep_dims s).
Proof.
  intros Hn E Hf. revert s' E. induction s as [c| |q al r IH|q rs IH] using sig_ind'; intros s' E; simpl; auto.
  - apply snodup_fun in Hn. destruct Hn as [Hq Hr]. simpl in E. destruct (Z.eqb_spec q d) as [->|Hne].
    + intros Hin. apply sdep_sdims, accept_sdims in Hin. congruence.
    + simpl in E. destruct (sreplace [d] f r) as [r'|] eqn:Er; [|discriminate]. eauto.
  - simpl in E. destruct (Z.eqb_spec q d) as [->|Hne]; [rewrite Hf in E; discriminate|].
    simpl in E. intros [H|H]; [congruence|]. apply in_flat_map in H. destruct H as (r & Hr & H).
    destruct (omap (sreplace [d] f) rs) as [rs'|] eqn:Eo; [|discriminate].
    apply omap_Some_Forall2 in Eo. rewrite Forall_forall in IH.
    assert (Hx : exists r', sreplace [d] f r = Some r').
    { clear -Eo Hr. induction Eo as [|x y l r0 H _ IHo]; [destruct Hr|]. destruct Hr as [<-|Hr]; eauto. }
    destruct Hx as [r' Er]. apply In_nthz in Hr. destruct Hr as [k Hk].
    destruct (snodup_dep _ _ _ _ Hn Hk) as [_ Hr']. eapply (IH r); eauto using nthz_In.
Qed.

Section Onto.
  Variables (v : view) (t : struct) (s0 sg : sig) (l : lenv) (c : asg) (p' : path).
  Let l' := view_lenv v l.
  Hypothesis Hloc : loc t.
  Hypothesis Hw : view_swf v t = true.
  Hypothesis Ht : uswf t = true.
  Hypothesis E0 : signature t = Some s0.
  Hypothesis Ev : view_sig v s0 = Some sg.
  Hypothesis Hsn : snodup s0 = true.
  Hypothesis Ep' : spath s0 c = Some p'.
  Hypothesis Hnd : NoDup (map fst p').
  Hypothesis Hl : lrange l.
  Hypothesis Hg : view_good v (plen t (view_lenv v l) c) l.
  Hypothesis Hc : Forall (in_range t (view_lenv v l) c) p'.

  Definition Lc (d : dim) : Z := odef (plen t (view_lenv v l) c d).
  Hypothesis Hcov : cover v Lc l c p'.

  Lemma Lc_fun d : In (d, None) p' -> Lc d = ilen t (view_lenv v l) c d.
  Proof. intros H. unfold Lc. rewrite (plen_fun _ _ _ _ _ _ E0 Ep' Hnd H). reflexivity. Qed.
  Lemma Lc_dep d k : In (d, Some k) p' -> Lc d = k.
  Proof. intros H. unfold Lc. rewrite (plen_dep _ _ _ _ _ _ _ E0 Ep' Hnd H). reflexivity. Qed.
  Lemma Lc_in d k : In (d, k) p' -> plen t (view_lenv v l) c d = Some (Lc d).
  Proof. intros H. unfold Lc. rewrite (plen_in _ _ _ _ _ _ _ E0 Ep' Hnd H). reflexivity. Qed.
  Lemma Lc_range d k : In (d, k) p' -> 0 <= c d < Lc d /\ Lc d < W.
  Proof.
    intros H. rewrite Forall_forall in Hc. specialize (Hc _ H). destruct k as [k|]; unfold in_range in Hc; simpl in Hc.
    - rewrite (Lc_dep _ _ H). split; [exact Hc|]. eapply (spath_count t); eauto.
    - rewrite (Lc_fun _ H). split; [exact Hc|]. apply ilen_range, view_lrange, Hl.
  Qed.
  Lemma loc_c b d : In (d, None) p' ->
    (forall x, In x (ldeps t d) -> In x (map fst p') -> b x = c x) -> ilen t (view_lenv v l) b d = Lc d.
  Proof. intros H Hx. rewrite Lc_fun by exact H. eapply Hloc; eauto. Qed.

  (** A dimension the view leaves alone. *)
  Lemma keep_rng a x k : In (x, k) p' ->
    (forall y, In y (map fst p') -> view_asg v (ilen t) l a y = c y) ->
    view_ilen v (ilen t) l a x = ilen t (view_lenv v l) (view_asg v (ilen t) l a) x -> a x = c x ->
    in_range (View v t) l a (x, k).
  Proof.
    intros H Ha Hv E. pose proof (Lc_range _ _ H) as [Hr _]. unfold in_range. cbn [fst snd]. rewrite E.
    destruct k as [k|]; [rewrite (Lc_dep _ _ H) in Hr; exact Hr|]. cbn [ilen]. rewrite Hv, loc_c; auto.
  Qed.

  (** It suffices to give indices that are passed down to [c]. *)
  Lemma onto_by a :
    (forall y, In y (map fst p') -> view_asg v (ilen t) l a y = c y) ->
    path_ok_back v s0 sg (ilen t) l a p' ->
    (forall p, prel v p' p -> forall e, In e p -> in_range (View v t) l a e) ->
    exists a p, spath sg a = Some p /\ Forall (in_range (View v t) l a) p /\
      forall y, In y (map fst p') -> view_asg v (ilen t) l a y = c y.
  Proof.
    intros Ha Hpo Hr. assert (E : spath s0 (view_asg v (ilen t) l a) = Some p').
    { eapply spath_ext; [exact Ep'|]. intros d n Hn. apply Ha. eapply in_fst; eauto. }
    destruct (view_path_back _ _ _ (ilen t) l _ _ Hsn Ev E Hpo) as (p & Ep & R).
    exists a, p. split; [exact Ep|]. split; [|exact Ha]. apply Forall_forall. apply Hr, R.
  Qed.

  Theorem view_onto : exists a p, spath sg a = Some p /\ Forall (in_range (View v t) l a) p /\
    forall y, In y (map fst p') -> view_asg v (ilen t) l a y = c y.
  Proof.
    pose proof Lc_range as HLr. pose proof Lc_in as HLi. pose proof loc_c as Hlc. pose proof Lc_dep as HLd.
    pose proof keep_rng as Hkr. pose proof onto_by as Hby. pose proof Lc_fun as HLf.
    assert (Hacc : forall x k, In (x, k) p' -> any_accept x s0 = true)
      by (intros x k Hk; exact (spath_accept _ _ _ Ep' _ Hk)).
    assert (Hfr : forall d y, negb (y =? d) && any_accept y s0 = false -> forall q, In q (map fst p') -> q <> d -> q <> y).
    { intros d y Hf q Hq Hqd ->. destruct (fst_in _ _ Hq) as [k Hk]. rewrite (Hacc _ _ Hk) in Hf.
      destruct (Z.eqb_spec y d); [contradiction|discriminate]. }
    set (L := Lc) in *. clearbody L.
    unfold view_swf in Hw. rewrite E0 in Hw. unfold view_good in Hg.
    destruct v as [d|d i|d n|d st|d st len|d st en|d st sr|d|d M m|d M m pd|d b M m ml|M m d|sl gl d ds|ds|d|ps|xa xb d];
      cbn [cover] in Hcov; cbn [prel path_ok_back] in Hby.
    - (* bcast *) apply negb_true_iff in Hw.
      assert (Hne : forall y, In y (map fst p') -> y <> d).
      { intros y Hy ->. destruct (fst_in _ _ Hy) as [k Hk]. rewrite (Hacc _ _ Hk) in Hw. discriminate. }
      assert (Ha : forall y, In y (map fst p') -> view_asg (VBcast d) (ilen t) l (fupd c d 0) y = c y)
        by (intros y Hy; cbn [view_asg]; apply fupd_neq, Hne, Hy).
      apply (Hby (fupd c d 0)); [exact Ha|exact I|]. intros p -> [x k] [Hin|Hin].
      + inv Hin. unfold in_range. cbn [fst snd ilen view_ilen]. rewrite fupd_eq, Z.eqb_refl. lia.
      + apply Hkr; [exact Hin|exact Ha| |apply Ha; eapply in_fst; eauto].
        cbn [view_ilen]. pose proof (Hne x (in_fst _ _ _ Hin)). destruct (Z.eqb_spec x d); [contradiction|reflexivity].
    - (* fix *) assert (Ha : forall y, In y (map fst p') -> view_asg (VFix d i) (ilen t) l c y = c y).
      { intros y Hy. cbn [view_asg]. unfold fupd. destruct (Z.eqb_spec y d); [subst; symmetry; apply Hcov, Hy|reflexivity]. }
      apply (Hby c Ha I). intros p -> [x k] Hin. apply in_pm in Hin. destruct Hin as [[Hin _]|(n & _ & [])].
      apply Hkr; auto.
    - apply (Hby c); [reflexivity|exact I|]. intros p [-> _] [x k] Hin. apply Hkr; auto.
    - (* shift *) set (a := fupd c d (c d - vzd st)). pose proof (vzd_range st) as Hst.
      assert (Ha : forall y, In y (map fst p') -> view_asg (VShift d st) (ilen t) l a y = c y).
      { intros y Hy. cbn [view_asg]. destruct (Z.eq_dec y d) as [E|Hne]; [|rewrite fupd_neq by exact Hne; apply fupd_neq, Hne].
        subst y. rewrite fupd_eq. unfold a. rewrite fupd_eq. destruct (fst_in _ _ Hy) as [k Hk].
        specialize (HLr _ _ Hk). rewrite u64_small by lia. lia. }
      assert (Hd : forall k, In (d, k) p' -> 0 <= a d < match k with Some n => u64 (n - vzd st)
                     | None => view_ilen (VShift d st) (ilen t) l a d end).
      { intros k Hk. rewrite (HLi _ _ Hk) in Hg. simpl in Hg. destruct (Hcov (in_fst _ _ _ Hk)) as [H1 H2]. destruct (HLr _ _ Hk) as [H3 H4].
        unfold a. rewrite fupd_eq. destruct k as [k|].
        - rewrite (HLd _ _ Hk) in *. rewrite u64_small by lia. lia.
        - cbn [view_ilen]. rewrite Z.eqb_refl. destruct (l d) as [x|]; [lia|].
          rewrite Hlc by auto. rewrite u64_small by lia. lia. }
      apply (Hby a Ha); [intros n Hn; apply (Hd _ Hn)|]. intros p -> [x k] Hin. apply in_pm in Hin.
      destruct Hin as [[Hin Hne]|(n & Hn & [Hin|[]])].
      + simpl in Hne. apply Hkr; [exact Hin|exact Ha| |unfold a; apply fupd_neq, Hne].
        cbn [view_ilen]. destruct (Z.eqb_spec x d); [contradiction|reflexivity].
      + inv Hin. specialize (Hd _ Hn). unfold in_range. cbn [fst snd ilen]. destruct n; exact Hd.
    - (* slice *) set (a := fupd c d (c d - vzd st)). pose proof (vzd_range st) as Hst.
      assert (Ha : forall y, In y (map fst p') -> view_asg (VSlice d st len) (ilen t) l a y = c y).
      { intros y Hy. cbn [view_asg]. destruct (Z.eq_dec y d) as [E|Hne]; [|rewrite fupd_neq by exact Hne; apply fupd_neq, Hne].
        subst y. rewrite fupd_eq. unfold a. rewrite fupd_eq. destruct (fst_in _ _ Hy) as [k Hk].
        specialize (HLr _ _ Hk). rewrite u64_small by lia. lia. }
      assert (Hd : forall k, In (d, k) p' -> 0 <= a d < vzd len).
      { intros k Hk. specialize (Hcov (in_fst _ _ _ Hk)). unfold a. rewrite fupd_eq. lia. }
      apply (Hby a Ha); [intros n Hn; apply (Hd _ Hn)|]. intros p -> [x k] Hin. apply in_pm in Hin.
      destruct Hin as [[Hin Hne]|(n & Hn & [Hin|[]])].
      + simpl in Hne. apply Hkr; [exact Hin|exact Ha| |unfold a; apply fupd_neq, Hne].
        cbn [view_ilen]. destruct (Z.eqb_spec x d); [contradiction|reflexivity].
      + inv Hin. specialize (Hd _ Hn). unfold in_range. cbn [fst snd ilen view_ilen]. rewrite Z.eqb_refl. destruct n; exact Hd.
    - (* span *) set (a := fupd c d (c d - vzd st)). pose proof (vzd_range st) as Hst. pose proof (vzd_range en) as Hen.
      assert (Ha : forall y, In y (map fst p') -> view_asg (VSpan d st en) (ilen t) l a y = c y).
      { intros y Hy. cbn [view_asg]. destruct (Z.eq_dec y d) as [E|Hne]; [|rewrite fupd_neq by exact Hne; apply fupd_neq, Hne].
        subst y. rewrite fupd_eq. unfold a. rewrite fupd_eq. destruct (fst_in _ _ Hy) as [k Hk].
        specialize (HLr _ _ Hk). rewrite u64_small by lia. lia. }
      assert (Hd : forall k, In (d, k) p' -> 0 <= a d < u64 (vzd en - vzd st)).
      { intros k Hk. specialize (Hcov (in_fst _ _ _ Hk)). unfold a. rewrite fupd_eq. rewrite u64_small by lia. lia. }
      apply (Hby a Ha); [intros n Hn; apply (Hd _ Hn)|]. intros p -> [x k] Hin. apply in_pm in Hin.
      destruct Hin as [[Hin Hne]|(n & Hn & [Hin|[]])].
      + simpl in Hne. apply Hkr; [exact Hin|exact Ha| |unfold a; apply fupd_neq, Hne].
        cbn [view_ilen]. destruct (Z.eqb_spec x d); [contradiction|reflexivity].
      + inv Hin. specialize (Hd _ Hn). unfold in_range. cbn [fst snd ilen view_ilen]. rewrite Z.eqb_refl. destruct n; exact Hd.
    - (* step *) set (a := fupd c d ((c d - vzd st) / vzd sr)). pose proof (vzd_range st) as Hst.
      apply andb_true_iff in Hw. destruct Hw as [Hr Hdd]. apply negb_true_iff, mem_false in Hdd.
      destruct (vz st) as [zs|] eqn:Es; [|discriminate].
      destruct (vz sr) as [zr|] eqn:Er; [|discriminate]. assert (Hr' : 0 < vzd sr) by (unfold vzd; rewrite Er; lia).
      assert (Hq : forall k, In (d, k) p' -> 0 <= a d /\ c d = a d * vzd sr + vzd st).
      { intros k Hk. destruct (Hcov (in_fst _ _ _ Hk)) as [H1 H2]. unfold a. rewrite fupd_eq.
        pose proof (Z.div_mod (c d - vzd st) (vzd sr) ltac:(lia)). pose proof (Z.div_pos (c d - vzd st) (vzd sr) ltac:(lia) Hr'). lia. }
      assert (Ha : forall y, In y (map fst p') -> view_asg (VStep d st sr) (ilen t) l a y = c y).
      { intros y Hy. cbn [view_asg]. destruct (Z.eq_dec y d) as [E|Hne]; [|rewrite fupd_neq by exact Hne; apply fupd_neq, Hne].
        subst y. rewrite fupd_eq. destruct (fst_in _ _ Hy) as [k Hk]. destruct (Hq _ Hk) as [_ <-].
        specialize (HLr _ _ Hk). apply u64_small. lia. }
      assert (Hd : forall k, In (d, k) p' -> 0 <= a d < match k with Some n => u64 (n + vzd sr - vzd st - 1) / vzd sr
                     | None => view_ilen (VStep d st sr) (ilen t) l a d end).
      { intros k Hk. rewrite (HLi _ _ Hk) in Hg. simpl in Hg. destruct (HLr _ _ Hk) as [H3 H4]. destruct (Hq _ Hk) as [Hq1 Hq2].
        assert (Hx : 0 <= a d < (L d + vzd sr - vzd st - 1) / vzd sr).
        { split; [exact Hq1|]. apply Z.lt_le_trans with (a d + 1); [lia|]. apply Z.div_le_lower_bound; nia. }
        destruct k as [k|].
        - rewrite (HLd _ _ Hk) in *. rewrite u64_small by lia. exact Hx.
        - cbn [view_ilen]. rewrite Z.eqb_refl. rewrite Hlc; [rewrite u64_small by lia; exact Hx|exact Hk|].
          intros x Hx' _. unfold a. apply fupd_neq. congruence. }
      apply (Hby a Ha); [intros n Hn; apply (Hd _ Hn)|]. intros p -> [x k] Hin. apply in_pm in Hin.
      destruct Hin as [[Hin Hne]|(n & Hn & [Hin|[]])].
      + simpl in Hne. apply Hkr; [exact Hin|exact Ha| |unfold a; apply fupd_neq, Hne].
        cbn [view_ilen]. destruct (Z.eqb_spec x d); [contradiction|reflexivity].
      + inv Hin. specialize (Hd _ Hn). unfold in_range. cbn [fst snd ilen]. destruct n; exact Hd.
    - (* reverse *) set (a := fupd c d (L d - 1 - c d)). apply andb_true_iff in Hw. destruct Hw as [Hdd Hq].
      apply negb_true_iff, mem_false in Hdd.
      assert (Hdep : forall x, In (x, None) p' -> ~ In d (ldeps t x)).
      { intros x Hx. rewrite forallb_forall in Hq. pose proof (Hacc _ _ Hx) as Hac. apply accept_sdims in Hac.
        specialize (Hq _ Hac). apply negb_true_iff, mem_false in Hq. exact Hq. }
      assert (Hlen : forall x, In (x, None) p' -> ilen t (view_lenv (VReverse d) l) a x = L x).
      { intros x Hx. apply Hlc; [exact Hx|]. intros y Hy _. unfold a. apply fupd_neq. intros ->. exact (Hdep x Hx Hy). }
      assert (Hfun : forall k, In (d, k) p' -> k = None).
      { intros [k|] Hk; [|reflexivity]. exfalso. apply Hdd. eapply spath_sdep; eauto. }
      assert (Ha : forall y, In y (map fst p') -> view_asg (VReverse d) (ilen t) l a y = c y).
      { intros y Hy. cbn [view_asg]. destruct (Z.eq_dec y d) as [E|Hne]; [|rewrite fupd_neq by exact Hne; apply fupd_neq, Hne].
        subst y. rewrite fupd_eq. destruct (fst_in _ _ Hy) as [k Hk]. pose proof (Hfun _ Hk). subst k.
        rewrite Hlen by exact Hk. unfold a. rewrite fupd_eq. specialize (HLr _ _ Hk). rewrite u64_small by lia. lia. }
      apply (Hby a Ha); [intros n Hn; discriminate (Hfun _ Hn)|]. intros p -> [x k] Hin.
      destruct (Z.eq_dec x d) as [E|Hne].
      + subst x. pose proof (Hfun _ Hin). subst k. unfold in_range. cbn [fst snd ilen view_ilen]. rewrite Hlen by exact Hin.
        unfold a. rewrite fupd_eq. specialize (HLr _ _ Hin). lia.
      + destruct (HLr _ _ Hin) as [Hr _]. unfold in_range. cbn [fst snd ilen view_ilen].
        destruct k as [k|]; [rewrite (HLd _ _ Hin) in Hr|rewrite Hlen by exact Hin]; unfold a; rewrite fupd_neq by exact Hne; exact Hr.
    - (* blocks *) apply negb_true_iff, mem_false in Hw.
      set (n := minor_len l M m (L d)). set (a := fupds c [(M, c d / n); (m, c d mod n)]).
      cbn [view_sig] in Ev. destruct ((M =? m) || _ || _) eqn:Ef in Ev; [discriminate|].
      rewrite !orb_false_iff in Ef. destruct Ef as [[EMm EfM] Efm]. apply Z.eqb_neq in EMm.
      assert (HaM : a M = c d / n) by (unfold a; cbn [fupds]; apply fupd_eq).
      assert (Ham : a m = c d mod n) by (unfold a; cbn [fupds]; rewrite fupd_neq by congruence; apply fupd_eq).
      assert (Hao : forall x, In x (map fst p') -> x <> d -> a x = c x).
      { intros x Hx Hne. pose proof (Hfr d M EfM x Hx Hne). pose proof (Hfr d m Efm x Hx Hne).
        unfold a. apply fupds_out. simpl. intuition congruence. }
      assert (Hlen : In (d, None) p' -> ilen t (view_lenv (VBlocks d M m) l) a d = L d).
      { intros Hx. apply Hlc; [exact Hx|]. intros y Hy Hyp. apply Hao; [exact Hyp|congruence]. }
      assert (Hfun : forall k, In (d, k) p' -> k = None).
      { intros [k|] Hk; [|reflexivity]. exfalso. eapply sreplace_nodep; [exact Hsn|exact Ev|reflexivity|eapply spath_sdep; eauto]. }
      assert (Hn : In (d, None) p' -> 0 < n /\ c d / n < match l M with Some x => x | None => L d / odef (l m) end).
      { intros Hk. specialize (Hcov (in_fst _ _ _ Hk)). destruct (HLr _ _ Hk) as [H3 H4]. subst n. unfold minor_len.
        destruct (l M) as [x|] eqn:EM, (l m) as [y|] eqn:Em; simpl in *; try contradiction.
        - pose proof (Hl _ _ Em). pose proof (Hl _ _ EM). assert (0 < y) by nia. split; [lia|]. apply Z.div_lt_upper_bound; lia.
        - pose proof (Hl _ _ EM). pose proof (Z.div_pos (L d) x ltac:(lia) ltac:(lia)).
          assert (0 < L d / x) by nia. split; [lia|]. apply Z.div_lt_upper_bound; lia.
        - pose proof (Hl _ _ Em). assert (0 < y) by nia. split; [lia|]. apply Z.div_lt_upper_bound; lia. }
      assert (Ha : forall y, In y (map fst p') -> view_asg (VBlocks d M m) (ilen t) l a y = c y).
      { intros y Hy. cbn [view_asg]. destruct (Z.eq_dec y d) as [E|Hne]; [|rewrite fupd_neq by exact Hne; apply Hao; assumption].
        subst y. rewrite fupd_eq. destruct (fst_in _ _ Hy) as [k Hk]. pose proof (Hfun _ Hk). subst k.
        rewrite Hlen by exact Hk. fold n. rewrite HaM, Ham. destruct (Hn Hk) as [Hn0 _]. specialize (HLr _ _ Hk).
        pose proof (Z.div_mod (c d) n ltac:(lia)). rewrite u64_small by lia. lia. }
      apply (Hby a Ha I). intros p [-> _] [x k] Hin. apply in_pm in Hin. destruct Hin as [[Hin Hne]|(k' & Hk & Hin)].
      + simpl in Hne. apply Hkr; [exact Hin|exact Ha| |apply Hao; [eapply in_fst; eauto|exact Hne]].
        cbn [view_ilen]. pose proof (Hfr d M EfM x (in_fst _ _ _ Hin) Hne). pose proof (Hfr d m Efm x (in_fst _ _ _ Hin) Hne).
        destruct (Z.eqb_spec x m), (Z.eqb_spec x M); try contradiction. reflexivity.
      + pose proof (Hfun _ Hk). subst k'. destruct (Hn Hk) as [Hn0 Hn1]. specialize (HLr _ _ Hk).
        simpl in Hin. destruct Hin as [Hin|[Hin|[]]]; inv Hin; unfold in_range; cbn [fst snd ilen view_ilen]; rewrite Z.eqb_refl.
        * destruct (Z.eqb_spec x m); [contradiction|]. rewrite HaM, Hlen by exact Hk. split; [apply Z.div_pos; lia|exact Hn1].
        * rewrite Ham, Hlen by exact Hk. apply Z.mod_pos_bound, Hn0.
    - (* blocks dynamic *) apply negb_true_iff, mem_false in Hw.
      set (n := minor_len_up l M m (L d)). set (a := fupds c [(M, c d / n); (m, c d mod n); (pd, 0)]).
      cbn [view_sig] in Ev. destruct ((M =? m) || _ || _ || _ || _ || _) eqn:Ef in Ev; [discriminate|].
      rewrite !orb_false_iff in Ef. destruct Ef as [[[[[EMm EMp] Emp] EfM] Efm] Efp]. apply Z.eqb_neq in EMm, EMp, Emp.
      assert (HaM : a M = c d / n) by (unfold a; cbn [fupds]; apply fupd_eq).
      assert (Ham : a m = c d mod n) by (unfold a; cbn [fupds]; rewrite fupd_neq by congruence; apply fupd_eq).
      assert (Hap : a pd = 0) by (unfold a; cbn [fupds]; rewrite !fupd_neq by congruence; apply fupd_eq).
      assert (Hao : forall x, In x (map fst p') -> x <> d -> a x = c x).
      { intros x Hx Hne. pose proof (Hfr d M EfM x Hx Hne). pose proof (Hfr d m Efm x Hx Hne). pose proof (Hfr d pd Efp x Hx Hne).
        unfold a. apply fupds_out. simpl. intuition congruence. }
      assert (Hlen : In (d, None) p' -> ilen t (view_lenv (VBlocksDyn d M m pd) l) a d = L d).
      { intros Hx. apply Hlc; [exact Hx|]. intros y Hy Hyp. apply Hao; [exact Hyp|congruence]. }
      assert (Hfun : forall k, In (d, k) p' -> k = None).
      { intros [k|] Hk; [|reflexivity]. exfalso. eapply sreplace_nodep; [exact Hsn|exact Ev|reflexivity|eapply spath_sdep; eauto]. }
      assert (Hn : In (d, None) p' -> 0 < n /\
                c d / n < match l M with Some x => x | None => u64 (L d + odef (l m) - 1) / odef (l m) end /\
                c d < match l m, l M with Some b, Some a0 => u64 (b * a0) | _, _ => L d end).
      { intros Hk. specialize (Hcov (in_fst _ _ _ Hk)). destruct (HLr _ _ Hk) as [H3 H4]. subst n. unfold minor_len_up.
        rewrite (HLi _ _ Hk) in Hg.
        destruct (l M) as [x|] eqn:EM, (l m) as [y|] eqn:Em; simpl in *; try contradiction.
        - pose proof (Hl _ _ Em). pose proof (Hl _ _ EM). assert (0 < y) by nia. split; [lia|]. split; [apply Z.div_lt_upper_bound; lia|].
          rewrite u64_small by lia. lia.
        - pose proof (Hl _ _ EM). rewrite u64_small by lia. set (w := (L d + x - 1) / x).
          pose proof (Z.div_mod (L d + x - 1) x ltac:(lia)). pose proof (Z.mod_pos_bound (L d + x - 1) x ltac:(lia)). fold w in H0.
          assert (0 < w) by nia. split; [lia|]. split; [apply Z.div_lt_upper_bound; nia|lia].
        - pose proof (Hl _ _ Em). split; [lia|]. rewrite u64_small by lia. set (w := (L d + y - 1) / y).
          pose proof (Z.div_mod (L d + y - 1) y ltac:(lia)). pose proof (Z.mod_pos_bound (L d + y - 1) y ltac:(lia)). fold w in H0.
          split; [apply Z.div_lt_upper_bound; nia|lia]. }
      assert (Hback : In (d, None) p' -> u64 (a M * n + a m) = c d).
      { intros Hk. rewrite HaM, Ham. destruct (Hn Hk) as [Hn0 _]. specialize (HLr _ _ Hk).
        pose proof (Z.div_mod (c d) n ltac:(lia)). rewrite u64_small by lia. lia. }
      assert (Ha : forall y, In y (map fst p') -> view_asg (VBlocksDyn d M m pd) (ilen t) l a y = c y).
      { intros y Hy. cbn [view_asg]. destruct (Z.eq_dec y d) as [E|Hne]; [|rewrite fupd_neq by exact Hne; apply Hao; assumption].
        subst y. rewrite fupd_eq. destruct (fst_in _ _ Hy) as [k Hk]. pose proof (Hfun _ Hk). subst k.
        rewrite Hlen by exact Hk. apply Hback, Hk. }
      apply (Hby a Ha I). intros p [-> _] [x k] Hin. apply in_pm in Hin. destruct Hin as [[Hin Hne]|(k' & Hk & Hin)].
      + simpl in Hne. apply Hkr; [exact Hin|exact Ha| |apply Hao; [eapply in_fst; eauto|exact Hne]].
        cbn [view_ilen]. pose proof (Hfr d M EfM x (in_fst _ _ _ Hin) Hne). pose proof (Hfr d m Efm x (in_fst _ _ _ Hin) Hne).
        pose proof (Hfr d pd Efp x (in_fst _ _ _ Hin) Hne).
        destruct (Z.eqb_spec x pd), (Z.eqb_spec x m), (Z.eqb_spec x M); try contradiction. reflexivity.
      + pose proof (Hfun _ Hk). subst k'. destruct (Hn Hk) as (Hn0 & Hn1 & Hn2). specialize (HLr _ _ Hk).
        simpl in Hin. destruct Hin as [Hin|[Hin|[Hin|[]]]]; inv Hin; unfold in_range; cbn [fst snd ilen view_ilen]; rewrite Z.eqb_refl.
        * destruct (Z.eqb_spec x pd); [contradiction|]. destruct (Z.eqb_spec x m); [contradiction|]. rewrite HaM, Hlen by exact Hk.
          split; [apply Z.div_pos; lia|exact Hn1].
        * destruct (Z.eqb_spec x pd); [contradiction|]. rewrite Ham, Hlen by exact Hk. apply Z.mod_pos_bound, Hn0.
        * rewrite Hap, Hlen by exact Hk. fold n. rewrite Hback by exact Hk.
          destruct (Z.ltb_spec (c d) (match l m, l M with Some b, Some a0 => u64 (b * a0) | _, _ => L d end)); lia.
    - (* blocks static *) apply andb_true_iff in Hw. destruct Hw as [Hml Hd]. apply negb_true_iff, mem_false in Hd.
      destruct (vz ml) as [zn|] eqn:En; [|discriminate]. assert (Hn' : 0 < vzd ml) by (unfold vzd; rewrite En; lia).
      set (n := vzd ml) in *. set (body := c d <? L d / n * n).
      set (a := fupds c [(b, if body then 0 else 1); (M, if body then c d / n else 0);
                         (m, if body then c d mod n else c d - L d / n * n)]).
      cbn [view_sig] in Ev. destruct ((b =? M) || _ || _ || _ || _ || _) eqn:Ef in Ev; [discriminate|].
      rewrite !orb_false_iff in Ef. destruct Ef as [[[[[EbM Ebm] EMm] EfM] Efm] Efb]. apply Z.eqb_neq in EMm, EbM, Ebm.
      assert (Hab : a b = if body then 0 else 1) by (unfold a; cbn [fupds]; apply fupd_eq).
      assert (HaM : a M = if body then c d / n else 0) by (unfold a; cbn [fupds]; rewrite fupd_neq by congruence; apply fupd_eq).
      assert (Ham : a m = if body then c d mod n else c d - L d / n * n) by (unfold a; cbn [fupds]; rewrite !fupd_neq by congruence; apply fupd_eq).
      assert (Hao : forall x, In x (map fst p') -> x <> d -> a x = c x).
      { intros x Hx Hne. pose proof (Hfr d M EfM x Hx Hne). pose proof (Hfr d m Efm x Hx Hne). pose proof (Hfr d b Efb x Hx Hne).
        unfold a. apply fupds_out. simpl. intuition congruence. }
      assert (Hlen : In (d, None) p' -> ilen t (view_lenv (VBlocksSta d b M m ml) l) a d = L d).
      { intros Hx. apply Hlc; [exact Hx|]. intros y Hy Hyp. apply Hao; [exact Hyp|congruence]. }
      assert (Hfun : forall k, In (d, k) p' -> k = None).
      { intros [k|] Hk; [|reflexivity]. exfalso. eapply sreplace_nodep; [exact Hsn|exact Ev|reflexivity|eapply spath_sdep; eauto]. }
      assert (Hb0 : (a b =? 0) = body) by (rewrite Hab; destruct body; reflexivity).
      assert (Ha : forall y, In y (map fst p') -> view_asg (VBlocksSta d b M m ml) (ilen t) l a y = c y).
      { intros y Hy. cbn [view_asg]. destruct (Z.eq_dec y d) as [E|Hne]; [|rewrite fupd_neq by exact Hne; apply Hao; assumption].
        subst y. rewrite fupd_eq. destruct (fst_in _ _ Hy) as [k Hk]. pose proof (Hfun _ Hk). subst k.
        rewrite Hlen by exact Hk. rewrite Hb0, HaM, Ham. fold n. specialize (HLr _ _ Hk).
        pose proof (Z.div_mod (c d) n ltac:(lia)). destruct body; rewrite u64_small by lia; lia. }
      apply (Hby a Ha); [rewrite Hab; destruct body; lia|]. intros p [-> _] [x k] Hin. apply in_pm in Hin.
      destruct Hin as [[Hin Hne]|(k' & Hk & Hin)].
      + simpl in Hne. apply Hkr; [exact Hin|exact Ha| |apply Hao; [eapply in_fst; eauto|exact Hne]].
        cbn [view_ilen]. pose proof (Hfr d M EfM x (in_fst _ _ _ Hin) Hne). pose proof (Hfr d m Efm x (in_fst _ _ _ Hin) Hne).
        pose proof (Hfr d b Efb x (in_fst _ _ _ Hin) Hne).
        destruct (Z.eqb_spec x b), (Z.eqb_spec x m), (Z.eqb_spec x M); try contradiction. reflexivity.
      + pose proof (Hfun _ Hk). subst k'. specialize (HLr _ _ Hk).
        pose proof (Z.div_mod (L d) n ltac:(lia)). pose proof (Z.mod_pos_bound (c d) n Hn').
        simpl in Hin. destruct Hin as [Hin|[Hin|[Hin|[]]]]; inv Hin; unfold in_range; cbn [fst snd ilen view_ilen].
        * rewrite Hab. destruct body; lia.
        * rewrite Z.eqb_refl. destruct (Z.eqb_spec x b); [congruence|]. destruct (Z.eqb_spec x m); [contradiction|].
          rewrite Hb0, HaM, Hlen by exact Hk. fold n. subst body. destruct (Z.ltb_spec (c d) (L d / n * n)); [|lia].
          split; [apply Z.div_pos; lia|]. apply Z.div_lt_upper_bound; lia.
        * rewrite Z.eqb_refl. destruct (Z.eqb_spec x b); [congruence|].
          rewrite Hb0, Ham, Hlen by exact Hk. fold n. subst body. destruct (Z.ltb_spec (c d) (L d / n * n)); lia.
    - (* merge *)
      apply andb_true_iff in Hw. destruct Hw as [Hdis Htog]. rewrite disjointb_spec in Hdis.
      assert (HMm : M <> m) by (cbn [view_sig] in Ev; intros ->; rewrite Z.eqb_refl in Ev; discriminate).
      assert (HND : NoDup [M; m]) by (repeat constructor; simpl; intuition congruence).
      assert (Hfun : forall q k, In (q, k) p' -> In q [M; m] -> k = None).
      { destruct (peel_path_back d [M; m] c c s0 sg 2 p' (merge_peel _ _ _ _ _ Ev) ltac:(lia) (maxc_length _ _ Hsn) ltac:(auto) Ep')
          as (_ & _ & _ & H). exact H. }
      assert (Hdo : forall q, In q (map fst p') -> ~ In q [M; m] -> q <> d).
      { intros q Hq Hout ->. destruct (fst_in _ _ Hq) as [k Hk]. cbn [view_sig] in Ev.
        destruct ((M =? m) || _) eqn:Ef in Ev; [discriminate|].
        rewrite !orb_false_iff in Ef. destruct Ef as [_ Ef]. rewrite (Hacc _ _ Hk) in Ef. simpl in Hout.
        destruct (Z.eqb_spec d M), (Z.eqb_spec d m); try discriminate; intuition congruence. }
      set (a := fupd c d (c M * L m + c m)).
      assert (Hao : forall q, In q (map fst p') -> ~ In q [M; m] -> a q = c q)
        by (intros q Hq Hout; unfold a; apply fupd_neq, Hdo; assumption).
      destruct (together_path _ _ _ _ HND Hnd Htog Ep') as [Hall|Hnone].
      + assert (Hin : forall y, In y [M; m] -> In (y, None) p').
        { intros y Hy. destruct (fst_in _ _ (Hall y Hy)) as [k Hk]. rewrite <- (Hfun y k Hk Hy). exact Hk. }
        assert (Hlen : forall x, In x [M; m] -> ilen t (view_lenv (VMerge M m d) l) (fupds a [(M, 0); (m, 0)]) x = L x).
        { intros x Hx. apply Hlc; [apply Hin, Hx|]. intros y Hy Hyp. assert (Hout : ~ In y [M; m]).
          { intros Hi. apply (Hdis y Hi). apply in_or_app. simpl in Hx. destruct Hx as [<-|[<-|[]]]; auto. }
          rewrite fupds_out by exact Hout. apply Hao; assumption. }
        pose proof (HLr _ _ (Hin M ltac:(simpl; auto))) as HM. pose proof (HLr _ _ (Hin m ltac:(simpl; auto))) as Hm.
        rewrite (HLi _ _ (Hin M ltac:(simpl; auto))), (HLi _ _ (Hin m ltac:(simpl; auto))) in Hg.
        assert (Had : a d = c M * L m + c m) by apply fupd_eq.
        assert (Ha : forall y, In y (map fst p') -> view_asg (VMerge M m d) (ilen t) l a y = c y).
        { intros y Hy. cbn [view_asg]. rewrite Hlen by (simpl; auto). rewrite Had. cbn [fupds].
          destruct (Z.eq_dec y M) as [E1|N1]; [|destruct (Z.eq_dec y m) as [E2|N2]].
          - subst y. rewrite fupd_eq, Z.add_comm, Z.div_add, Z.div_small by lia. lia.
          - subst y. rewrite fupd_neq, fupd_eq by congruence. rewrite Z.add_comm, Z.mod_add, Z.mod_small by lia. reflexivity.
          - rewrite !fupd_neq by assumption. apply Hao; [exact Hy|simpl; intuition congruence]. }
        apply (Hby a Ha I). intros p R [x k] Hxk. destruct (peeled_inv _ _ _ _ _ _ _ R Hxk) as [(-> & -> & _)|[Hx' Hout]].
        * unfold in_range. cbn [fst snd ilen view_ilen]. rewrite Z.eqb_refl, !Hlen by (simpl; auto). rewrite Had.
          rewrite u64_small by nia. nia.
        * apply Hkr; [exact Hx'|exact Ha| |apply Hao; [eapply in_fst; eauto|exact Hout]].
          cbn [view_ilen]. pose proof (Hdo x (in_fst _ _ _ Hx') Hout). destruct (Z.eqb_spec x d); [contradiction|reflexivity].
      + assert (Hout : forall y, In y (map fst p') -> ~ In y [M; m]) by (intros y Hy Hi; exact (Hnone y Hi Hy)).
        assert (Ha : forall y, In y (map fst p') -> view_asg (VMerge M m d) (ilen t) l c y = c y).
        { intros y Hy. cbn [view_asg]. apply fupds_out. apply Hout, Hy. }
        apply (Hby c Ha I). intros p R [x k] Hxk. destruct (peeled_inv _ _ _ _ _ _ _ R Hxk) as [(-> & -> & Hi)|[Hx' Ho]].
        * exfalso. pose proof (proj1 (inside_all [M; m] p' HND Hnd) Hi M ltac:(simpl; auto)) as H. eapply Hout; [exact H|simpl; auto].
        * apply Hkr; [exact Hx'|exact Ha| |reflexivity].
          cbn [view_ilen]. pose proof (Hdo x (in_fst _ _ _ Hx') Ho). destruct (Z.eqb_spec x d); [contradiction|reflexivity].
    - (* zcurve *)
      rewrite !andb_true_iff in Hw. destruct Hw as [[[[Hdis H2] H32] Hsl] Htog]. rewrite disjointb_spec in Hdis.
      pose proof Ev as Ev0. cbn [view_sig] in Ev. destruct (_ && _ && _ && _ && nodupb ds && _) eqn:Ef in Ev; [|discriminate].
      rewrite !andb_true_iff in Ef. destruct Ef as [[[[[Hsg Hgl] _] _] HND] Hdd]. apply nodupb_NoDup in HND.
      apply Nat.leb_le in H2, H32, Hsg. apply Nat.ltb_lt in Hsl, Hgl.
      assert (Hz0 : map fst (map (fun q : dim => (q, 0)) ds) = ds) by apply map_fst_const.
      assert (Hlz : forall w ls, List.length ls = List.length ds ->
                map fst (combine ds (map vzd (zc_indices sl gl w ls))) = ds).
      { intros w ls E. apply map_fst_combine. rewrite map_length, zc_indices_length. exact E. }
      assert (Hfun : forall q k, In (q, k) p' -> In q ds -> k = None).
      { destruct (peel_path_back d ds c c s0 sg (List.length ds) p' (zcurve_peel _ _ _ _ _ _ Ev0) ltac:(lia) (maxc_length _ _ Hsn) ltac:(auto) Ep')
          as (_ & _ & _ & H). exact H. }
      assert (Hdo : forall q, In q (map fst p') -> ~ In q ds -> q <> d).
      { intros q Hq Hout ->. destruct (fst_in _ _ Hq) as [k Hk]. rewrite (Hacc _ _ Hk) in Hdd. apply Hout, mem_In.
        destruct (mem d ds); [reflexivity|discriminate]. }
      destruct (together_path _ _ _ _ HND Hnd Htog Ep') as [Hall|Hnone].
      + assert (Hin : forall y, In y ds -> In (y, None) p').
        { intros y Hy. destruct (fst_in _ _ (Hall y Hy)) as [k Hk]. rewrite <- (Hfun y k Hk Hy). exact Hk. }
        rewrite (omap_all _ L ds) in Hg by (intros q Hq; exact (HLi _ _ (Hin q Hq))).
        assert (Hpos : Forall (fun x => 0 < x < W) (map L ds)).
        { apply Forall_forall. intros x Hx. apply in_map_iff in Hx. destruct Hx as (q & <- & Hq).
          specialize (HLr _ _ (Hin q Hq)). lia. }
        destruct (zc_f_surj sl gl (map L ds)) with (rf := map c ds) as (z & Hz & Ez); rewrite ?map_length; auto.
        { clear -HLr Hin. induction ds as [|q ds IH]; constructor; [|apply IH; intros; apply Hin; right; assumption].
          destruct (HLr _ _ (Hin q ltac:(left; reflexivity))). assumption. }
        set (a := fupd c d z).
        assert (Hao : forall q, In q (map fst p') -> ~ In q ds -> a q = c q)
          by (intros q Hq Hout; unfold a; apply fupd_neq, Hdo; assumption).
        assert (Hlen : forall x, In x ds -> ilen t (view_lenv (VZCurve sl gl d ds) l) (fupds a (map (fun q => (q, 0)) ds)) x = L x).
        { intros x Hx. apply Hlc; [apply Hin, Hx|]. intros y Hy Hyp. assert (Hout : ~ In y ds).
          { intros Hi. apply (Hdis y Hi). apply in_flat_map. eauto. }
          rewrite fupds_out by (rewrite Hz0; exact Hout). apply Hao; assumption. }
        assert (Had : a d = z) by apply fupd_eq.
        assert (Ha : forall y, In y (map fst p') -> view_asg (VZCurve sl gl d ds) (ilen t) l a y = c y).
        { intros y Hy. cbn [view_asg].
          rewrite (map_ext_in _ (fun q => Dyn (L q)) ds) by (intros q Hq; rewrite Hlen by exact Hq; reflexivity).
          rewrite Had. replace (map (fun q => Dyn (L q)) ds) with (map Dyn (map L ds)) by apply map_map.
          change (map vzd (zc_indices sl gl (Dyn z) (map Dyn (map L ds)))) with (zc_f sl gl (map L ds) z). rewrite Ez.
          destruct (in_dec Z.eq_dec y ds) as [Hi|Ho].
          - pose proof (map_fupds_combine a ds (map c ds) HND ltac:(apply map_length)) as E.
            clear -E Hi. set (f := fupds a (combine ds (map c ds))) in *. clearbody f.
            induction ds as [|q ds IH]; [destruct Hi|]. simpl in E. inv E. destruct Hi as [<-|Hi]; auto.
          - rewrite fupds_out; [apply Hao; assumption|]. rewrite map_fst_combine; [exact Ho|apply map_length]. }
        apply (Hby a Ha I). intros p R [x k] Hxk. destruct (peeled_inv _ _ _ _ _ _ _ R Hxk) as [(-> & -> & _)|[Hx' Hout]].
        * unfold in_range. cbn [fst snd ilen view_ilen]. rewrite Z.eqb_refl. rewrite (map_ext_in _ _ _ Hlen).
          rewrite prodl_fold_left, Z.mul_1_l, Had. rewrite u64_small; [exact Hz|]. destruct Hg as (_ & Hg' & _). lia.
        * apply Hkr; [exact Hx'|exact Ha| |apply Hao; [eapply in_fst; eauto|exact Hout]].
          cbn [view_ilen]. pose proof (Hdo x (in_fst _ _ _ Hx') Hout). destruct (Z.eqb_spec x d); [contradiction|reflexivity].
      + assert (Hout : forall y, In y (map fst p') -> ~ In y ds) by (intros y Hy Hi; exact (Hnone y Hi Hy)).
        assert (Ha : forall y, In y (map fst p') -> view_asg (VZCurve sl gl d ds) (ilen t) l c y = c y).
        { intros y Hy. cbn [view_asg]. apply fupds_out. rewrite Hlz by (apply map_length). apply Hout, Hy. }
        apply (Hby c Ha I). intros p R [x k] Hxk. destruct (peeled_inv _ _ _ _ _ _ _ R Hxk) as [(-> & -> & Hi)|[Hx' Ho]].
        * exfalso. destruct ds as [|q0 ds0]; [simpl in H2; lia|].
          pose proof (proj1 (inside_all (q0 :: ds0) p' HND Hnd) Hi q0 ltac:(simpl; auto)) as H. eapply Hout; [exact H|simpl; auto].
        * apply Hkr; [exact Hx'|exact Ha| |reflexivity].
          cbn [view_ilen]. pose proof (Hdo x (in_fst _ _ _ Hx') Ho). destruct (Z.eqb_spec x d); [contradiction|reflexivity].
    - apply (Hby c); [reflexivity| |].
      + destruct (view_sig (VReorder ds) s0) as [s'|] eqn:E; [|discriminate]. inv Ev. exact Hw.
      + intros p R [x k] Hin. apply Hkr; auto. eapply Permutation_in; eauto.
    - apply (Hby c); [reflexivity|exact I|]. intros p [Hd ->] [x k] [Hin|Hin].
      + inv Hin. apply Hkr; auto.
      + apply in_pm in Hin. destruct Hin as [[Hin _]|(n & _ & [])]. apply Hkr; auto.
    - (* rename *) cbn [view_sig] in Ev. destruct (nodupb (map fst ps) && _ && _) eqn:Er in Ev; [|discriminate].
      set (a := fun q => c (rename_dim (swap_pairs ps) q)).
      assert (Hb : forall y, In y (map fst p') -> rename_dim (swap_pairs ps) (rename_dim ps y) = y).
      { intros y Hy. destruct (fst_in _ _ Hy) as [k Hk]. apply rename_back with (s := s0); [exact Er|eapply Hacc; eauto]. }
      assert (Ha : forall y, In y (map fst p') -> view_asg (VRename ps) (ilen t) l a y = c y).
      { intros y Hy. cbn [view_asg]. unfold a. rewrite Hb by exact Hy. reflexivity. }
      apply (Hby a Ha I). intros p -> [x k] Hin. apply in_map_iff in Hin. destruct Hin as ([y j] & E & Hin). simpl in E. inv E.
      destruct (HLr _ _ Hin) as [Hr _]. unfold in_range. cbn [fst snd ilen view_ilen].
      assert (Eay : a (rename_dim ps y) = c y) by (unfold a; rewrite Hb by (eapply in_fst; eauto); reflexivity).
      rewrite Eay, Hb by (eapply in_fst; eauto). destruct k as [k|]; [rewrite (HLd _ _ Hin) in Hr; exact Hr|].
      rewrite Hlc; auto.
    - discriminate.
  Qed.
End Onto.
