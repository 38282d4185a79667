(** * Contiguity: proofs *)

From Verif Require Export SpecContig IntrospectApi Select TravEach BagFacts.

Lemma leaf_local s : uswf s = true -> forall l a a2 sg p, signature s = Some sg -> spath sg a = Some p ->
  (forall x, In x (map fst p) -> a2 x = a x) -> leaf s l a2 = leaf s l a.
Proof.
  induction s as [c|d ts IH|d t IH|v t IH|ts IH] using struct_ind'; intros Hw l a a2 sg p Es Ep H; cbn [leaf].
  - reflexivity.
  - destruct (signature_Tuple_inv _ _ _ Es) as (ss & F & Hx & ->). simpl in Hw. apply andb_true_iff in Hw. destruct Hw as [_ Hw].
    rewrite spath_dep in Ep. destruct (nthz ss (a d)) as [r|] eqn:Er; [|discriminate].
    destruct (spath r a) as [pr|] eqn:Epr; [|discriminate]. injection Ep as <-.
    pose proof (Forall2_nthz _ _ _ (a d) F) as Ht. rewrite Er in Ht. destruct (nthz ts (a d)) as [t|] eqn:Et; [|contradiction].
    rewrite (H d) by (left; reflexivity). rewrite !nthz_map, Et. cbn [option_map ojoin].
    rewrite Forall_forall in IH. rewrite forallb_forall in Hw. pose proof (nthz_In _ _ _ Et) as Hin.
    apply (IH t Hin (Hw t Hin) l a a2 r pr Ht Epr). intros x Hx'. apply H. right. exact Hx'.
  - destruct (signature_Vector_inv _ _ _ Es) as (s0 & E0 & Hd & ->). simpl in Hw. cbn [spath] in Ep.
    destruct (spath s0 a) as [pr|] eqn:Epr; [|discriminate]. injection Ep as <-.
    apply (IH Hw _ a a2 s0 pr E0 Epr). intros x Hx. apply H. right. exact Hx.
  - destruct (uview_down _ _ _ _ _ l Hw Es Ep) as (s0 & p' & E0 & Ev & Hsn & Ep' & R & Hnd').
    destruct (uswf_view _ _ Hw) as [Hv Ht]. apply (IH Ht _ (view_asg v (ilen t) l a) _ s0 p' E0 Ep').
    intros x Hx. apply (adep_ok v t s0 sg l a p' p (uswf_loc t Ht) Hv E0 Ev Ep' R Hnd' a2 x Hx). intros y _. apply H.
  - reflexivity.
Qed.

(** ** Limits through a view *)

(** No [step] over an unlimited dimension, no merged dimension. *)
Definition told (v : view) (lm : dim -> limit) : Prop :=
  match v with
  | VStep d _ _ => single (lm d)
  | VMerge _ _ _ | VZCurve _ _ _ _ | VBlocksSta _ _ _ _ _ | VJoin _ _ _ => False
  | _ => True
  end.

Lemma within_moved m s e n i : inside_of m n -> (forall k, n = Some k -> 0 <= i < k) -> e = option_map (Z.add s) n -> 0 <= i ->
  (within (moved m s e) (i + s) <-> within m i).
Proof.
  intros Hin Hn -> Hi. destruct m as [[x [y|]]|]; cbn [moved within].
  - lia.
  - destruct n as [k|]; cbn [option_map]; [specialize (Hn k eq_refl); lia|lia].
  - destruct n as [k|]; cbn [option_map]; [specialize (Hn k eq_refl); lia|lia].
Qed.

Section Through.
  Variables (v : view) (t : struct) (s0 sg : sig) (l : lenv) (a : asg) (p' p : path) (lm lm' : dim -> limit).
  Hypothesis Hloc : loc t.
  Hypothesis Hw : view_swf v t = true.
  Hypothesis Ht : uswf t = true.
  Hypothesis E0 : signature t = Some s0.
  Hypothesis Ev : view_sig v s0 = Some sg.
  Hypothesis Ep' : spath s0 (view_asg v (ilen t) l a) = Some p'.
  Hypothesis R : prel v p' p.
  Hypothesis Hnd : NoDup (map fst p').
  Hypothesis Hl : lrange l.
  Hypothesis Hg : view_good v (plen t (view_lenv v l) (view_asg v (ilen t) l a)) l.
  Hypothesis Hp : Forall (in_range (View v t) l a) p.
  Hypothesis Hn : narrows v t l lm lm'.
  Hypothesis Htold : told v lm.

  Let a' := view_asg v (ilen t) l a.

  Lemma narrows_iff : (forall x, In x (map fst p) -> within (lm x) (a x)) <-> (forall x, In x (map fst p') -> within (lm' x) (a' x)).
  Proof using All.
    pose proof (vfacts_ok v t s0 sg l a p' p Hloc Hw Ht E0 Ev Ep' R Hnd Hl Hg Hp) as F.
    pose proof (fun d => Lof_fun v t s0 l a p' E0 Ep' Hnd d) as HLf.
    assert (Hr : forall x, In (x, None) p -> 0 <= a x < view_ilen v (ilen t) l a x).
    { intros x Hx. rewrite Forall_forall in Hp. apply (Hp _ Hx). }
    assert (Hacc : forall x, In x (map fst p') -> any_accept x s0 = true).
    { intros x Hx. destruct (fst_in _ _ Hx) as [k Hk]. exact (spath_accept _ _ _ Ep' _ Hk). }
    set (L := Lof v t l a) in *. clearbody L. subst a'.
    (* a view that moves one dimension only *)
    assert (one : forall d g, (p = pm g d p') -> (forall x, x <> d -> lm' x = lm x) ->
      (forall x, x <> d -> view_asg v (ilen t) l a x = a x) ->
      (forall k, In (d, k) p' -> g k = [] /\ within (lm' d) (view_asg v (ilen t) l a d) \/
         (exists j, g k = [(d, j)]) /\ (within (lm' d) (view_asg v (ilen t) l a d) <-> within (lm d) (a d))) ->
      (forall x, In x (map fst p) -> within (lm x) (a x)) <->
      (forall x, In x (map fst p') -> within (lm' x) (view_asg v (ilen t) l a x))).
    { intros d g Epp Hlm Ha Hd. split; intros H x Hx; destruct (fst_in _ _ Hx) as [k Hk].
      - destruct (Z.eq_dec x d) as [->|Hne].
        + destruct (Hd _ Hk) as [[_ Hd1]|[[j Ej] Hd1]]; [exact Hd1|]. apply Hd1, H. apply (in_fst _ j). rewrite Epp. apply in_pm.
          right. exists k. split; [exact Hk|]. rewrite Ej. left. reflexivity.
        + rewrite Hlm, Ha by exact Hne. apply H. apply (in_fst _ k). rewrite Epp. apply in_pm. left. split; [exact Hk|exact Hne].
      - rewrite Epp in Hk. apply in_pm in Hk. destruct Hk as [[Hk Hne]|(n & Hk & Hin)].
        + cbn [fst] in Hne. rewrite <- (Hlm x Hne), <- (Ha x Hne). apply H. eapply in_fst; eauto.
        + destruct (Hd _ Hk) as [[E _]|[[j Ej] Hd1]]; [rewrite E in Hin; destruct Hin|]. rewrite Ej in Hin.
          destruct Hin as [E|[]]. injection E as <- <-. apply Hd1, H. eapply in_fst; eauto. }
    (* blocks *)
    assert (blocks : forall d M m extra n, (forall x, In x extra -> x <> M /\ x <> m /\ lm x = None) ->
      M <> m -> (forall x, In x (M :: m :: extra) -> x <> d -> any_accept x s0 = false) ->
      (p = pm (fun _ => (M, None) :: (m, None) :: map (fun x => (x, None)) extra) d p') ->
      (forall q, q <> d -> lm' q = if mem q (M :: m :: extra) then None else lm q) ->
      (forall x, x <> d -> view_asg v (ilen t) l a x = a x) ->
      (In d (map fst p') -> view_asg v (ilen t) l a d = a M * n + a m /\ 0 <= a M /\ 0 <= a m < n /\ (forall y, l m = Some y -> y = n)) ->
      narrows_blocks l d M m lm lm' ->
      (forall x, In x (map fst p) -> within (lm x) (a x)) <->
      (forall x, In x (map fst p') -> within (lm' x) (view_asg v (ilen t) l a x))).
    { intros d M m extra n Hex HMm Hfr Epp Hlm Ha Hd Hb.
      assert (Hdd : In d (map fst p') -> (within (lm' d) (view_asg v (ilen t) l a d) <-> within (lm M) (a M) /\ within (lm m) (a m))).
      { intros Hin. destruct (Hd Hin) as (-> & H1 & H2 & H3). destruct Hb as [(-> & -> & ->)|[(x & h & y & -> & -> & Ey & ->)|(x & u & w & y & -> & -> & Ey & Hu & Hwy & ->)]];
          cbn [within]; [tauto| |].
        - rewrite (H3 _ Ey). split; [intros H; split; [nia|exact I]|intros [H _]; nia].
        - rewrite (H3 _ Ey) in *. split; [intros H|intros [H H']]; [|nia]. assert (a M = x) by nia. subst x. lia. }
      assert (Hother : forall x, In x (map fst p') -> x <> d -> lm' x = lm x).
      { intros x Hx Hne. rewrite Hlm by exact Hne. destruct (mem x (M :: m :: extra)) eqn:Em; [|reflexivity].
        apply mem_In in Em. specialize (Hfr x Em Hne). rewrite (Hacc _ Hx) in Hfr. discriminate. }
      split; intros H x Hx; destruct (fst_in _ _ Hx) as [k Hk].
      - destruct (Z.eq_dec x d) as [->|Hne].
        + apply (Hdd Hx). split; apply H; apply (in_fst _ None); rewrite Epp; apply in_pm; right; exists k; (split; [exact Hk|simpl; auto]).
        + rewrite (Hother x Hx Hne), Ha by exact Hne. apply H. apply (in_fst _ k). rewrite Epp. apply in_pm. left. split; [exact Hk|exact Hne].
      - rewrite Epp in Hk. apply in_pm in Hk. destruct Hk as [[Hk Hne]|(j & Hk & Hin)].
        + cbn [fst] in Hne. rewrite <- (Hother x (in_fst _ _ _ Hk) Hne), <- (Ha x Hne). apply H. eapply in_fst; eauto.
        + pose proof (in_fst _ _ _ Hk) as Hid. destruct (proj1 (Hdd Hid) (H d Hid)) as [HM Hm].
          destruct Hin as [E|[E|Hin]]; [injection E as <- _; exact HM|injection E as <- _; exact Hm|].
          apply in_map_iff in Hin. destruct Hin as (y & E & Hy). injection E as <- _. destruct (Hex _ Hy) as (_ & _ & ->). exact I. }
    unfold view_swf in Hw. rewrite E0 in Hw.
    destruct v as [d|d i|d n|d st|d st len|d st en|d st sr|d|d M m|d M m pd|d b M m ml|M m d|sl gl d ds|ds|d|ps|xa xb d];
      cbn [prel narrows told vfacts] in R, Hn, Htold, F; cbv zeta in Hn; try contradiction.
    - (* bcast *) subst p. destruct Hn as (_ & Hd & Hq). cbn [view_asg map fst]. split; intros H x Hx.
      + rewrite Hq. apply H. right. exact Hx.
      + destruct Hx as [<-|Hx]; [rewrite Hd; exact I|]. rewrite <- Hq. apply H, Hx.
    - (* fix *) destruct Hn as [Hd Hq]. apply (one d (fun _ => [])); [exact R|exact Hq|intros x Hx; cbn [view_asg]; apply fupd_neq, Hx|].
      intros k Hk. left. split; [reflexivity|]. rewrite Hd. destruct (F k Hk) as [-> _]. cbn [within]. lia.
    - (* set_length *) destruct R as [-> _]. cbn [view_asg]. split; intros H x Hx; [rewrite Hn|rewrite <- Hn]; apply H, Hx.
    - (* shift *) destruct Hn as (_ & Hi & Hd & Hq). apply (one d _ R Hq); [intros x Hx; cbn [view_asg]; apply fupd_neq, Hx|].
      intros k Hk. right. split; [eexists; reflexivity|]. destruct (F k Hk) as (-> & H1 & _). rewrite Hd.
      apply within_moved with (n := None); [exact Hi|discriminate|reflexivity|exact H1].
    - (* slice *) destruct Hn as (Hi & Hd & Hq). apply (one d _ R Hq); [intros x Hx; cbn [view_asg]; apply fupd_neq, Hx|].
      intros k Hk. right. split; [eexists; reflexivity|]. destruct (F k Hk) as (-> & H1 & _). rewrite Hd.
      apply within_moved with (n := Some (vzd len)); [exact Hi| |reflexivity|apply H1]. intros n E. injection E as <-. exact H1.
    - (* span *) destruct Hn as (Hi & Hd & Hq). apply (one d _ R Hq); [intros x Hx; cbn [view_asg]; apply fupd_neq, Hx|].
      intros k Hk. right. split; [eexists; reflexivity|]. destruct (F k Hk) as (E & H1 & H2 & _). rewrite Hd, E in *.
      apply within_moved with (n := Some (vzd en - vzd st)); [exact Hi| |cbn [option_map]; f_equal; lia|apply H1].
      intros n En. injection En as <-. lia.
    - (* step *) destruct Htold as [x Hx]. destruct (Hn x Hx) as (Hx0 & Hd & Hq). apply andb_true_iff in Hw. destruct Hw as [Hr' _].
      apply (one d _ R Hq); [intros y Hy; cbn [view_asg]; apply fupd_neq, Hy|].
      intros k Hk. right. split; [eexists; reflexivity|]. destruct (F k Hk) as (-> & H1 & _). rewrite Hd, Hx. cbn [within].
      destruct (vz st); [|discriminate]. destruct (vz sr) as [r|] eqn:Er; [|discriminate]. rewrite (vzd_vz _ _ Er).
      split; intros H; nia.
    - (* reverse *) subst p. apply andb_true_iff in Hw. destruct Hw as [Hdep _]. apply negb_true_iff, mem_false in Hdep.
      assert (Hq : forall x, x <> d -> view_asg (VReverse d) (ilen t) l a x = a x) by (intros x Hx; cbn [view_asg]; apply fupd_neq, Hx).
      destruct Hn as [[Hd Hlm]|(x & h & n & Hx & HL & Hd & Hlm)].
      + split; intros H x Hx; (destruct (Z.eq_dec x d) as [->|Hne]; [rewrite ?Hlm, Hd; exact I|]).
        * rewrite Hlm, Hq by exact Hne. apply H, Hx.
        * rewrite <- Hlm, <- Hq by exact Hne. apply H, Hx.
      + assert (Hdd : In d (map fst p') -> (within (lm' d) (view_asg (VReverse d) (ilen t) l a d) <-> within (lm d) (a d))).
        { intros Hin. destruct (fst_in _ _ Hin) as [k Hk]. assert (k = None) as ->.
          { destruct k; [|reflexivity]. exfalso. apply Hdep. eapply spath_sdep; eauto. }
          destruct (F _ Hk) as [-> H1]. rewrite (HLf _ Hk), HL, Hd, Hx. cbn [within]. lia. }
        split; intros H y Hy; (destruct (Z.eq_dec y d) as [->|Hne]; [apply (Hdd Hy), H, Hy|]).
        * rewrite Hlm, Hq by exact Hne. apply H, Hy.
        * rewrite <- Hlm, <- Hq by exact Hne. apply H, Hy.
    - (* blocks *) destruct R as [Epp Hfun]. destruct Hn as (Hb & Hlm & Hre). cbn [view_sig] in Ev.
      destruct (_ || _) eqn:Ef in Ev; [discriminate|]. apply orb_false_iff in Ef. destruct Ef as [Ef Em]. apply orb_false_iff in Ef. destruct Ef as [EMm EM].
      apply (blocks d M m [] (minor_len l M m (L d))).
      + intros x [].
      + apply Z.eqb_neq, EMm.
      + intros x [<-|[<-|[]]] Hne; [destruct (Z.eqb_spec M d)|destruct (Z.eqb_spec m d)]; try contradiction; assumption.
      + exact Epp.
      + exact Hlm.
      + intros x Hx. cbn [view_asg]. apply fupd_neq, Hx.
      + intros Hin. destruct (fst_in _ _ Hin) as [k Hk]. destruct (F k Hk) as (H1 & H2 & H3 & _). split; [exact H1|]. split; [exact H2|].
        split; [exact H3|]. intros y Ey. unfold minor_len. rewrite Ey. reflexivity.
      + exact Hb.
    - (* blocks dynamic *) destruct R as [Epp Hfun]. destruct Hn as (Hpd & Hb & Hlm & Hre). cbn [view_sig] in Ev.
      destruct (_ || _) eqn:Ef in Ev; [discriminate|]. repeat (apply orb_false_iff in Ef; let X := fresh "X" in destruct Ef as [Ef X]).
      apply (blocks d M m [pd] (minor_len_up l M m (L d))).
      + intros x [<-|[]]. split; [|split]; [| |exact Hpd]; intros ->; rewrite Z.eqb_refl in *; discriminate.
      + apply Z.eqb_neq, Ef.
      + intros x [<-|[<-|[<-|[]]]] Hne; [destruct (Z.eqb_spec M d)|destruct (Z.eqb_spec m d)|destruct (Z.eqb_spec pd d)]; try contradiction; assumption.
      + exact Epp.
      + exact Hlm.
      + intros x Hx. cbn [view_asg]. apply fupd_neq, Hx.
      + intros Hin. destruct (fst_in _ _ Hin) as [k Hk]. destruct (F k Hk) as (K1 & K2 & K3 & _). split; [exact K1|]. split; [exact K2|].
        split; [exact K3|]. intros y Ey. unfold minor_len_up. rewrite Ey. reflexivity.
      + exact Hb.
    - (* reorder *) cbn [view_asg]. split; intros H x Hx; [rewrite Hn|rewrite <- Hn]; apply H.
      + eapply Permutation_in; [apply Permutation_map; symmetry; exact R|exact Hx].
      + eapply Permutation_in; [apply Permutation_map; exact R|exact Hx].
    - (* hoist *) destruct R as [Hd ->]. cbn [view_asg]. split; intros H x Hx; [rewrite Hn|rewrite <- Hn]; apply H.
      + destruct (fst_in _ _ Hx) as [k Hk]. destruct (Z.eq_dec x d) as [->|Hne]; [left; reflexivity|]. right.
        apply (in_fst _ k). apply in_pm. left. split; [exact Hk|exact Hne].
      + destruct Hx as [<-|Hx]; [eapply in_fst; exact Hd|]. destruct (fst_in _ _ Hx) as [k Hk]. apply in_pm in Hk.
        destruct Hk as [[Hk _]|(j & _ & [])]. eapply in_fst; eauto.
    - (* rename *) assert (Hlm : forall x, In x (map fst p') -> lm' x = lm (rename_dim ps x)).
      { intros x Hx. rewrite Hn. destruct (mem x (map snd ps) && negb (mem x (map fst ps))) eqn:Em; [|reflexivity]. exfalso.
        apply andb_true_iff in Em. destruct Em as [E1 E2]. cbn [view_sig] in Ev. destruct (_ && _) eqn:Eok in Ev; [|discriminate]. rewrite !andb_true_iff, forallb_forall in Eok. destruct Eok as [_ Hk]. apply mem_In in E1. specialize (Hk _ E1).
        rewrite (Hacc _ Hx) in Hk. cbn [negb orb] in Hk. rewrite Hk in E2. discriminate. }
      subst p. cbn [view_asg]. split; intros H x Hx.
      + rewrite (Hlm x Hx). apply H. destruct (fst_in _ _ Hx) as [k Hk]. apply in_map_iff. exists (rename_dim ps x, k).
        split; [reflexivity|]. apply in_map_iff. exists (x, k). auto.
      + apply in_map_iff in Hx. destruct Hx as ([y k] & E & Hy). apply in_map_iff in Hy. destruct Hy as ([z j] & E2 & Hz).
        cbn [fst snd] in *. injection E2 as <- <-. subst x. rewrite <- Hlm by (eapply in_fst; eauto). apply H. eapply in_fst; eauto.
  Qed.
End Through.

Lemma narrows_cover v t l c s0 sg p' lm lm' : signature t = Some s0 -> view_sig v s0 = Some sg -> view_swf v t = true ->
  pvalid t (view_lenv v l) c s0 p' -> NoDup (map fst p') -> lrange l ->
  narrows v t l lm lm' -> told v lm -> (forall x, In x (map fst p') -> within (lm' x) (c x)) -> cover v (Lc v t l c) l c p'.
Proof.
  intros E0 Ev Hw V Hnd Hl Hn Ht Hin.
  destruct v as [d|d i|d n|d st|d st len|d st en|d st sr|d|d M m|d M m pd|d b M m ml|M m d|sl gl d ds|ds|d|ps|xa xb d];
    try exact I; try contradiction.
  - apply Hn.
  - destruct Hn as [Hd _]. intros Hx. specialize (Hin _ Hx). rewrite Hd in Hin. simpl in Hin. lia.
  - destruct Hn as (El & Hi & Hd & _). intros Hx. specialize (Hin _ Hx). rewrite Hd in Hin. rewrite El. split; [|exact I].
    destruct (lm d) as [[x [y|]]|]; simpl in Hin, Hi; lia.
  - destruct Hn as (Hi & Hd & _). intros Hx. specialize (Hin _ Hx). rewrite Hd in Hin.
    destruct (lm d) as [[x [y|]]|]; simpl in Hin, Hi; lia.
  - destruct Hn as (Hi & Hd & _). intros Hx. specialize (Hin _ Hx). rewrite Hd in Hin.
    destruct (lm d) as [[x [y|]]|]; simpl in Hin, Hi; lia.
  - destruct Ht as [x Hx]. destruct (Hn x Hx) as (H0 & Hd & _). intros Hx'. specialize (Hin _ Hx'). rewrite Hd in Hin. simpl in Hin.
    unfold view_swf in Hw. rewrite E0 in Hw. apply andb_true_iff in Hw. destruct Hw as [Hr _]. destruct (vz st); [|discriminate].
    destruct (vz sr) as [r|] eqn:Er; [|discriminate]. rewrite (vzd_vz _ _ Er) in *. split; [nia|].
    replace (c d - vzd st) with (x * r) by lia. apply Z.mod_mul. lia.
  - destruct Hn as (_ & _ & Hre). exact (rearranges_cover _ _ _ _ _ _ Hre E0 V Hnd Hl).
  - destruct Hn as (_ & _ & _ & Hre). exact (rearranges_cover _ _ _ _ _ _ Hre E0 V Hnd Hl).
Qed.

Definition idx_single (st : state) (lm : dim -> limit) : Prop := forall d, has (Idx d) st = true -> single (lm d).

Lemma tag_mem_idx q d : tag_mem (Idx q) [Idx d; Len d] = (q =? d).
Proof. cbn [tag_mem existsb tag_eqb orb]. destruct (q =? d); reflexivity. Qed.

Lemma idx_removed st lm d : idx_single st lm -> idx_single (remove [Idx d; Len d] st) (fupd lm d None).
Proof.
  intros H q Hq. rewrite has_remove, tag_mem_idx in Hq. unfold fupd. destruct (q =? d); [discriminate|]. apply H, Hq.
Qed.

Lemma single_moved m s e n : single m -> inside_of m n -> single (moved m s e).
Proof. intros [i ->] _. exists (i + s). cbn [moved]. f_equal. f_equal. f_equal. lia. Qed.

Lemma sub_single v t st st' l lm lm' s0 sg : signature t = Some s0 -> view_sig v s0 = Some sg ->
  narrows v t l lm lm' -> told v lm -> idx_single st lm -> sub_state v t st = Some st' -> idx_single st' lm'.
Proof.
  intros E0 Ev Hn Ht Hs E q Hq.
  destruct v as [d|d i|d n|d b|d b len|d b en|d b sr|d|d M m|d M m pd|d b M m ml|M m d|sl gl d ds|ds|d|ps|xa xb d];
    cbn [narrows told] in Hn, Ht; cbv zeta in Hn; try contradiction; unfold sub_state in E; cbn [view_sub_state] in E.
  - injection E as <-. rewrite has_remove, tag_mem_idx in Hq. destruct Hn as (_ & _ & ->). apply Hs. destruct (q =? d); [discriminate|exact Hq].
  - injection E as <-. destruct Hn as [Hd Hq']. destruct (Z.eq_dec q d) as [->|Hne]; [exists (vzd i); exact Hd|].
    rewrite Hq' by exact Hne. apply Hs. rewrite has_with, has_remove in Hq. cbn [has get fst tag_eqb tag_mem existsb negb orb andb] in Hq.
    unfold has in Hq at 1. cbn [get fst tag_eqb] in Hq. destruct (Z.eqb_spec q d); [contradiction|exact Hq].
  - injection E as <-. rewrite Hn. apply Hs. rewrite has_with in Hq. unfold has in Hq at 1. cbn [get fst tag_eqb orb] in Hq. exact Hq.
  - destruct Hn as (_ & Hi & Hd & Hq'). injection E as <-. 
    assert (K : has (Idx q) st = true).
    { destruct (get (Idx d) st) as [i|] eqn:Ei; destruct (get (Len d) st); 
        rewrite ?has_with, has_remove, tag_mem_idx in Hq; unfold has in Hq at 1; cbn [get fst tag_eqb] in Hq; unfold has;
        destruct (Z.eqb_spec q d) as [->|]; cbn [negb andb orb] in Hq; rewrite ?Ei in *; auto; try discriminate.
    }
    destruct (Z.eq_dec q d) as [->|Hne]; [rewrite Hd; eapply single_moved; eauto|rewrite Hq' by exact Hne; auto].
  - (* slice *) destruct Hn as (Hi & Hd & Hq'). injection E as <-. assert (K : has (Idx q) st = true).
    { destruct (get (Idx d) st) as [i|] eqn:Ei; [|exact Hq]. rewrite has_with in Hq. unfold has in Hq at 1. cbn [get fst tag_eqb] in Hq.
      destruct (Z.eqb_spec q d) as [->|]; [unfold has; rewrite Ei; reflexivity|exact Hq]. }
    destruct (Z.eq_dec q d) as [->|Hne]; [rewrite Hd; eapply single_moved; eauto|rewrite Hq' by exact Hne; auto].
  - (* span *) destruct Hn as (Hi & Hd & Hq'). injection E as <-. assert (K : has (Idx q) st = true).
    { destruct (get (Idx d) st) as [i|] eqn:Ei; [|exact Hq]. rewrite has_with in Hq. unfold has in Hq at 1. cbn [get fst tag_eqb] in Hq.
      destruct (Z.eqb_spec q d) as [->|]; [unfold has; rewrite Ei; reflexivity|exact Hq]. }
    destruct (Z.eq_dec q d) as [->|Hne]; [rewrite Hd; eapply single_moved; eauto|rewrite Hq' by exact Hne; auto].
  - (* step *) destruct Ht as [x Hx]. destruct (Hn x Hx) as (_ & Hd & Hq'). injection E as <-.
    destruct (Z.eq_dec q d) as [->|Hne]; [exists (x * vzd sr + vzd b); exact Hd|]. rewrite Hq' by exact Hne. apply Hs.
    destruct (get (Idx d) st) as [i|] eqn:Ei; [|exact Hq]. rewrite has_with in Hq. unfold has in Hq at 1. cbn [get fst tag_eqb] in Hq.
    destruct (Z.eqb_spec q d); [contradiction|exact Hq].
  - (* reverse *) assert (K : has (Idx q) st = true).
    { destruct (get (Idx d) st) as [i|] eqn:Ei; [|injection E as <-; exact Hq].
      destruct (Z.eqb_spec q d) as [->|Hne]; [unfold has; rewrite Ei; reflexivity|].
      destruct (has_length t d _) as [[]|]; cbn [obind] in E; [| |discriminate].
      - destruct (length_ t d _); [|discriminate]. cbn [obind] in E. injection E as <-. rewrite has_with, has_remove in Hq. unfold has in Hq at 1.
        cbn [get fst tag_eqb tag_mem existsb negb orb andb] in Hq. destruct (Z.eqb_spec q d); [contradiction|exact Hq].
      - injection E as <-. rewrite has_remove in Hq. apply andb_true_iff in Hq. apply Hq. }
    destruct Hn as [[Hd Hlm]|(x & h & n & Hx & _ & Hd & Hlm)]; [rewrite Hlm; auto|].
    destruct (Z.eq_dec q d) as [->|Hne]; [|rewrite Hlm by exact Hne; auto].
    destruct (Hs _ K) as [i Ei]. rewrite Hx in Ei. injection Ei as -> ->. exists (n - (i + 1)). rewrite Hd. f_equal. f_equal. f_equal. lia.
  - (* blocks *) destruct Hn as (Hb & Hlm & _).
    assert (K : (q <> d /\ mem q [M; m] = false /\ has (Idx q) st = true) \/ (q = d /\ has (Idx M) st = true /\ has (Idx m) st = true)).
    { assert (Hc : has (Idx q) (clean_blocks d M m st) = true -> q <> d /\ mem q [M; m] = false /\ has (Idx q) st = true).
      { unfold clean_blocks. rewrite has_remove. cbn [tag_mem existsb tag_eqb mem orb]. destruct (Z.eqb_spec q d), (q =? M), (q =? m); cbn [negb orb andb]; auto; discriminate. }
      assert (Hwi : forall items, has (Idx q) (with_ items (clean_blocks d M m st)) = true -> has (Idx q) items = true \/ has (Idx q) (clean_blocks d M m st) = true).
      { intros items. rewrite has_with. apply orb_true_iff. }
      assert (Hone : forall w, has (Idx q) [(Idx d, w)] = true -> q = d) by (intros w; unfold has; cbn [get fst tag_eqb]; destruct (Z.eqb_spec q d); [auto|discriminate]).
      assert (Htwo : forall z w, has (Idx q) [(Len d, z); (Idx d, w)] = true -> q = d) by (intros z w; unfold has; cbn [get fst tag_eqb]; destruct (Z.eqb_spec q d); [auto|discriminate]).
      assert (Hlen : forall z, has (Idx q) [(Len d, z)] = true -> False) by (intros z; unfold has; cbn [get fst tag_eqb]; discriminate).
      unfold has at 2 3. unfold has in Hc at 2.
      destruct (get (Len M) st) as [lM|], (get (Len m) st) as [lmm|]; destruct (get (Idx M) st) as [iM|] eqn:EM, (get (Idx m) st) as [im|] eqn:Em;
        try (destruct (has_length t d _) as [[]|]; cbn [obind negb] in E; [| |discriminate]);
        try (destruct (length_ t d _) as [ln|]; cbn [obind] in E; [|discriminate]);
        try (injection E as <-); try (apply Hwi in Hq; destruct Hq as [Hq|Hq]); eauto;
        first [right; split; [eauto|split; reflexivity] | exfalso; eauto]. }
    destruct K as [(Hne & Em & K)|(-> & KM & Km)].
    + rewrite Hlm by exact Hne. rewrite Em. auto.
    + destruct (Hs _ KM) as [x Hx], (Hs _ Km) as [u Hu]. destruct Hb as [(A & _)|[(? & ? & ? & _ & A & _)|(x' & u' & w & y & Hx' & Hu' & _ & _ & _ & ->)]]; try congruence.
      rewrite Hu in Hu'. injection Hu' as <- <-. exists (x' * y + u). f_equal. f_equal. f_equal. lia.
  - (* blocks dynamic *) destruct Hn as (Hpd & Hb & Hlm & _). destruct (clean_blocks_dyn d M m pd st) as [cs|] eqn:Ecs; [|discriminate]. cbn [obind] in E.
    assert (K : (q <> d /\ mem q [M; m; pd] = false /\ has (Idx q) st = true) \/ (q = d /\ has (Idx M) st = true /\ has (Idx m) st = true)).
    { assert (Hc : has (Idx q) cs = true -> q <> d /\ mem q [M; m; pd] = false /\ has (Idx q) st = true).
      { unfold clean_blocks_dyn in Ecs. destruct (has (Len pd) st); [discriminate|]. injection Ecs as <-.
        rewrite has_remove. cbn [tag_mem existsb tag_eqb mem orb]. destruct (Z.eqb_spec q d), (q =? M), (q =? m), (q =? pd); cbn [negb orb andb]; auto; discriminate. }
      assert (Hwi : forall items, has (Idx q) (with_ items cs) = true -> has (Idx q) items = true \/ has (Idx q) cs = true).
      { intros items. rewrite has_with. apply orb_true_iff. }
      assert (Hone : forall w, has (Idx q) [(Idx d, w)] = true -> q = d) by (intros w; unfold has; cbn [get fst tag_eqb]; destruct (Z.eqb_spec q d); [auto|discriminate]).
      assert (Htwo : forall z w, has (Idx q) [(Len d, z); (Idx d, w)] = true -> q = d) by (intros z w; unfold has; cbn [get fst tag_eqb]; destruct (Z.eqb_spec q d); [auto|discriminate]).
      assert (Hlen : forall z, has (Idx q) [(Len d, z)] = true -> False) by (intros z; unfold has; cbn [get fst tag_eqb]; discriminate).
      unfold has at 2 3. unfold has in Hc at 2.
      destruct (get (Len M) st) as [lM|], (get (Len m) st) as [lmm|]; destruct (get (Idx M) st) as [iM|] eqn:EM, (get (Idx m) st) as [im|] eqn:Em;
        try (destruct (length_ t d _) as [ln|]; cbn [obind] in E; [|discriminate]);
        try (injection E as <-); try (apply Hwi in Hq; destruct Hq as [Hq|Hq]); eauto;
        first [right; split; [eauto|split; reflexivity] | exfalso; eauto]. }
    destruct K as [(Hne & Em & K)|(-> & KM & Km)].
    + rewrite Hlm by exact Hne. rewrite Em. auto.
    + destruct (Hs _ KM) as [x Hx], (Hs _ Km) as [u Hu]. destruct Hb as [(A & _)|[(? & ? & ? & _ & A & _)|(x' & u' & w & y & Hx' & Hu' & _ & _ & _ & ->)]]; try congruence.
      rewrite Hu in Hu'. injection Hu' as <- <-. exists (x' * y + u). f_equal. f_equal. f_equal. lia.
  - injection E as <-. rewrite Hn. auto.
  - injection E as <-. rewrite Hn. auto.
  - (* rename *) injection E as <-. cbn [view_sig] in Ev. destruct (_ && _) eqn:Eok in Ev; [|discriminate]. rewrite !andb_true_iff, !nodupb_NoDup in Eok.
    unfold has in Hq. rewrite get_rename_state in Hq by tauto. rewrite Hn. unfold ext_name in Hq. destruct (mem q (map fst ps)) eqn:Ef.
    + rewrite andb_false_r. apply Hs. exact Hq.
    + destruct (mem q (map snd ps)); [discriminate|]. cbn [andb]. rewrite rename_dim_out by (apply mem_false, Ef). apply Hs, Hq.
Qed.

Lemma contig_view v t st lm : idx_single st lm -> is_contiguous (View v t) st = Some true -> view_swf v t = true ->
  told v lm /\ exists st', sub_state v t st = Some st' /\ is_contiguous t st' = Some true.
Proof.
  intros Hs E Hw.
  destruct v as [d|d i|d n|d b|d b len|d b en|d b sr|d|d M m|d M m pd|d b M m ml|M m d|sl gl d ds|ds|d|ps|xa xb d];
    cbn [is_contiguous told] in *; try discriminate E;
    try (destruct (sub_state _ t st) as [st'|]; [|discriminate]; split; [exact I|]; exists st'; auto).
  all: try (destruct (has (Len d) st); [|discriminate]; destruct (sub_state _ t st) as [st'|]; [|discriminate]; split; [exact I|]; exists st'; auto; fail).
  - destruct (has (Idx d) st) eqn:Ed; [|discriminate]. destruct (sub_state _ t st) as [st'|]; [|discriminate]. split; [exact (Hs _ Ed)|]. exists st'. auto.
  - destruct (oand _ _) as [[]|]; cbn [obind] in E; try discriminate. destruct (has (Idx m) st && _); [discriminate|].
    destruct (sub_state _ t st) as [st'|]; [|discriminate]. split; [exact I|]. exists st'. auto.
  - destruct (oand _ _) as [[]|]; cbn [obind] in E; try discriminate. destruct (has (Idx m) st && _); [discriminate|].
    destruct (sub_state _ t st) as [st'|]; [|discriminate]. split; [exact I|]. exists st'. auto.
  - exfalso. destruct (has (Idx b) st); [|discriminate].
    assert (Hh : has_length (View (VBlocksSta d b M m ml) t) M (remove [Idx M; Idx m; Idx b] st) = None).
    { unfold has_length. cbn [lenops fst]. unfold view_has_length. rewrite has_remove. cbn [tag_mem existsb tag_eqb]. rewrite Z.eqb_refl. cbn [orb negb andb].
      unfold is_body. rewrite get_remove. cbn [tag_mem existsb tag_eqb]. rewrite Z.eqb_refl, !orb_true_r. reflexivity. }
    rewrite Hh in E. discriminate.
  - unfold view_swf in Hw. destruct (signature t); discriminate.
Qed.

(** ** Bytes that belong to elements *)

Definition covered (s : struct) (l : lenv) (lm : dim -> limit) (b : Z) : Prop :=
  exists a sg p c, pvalid s l a sg p /\ (forall x, In x (map fst p) -> within (lm x) (a x)) /\
    leaf s l a = Some c /\ ioff s l a <= b < ioff s l a + ct_size c.

Lemma doc_good s : forall l a, documented_all s l -> good s l a.
Proof.
  induction s as [c|d ts IH|d t IH|v t IH|ts IH] using struct_ind'; intros l a H; cbn [documented_all good] in *.
  - exact I.
  - rewrite nthz_map. destruct (nthz ts (a d)) as [t|] eqn:Et; [|exact I]. cbn [option_map]. rewrite Forall_forall in IH.
    apply IH; [eapply nthz_In; eauto|]. apply nthz_In in Et. clear -H Et. induction ts as [|x ts IH]; [destruct Et|].
    destruct H as [H1 H2]. destruct Et as [->|Et]; auto.
  - apply IH, H.
  - destruct H as [H1 H2]. split; [apply H1|]. split; [apply IH, H2|]. destruct v; auto.
  - destruct H.
Qed.

Lemma doc_In d ts l t : documented_all (Tuple d ts) l -> In t ts -> documented_all t l.
Proof.
  cbn [documented_all]. intros H Et. induction ts as [|x ts IH]; [destruct Et|].
  destruct H as [H1 H2]. destruct Et as [->|Et]; auto.
Qed.

Definition asked (s : struct) (lm : dim -> limit) : Prop :=
  promised s = true \/ exists st, idx_single st lm /\ is_contiguous s st = Some true.

Lemma asked_view v t l lm lm' s0 sg : signature t = Some s0 -> view_sig v s0 = Some sg -> view_swf v t = true ->
  asked (View v t) lm -> narrows v t l lm lm' -> told v lm /\ asked t lm'.
Proof.
  intros E0 Ev Hw [H|(st & Hs & E)] Hn.
  - split; [destruct v; try exact I; discriminate|]. left. destruct v; try exact H; discriminate.
  - destruct (contig_view v t st lm Hs E Hw) as [Ht (st' & Es & E')]. split; [exact Ht|]. right. exists st'. split; [|exact E'].
    eapply sub_single; eauto.
Qed.

Lemma view_covered v t l lm lm' b : swf (View v t) = true -> signature (View v t) <> None -> lrange l ->
  (forall c, view_good v (plen t (view_lenv v l) c) l) -> told v lm -> narrows v t l lm lm' ->
  (covered (View v t) l lm b <-> covered t (view_lenv v l) lm' b).
Proof.
  intros Hw Hs Hl Hg Ht Hn. pose proof (swf_uswf _ Hw) as Hu. destruct (uswf_view _ _ Hu) as [Hv Htu].
  destruct (signature_view _ _ Hs) as (s0 & E0 & Ev0). 
  split; intros (a & sg & p & c & V & Hin & El & Hb).
  - destruct (pvalid_view v t l a sg p Hu Hl (Hg _) V) as (s1 & p' & Ev & R & Hsn & Hnd & V').
    assert (s1 = s0) by (destruct V' as (A & _); congruence). subst s1.
    exists (view_asg v (ilen t) l a), s0, p', c. split; [exact V'|]. split; [|split; [exact El|exact Hb]].
    destruct V as (_ & Ep & F), V' as (_ & Ep' & F').
    apply (narrows_iff v t s0 sg l a p' p lm lm' (uswf_loc t Htu) Hv Htu E0 Ev Ep' R Hnd Hl (Hg _) F Hn Ht), Hin.
  - pose proof V as (E1 & Ep1 & F1). assert (sg = s0) by congruence. subst sg.
    destruct (signature (View v t)) as [sg|] eqn:Es; [|congruence].
    assert (Ev : view_sig v s0 = Some sg) by (cbn [signature] in Es; rewrite E0 in Es; exact Es).
    assert (Hnd : NoDup (map fst p)) by (eapply spath_nodup; [eapply uswf_snodup; eauto|exact Ep1]).
    pose proof (narrows_cover v t l a s0 sg p lm lm' E0 Ev Hv V Hnd Hl Hn Ht Hin) as Hc.
    destruct (view_onto_valid v t l a s0 p Hu ltac:(congruence) Hl Hg V Hc) as (a2 & sg2 & p2 & V2 & Ha).
    assert (sg2 = sg) by (destruct V2 as (A & _); congruence). subst sg2.
    destruct (pvalid_view v t l a2 sg p2 Hu Hl (Hg _) V2) as (s1 & p' & Ev' & R & Hsn & Hnd' & V').
    assert (s1 = s0) by (destruct V' as (A & _); congruence). subst s1.
    pose proof V' as (_ & Ep' & F'). assert (Epp : p' = p).
    { assert (X : spath s0 (view_asg v (ilen t) l a2) = Some p) by (eapply spath_local; [|exact Ep1]; exact Ha). congruence. }
    subst p'. exists a2, sg, p2, c. split; [exact V2|]. destruct V2 as (_ & Ep2 & F2). split.
    + apply (narrows_iff v t s0 sg l a2 p p2 lm lm' (uswf_loc t Htu) Hv Htu E0 Ev Ep' R Hnd Hl (Hg _) F2 Hn Ht).
      intros x Hx. rewrite Ha by exact Hx. apply Hin, Hx.
    + cbn [leaf ioff]. rewrite (leaf_local t Htu _ a _ s0 p E0 Ep1 Ha), (ioff_local t Htu _ a _ s0 p E0 Ep1 Ha). auto.
Qed.

Lemma covered_bounds s l lm b : swf s = true -> lrange l -> documented_all s l -> covered s l lm b -> 0 <= b < isize s l.
Proof.
  intros Hw Hl Hd (a & sg & p & c & V & _ & El & Hb). destruct (int_in_bounds s l a sg p Hw Hl (doc_good s l a Hd) V) as (c' & El' & H1 & H2 & H3).
  rewrite El in El'. injection El' as <-. lia.
Qed.

(** Elements of a vector and of a tuple. *)
Lemma vector_covered d t l lm b : swf t = true -> lrange l -> signature (Vector d t) <> None ->
  (covered (Vector d t) l lm b <->
   exists i, 0 <= i < odef (l d) /\ within (lm d) i /\ covered t (fupd l d None) (fupd lm d None) (b - i * isize t (fupd l d None))).
Proof.
  intros Hw Hl Hs. destruct (signature (Vector d t)) as [sg|] eqn:Es; [|congruence]. clear Hs.
  destruct (signature_Vector_inv _ _ _ Es) as (s0 & E0 & Hd & Esg). split.
  - intros (a & sg' & p & c & V & Hin & El & Hb). destruct (pvalid_vector _ _ _ _ _ _ V) as (Hi & s1 & p0 & -> & -> & Ha & V').
    exists (a d). split; [exact Hi|]. split; [apply Hin; left; reflexivity|]. exists a, s1, p0, c. split; [exact V'|].
    cbn [leaf ioff] in *. split; [|split; [exact El|lia]]. intros x Hx. unfold fupd at 1. destruct (x =? d); [exact I|]. apply Hin. right. exact Hx.
  - intros (i & Hi & Hwi & a & s1 & p0 & c & V & Hin & El & Hb). pose proof V as (E1 & Ep & F). assert (s1 = s0) by congruence. subst s1.
    assert (Hnd : ~ In d (map fst p0)) by (eapply spath_not_accept; eauto).
    assert (Hx : forall x, In x (map fst p0) -> fupd a d i x = a x) by (intros x Hx; apply fupd_neq; congruence).
    pose proof (pvalid_local t (fupd l d None) a (fupd a d i) s0 p0 (swf_uswf _ Hw) V Hx) as V2. destruct V2 as (_ & Ep2 & F2).
    exists (fupd a d i), sg, ((d, None) :: p0), c. split; [|split; [|split]].
    + split; [exact Es|]. subst sg. cbn [spath]. rewrite Ep2. split; [reflexivity|]. constructor.
      * unfold in_range. cbn [fst snd ilen]. rewrite Z.eqb_refl, fupd_eq. exact Hi.
      * rewrite Forall_forall in *. intros [x k] Hk. specialize (F2 _ Hk). unfold in_range in *. cbn [fst snd] in *. destruct k; [exact F2|].
        cbn [ilen]. destruct (Z.eqb_spec x d) as [->|]; [exfalso; apply Hnd; eapply in_fst; eauto|exact F2].
    + cbn [map fst]. intros x [<-|Hxi]; [rewrite fupd_eq; exact Hwi|]. specialize (Hin x Hxi). rewrite (Hx x Hxi).
      assert (x <> d) by congruence. rewrite fupd_neq in Hin by assumption. exact Hin.
    + cbn [leaf]. rewrite (leaf_local t (swf_uswf _ Hw) _ a _ s0 p0 E0 Ep Hx). exact El.
    + cbn [ioff]. rewrite fupd_eq, (ioff_local t (swf_uswf _ Hw) _ a _ s0 p0 E0 Ep Hx). lia.
Qed.

Lemma tuple_covered d ts l lm b : swf (Tuple d ts) = true -> signature (Tuple d ts) <> None ->
  (covered (Tuple d ts) l lm b <->
   exists k t, nthz ts k = Some t /\ within (lm d) k /\ covered t l (fupd lm d None) (b - total 0 (szs l (firstn (Z.to_nat k) ts)))).
Proof.
  intros Hw Hs. destruct (signature (Tuple d ts)) as [sg|] eqn:Es; [|congruence]. clear Hs.
  destruct (signature_Tuple_inv _ _ _ Es) as (ss & Fs & Hx & Esg). apply swf_tuple in Hw. rewrite forallb_forall in Hw. split.
  - intros (a & sg' & p & c & V & Hin & El & Hb). destruct (pvalid_tuple _ _ _ _ _ _ V) as (ss' & t & s0 & p0 & -> & F & Hd & Et & En & -> & Hda & V').
    exists (a d), t. split; [exact Et|]. split; [apply Hin; left; reflexivity|]. exists a, s0, p0, c. split; [exact V'|].
    cbn [leaf ioff] in *. rewrite !nthz_map, Et in *. cbn [option_map ojoin] in *. unfold szs. split; [|split; [exact El|lia]].
    intros x Hx'. unfold fupd at 1. destruct (x =? d); [exact I|]. apply Hin. right. exact Hx'.
  - intros (k & t & Et & Hwi & a & s0 & p0 & c & V & Hin & El & Hb). pose proof V as (E0 & Ep & F).
    pose proof (Forall2_nthz _ _ _ k Fs) as Hk. rewrite Et in Hk. destruct (nthz ss k) as [s1|] eqn:En; [|contradiction].
    assert (s1 = s0) by congruence. subst s1.
    assert (Hda : any_accept d s0 = false).
    { destruct (any_accept d s0) eqn:Ea; [|reflexivity]. rewrite <- Hx. symmetry. apply existsb_exists. exists s0. split; [eapply nthz_In; eauto|exact Ea]. }
    assert (Hnd : ~ In d (map fst p0)) by (eapply spath_not_accept; eauto). pose proof (swf_uswf _ (Hw _ (nthz_In _ _ _ Et))) as Hu.
    assert (Hxx : forall x, In x (map fst p0) -> fupd a d k x = a x) by (intros x Hx'; apply fupd_neq; congruence).
    pose proof (pvalid_local t l a (fupd a d k) s0 p0 Hu V Hxx) as V2. destruct V2 as (_ & Ep2 & F2).
    exists (fupd a d k), sg, ((d, Some (Z.of_nat (List.length ss))) :: p0), c. split; [|split; [|split]].
    + split; [exact Es|]. subst sg. rewrite spath_dep, fupd_eq, En, Ep2. split; [reflexivity|]. constructor.
      * unfold in_range. cbn [fst snd]. rewrite fupd_eq. clear -En. rewrite nthz_nth_error in En. destruct (Z.leb_spec 0 k); [|discriminate].
        assert (nth_error ss (Z.to_nat k) <> None) as Hx by congruence. apply nth_error_Some in Hx. lia.
      * rewrite Forall_forall in *. intros [x j] Hj. specialize (F2 _ Hj). unfold in_range in *. cbn [fst snd] in *. destruct j; [exact F2|].
        cbn [ilen]. destruct (Z.eqb_spec x d) as [->|]; [exfalso; apply Hnd; eapply in_fst; eauto|]. rewrite fupd_eq, nthz_map, Et. exact F2.
    + cbn [map fst]. intros x [<-|Hxi]; [rewrite fupd_eq; exact Hwi|]. specialize (Hin x Hxi). rewrite (Hxx x Hxi).
      assert (x <> d) by congruence. rewrite fupd_neq in Hin by assumption. exact Hin.
    + cbn [leaf]. rewrite nthz_map, fupd_eq, Et. cbn [option_map ojoin]. rewrite (leaf_local t Hu _ a _ s0 p0 E0 Ep Hxx). exact El.
    + cbn [ioff]. rewrite nthz_map, fupd_eq, Et. cbn [option_map]. rewrite (ioff_local t Hu _ a _ s0 p0 E0 Ep Hxx). unfold szs in Hb. lia.
Qed.

Lemma narrows_unlimited v t l lm lm' : leaves_out v = false -> told v lm -> unlimited lm -> narrows v t l lm lm' -> unlimited lm'.
Proof.
  intros Hv Ht Hu Hn q. destruct v; cbn [leaves_out told narrows] in *; try discriminate; try contradiction.
  - destruct Hn as (_ & _ & H). rewrite H. apply Hu.
  - rewrite Hn. apply Hu.
  - destruct Ht as [i Hi]. rewrite Hu in Hi. discriminate.
  - destruct Hn as [[_ H]|(x & h & n & H & _)]; [rewrite H; apply Hu|rewrite Hu in H; discriminate].
  - destruct Hn as (Hb & Hw & _). destruct (Z.eq_dec q d) as [->|Hq]; [|rewrite Hw by exact Hq; destruct (mem _ _); [reflexivity|apply Hu]].
    destruct Hb as [(_ & _ & H)|[(x & h & y & H & _)|(x & u & w & y & H & _)]]; [exact H|rewrite Hu in H; discriminate..].
  - destruct Hn as (_ & Hb & Hw & _). destruct (Z.eq_dec q d) as [->|Hq]; [|rewrite Hw by exact Hq; destruct (mem _ _); [reflexivity|apply Hu]].
    destruct Hb as [(_ & _ & H)|[(x & h & y & H & _)|(x & u & w & y & H & _)]]; [exact H|rewrite Hu in H; discriminate..].
  - rewrite Hn. apply Hu.
  - rewrite Hn. apply Hu.
  - rewrite Hn. destruct (_ && _); [reflexivity|apply Hu].
Qed.

Lemma idx_single_remove st lm d : idx_single st lm -> idx_single (remove [Idx d; Len d] st) (fupd lm d None).
Proof.
  intros H x Hx. rewrite has_remove in Hx. apply andb_prop in Hx. destruct Hx as [H1 H2].
  destruct (Z.eq_dec x d) as [Hn|Hn].
  - exfalso. subst x. clear -H1. cbn in H1. rewrite Z.eqb_refl in H1. discriminate.
  - rewrite fupd_neq by exact Hn. apply H, H2.
Qed.

Lemma asked_vector d t lm : asked (Vector d t) lm -> asked t (fupd lm d None).
Proof.
  intros [H|(st & Hs & E)]; [left; exact H|]. right. cbn [is_contiguous] in E. destruct (has (Len d) st); [|discriminate].
  eexists. split; [apply idx_single_remove, Hs|exact E].
Qed.

Lemma asked_tuple d ts lm t : unlimited lm -> asked (Tuple d ts) lm -> In t ts -> asked t lm.
Proof.
  intros Hu [H|(st & Hs & E)] Hin.
  - left. cbn [promised] in H. rewrite forallb_forall in H. apply H, Hin.
  - right. cbn [is_contiguous] in E. destruct (has (Idx d) st) eqn:Eh.
    { destruct (Hs d Eh) as [i Hi]. rewrite Hu in Hi. discriminate. }
    exists (remove [Idx d] st). split.
    + intros x Hx. rewrite has_remove in Hx. apply andb_prop in Hx. apply Hs, Hx.
    + clear -E Hin. induction ts as [|y ts IH]; [destruct Hin|]. cbn [map oall] in E.
      destruct (is_contiguous y (remove [Idx d] st)) as [[]|] eqn:Ey; try discriminate E;
      destruct (oall _) as [[]|] eqn:Eo; cbn in E; try discriminate E; destruct Hin as [Hx'|Hin]; [subst; assumption|auto].
Qed.

Lemma find_part (f : nat -> Z) b n : f 0%nat <= b -> b < f n -> exists k, (k < n)%nat /\ f k <= b < f (S k).
Proof.
  intros H0. induction n as [|n IH]; intros Hn; [lia|]. destruct (Z.ltb_spec b (f n)) as [H|H].
  - destruct (IH H) as (k & Hk & Hb). exists k. split; [lia|exact Hb].
  - exists n. split; [lia|lia].
Qed.

Lemma split_byte A B sz b : 0 <= sz -> A * sz <= b < B * sz -> exists i, A <= i < B /\ 0 <= b - i * sz < sz.
Proof.
  intros Hz Hb. destruct (Z.eq_dec sz 0) as [E|Hn]; [rewrite E, !Z.mul_0_r in Hb; lia|].
  pose proof (Z.div_mod b sz Hn) as Hdm. pose proof (Z.mod_pos_bound b sz ltac:(lia)) as Hm. exists (b / sz).
  set (i := b / sz) in *. set (r := b mod sz) in *. clearbody i r. split; [split|]; nia.
Qed.

Lemma whole_covered s : forall l lm b, swf s = true -> lrange l -> documented_all s l -> signature s <> None ->
  unlimited lm -> narrowed_outside true s l lm -> asked s lm -> 0 <= b < isize s l -> covered s l lm b.
Proof.
  induction s as [c|d ts IH|d t IH|v t IH|ts IH] using struct_ind'; intros l lm b Hw Hl Hd Hs Hu Hn Ha Hb.
  - exists (fun _ => 0), (SScalar c), [], c. cbn [leaf ioff isize] in *. split; [|split; [intros x []|split; [reflexivity|lia]]].
    split; [reflexivity|]. split; [reflexivity|constructor].
  - apply tuple_covered; [exact Hw|exact Hs|]. cbn [narrowed_outside] in Hn. destruct Hn as [[H _]|(_ & Hp & Hf)]; [discriminate|].
    destruct (signature (Tuple d ts)) as [sg|] eqn:Es; [|congruence]. destruct (signature_Tuple_inv _ _ _ Es) as (ss & Fs & Hx & Esg).
    pose proof (swf_tuple _ _ Hw) as Hw'. 
    destruct (find_part (fun k => total 0 (szs l (firstn k ts))) b (List.length ts)) as (k & Hk & Hbk); [exact (proj1 Hb)|rewrite firstn_all; exact (proj2 Hb)|].
    destruct (nth_error ts k) as [t|] eqn:Ek; [|apply nth_error_None in Ek; lia].
    assert (Et : nthz ts (Z.of_nat k) = Some t). { rewrite nthz_nth_error, Nat2Z.id. destruct (Z.leb_spec 0 (Z.of_nat k)); [exact Ek|lia]. }
    exists (Z.of_nat k), t. split; [exact Et|]. rewrite Hu. split; [exact I|]. rewrite Nat2Z.id.
    assert (Hin : In t ts) by (eapply nthz_In; eauto). rewrite Forall_forall in IH.
    pose proof (Hp _ _ Et) as Hpk. rewrite Nat2Z.id in Hpk. change (total 0 (szs l (firstn (S k) ts)) = total 0 (szs l (firstn k ts)) + isize t l) in Hpk.
    rewrite forallb_forall in Hw'.
    assert (Hst : signature t <> None) by (destruct (Forall2_in1 _ _ _ _ Fs Hin) as (? & _ & E); congruence).
    assert (C : covered t l lm (b - total 0 (szs l (firstn k ts)))).
    { apply IH; auto.
      - eapply doc_In; eauto.
      - clear -Hf Hin. induction ts as [|y ts IHl]; [destruct Hin|]. destruct Hf as [H1 H2]. destruct Hin as [Hx'|Hin]; [subst; assumption|auto].
      - eapply asked_tuple; eauto.
      - lia. }
    destruct C as (a & sg0 & p & c & V & _ & R). exists a, sg0, p, c. split; [exact V|]. split; [|exact R].
    intros x _. unfold fupd. destruct (x =? d); [exact I|]. rewrite Hu. exact I.
  - cbn [swf] in Hw. cbn [documented_all] in Hd. cbn [narrowed_outside] in Hn. destruct Hn as [[H _]|(Hu' & Hn)]; [discriminate|].
    apply vector_covered; auto. cbn [isize] in Hb.
    assert (Hst : signature t <> None) by (destruct (signature (Vector d t)) as [sg|] eqn:Es; [destruct (signature_Vector_inv _ _ _ Es) as (? & E & _); congruence|congruence]).
    assert (Hl' : lrange (fupd l d None)) by (apply lrange_None; exact Hl).
    pose proof (isize_nonneg t _ Hw Hst Hl') as Hz. set (sz := isize t (fupd l d None)) in *.
    destruct (split_byte 0 (odef (l d)) sz b Hz ltac:(lia)) as (i & Hi & Hr). exists i.
    split; [exact Hi|]. rewrite Hu. split; [exact I|]. apply IH; auto. eapply asked_vector; eauto.
  - cbn [narrowed_outside] in Hn. destruct Hn as [Hlo (lm' & Hna & Hn)]. cbn [documented_all] in Hd. destruct Hd as [Hg Hd].
    destruct (swf_view _ _ Hw) as [Hv Ht]. destruct (signature_view _ _ Hs) as (s0 & E0 & Ev0).
    destruct (view_sig v s0) as [sg|] eqn:Ev; [|congruence].
    destruct (asked_view v t l lm lm' s0 sg E0 Ev Hv Ha Hna) as [Htold Ha'].
    apply (view_covered v t l lm lm'); auto. apply IH; auto; try congruence.
    + apply view_lrange; auto.
    + eapply narrows_unlimited; eauto.
  - destruct Hd.
Qed.

Lemma block_covered s : forall l lm, swf s = true -> lrange l -> documented_all s l -> signature s <> None ->
  narrowed_outside false s l lm -> asked s lm -> exists lo hi, forall b, lo <= b < hi <-> covered s l lm b.
Proof.
  induction s as [c|d ts IH|d t IH|v t IH|ts IH] using struct_ind'; intros l lm Hw Hl Hd Hs Hn Ha.
  - exists 0, (ct_size c). intros b. split.
    + intros Hb. exists (fun _ => 0), (SScalar c), [], c. cbn [leaf ioff isize] in *. split; [|split; [intros x []|split; [reflexivity|lia]]].
      split; [reflexivity|]. split; [reflexivity|constructor].
    + intros C. apply (covered_bounds _ _ _ _ Hw Hl Hd C).
  - cbn [narrowed_outside] in Hn. destruct Hn as [(_ & k & Ek & Hn)|(Hu & Hp & Hf)].
    + rewrite nthz_map in Hn. destruct (nthz ts k) as [t|] eqn:Et; cbn [option_map] in Hn.
      * destruct Hn as [Hpr Hn]. assert (Hin : In t ts) by (eapply nthz_In; eauto). rewrite Forall_forall in IH.
        pose proof (swf_tuple _ _ Hw) as Hw'. rewrite forallb_forall in Hw'.
        destruct (signature (Tuple d ts)) as [sg|] eqn:Es; [|congruence]. destruct (signature_Tuple_inv _ _ _ Es) as (ss & Fs & Hx & Esg).
        destruct (IH t Hin l (fupd lm d None)) as (lo & hi & H); auto.
        -- eapply doc_In; eauto.
        -- destruct (Forall2_in1 _ _ _ _ Fs Hin) as (? & _ & E); congruence.
        -- left. exact Hpr.
        -- set (o := total 0 (szs l (firstn (Z.to_nat k) ts))). exists (lo + o), (hi + o). intros b. rewrite tuple_covered by (auto; congruence). split.
           ++ intros Hb. exists k, t. split; [exact Et|]. rewrite Ek. split; [cbn; lia|]. apply H. fold o. lia.
           ++ intros (k' & t' & Et' & Hk' & C). rewrite Ek in Hk'. assert (k' = k) by (cbn in Hk'; lia). subst k'.
              assert (t' = t) by congruence. subst t'. apply H in C. fold o in C. lia.
      * exists 0, 0. intros b. split; [lia|]. rewrite tuple_covered by auto. intros (k' & t' & Et' & Hk' & C). rewrite Ek in Hk'.
        assert (k' = k) by (cbn in Hk'; lia). congruence.
    + exists 0, (isize (Tuple d ts) l). intros b. split; [|apply covered_bounds; auto]. intros Hb. apply whole_covered; auto. right. auto.
  - pose proof Hw as Hwt. cbn [swf] in Hwt. pose proof Hd as Hdt. cbn [documented_all] in Hdt. cbn [narrowed_outside] in Hn.
    assert (Hst : signature t <> None) by (destruct (signature (Vector d t)) as [sg|] eqn:Es; [destruct (signature_Vector_inv _ _ _ Es) as (? & E & _); congruence|congruence]).
    assert (Hl' : lrange (fupd l d None)) by (apply lrange_None; exact Hl). pose proof (isize_nonneg t _ Hwt Hst Hl') as Hz.
    pose proof (asked_vector _ _ _ Ha) as Ha'. set (sz := isize t (fupd l d None)) in *. set (n := odef (l d)).
    destruct Hn as [(_ & [i Ei] & Hn)|(Hu & Hn)].
    + destruct (IH _ _ Hwt Hl' Hdt Hst Hn Ha') as (lo & hi & H).
      destruct (Z.leb_spec 0 i) as [Hi|Hi]; [destruct (Z.ltb_spec i n) as [Hi2|Hi2]|].
      * exists (lo + i * sz), (hi + i * sz). intros b. rewrite vector_covered by auto. split.
        -- intros Hb. exists i. split; [split; assumption|]. rewrite Ei. split; [cbn; lia|]. apply H. fold sz. lia.
        -- intros (i' & _ & Hi' & C). rewrite Ei in Hi'. assert (i' = i) by (cbn in Hi'; lia). subst i'. apply H in C. fold sz in C. lia.
      * exists 0, 0. intros b. split; [lia|]. rewrite vector_covered by auto. intros (i' & Hr & Hi' & C). rewrite Ei in Hi'. cbn in Hi'. fold n in Hr. lia.
      * exists 0, 0. intros b. split; [lia|]. rewrite vector_covered by auto. intros (i' & Hr & Hi' & C). rewrite Ei in Hi'. cbn in Hi'. fold n in Hr. lia.
    + assert (HA : exists A B, forall i, (0 <= i < n /\ within (lm d) i) <-> A <= i < B).
      { destruct (lm d) as [[x [y|]]|]; cbn [within].
        - exists (Z.max 0 x), (Z.min n y). intros i. lia.
        - exists (Z.max 0 x), n. intros i. lia.
        - exists 0, n. intros i. lia. }
      destruct HA as (A & B & HAB). exists (A * sz), (B * sz). intros b. rewrite vector_covered by auto. fold n sz. split.
      * intros Hb. destruct (split_byte A B sz b Hz Hb) as (i & Hi & Hr). exists i.
        destruct (proj2 (HAB i) Hi) as [H1 H2]. split; [exact H1|]. split; [exact H2|]. apply whole_covered; auto.
      * intros (i & H1 & H2 & C). pose proof (proj1 (HAB i) (conj H1 H2)) as H3. apply covered_bounds in C; auto. fold sz in C. nia.
  - cbn [narrowed_outside] in Hn. destruct Hn as [Hlo (lm' & Hna & Hn)]. pose proof Hd as Hd'. cbn [documented_all] in Hd'. destruct Hd' as [Hg Hdt].
    destruct (swf_view _ _ Hw) as [Hv Ht]. destruct (signature_view _ _ Hs) as (s0 & E0 & Ev0).
    destruct (view_sig v s0) as [sg|] eqn:Ev; [|congruence].
    destruct (asked_view v t l lm lm' s0 sg E0 Ev Hv Ha Hna) as [Htold Ha'].
    destruct (IH (view_lenv v l) lm') as (lo & hi & H); auto; try congruence.
    + apply view_lrange; auto.
    + exists lo, hi. intros b. rewrite H. symmetry. apply view_covered; auto.
  - destruct Hd.
Qed.

(** ** The elements a traverser visits *)

Lemma visited_reach s l sg a p : swf s = true -> lenok s nolens -> signature s = Some sg -> for_each (traverser [s]) [] = Done l ->
  pvalid s nolens a sg p -> exists st, In st l /\ names_element s st p /\ (forall d, get (Len d) st = None) /\ forall d, In d (map fst p) -> asg_of st d = a d.
Proof.
  intros Hw Hlk Es E V. assert (Hd : distinct_dims s) by (apply uswf_distinct; [apply swf_uswf, Hw|congruence]).
  assert (Hd1 : distinct_dims (Union [s])). { unfold distinct_dims. rewrite signature_one. exact Hd. }
  destruct (each_run (traverser [s]) l ltac:(discriminate) Hd1 E) as (sg1 & sts & Hs & Er & _ & F).
  change (top_struct (traverser [s])) with (Union [s]) in *. change (tr_struct (traverser [s])) with (Union [s]) in *.
  rewrite signature_one in Hs. assert (sg1 = sg) by congruence. subst sg1.
  assert (Hs1 : signature (Union [s]) = Some sg) by (rewrite signature_one; exact Es).
  assert (Hlk1 : lenok (Union [s]) nolens) by (simpl; auto).
  assert (V1 : pvalid (Union [s]) nolens a sg p).
  { destruct V as (_ & Ep & Fr). split; [exact Hs1|]. split; [exact Ep|]. rewrite Forall_forall in *. intros [x k] Hk. specialize (Fr _ Hk).
    pose proof (spath_accept _ _ _ Ep _ Hk) as Hac. unfold in_range in *. cbn [fst snd] in *. destruct k; [exact Fr|].
    cbn [ilen map]. cbn. rewrite Es, Hac. exact Fr. }
  destruct (run_reaches (Union [s]) sg sts Hs1 (distinct_snodup _ _ Hd1 Hs1) Hlk1 Er a p V1) as (e & Hin & Hag & Hdm & Ha).
  destruct (Forall2_in1 _ _ _ _ F Hin) as (st & Hst & s' & Es' & Hg). apply state_at_self in Es'; [|discriminate]. subst s'.
  exists st. split; [exact Hst|]. destruct (visited_elements s l Hd Hlk E) as [He Hel]. destruct (Hel st Hst) as [(p' & Hp') Hnl].
  assert (Epp : p' = p). { destruct Hp' as [Hp' _]. rewrite <- (dims_same_get s e st Hg) in Hp'. unfold dims_of in Hdm, Hp'. rewrite Hs1 in Hdm. rewrite Es in Hp'. congruence. }
  subst p'. split; [exact Hp'|]. split; [exact Hnl|]. intros d Hdin. rewrite <- (asg_same_get e st Hg). apply Ha, Hdin.
Qed.

Lemma nolens_of st : (forall d, get (Len d) st = None) -> forall d, lenv_of st d = nolens d.
Proof. intros H d. unfold lenv_of. rewrite H. reflexivity. Qed.

Theorem contiguous_api s sts : swf s = true -> lenok s nolens -> documented_all s nolens -> fits s [] ->
  for_each (traverser [s]) [] = Done sts -> (forall st, In st sts -> offset s st <> None) ->
  narrowed_outside false s nolens (fun _ => None) -> is_contiguous s [] = Some true ->
  exists lo hi, forall b, lo <= b < hi <-> exists st, In st sts /\ element_at s st b.
Proof.
  intros Hw Hlk Hd Hsz E Ho Hn Hc. destruct (signature s) as [sg|] eqn:Es.
  2:{ exfalso. pose proof (for_each_signature _ _ E) as H. change (top_struct (traverser [s])) with (Union [s]) in H. rewrite signature_one in H. congruence. }
  assert (Hl : lrange nolens) by (intros d x Hx; discriminate).
  destruct (block_covered s nolens (fun _ => None) Hw Hl Hd ltac:(congruence) Hn) as (lo & hi & H).
  { right. exists []. split; [intros d Hd'; discriminate|exact Hc]. }
  assert (Hdd : distinct_dims s) by (apply uswf_distinct; [apply swf_uswf, Hw|congruence]).
  assert (X : forall st p o, names_element s st p -> (forall d, get (Len d) st = None) -> offset s st = Some o ->
    exists c, pvalid s nolens (asg_of st) sg p /\ scalar_t s st = Some c /\ leaf s nolens (asg_of st) = Some c /\
      vz o = Some (ioff s nolens (asg_of st)) /\ 0 <= ioff s nolens (asg_of st)).
  { intros st p o Hp Hnl Eo. pose proof (nolens_of st Hnl) as Hlv.
    assert (U : used_correctly s st).
    { split; [exact Hw|]. split; [eapply lenok_ext; [|exact Hlk]; intros d; symmetry; apply Hlv|]. split.
      - eapply good_ext; [intros d; symmetry; apply Hlv|intros d; reflexivity|]. apply doc_good, Hd.
      - intros d x Hx. rewrite Hnl in Hx. discriminate. }
    destruct (access_offset s st p o U Hp Eo) as (sg' & c & Es' & V & Ec & El & Hv). assert (sg' = sg) by congruence. subst sg'.
    assert (V' : pvalid s nolens (asg_of st) sg p).
    { destruct V as (? & ? & Hr). split; [assumption|]. split; [assumption|]. revert Hr. apply Forall_impl. intros [d k].
      unfold in_range. cbn [fst snd]. destruct k; [auto|]. rewrite (ilen_ext s (lenv_of st) nolens (asg_of st) (asg_of st)); auto using eqf_refl. }
    rewrite (leaf_ext s (lenv_of st) nolens (asg_of st) (asg_of st)) in El by (auto using eqf_refl; exact Hlv).
    rewrite (ioff_ext s (lenv_of st) nolens (asg_of st) (asg_of st)) in Hv by (auto using eqf_refl; exact Hlv).
    destruct (int_in_bounds s nolens (asg_of st) sg p Hw Hl (doc_good s nolens _ Hd) V') as (c' & El' & H1 & H2 & H3).
    assert (Hsz' : isize s nolens < W) by exact Hsz. rewrite u64_small in Hv by lia. exists c. auto. }
  exists lo, hi. intros b. rewrite H. split.
  - intros (a & sg' & p & c & V & _ & El & Hb). assert (sg' = sg) by (destruct V as (A & _); congruence). subst sg'.
    destruct (visited_reach s sts sg a p Hw Hlk Es E V) as (st & Hin & Hp & Hnl & Ha). exists st. split; [exact Hin|].
    destruct (offset s st) as [o|] eqn:Eo; [|exfalso; apply (Ho st Hin Eo)]. destruct (X st p o Hp Hnl Eo) as (c' & V' & Ec & El' & Hv & _).
    pose proof V as (_ & Ep & _). pose proof (leaf_local s (swf_uswf _ Hw) nolens a (asg_of st) sg p Es Ep Ha) as L1.
    pose proof (ioff_local s (swf_uswf _ Hw) nolens a (asg_of st) sg p Es Ep Ha) as L2.
    exists o, (ioff s nolens (asg_of st)), c'. split; [exact Eo|]. split; [exact Hv|]. split; [exact Ec|]. rewrite L2. assert (c' = c) by congruence. subst c'. exact Hb.
  - intros (st & Hin & o & x & c & Eo & Hx & Ec & Hb). destruct (visited_elements s sts Hdd Hlk E) as [He Hel]. destruct (Hel st Hin) as [(p & Hp) Hnl].
    destruct (X st p o Hp Hnl Eo) as (c' & V' & Ec' & El' & Hv & _). exists (asg_of st), sg, p, c.
    assert (c' = c) by congruence. subst c'. assert (x = ioff s nolens (asg_of st)) by congruence. subst x.
    split; [exact V'|]. split; [intros d _; exact I|]. split; [exact El'|exact Hb].
Qed.

(** A gap between two elements, by computation. *)
Definition element_atb (s : struct) (b : Z) (st : state) : bool :=
  match offset s st, scalar_t s st with
  | Some o, Some c => match vz o with Some x => (x <=? b) && (b <? x + ct_size c) | None => false end
  | _, _ => false
  end.
Lemma element_atb_iff s b st : element_atb s b st = true <-> element_at s st b.
Proof.
  unfold element_atb, element_at. split.
  - destruct (offset s st) as [o|]; [|discriminate]. destruct (scalar_t s st) as [c|]; [|discriminate].
    destruct (vz o) as [x|] eqn:Ex; [|discriminate]. intros H. exists o, x, c. repeat split; auto; lia.
  - intros (o & x & c & -> & -> & -> & H). lia.
Qed.
Lemma gap_check s sts b1 b2 b3 : b1 < b2 < b3 -> existsb (element_atb s b1) sts = true -> existsb (element_atb s b3) sts = true ->
  existsb (element_atb s b2) sts = false ->
  ~ exists lo hi, forall b, lo <= b < hi <-> exists st, In st sts /\ element_at s st b.
Proof.
  intros Hb H1 H3 H2 (lo & hi & H). apply existsb_exists in H1, H3. destruct H1 as (s1 & I1 & E1), H3 as (s3 & I3 & E3).
  apply element_atb_iff in E1, E3. pose proof (proj2 (H b1) (ex_intro _ s1 (conj I1 E1))). pose proof (proj2 (H b3) (ex_intro _ s3 (conj I3 E3))).
  destruct (proj1 (H b2) ltac:(lia)) as (s2 & I2 & E2). apply element_atb_iff in E2. 
  assert (existsb (element_atb s b2) sts = true) by (apply existsb_exists; eauto). congruence.
Qed.
