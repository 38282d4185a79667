(** * Stripes as private copies: proofs *)

From Verif Require Import SpecStripedKernel.
From Verif Require Export StripedFacts AutoStepFacts KernelThms OnlyDims.
From Verif Require Import SpecStripedKernel.

(** ** States *)

Lemma named_get s x st st' : same_get st st' -> named s x st -> named s x st'.
Proof. intros H [H1 H2]. split; intros d; [rewrite <- (proj2 (H d)); apply H1|]. intros Hd. destruct (H2 d Hd) as (i & Ei & Ex). exists i. rewrite <- (proj1 (H d)). auto. Qed.

Lemma get_in t st v : get t st = Some v -> In (t, v) st.
Proof.
  induction st as [|[t' v'] st IH]; cbn [get]; [discriminate|]. destruct (tag_eqb t t') eqn:E; intros H; [|right; auto]. injection H as ->. left. f_equal.
  destruct t, t'; cbn in E; try discriminate; f_equal; lia.
Qed.

Lemma named_element s l x st : cube s l -> sound_struct s -> in_box l x -> named s x st -> element s st.
Proof.
  intros Hc (Hw & Hlk & _) Hx Hn. split; [|apply Hn]. destruct (cube_sig _ _ Hc) as (sg & Es & Hp & Hd). exists (flat sg). split.
  - unfold dims_of. rewrite Es. cbn [obind]. apply plain_path, Hp.
  - intros d k Hin. unfold flat in Hin. apply in_map_iff in Hin. destruct Hin as (d' & Eq & Hin). injection Eq as <- <-.
    set (ds := flat_map (fun e : tag * val => match fst e with Idx q => [q] | _ => [] end) st).
    apply Hd in Hin. destruct (fst_in _ _ Hin) as [n Hn']. pose proof Hc as (_ & Hds & Hl). destruct (Hl _ _ Hn') as (len & El & En).
    destruct Hn as [N1 N2]. destruct (N2 d') as (i & Ei & Ex); [apply Hds, Hin|].
    assert (Hall : forall q v, get (Idx q) st = Some v -> In q ds). { intros q v Hg. unfold ds. apply in_flat_map. exists (Idx q, v). split; [apply get_in, Hg|left; reflexivity]. }
    assert (Hse : forall q, get (Idx q) (remove (map Idx ds) st) = get (Idx q) [] /\ get (Len q) (remove (map Idx ds) st) = get (Len q) []).
    { intros q. rewrite !get_remove. cbn [get]. split; [|rewrite N1; destruct (tag_mem _ _); reflexivity].
      destruct (get (Idx q) st) as [v|] eqn:Eg; [|destruct (tag_mem _ _); reflexivity].
      assert (Ht : tag_mem (Idx q) (map Idx ds) = true); [|rewrite Ht; reflexivity]. unfold tag_mem. apply existsb_exists. exists (Idx q). split; [apply in_map, (Hall q v Eg)|cbn; lia]. }
    exists ds, len, n, i, (x d'). split; [eapply Hall; eauto|]. split.
    + destruct (foreign_ignored s (remove (map Idx ds) st) [] ltac:(congruence)) as (_ & _ & _ & _ & _ & _ & Hq).
      * intros q _. exact (Hse q).
      * destruct (Hq d') as [_ ->]; [|exact El]. intros q _. exact (Hse q).
    + split; [exact En|]. split; [exact Ei|]. split; [exact Ex|]. apply (Hx _ _ Hn').
Qed.

Lemma leaf_positive s : no_empty_scalar s = true -> forall l a c, leaf s l a = Some c -> 0 < ct_size c.
Proof.
  induction s as [c0|d ts IH|d t IH|v t IH|ts IH] using struct_ind'; intros H l a c E; cbn [leaf no_empty_scalar] in *; try discriminate; eauto.
  - injection E as <-. lia.
  - unfold ojoin in E. destruct (nthz (map (fun t => leaf t l a) ts) (a d)) as [o|] eqn:En; [|discriminate]. apply nthz_In in En. apply in_map_iff in En. destruct En as (t & Et & Ht).
    rewrite Forall_forall in IH. rewrite forallb_forall in H. subst o. eapply (IH t Ht (H t Ht)); eauto.
Qed.

Lemma agrees_not ds x y : agrees ds x y = false -> exists d, In d ds /\ y d <> x d.
Proof.
  unfold agrees. induction ds as [|d ds IH]; cbn [forallb]; [discriminate|]. intros H. apply andb_false_iff in H.
  destruct H as [H|H]; [exists d; split; [left; reflexivity|lia]|]. destruct (IH H) as (q & Hq & Hn). exists q. split; [right; exact Hq|exact Hn].
Qed.

(** ** Accesses *)
Section Memory.
  Variables (p : striped) (w : widths) (l : list (dim * Z)) (n : Z).
  Let s := sp_sub p.
  Hypothesis Hw : striped_well p w.
  Hypothesis Hnb : nobcast s = true.
  Hypothesis Hsc : no_empty_scalar s = true.
  Hypothesis Hc : cube s l.
  Hypothesis Hsz : exists v, striped_size p [] = Some v /\ vz v = Some n.

  (** The thread reaches stripe [i], the element at [x]. *)
  Definition at_copy (i : Z) (x : asg) (tid : Z) (st : state) : Prop := in_stripe_no p tid st i /\ named s x st.

  Lemma copy_element i x tid st : in_box l x -> at_copy i x tid st -> element s (stripe_sub_state st).
  Proof using Hc Hw.
    intros Hx [_ Hn]. apply (named_element s l x); [exact Hc|exact (sw_sub _ _ Hw)|exact Hx|]. apply (named_get s x st); [|exact Hn]. intros d. destruct (sub_same st d) as [A B]. auto.
  Qed.

  Lemma offset_defined i x tid st o c : in_box l x -> at_copy i x tid st -> scalar_t s st = Some c -> striped_offset p tid st = Some o -> exists y, vz o = Some y.
  Proof using Hc Hw.
    intros Hx Ha Ec Eo. pose proof (copy_element _ _ _ _ Hx Ha) as Hel. destruct Ha as [[Hi Hib] _].
    unfold striped_offset in Eo. rewrite (sw_widths _ _ Hw) in Eo. cbn [obind] in Eo. fold s in Eo. rewrite Ec in Eo. cbn [obind] in Eo.
    assert (Hsg : signature s <> None) by (intros E; unfold scalar_t in Ec; rewrite E in Ec; discriminate).
    destruct (offset_of (Scalar c) s (stripe_sub_state st) (Sta 0)) as [o1|] eqn:E1; [|discriminate]. cbn [obind] in Eo.
    assert (Ec' : scalar_t s (stripe_sub_state st) = Some c) by (rewrite scalar_sub by exact Hsg; exact Ec).
    assert (Eoff : offset s (stripe_sub_state st) = Some o1) by (unfold offset; rewrite Ec'; exact E1).
    destruct (vz o1) as [xo|] eqn:Exo.
    2:{ exfalso. destruct (element_used _ _ (sw_sub _ _ Hw) Hel) as [Hu _]. destruct Hel as [[pp Hp] _]. destruct (access_offset _ _ _ _ Hu Hp Eoff) as (? & ? & _ & _ & _ & _ & Ho). congruence. }
    pose proof (widths_spec p w (sw_widths _ _ Hw) (sw_params _ _ Hw)) as Hws. pose proof (stripe_pos p w Hws) as Hsp.
    assert (Hst : vz (Sta (w_stripe w)) = Some (w_stripe w)).
    { apply vz_sta. destruct Hws as [_ _ _ _ _ _ Hsl Ht _ _ HtW _]. destruct (sw_params _ _ Hw) as (HN & _). nia. }
    assert (Hmaj : vz (vdiv o1 (Sta (w_stripe w))) = Some (xo / w_stripe w)) by (apply vz_vdiv; [exact Exo|exact Hst|lia]).
    assert (Hmod : vz (vmod o1 (Sta (w_stripe w))) = Some (xo mod w_stripe w)) by (apply vz_vmod; [exact Exo|exact Hst|lia]).
    assert (Hin : forall start y, vz start = Some y -> exists z, vz (offset_inner p w tid st (vdiv o1 (Sta (w_stripe w))) start) = Some z).
    { intros start y Hy. unfold offset_inner. unfold stripe_of in Hi. destruct (get stripe_tag st) as [iv|].
      - eexists. apply vz_vadd'; [|exact Hy]. apply vz_vadd'; [apply vz_vmul'; [exact Hmaj|reflexivity]|apply vz_vmul'; [exact Hi|reflexivity]].
      - eexists. apply vz_vadd'; [|exact Hy]. apply vz_vadd'; [apply vz_vmul'; [exact Hmaj|reflexivity]|reflexivity]. }
    destruct (_ && _); injection Eo as <-; [eapply Hin; reflexivity|]. refine (Hin _ _ (vz_vadd' (Sta 0) _ _ _ eq_refl Hmod)).
  Qed.

  Lemma ref_copy data i x tid st : n <= Z.of_nat (length data) -> in_box l x -> at_copy i x tid st ->
    striped_ref p tid data st = Rejected \/
    exists o c, striped_ref p tid data st = Done (o, ct_size c) /\ access p tid st i o (ct_size c) /\ 0 <= o /\ 0 < ct_size c /\ o + ct_size c <= n.
  Proof using Hc Hw Hsc Hsz.
    intros Hd Hx Ha. unfold striped_ref. fold s. destruct (scalar_t s st) as [c|] eqn:Ec; [|auto]. destruct (striped_offset p tid st) as [v|] eqn:Ev; [|auto]. right.
    destruct (offset_defined i x tid st v c Hx Ha Ec Ev) as [o Eo]. rewrite Eo.
    assert (Hac : access p tid st i o (ct_size c)). { pose proof Ha as [[Hi Hib] _]. split; [apply (copy_element i x tid), Ha; exact Hx|]. split; [exact Hi|]. split; [exact Hib|]. exists v, c. auto. }
    assert (Hpos : 0 < ct_size c).
    { destruct (access_place _ _ _ _ _ _ _ Hw Hac) as (o1 & xo & c' & E1 & _ & C1 & N1 & _). rewrite N1. fold s in C1, E1. 
      pose proof (copy_element _ _ _ _ Hx Ha) as Hel. destruct (element_used _ _ (sw_sub _ _ Hw) Hel) as [Hu _]. destruct Hel as [[pp Hp] _].
      destruct (access_offset _ _ _ _ Hu Hp E1) as (? & c2 & _ & _ & C2 & Lf & _). fold s in C2. assert (c2 = c') by congruence. subst c2. exact (leaf_positive s Hsc _ _ _ Lf). }
    destruct Hsz as (sv & Es & En). destruct (striped_in_size p w tid st i o (ct_size c) sv Hw Hac Hpos Es) as (z & Ez & H0 & H1). assert (z = n) by congruence. subst z.
    exists o, c. destruct (Z.leb_spec (o + ct_size c) (Z.of_nat (length data))); [|lia]. auto.
  Qed.

  (** Two ways to write the same access. *)
  Lemma same_copy data i x tid tid' st st' r r' : n <= Z.of_nat (length data) -> in_box l x -> at_copy i x tid st -> at_copy i x tid' st' ->
    striped_ref p tid data st = Done r -> striped_ref p tid' data st' = Done r' -> r' = r.
  Proof using Hc Hw Hsc Hsz.
    intros Hd Hx H1 H2 E1 E2. destruct (ref_copy data i x tid st Hd Hx H1) as [X|(o & c & X & A & _)]; [congruence|]. destruct (ref_copy data i x tid' st' Hd Hx H2) as [Y|(o' & c' & Y & A' & _)]; [congruence|].
    destruct (access_place _ _ _ _ _ _ _ Hw A) as (o1 & x1 & c1 & F1 & V1 & C1 & N1 & P1 & _). destruct (access_place _ _ _ _ _ _ _ Hw A') as (o2 & x2 & c2 & F2 & V2 & C2 & N2 & P2 & _).
    fold s in F1, F2, C1, C2.
    pose proof (copy_element _ _ _ _ Hx H1) as L1. pose proof (copy_element _ _ _ _ Hx H2) as L2.
    destruct (element_used _ _ (sw_sub _ _ Hw) L1) as [U1 S1]. destruct (element_used _ _ (sw_sub _ _ Hw) L2) as [U2 S2].
    destruct L1 as [[p1 Q1] K1]. destruct L2 as [[p2 Q2] K2].
    destruct (access_offset _ _ _ _ U1 Q1 F1) as (g1 & d1 & G1 & W1 & D1 & B1 & O1). destruct (access_offset _ _ _ _ U2 Q2 F2) as (g2 & d2 & G2 & W2 & D2 & B2 & O2).
    fold s in D1, D2. assert (d1 = c1) by congruence. assert (d2 = c2) by congruence. subst d1 d2.
    destruct (cube_sig _ _ Hc) as (sg & Esg & Hp & Hds).
    assert (N1' : named s x (stripe_sub_state st)) by (apply (named_get s x st); [intros d; destruct (sub_same st d); auto|apply H1]).
    assert (N2' : named s x (stripe_sub_state st')) by (apply (named_get s x st'); [intros d; destruct (sub_same st' d); auto|apply H2]).
    pose proof (sw_sub _ _ Hw) as (Hwf & Hlk & _).
    destruct (named_valid s l x _ sg Hc Hlk Esg Hx N1') as (V & _ & _ & X1). destruct (named_valid s l x _ sg Hc Hlk Esg Hx N2') as (V' & _ & _ & X2).
    pose proof (element_lenv _ K1) as Hl1. pose proof (element_lenv _ K2) as Hl2. pose proof V as (_ & Ep & _).
    assert (He : forall d, In d (map fst (flat sg)) -> asg_of (stripe_sub_state st') d = asg_of (stripe_sub_state st) d) by (intros d; rewrite flat_fst; intros Hin; rewrite X1, X2 by exact Hin; reflexivity).
    assert (Hio : ioff s nolens (asg_of (stripe_sub_state st')) = ioff s nolens (asg_of (stripe_sub_state st))) by (eapply ioff_local; eauto; apply swf_uswf, Hwf).
    assert (Hlf : leaf s nolens (asg_of (stripe_sub_state st')) = leaf s nolens (asg_of (stripe_sub_state st))) by (eapply leaf_local; eauto; apply swf_uswf, Hwf).
    rewrite <- (ioff_ext s _ _ _ _ Hl1 (fun _ => eq_refl)) in O1. rewrite <- (ioff_ext s _ _ _ _ Hl2 (fun _ => eq_refl)), Hio in O2.
    rewrite <- (leaf_ext s _ _ _ _ Hl1 (fun _ => eq_refl)) in B1. rewrite <- (leaf_ext s _ _ _ _ Hl2 (fun _ => eq_refl)), Hlf in B2.
    assert (x2 = x1) by congruence. assert (c2 = c1) by congruence. subst x2 c2. rewrite X in E1. rewrite Y in E2. injection E1 as <-. injection E2 as <-.
    f_equal; congruence.
  Qed.

  (** Different copies share no byte. *)
  Lemma other_copy data i x tid st j y tid' st' r r' : n <= Z.of_nat (length data) -> in_box l x -> in_box l y -> at_copy i x tid st -> at_copy j y tid' st' ->
    i <> j \/ (exists d, In d (map fst l) /\ y d <> x d) ->
    striped_ref p tid data st = Done r -> striped_ref p tid' data st' = Done r' -> fst r + snd r <= fst r' \/ fst r' + snd r' <= fst r.
  Proof using Hc Hw Hsc Hsz Hnb.
    intros Hd Hx Hy H1 H2 Hne E1 E2. destruct (ref_copy data i x tid st Hd Hx H1) as [X|(o & c & X & A & _)]; [congruence|]. destruct (ref_copy data j y tid' st' Hd Hy H2) as [Y|(o' & c' & Y & A' & _)]; [congruence|].
    rewrite X in E1. rewrite Y in E2. injection E1 as <-. injection E2 as <-. cbn [fst snd].
    destruct (striped_disjoint p w _ _ _ _ _ _ _ _ _ _ Hw Hnb A A') as [[Ei [Ed El]]|H]; [exfalso|exact H]. subst j. destruct Hne as [Hne|(d & Hin & Hne)]; [congruence|]. apply Hne. clear Hne.
    destruct (cube_sig _ _ Hc) as (sg & Esg & Hp & Hds). apply Hds in Hin.
    assert (Hdim : has_dim s d) by (unfold has_dim; rewrite Esg; apply accept_sdims, Hin).
    assert (N1' : named s x (stripe_sub_state st)) by (apply (named_get s x st); [intros q; destruct (sub_same st q); auto|apply H1]).
    assert (N2' : named s y (stripe_sub_state st')) by (apply (named_get s y st'); [intros q; destruct (sub_same st' q); auto|apply H2]).
    rewrite <- (named_at s x _ N1' d Hdim), <- (named_at s y _ N2' d Hdim). symmetry. fold s in Ed, El.
    unfold index_list, dims_of in El. rewrite Esg in El. cbn [obind] in El. rewrite !(plain_path sg _ Hp) in El. rewrite !map_map in El. cbn [fst] in El.
    clear - El Hin. induction (sdims sg) as [|q ds IH]; [destruct Hin|]. cbn [map] in El. injection El as Eq El. destruct Hin as [->|Hin]; [exact Eq|auto].
  Qed.

  (** ** Reading and writing *)
  Lemma ref_length data data' tid st : length data' = length data -> striped_ref p tid data' st = striped_ref p tid data st.
  Proof using. intros E. unfold striped_ref. rewrite E. reflexivity. Qed.

  Lemma sread_done data tid st v : striped_read p tid data st = Done v -> exists r, striped_ref p tid data st = Done r /\ v = window data (fst r) (snd r).
  Proof using. unfold striped_read. destruct (striped_ref p tid data st) as [| |r]; try discriminate. cbn [out_map]. intros E. injection E as <-. exists r. auto. Qed.

  Lemma swrite_done data tid st v data' : striped_write p tid data st v = Done data' ->
    exists r, striped_ref p tid data st = Done r /\ Z.of_nat (length v) = snd r /\ data' = patch data (fst r) v.
  Proof using.
    unfold striped_write. destruct (striped_ref p tid data st) as [| |r]; try discriminate. cbn [out_bind]. destruct (_ =? _) eqn:E; [|discriminate]. intros H. injection H as <-. exists r. split; [reflexivity|]. split; [lia|reflexivity].
  Qed.

  (** Stripe [i] has the value [v] at [x]. *)
  Definition copy_value (data : bytes) (i : Z) (x : asg) (v : bytes) : Prop := exists tid st, at_copy i x tid st /\ striped_read p tid data st = Done v.

  Lemma copy_read data i x tid st v v' : n <= Z.of_nat (length data) -> in_box l x -> at_copy i x tid st -> copy_value data i x v -> striped_read p tid data st = Done v' -> v' = v.
  Proof using Hc Hw Hsc Hsz.
    intros Hd Hx Ha (tid0 & st0 & A0 & E0) E. destruct (sread_done _ _ _ _ E0) as (r0 & R0 & ->). destruct (sread_done _ _ _ _ E) as (r & R & ->).
    rewrite (same_copy data i x tid0 tid st0 st r0 r Hd Hx A0 Ha R0 R). reflexivity.
  Qed.

  Lemma sread_defined data i x tid st : n <= Z.of_nat (length data) -> in_box l x -> at_copy i x tid st -> striped_read p tid data st <> Undefined.
  Proof using Hc Hw Hsc Hsz. intros Hd Hx Ha. unfold striped_read. destruct (ref_copy data i x tid st Hd Hx Ha) as [->|(o & c & -> & _)]; discriminate. Qed.
  Lemma swrite_defined data i x tid st v : n <= Z.of_nat (length data) -> in_box l x -> at_copy i x tid st -> striped_write p tid data st v <> Undefined.
  Proof using Hc Hw Hsc Hsz.
    intros Hd Hx Ha. unfold striped_write. destruct (ref_copy data i x tid st Hd Hx Ha) as [->|(o & c & -> & _)]; [discriminate|]. cbn [out_bind]. destruct (_ =? _); discriminate.
  Qed.

  Lemma at_agrees i x y tid st : agrees (map fst l) x y = true -> at_copy i y tid st -> at_copy i x tid st.
  Proof using Hc.
    intros Ha [H1 H2]. split; [exact H1|]. eapply named_same; [|exact H2]. intros d Hd. symmetry. apply (proj1 (agrees_all _ _ _) Ha). apply (proj1 (proj2 Hc)), Hd.
  Qed.

  Lemma swrite_effect data i x tid st v data' : n <= Z.of_nat (length data) -> in_box l x -> at_copy i x tid st -> striped_write p tid data st v = Done data' ->
    length data' = length data /\ copy_value data' i x v /\
    (forall tid0 st0 j y, in_box l y -> at_copy j y tid0 st0 -> i <> j \/ agrees (map fst l) x y = false -> striped_read p tid0 data' st0 = striped_read p tid0 data st0).
  Proof using Hc Hw Hsc Hsz Hnb.
    intros Hd Hx Ha E. destruct (swrite_done _ _ _ _ _ E) as (r & Er & El & ->).
    destruct (ref_copy data i x tid st Hd Hx Ha) as [X|(o & c & X & A & H0 & H1 & H2)]; [congruence|]. rewrite X in Er. injection Er as <-. cbn [fst snd] in *.
    assert (Hlen : length (patch data o v) = length data). { rewrite <- (Z2Nat.id o) by lia. apply patch_length. lia. }
    split; [exact Hlen|]. split.
    - exists tid, st. split; [exact Ha|]. unfold striped_read. rewrite (ref_length data _ tid st Hlen), X. cbn [out_map fst snd]. f_equal. rewrite <- El. apply window_patch_same; lia.
    - intros tid0 st0 j y Hy A0 Hne. unfold striped_read. rewrite (ref_length data _ tid0 st0 Hlen). destruct (striped_ref p tid0 data st0) as [| |r0] eqn:E0; try reflexivity. cbn [out_map]. f_equal.
      destruct (ref_copy data j y tid0 st0 Hd Hy A0) as [X0|(o0 & c0 & X0 & _ & G0 & G1 & G2)]; [congruence|]. rewrite X0 in E0. injection E0 as <-. cbn [fst snd].
      apply window_patch_other; try lia. rewrite El.
      destruct (other_copy data i x tid st j y tid0 st0 (o, ct_size c) (o0, ct_size c0) Hd Hx Hy Ha A0) as [B|B]; auto.
      destruct Hne as [Hne|Hne]; [left; exact Hne|right; apply agrees_not, Hne].
  Qed.

  Lemma write_copies data i x tid st v data' j y u : n <= Z.of_nat (length data) -> in_box l x -> at_copy i x tid st -> striped_write p tid data st v = Done data' ->
    in_box l y -> copy_value data j y u -> copy_value data' j y (if (i =? j) && agrees (map fst l) y x then v else u).
  Proof using Hc Hw Hsc Hsz Hnb.
    intros Hd Hx Ha E Hy Hv. destruct (swrite_effect _ _ _ _ _ _ _ Hd Hx Ha E) as (_ & Hnew & Hold). destruct (Z.eqb_spec i j) as [->|Hij]; cbn [andb].
    - destruct (agrees (map fst l) y x) eqn:Eg.
      + destruct Hnew as (t0 & s0 & A0 & R0). exists t0, s0. split; [|exact R0]. apply (at_agrees j y x); assumption.
      + destruct Hv as (t0 & s0 & A0 & R0). exists t0, s0. split; [exact A0|]. rewrite (Hold t0 s0 j y Hy A0); [exact R0|]. right.
        destruct (agrees (map fst l) x y) eqn:Eg'; [|reflexivity]. exfalso. pose proof (proj1 (agrees_all _ _ _) Eg') as G.
        assert (agrees (map fst l) y x = true); [|congruence]. apply agrees_all. intros d Hdd. symmetry. apply G, Hdd.
    - destruct Hv as (t0 & s0 & A0 & R0). exists t0, s0. split; [exact A0|]. rewrite (Hold t0 s0 j y Hy A0); [exact R0|]. left. exact Hij.
  Qed.

  (** ** The phases *)
  Definition stripe_is (i : Z) (tid : Z) (st : state) : bool := match stripe_of p tid st with Some j => j =? i | None => false end.

  Lemma updates_effect f us : forall data data' i x v, n <= Z.of_nat (length data) -> (forall u, In u us -> fine_update p l u) -> striped_updates f p data us = Done data' ->
    in_box l x -> copy_value data i x v ->
    length data' = length data /\
    copy_value data' i x (fold_left f (map up_value (filter (fun u => stripe_is i (up_thread u) (up_state u) && agrees (map fst l) x (asg_of (up_state u))) us)) v).
  Proof using Hc Hw Hsc Hsz Hnb.
    induction us as [|u us IH]; intros data data' i x v Hd Hf E Hx Hv; cbn [striped_updates] in E; [injection E as <-; auto|].
    destruct (striped_update f p data u) as [| |d1] eqn:Eu; try discriminate. cbn [out_bind] in E. unfold striped_update in Eu.
    destruct (striped_read p (up_thread u) data (up_state u)) as [| |v0] eqn:Er; try discriminate. cbn [out_bind] in Eu.
    destruct (Hf u (or_introl eq_refl)) as ((j & Hj) & Hnu & Hbu). assert (Ha : at_copy j (asg_of (up_state u)) (up_thread u) (up_state u)) by (split; assumption).
    pose proof (write_copies data j _ _ _ _ d1 i x v Hd Hbu Ha Eu Hx Hv) as Hv1. destruct (swrite_effect _ _ _ _ _ _ _ Hd Hbu Ha Eu) as (Hl1 & _).
    destruct (IH d1 data' i x _ ltac:(lia) (fun u0 H0 => Hf u0 (or_intror H0)) E Hx Hv1) as [L2 V2]. split; [lia|]. cbn [filter]. unfold stripe_is at 1. rewrite (proj1 Hj).
    destruct ((j =? i) && agrees (map fst l) x (asg_of (up_state u))) eqn:Eb; [|exact V2].
    cbn [map fold_left]. apply andb_true_iff in Eb. destruct Eb as [Ei Eg]. apply Z.eqb_eq in Ei. subst j.
    rewrite <- (copy_read data i x (up_thread u) (up_state u) v v0 Hd Hx (at_agrees _ _ _ _ _ Eg Ha) Hv Er). exact V2.
  Qed.

  Lemma updates_defined f us : forall data, n <= Z.of_nat (length data) -> (forall u, In u us -> fine_update p l u) -> striped_updates f p data us <> Undefined.
  Proof using Hc Hw Hsc Hsz Hnb.
    induction us as [|u us IH]; intros data Hd Hf; cbn [striped_updates]; [discriminate|].
    destruct (Hf u (or_introl eq_refl)) as ((j & Hj) & Hnu & Hbu). assert (Ha : at_copy j (asg_of (up_state u)) (up_thread u) (up_state u)) by (split; assumption).
    assert (Hu : striped_update f p data u <> Undefined).
    { unfold striped_update. pose proof (sread_defined data _ _ _ _ Hd Hbu Ha). destruct (striped_read p (up_thread u) data (up_state u)); cbn [out_bind]; try congruence. exact (swrite_defined data _ _ _ _ _ Hd Hbu Ha). }
    destruct (striped_update f p data u) as [| |d1] eqn:Eu; cbn [out_bind]; try congruence. unfold striped_update in Eu.
    destruct (striped_read p (up_thread u) data (up_state u)) as [| |v0] eqn:Er; try discriminate. cbn [out_bind] in Eu. destruct (swrite_effect _ _ _ _ _ _ _ Hd Hbu Ha Eu) as (Hl1 & _).
    apply IH; [lia|]. intros u0 H0. apply Hf. right. exact H0.
  Qed.

  Lemma updates_length f us : forall data data', n <= Z.of_nat (length data) -> (forall u, In u us -> fine_update p l u) -> striped_updates f p data us = Done data' -> length data' = length data.
  Proof using Hc Hw Hsc Hsz Hnb.
    induction us as [|u us IH]; intros data data' Hd Hf E; cbn [striped_updates] in E; [congruence|]. destruct (striped_update f p data u) as [| |d1] eqn:Eu; try discriminate. cbn [out_bind] in E.
    unfold striped_update in Eu. destruct (striped_read p (up_thread u) data (up_state u)); try discriminate. cbn [out_bind] in Eu. destruct (Hf u (or_introl eq_refl)) as ((j & Hj) & Hn & Hbx).
    destruct (swrite_effect data j _ _ _ _ d1 Hd Hbx (conj Hj Hn) Eu) as (L1 & _). rewrite (IH d1 data' ltac:(lia) (fun u0 H0 => Hf u0 (or_intror H0)) E). exact L1.
  Qed.

  Lemma updates_refs f us : forall data data', n <= Z.of_nat (length data) -> (forall u, In u us -> fine_update p l u) -> striped_updates f p data us = Done data' ->
    forall u, In u us -> exists v, striped_read p (up_thread u) data (up_state u) = Done v.
  Proof using Hc Hw Hsc Hsz Hnb.
    induction us as [|u us IH]; intros data data' Hd Hf E u0 Hin; [destruct Hin|]. cbn [striped_updates] in E. destruct (striped_update f p data u) as [| |d1] eqn:Eu; try discriminate. cbn [out_bind] in E.
    unfold striped_update in Eu. destruct (striped_read p (up_thread u) data (up_state u)) as [| |v] eqn:Er; try discriminate. cbn [out_bind] in Eu. destruct Hin as [<-|Hin]; [eauto|].
    destruct (Hf u (or_introl eq_refl)) as ((j & Hj) & Hn & Hbx). destruct (swrite_effect data j _ _ _ _ d1 Hd Hbx (conj Hj Hn) Eu) as (L1 & _).
    destruct (IH d1 data' ltac:(lia) (fun u1 H1 => Hf u1 (or_intror H1)) E u0 Hin) as [v' Ev]. unfold striped_read in *. rewrite (ref_length data d1 _ _ L1) in Ev.
    destruct (striped_ref p (up_thread u0) data (up_state u0)); try discriminate. cbn [out_map]. eauto.
  Qed.

  Lemma fill_updates e cs : forall data, striped_fill p e data cs = striped_updates (fun _ x => x) p data (map (fun c => {| up_thread := fst c; up_state := snd c; up_value := e |}) cs).
  Proof using.
    induction cs as [|[tid st] cs IH]; intros data; [reflexivity|]. cbn [striped_fill map striped_updates]. unfold striped_update. cbn [up_thread up_state up_value fst snd].
    unfold striped_read, striped_write. destruct (striped_ref p tid data st) as [| |r]; cbn [out_map out_bind]; try reflexivity. destruct (_ =? _); cbn [out_bind]; [apply IH|reflexivity].
  Qed.

  (** What is read from the stripes. *)
  Lemma reads_stripes data tid st is xs : stripe_reads p tid data st is = Done xs ->
    Forall2 (fun i v => striped_read p tid data (with_ [(stripe_tag, Dyn i)] st) = Done v) is xs.
  Proof using.
    revert xs. induction is as [|i is IH]; intros xs E; cbn [stripe_reads] in E; [injection E as <-; constructor|].
    destruct (striped_read p tid data (with_ [(stripe_tag, Dyn i)] st)) as [| |v] eqn:Ev; try discriminate. cbn [out_bind] in E. destruct (stripe_reads p tid data st is) as [| |ys]; try discriminate.
    cbn [out_map] in E. injection E as <-. constructor; [exact Ev|]. apply IH. reflexivity.
  Qed.

  Lemma stripe_named i x tid st : 0 <= i < sp_num p -> named s x st -> at_copy i x tid (with_ [(stripe_tag, Dyn i)] st).
  Proof using Hw.
    intros Hi Hn. assert (HW : sp_num p < W). { destruct (sw_params _ _ Hw) as (HN & HB & HBW & HE & Hs). nia. }
    split.
    - split; [|exact Hi]. unfold stripe_of. rewrite get_with. cbn. rewrite u64_small by lia. reflexivity.
    - apply (named_get s x st); [|exact Hn]. intros d. rewrite !get_with. cbn. auto.
  Qed.
End Memory.
