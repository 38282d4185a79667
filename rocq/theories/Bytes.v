(** * Sizes and offsets computed by the code are those of the integer reading, modulo 2^64 *)

From Verif Require Export Defined.

Lemma vz_vadd' a b x y : vz a = Some x -> vz b = Some y -> vz (vadd a b) = Some (u64 (x + y)).
Proof. intros Ha Hb. rewrite vz_vadd, Ha, Hb. reflexivity. Qed.
Lemma vz_vsub' a b x y : vz a = Some x -> vz b = Some y -> vz (vsub a b) = Some (u64 (x - y)).
Proof. intros Ha Hb. rewrite vz_vsub, Ha, Hb. reflexivity. Qed.
Lemma vz_vmul' a b x y : vz a = Some x -> vz b = Some y -> vz (vmul a b) = Some (u64 (x * y)).
Proof. apply vz_vmul. Qed.

(** ** Alignment *)

Lemma ialign_range s : swf s = true -> signature s <> None -> 0 < ialign s < W /\ W mod ialign s = 0.
Proof.
  induction s as [c|d ts IH|d t IH|v t IH|ts IH] using struct_ind'; intros H Hs; cbn [ialign].
  - simpl in H. apply cty_ok_spec in H. tauto.
  - destruct ts as [|t ts]; [split; [split; [lia|reflexivity]|apply Z.mod_1_r]|]. inv IH. apply H2.
    + simpl in H. rewrite !andb_true_iff in H. tauto.
    + destruct (signature (Tuple d (t :: ts))) as [sg|] eqn:Es; [|congruence].
      destruct (signature_Tuple_inv _ _ _ Es) as (ss & F & _). inv F. congruence.
  - apply IH; [exact H|]. apply signature_vector in Hs. exact Hs.
  - destruct (swf_view _ _ H) as [_ Ht]. destruct (signature_view _ _ Hs) as (sg & E & _). apply IH; [exact Ht|congruence].
  - discriminate.
Qed.

Lemma align_spec s : swf s = true -> signature s <> None -> forall st v, align_ s st = Some v ->
  exists x, v = Sta x /\ u64 x = ialign s.
Proof.
  induction s as [c|d ts IH|d t IH|v t IH|ts IH] using struct_ind'; intros Hw Hs st w E.
  - simpl in E. inv E. exists (ct_align c). split; [reflexivity|]. simpl in *. apply cty_ok_spec in Hw. apply u64_small. lia.
  - cbn [align_] in E. unfold guard in E. destruct (has_size (Tuple d ts) st) as [[|]|]; try discriminate.
    destruct ts as [|t ts]; [discriminate|]. cbn [ialign]. inv IH.
    assert (Hw1 : swf t = true) by (simpl in Hw; rewrite !andb_true_iff in Hw; tauto).
    assert (Hs1 : signature t <> None).
    { destruct (signature (Tuple d (t :: ts))) as [sg|] eqn:Es; [|congruence].
      destruct (signature_Tuple_inv _ _ _ Es) as (ss & F & _). inv F. congruence. }
    destruct ts as [|t2 ts]; cbn [map same_align] in E; [exact (H1 Hw1 Hs1 _ _ E)|].
    destruct (align_ t (remove [Idx d] st)) as [[x| |]|] eqn:Ea; try discriminate.
    destruct (match map _ ts with [] => _ | _ :: _ => _ end) as [[y| |]|]; try discriminate. destruct (u64 x =? u64 y); [|discriminate]. inv E.
    eapply H1; eauto.
  - cbn [align_] in E. unfold guard in E. destruct (has_size _ st) as [[|]|]; try discriminate. apply signature_vector in Hs. eapply IH; eauto.
  - cbn [align_] in E. unfold guard in E. destruct (has_size _ st) as [[|]|]; try discriminate.
    destruct (swf_view _ _ Hw) as [_ Ht]. destruct (signature_view _ _ Hs) as (sg & Eg & _).
    destruct (sub_state v t st) as [st'|]; [|discriminate]. eapply IH; eauto. congruence.
  - discriminate.
Qed.

(** ** Size *)

Lemma pad_mod x a : 0 < a < W -> W mod a = 0 -> u64 (u64 (x + a - 1) / a * a) = u64 (pad_up x a).
Proof.
  intros Ha Hm. unfold pad_up. set (y := x + a - 1). apply Z.mod_divide in Hm; [|lia]. destruct Hm as [k Hk].
  pose proof W_pos. assert (E : y = u64 y + y / W * W). { unfold u64. pose proof (Z.div_mod y W ltac:(lia)). lia. }
  rewrite E at 2. replace (u64 y + y / W * W) with (u64 y + (y / W * k) * a) by (rewrite Hk; ring).
  rewrite Z.div_add by lia. rewrite Z.mul_add_distr_r. replace (y / W * k * a) with (y / W * W) by (rewrite Hk; ring).
  unfold u64. rewrite Z.mod_add by lia. reflexivity.
Qed.

Lemma size_step_spec st al sz x a z : vz st = Some (u64 x) -> vz al = Some a -> vz sz = Some (u64 z) -> 0 < a < W -> W mod a = 0 ->
  vz (size_step st al sz) = Some (u64 (pad_up x a + z)).
Proof.
  intros Hs Ha Hz Ra Rm. unfold size_step.
  assert (E1 : vz (vsub (vadd st al) (Sta 1)) = Some (u64 (x + a - 1))).
  { erewrite vz_vsub'; [|apply vz_vadd'; eauto|reflexivity]. rewrite u64_add_l. f_equal.
    change (u64 1) with 1. apply u64_sub_l. }
  pose proof (vz_vdiv _ _ _ _ E1 Ha ltac:(lia)) as E2.
  pose proof (vz_vmul' _ _ _ _ E2 Ha) as E3. erewrite vz_vadd'; [|exact E3|exact Hz].
  rewrite u64_add_r, pad_mod by assumption. rewrite u64_add_l. reflexivity.
Qed.

(** Sizes of components. *)
Definition csize (l : lenv) (o : option (val * val)) (t : struct) : Prop :=
  match o with Some (al, sz) => vz al = Some (ialign t) /\ vz sz = Some (u64 (isize t l)) | None => True end.

Lemma size_acc_spec l os ts : Forall2 (csize l) os ts ->
  Forall (fun t => 0 < ialign t < W /\ W mod ialign t = 0) ts -> forall st x w,
  vz st = Some (u64 x) -> size_acc st os = Some w -> vz w = Some (u64 (total x (szs l ts))).
Proof.
  induction 1 as [|o t os ts Ho F IH]; intros Ha st x w Hs E; [simpl in E; inv E; exact Hs|].
  simpl in E. destruct o as [[al sz]|]; [|discriminate]. destruct Ho as [H1 H2]. inv Ha. simpl.
  eapply IH; [assumption| |exact E]. apply size_step_spec; tauto.
Qed.

Lemma sub_lendef v t st st' l a : view_swf v t = true -> signature (View v t) <> None -> lenok (View v t) l -> agree st l a ->
  sub_state v t st = Some st' -> lendef st -> lendef st'.
Proof.
  intros Hw Hs Hlk Hag E Hd. pose proof (view_ok_of _ _ _ Hs Hlk) as Hok. eapply st_lens; eauto.
  destruct v; auto. eapply agree_len_None'; [exact Hag|apply Hlk].
Qed.

Lemma lendef_remove_idx d st : lendef st -> lendef (remove [Idx d] st).
Proof. intros H y w. rewrite get_remove. teq. apply H. Qed.
Lemma lendef_remove_both d st : lendef st -> lendef (remove [Idx d; Len d] st).
Proof. intros H y w. rewrite get_remove. teq. destruct (y =? d); [discriminate|apply H]. Qed.

Theorem size_spec s : swf s = true -> signature s <> None -> forall st l a v,
  lenok s l -> agree st l a -> lendef st -> size_ s st = Some v -> vz v = Some (u64 (isize s l)).
Proof.
  induction s as [c|d ts IH|d t IH|v t IH|ts IH] using struct_ind'; intros Hw Hs st l a w Hlk Hag Hld E;
    cbn [size_] in E; unfold guard in E; destruct (has_size _ st) as [[|]|]; try discriminate.
  - inv E. reflexivity.
  - pose proof (signature_tuple _ _ Hs) as Hss. pose proof (swf_tuple _ _ Hw) as Hws. simpl in Hlk. apply lenok_all in Hlk.
    cbn [isize]. change (map (fun t => (ialign t, isize t l)) ts) with (szs l ts).
    eapply (size_acc_spec _ _ _) with (st := Sta 0) (x := 0); [| |reflexivity|exact E].
    + clear E Hs Hw. induction ts as [|t ts IHl]; [constructor|]. inv IH. inv Hss. inv Hlk. simpl in Hws. apply andb_true_iff in Hws.
      destruct Hws as [Hw1 Hw2]. cbn [map]. constructor; [|apply IHl; assumption].
      destruct (align_ t (remove [Idx d] st)) as [al|] eqn:Ea; [|exact I].
      destruct (size_ t (remove [Idx d] st)) as [sz|] eqn:Ez; [|exact I].
      split; [destruct (align_spec t Hw1 H3 _ _ Ea) as (x & -> & Hx); simpl; congruence|].
      apply (H1 Hw1 H3 (remove [Idx d] st) l a sz); auto using agree_remove_idx, lendef_remove_idx.
    + rewrite forallb_forall in Hws. rewrite Forall_forall in Hss |- *. intros t Ht. apply ialign_range; auto.
  - apply signature_vector in Hs. destruct (get (Len d) st) as [n|] eqn:En; [|discriminate]. cbn [obind] in E.
    destruct (size_ t (remove [Idx d; Len d] st)) as [sz|] eqn:Ez; [|discriminate]. cbn [obind] in E. inv E.
    destruct (agree_len_Some _ _ _ _ _ Hag En) as (x & Hx & Hv). pose proof (vz_vagree _ _ (Hld _ _ En) Hv) as Hn.
    assert (Hz : vz sz = Some (u64 (isize t (fupd l d None)))) by (eapply IH; eauto using agree_remove_both, lendef_remove_both).
    rewrite (vz_vmul' _ _ _ _ Hn Hz). cbn [isize]. rewrite Hx. cbn [odef]. rewrite u64_mul_r. reflexivity.
  - destruct (swf_view _ _ Hw) as [Hv Ht]. destruct (signature_view _ _ Hs) as (sg & Eg & _).
    destruct (sub_state v t st) as [st'|] eqn:Est; [|discriminate]. cbn [obind] in E.
    pose proof (sub_state_refines _ _ _ _ _ _ Hs Hlk Hag Est) as Hag'.
    pose proof (sub_lendef _ _ _ _ _ _ Hv Hs Hlk Hag Est Hld) as Hld'.
    destruct Hlk as [_ Hlk]. cbn [isize]. eapply IH; eauto. congruence.
Qed.

(** ** Offset *)

Lemma cty_eqb_eq c c' : cty_eqb c c' = true -> c = c'.
Proof. destruct c, c'. unfold cty_eqb. simpl. rewrite !andb_true_iff, !Z.eqb_eq. intros [[-> ->] ->]. reflexivity. Qed.

(** Indices on the path are defined values. *)
Definition pdef (p : path) (st : state) : Prop := forall d w, In d (map fst p) -> get (Idx d) st = Some w -> dz w.

Lemma pdef_idef s l a sg p st : swf s = true -> pvalid s l a sg p -> NoDup (map fst p) -> pdef p st -> idef s l a p st.
Proof.
  intros Hw (Es & Ep & R) Hnd H d w Hd Hw'. split; [eapply H; eauto|].
  destruct (fst_in _ _ Hd) as [k Hk]. rewrite (plen_in _ _ _ _ _ _ _ Es Ep Hnd Hk). cbn [odef].
  rewrite Forall_forall in R. specialize (R _ Hk). unfold in_range in R. cbn [fst snd] in R. destruct k; lia.
Qed.

Lemma swf_path_nodup s sg a p : swf s = true -> signature s = Some sg -> spath sg a = Some p -> NoDup (map fst p).
Proof. intros Hw Es Ep. eapply spath_nodup; [|exact Ep]. eapply swf_snodup; eauto. Qed.

Theorem offset_spec s : swf s = true -> forall st l a sg p c start x v,
  pvalid s l a sg p -> lenok s l -> lrange l -> good s l a -> agree st l a -> lendef st -> pdef p st ->
  vz start = Some (u64 x) -> offset_of (Scalar c) s st start = Some v ->
  leaf s l a = Some c /\ vz v = Some (u64 (x + ioff s l a)).
Proof.
  induction s as [c0|d ts IH|d t IH|v t IH|ts IH] using struct_ind'; intros Hw st l a sg p c start x w Hv Hlk Hl Hg Hag Hld Hpd Hs E;
    cbn [offset_of same_type] in E; unfold guard in E;
    match type of E with match ?h with _ => _ end = _ => destruct h as [[|]|]; try discriminate end.
  - destruct (cty_eqb c c0) eqn:Ec; [|discriminate]. inv E. apply cty_eqb_eq in Ec. subst. cbn [leaf ioff].
    rewrite Z.add_0_r. auto.
  - destruct (pvalid_tuple _ _ _ _ _ _ Hv) as (ss & t & s0 & p0 & -> & F & Hd & Et & En & -> & _ & Hv').
    pose proof (swf_tuple _ _ Hw) as Hws. unfold tuple_index in E.
    destruct (get (Idx d) st) as [vi|] eqn:Ei; [|discriminate]. destruct (vstatic vi) as [k|] eqn:Ek; [|discriminate]. cbn [obind] in E.
    assert (a d = k) as Hk.
    { pose proof (ag_idx _ _ _ Hag _ _ Ei) as Hvi. unfold vagree in Hvi. destruct vi; simpl in *; try discriminate. congruence. }
    destruct (size_acc _ _) as [before|] eqn:Eb; [|discriminate]. cbn [obind] in E.
    rewrite nthz_map, <- Hk, Et in E. cbn [option_map ojoin] in E.
    assert (Hss : Forall (fun t => signature t <> None) ts) by (apply (signature_tuple d); destruct Hv as [-> _]; discriminate).
    simpl in Hlk. apply lenok_all in Hlk.
    assert (Hb : vz before = Some (u64 (total 0 (szs l (firstn (Z.to_nat k) ts))))).
    { eapply (size_acc_spec _ _ _) with (st := Sta 0) (x := 0); [| |reflexivity|exact Eb].
      - unfold comp_sizes. clear Eb. generalize (Z.to_nat k). intros j. clear -Hws Hss Hlk Hag Hld.
        revert j. induction ts as [|t ts IHl]; intros [|j]; try constructor.
        + simpl in Hws. apply andb_true_iff in Hws. inv Hss. inv Hlk.
          destruct (align_ t (remove [Idx d] st)) as [al|] eqn:Ea; [|exact I].
          destruct (size_ t (remove [Idx d] st)) as [sz|] eqn:Ez; [|exact I].
          split; [destruct (align_spec t ltac:(tauto) H1 _ _ Ea) as (y & -> & Hy); simpl; congruence|].
          apply (size_spec t ltac:(tauto) H1 (remove [Idx d] st) l a sz); auto using agree_remove_idx, lendef_remove_idx.
        + simpl in Hws. apply andb_true_iff in Hws. inv Hss. inv Hlk. apply IHl; tauto.
      - rewrite forallb_forall in Hws. rewrite Forall_forall in Hss |- *. intros y Hy.
        assert (In y ts) by (rewrite <- (firstn_skipn (Z.to_nat k) ts); apply in_or_app; auto). apply ialign_range; auto. }
    rewrite Forall_forall in IH. rewrite forallb_forall in Hws. eapply Forall_nthz in Hlk; [|exact Et].
    destruct (IH t (nthz_In _ _ _ Et) (Hws _ (nthz_In _ _ _ Et)) (remove [Idx d] st) l a s0 p0 c (vadd before start)
       (total 0 (szs l (firstn (Z.to_nat k) ts)) + x) w) as [H1 H2]; eauto using good_tuple, agree_remove_idx, lendef_remove_idx.
    + intros y wy Hy. rewrite get_remove. teq. destruct (y =? d); [discriminate|]. apply Hpd. right. exact Hy.
    + rewrite (vz_vadd' _ _ _ _ Hb Hs). rewrite u64_add_l, u64_add_r. reflexivity.
    + cbn [leaf ioff]. rewrite !nthz_map, Et. cbn [option_map ojoin]. split; [exact H1|]. rewrite H2. do 2 f_equal.
      unfold szs. rewrite Hk. lia.
  - destruct (pvalid_vector _ _ _ _ _ _ Hv) as (Hi & s0 & p0 & -> & -> & _ & Hv').
    destruct (get (Idx d) st) as [i|] eqn:Ei; [|discriminate]. cbn [obind] in E.
    destruct (get (Len d) st) as [n|] eqn:En; [|discriminate]. cbn [obind] in E.
    assert (Hpd' : pdef p0 (remove [Idx d; Len d] st)).
    { intros y wy Hy. rewrite get_remove. teq. destruct (y =? d); [discriminate|]. apply Hpd. right. exact Hy. }
    pose proof (vz_vagree _ _ (Hpd d i ltac:(left; reflexivity) Ei) (ag_idx _ _ _ Hag _ _ Ei)) as Hvi.
    destruct (agree_len_Some _ _ _ _ _ Hag En) as (xl & Hxl & Hvl). pose proof (vz_vagree _ _ (Hld _ _ En) Hvl) as Hvn.
    cbn [leaf ioff]. destruct (is_sta 1 n) eqn:E1.
    + assert (xl = 1) by (apply is_sta_vz in E1; congruence). subst xl.
      assert (a d = 0) as -> by (rewrite Hxl in Hi; simpl in Hi; lia).
      rewrite Z.mul_0_l, Z.add_0_l. eapply (IH Hw (remove [Idx d; Len d] st)); eauto using agree_remove_both, lendef_remove_both, lrange_None.
    + destruct (size_ t (remove [Idx d; Len d] st)) as [sz|] eqn:Ez; [|discriminate]. cbn [obind] in E.
      assert (Hz : vz sz = Some (u64 (isize t (fupd l d None)))).
      { eapply size_spec; eauto using agree_remove_both, lendef_remove_both. destruct Hv' as [-> _]. discriminate. }
      replace (x + (a d * isize t (fupd l d None) + ioff t (fupd l d None) a)) with
        ((a d * isize t (fupd l d None) + x) + ioff t (fupd l d None) a) by lia.
      eapply (IH Hw (remove [Idx d; Len d] st)); [exact Hv'| | | | | | | |exact E]; eauto using agree_remove_both, lendef_remove_both, lrange_None.
      rewrite (vz_vadd' _ _ _ _ (vz_vmul' _ _ _ _ Hvi Hz) Hs). rewrite u64_mul_r, u64_add_l, u64_add_r. reflexivity.
  - destruct (swf_view _ _ Hw) as [Hvw Ht].
    pose proof Hg as (Hg1 & Hg2 & _). pose proof Hv as (Es & Ep & Rg).
    destruct (view_down _ _ _ _ _ l Hw Es Ep) as (s0 & p' & E0 & Ev & Hsn & Ep' & R & Hnd').
    pose proof (swf_path_nodup _ _ _ _ Hw Es Ep) as Hnd.
    assert (Hv' : pvalid t (view_lenv v l) (view_asg v (ilen t) l a) s0 p').
    { split; [exact E0|]. split; [exact Ep'|]. eapply view_transfer; eauto using swf_loc, swf_uswf. }
    destruct (sub_state v t st) as [st'|] eqn:Est; [|discriminate]. cbn [obind] in E.
    assert (Hs0 : signature (View v t) <> None) by congruence.
    pose proof (sub_state_refines _ _ _ _ _ _ Hs0 Hlk Hag Est) as Hag'.
    destruct (sub_dfn v t s0 sg l a p' p st (length_defined _ (swf_uswf _ Ht)) Hvw (swf_uswf _ Ht) E0 Ev Ep' Ep R Hnd' Hnd Hlk Hl Hg Hag Hld
      (pdef_idef _ _ _ _ _ _ Hw Hv Hnd Hpd) st' Est) as [Hld' Hid'].
    cbn [leaf ioff]. eapply (IH Ht st'); eauto using view_lrange.
    + apply Hlk.
    + intros y wy Hy Hwy. eapply Hid'; eauto.
Qed.
