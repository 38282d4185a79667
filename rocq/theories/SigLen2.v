(** * The lengths promised by signatures: views (C56) *)

From Verif Require Export SigLen Bytes.
From Verif Require PlanFacts.
From Coq Require Import ZifyBool.

Lemma vstatic_vz v k : vstatic v = Some k -> vz v = Some k.
Proof. destruct v; cbn; congruence. Qed.
Lemma vstatic_add a b x y : vstatic a = Some x -> vstatic b = Some y -> vstatic (vadd a b) = Some (u64 (x + y)).
Proof.
  destruct a as [za|za|], b as [zb|zb|]; try discriminate. intros Ha Hb. pose proof (vz_vadd (Sta za) (Sta zb)) as H. cbn [vz vstatic] in *. injection Ha as <-. injection Hb as <-. exact H.
Qed.
Lemma vstatic_mul a b x y : vstatic a = Some x -> vstatic b = Some y -> vstatic (vmul a b) = Some (u64 (x * y)).
Proof.
  destruct a as [za|za|], b as [zb|zb|]; try discriminate. intros Ha Hb. pose proof (vz_vmul' (Sta za) (Sta zb) x y Ha Hb) as H. exact H.
Qed.
Lemma arglen_of_static v n : arglen_of v = ASta n -> vstatic v = Some n.
Proof. destruct v; cbn; congruence. Qed.
Lemma static_arg v n : vstatic v = Some n -> is_static v = true.
Proof. destruct v; cbn; congruence. Qed.

Lemma node_accept o d : node o d -> any_accept d o = true.
Proof. intros [(a & r & ->)|(rs & ->)]; cbn; rewrite Z.eqb_refl; reflexivity. Qed.

(** ** Finding a dimension *)

Lemma find_promised q s : forall st0 st o n, sig_find_dim q st0 s = Some o -> promised o st q = Some n ->
  (forall x v k, get (Idx x) st0 = Some v -> vstatic v = Some k -> exists w, get (Idx x) st = Some w /\ vstatic w = Some k) ->
  promised s st q = Some n.
Proof.
  induction s as [c| |d al r IH|d rs IH] using sig_ind'; intros st0 st o n E P Hs; cbn [sig_find_dim] in E; try discriminate.
  - destruct (Z.eqb_spec d q) as [->|Hd]; [injection E as <-; exact P|]. cbn [promised]. destruct (Z.eqb_spec q d); [congruence|]. eapply IH; eauto.
  - destruct (Z.eqb_spec d q) as [->|Hd]; [injection E as <-; exact P|]. destruct (get (Idx d) st0) as [v|] eqn:Eg; [|discriminate].
    destruct (vstatic v) as [k|] eqn:Ev; [|discriminate]. rewrite nthz_map in E. destruct (nthz rs k) as [r|] eqn:Er; [|discriminate]. cbn in E.
    destruct (Hs _ _ _ Eg Ev) as (w & Hw & Hk). rewrite (promised_component d rs st q w k r); auto. eapply Forall_nthz in IH; [|exact Er]. eapply IH; eauto.
Qed.

Lemma scalar_promised s : forall st0 s' st q, reassemble_scalar s st0 = Some s' -> promised s' st q = None.
Proof.
  induction s as [c| |d al r IH|d rs IH] using sig_ind'; intros st0 s' st q E; cbn [reassemble_scalar] in E.
  - injection E as <-. reflexivity.
  - injection E as <-. reflexivity.
  - destruct (has (Idx d) st0); [eauto|injection E as <-; reflexivity].
  - destruct (get (Idx d) st0) as [v|]; [|injection E as <-; reflexivity]. destruct (vstatic v) as [k|]; [|discriminate]. rewrite nthz_map in E.
    destruct (nthz rs k) as [r|] eqn:Er; [|discriminate]. cbn in E. eapply Forall_nthz in IH; [|exact Er]. eauto.
Qed.

Lemma build_promised top st q n ds : forall st0 s', reassemble_build top st0 ds = Some s' -> promised s' st q = Some n ->
  (forall x v k, get (Idx x) st0 = Some v -> vstatic v = Some k -> exists w, get (Idx x) st = Some w /\ vstatic w = Some k) ->
  promised top st q = Some n.
Proof.
  induction ds as [|d ds IH]; intros st0 s' E P Hs; cbn [reassemble_build] in E.
  - rewrite (scalar_promised _ _ _ _ _ E) in P. discriminate.
  - destruct (mem d ds); [discriminate|]. destruct (sig_find_dim d st0 top) as [o|] eqn:Eo; [|discriminate]. destruct (PlanFacts.find_dim _ _ _ _ Eo) as [(al & r & ->)|(rs & ->)].
    + destruct (reassemble_build _ _ ds) as [s|] eqn:Es; [|discriminate]. injection E as <-. destruct (Z.eqb_spec q d) as [->|Hq].
      * eapply find_promised; eauto. cbn [promised] in *. rewrite Z.eqb_refl in *. exact P.
      * cbn [promised] in P. destruct (Z.eqb_spec q d); [contradiction|]. apply (IH _ _ Es P). intros x v k. rewrite get_with; teq.
        destruct (Z.eqb_spec x d) as [->|]; [|apply Hs]. intros Hv. injection Hv as <-. discriminate.
    + destruct (omap _ _) as [ss|] eqn:Es; [|discriminate]. injection E as <-. destruct (Z.eqb_spec q d) as [->|Hq].
      * eapply find_promised; eauto. cbn [promised] in *. rewrite Z.eqb_refl in *. rewrite (omap_length _ _ _ Es), zseq_length, Nat2Z.id in P. exact P.
      * apply promised_component_inv in P; [|exact Hq]. destruct P as (v & k & r & Hv & Hk & Hr & P). apply omap_Some_Forall2 in Es.
        pose proof (Forall2_nthz _ _ _ k Es) as Hn. rewrite Hr, nthz_zseq in Hn. destruct (_ && _); [|contradiction]. apply (IH _ _ Hn P).
        intros x v' k'. rewrite get_with; teq. destruct (Z.eqb_spec x d) as [->|]; [|apply Hs]. intros Hv'. injection Hv' as <-. cbn. rewrite (u64_small k).
        -- intros Ek. injection Ek as <-. eauto.
        -- apply (vz_range v). apply vstatic_vz, Hk.
Qed.

(** ** Unions *)

Lemma union2_promised s1 s2 s st q n : sig_union2 s1 s2 = Some s -> promised s st q = Some n ->
  if any_accept q s1 then promised s1 st q = Some n else promised s2 st q = Some n.
Proof.
  revert s. induction s2 as [c| |d a r IH|d rs IH] using sig_ind'; cbn [sig_union2]; intros s E P; try discriminate.
  - injection E as <-. rewrite (promised_accept _ _ _ _ P). exact P.
  - injection E as <-. rewrite (promised_accept _ _ _ _ P). exact P.
  - destruct (sig_union2 s1 r) as [r'|]; [|discriminate]. injection E as <-. specialize (IH _ eq_refl). destruct (any_accept d s1) eqn:Ed.
    + specialize (IH P). destruct (any_accept q s1) eqn:Eq; [exact IH|]. cbn [promised]. destruct (Z.eqb_spec q d) as [->|]; [congruence|exact IH].
    + cbn [promised] in P |- *. destruct (Z.eqb_spec q d) as [->|Hq]; [rewrite Ed; exact P|]. apply IH, P.
Qed.
Lemma union_promised q st n ss : forall s0 s x, sig_union s0 ss = Some s -> promised s st q = Some n -> find (any_accept q) (s0 :: ss) = Some x -> promised x st q = Some n.
Proof.
  induction ss as [|y ss IH]; cbn [sig_union]; intros s0 s x E P F.
  - injection E as <-. cbn in F. rewrite (promised_accept _ _ _ _ P) in F. injection F as <-. exact P.
  - destruct (sig_union2 s0 y) as [s1|] eqn:E1; [|discriminate]. specialize (IH s1 s). cbn [find] in F, IH.
    destruct (any_accept q s0) eqn:E0.
    + injection F as <-. rewrite (union2_accepts q _ _ _ E1) in IH by auto. specialize (IH _ E P eq_refl). pose proof (union2_promised _ _ _ _ _ _ E1 IH) as H. rewrite E0 in H. exact H.
    + destruct (any_accept q y) eqn:Ey.
      * injection F as <-. rewrite (union2_accepts q _ _ _ E1) in IH by auto. specialize (IH _ E P eq_refl). pose proof (union2_promised _ _ _ _ _ _ E1 IH) as H. rewrite E0 in H. exact H.
      * destruct (any_accept q s1) eqn:E1'; [|eauto]. destruct (union2_accept _ _ _ _ E1 E1'); congruence.
Qed.

Lemma length_first ts ss q st l : omap signature ts = Some ss -> length_ (Union ts) q st = Some l ->
  exists t s, In t ts /\ find (any_accept q) ss = Some s /\ signature t = Some s /\ length_ t q st = Some l.
Proof.
  unfold length_. cbn [lenops snd]. intros Eo E. apply guard_Some in E. destruct E as [_ E].
  revert ss Eo E. induction ts as [|t ts IH]; cbn [map first_match omap]; intros ss Eo E; [discriminate|].
  destruct (signature t) as [s|] eqn:Es; [|discriminate]. destruct (omap signature ts) as [ss'|]; [|discriminate]. injection Eo as <-. cbn [find].
  destruct (any_accept q s) eqn:Ea.
  - exists t, s. split; [left; reflexivity|]. auto.
  - destruct (IH _ eq_refl E) as (t' & s' & H1 & H2 & H3 & H4). exists t', s'. split; [right; exact H1|]. auto.
Qed.

(** ** Renaming *)

Lemma rename_promised ps top st q n : rename_ok ps top = true -> any_accept q top = true ->
  forall s, (forall d, any_accept d s = true -> any_accept d top = true) ->
  promised (rename_sig ps s) st (rename_dim ps q) = Some n -> promised s (rename_state ps st) q = Some n.
Proof.
  intros Hok Hq. assert (Hok' := Hok). unfold rename_ok in Hok'. rewrite !andb_true_iff, !nodupb_NoDup in Hok'. destruct Hok' as [[H1 H2] Hk].
  induction s as [c| |d a r IH|d rs IH] using sig_ind'; intros Hs P; cbn [rename_sig promised] in *; try discriminate.
  - assert (Hd : any_accept d top = true) by (apply Hs; cbn; rewrite Z.eqb_refl; reflexivity).
    destruct (Z.eqb_spec q d) as [->|Hne]; [rewrite Z.eqb_refl in P; exact P|].
    destruct (Z.eqb_spec (rename_dim ps q) (rename_dim ps d)) as [Ee|_]; [destruct Hne; eapply rename_inj; eauto|].
    apply IH; auto. intros e He. apply Hs. cbn. rewrite He. apply orb_true_r.
  - assert (Hd : any_accept d top = true) by (apply Hs; cbn; rewrite Z.eqb_refl; reflexivity).
    destruct (Z.eqb_spec q d) as [->|Hne]; [rewrite Z.eqb_refl, map_length in P; exact P|].
    destruct (Z.eqb_spec (rename_dim ps q) (rename_dim ps d)) as [Ee|_]; [destruct Hne; eapply rename_inj; eauto|].
    destruct (get (Idx (rename_dim ps d)) st) as [v|] eqn:Ev; [|discriminate]. destruct (vstatic v) as [k|] eqn:Ek; [|discriminate].
    rewrite !nthz_map in P. destruct (nthz rs k) as [r|] eqn:Er; [|discriminate]. cbn in P.
    rewrite get_rename_state by assumption.
    assert (He : ext_name ps d = Some (rename_dim ps d)).
    { apply ext_name_spec; auto; [|eapply GoodFacts.rename_back; eauto].
      destruct (mem d (map fst ps)) eqn:Em.
      - apply mem_In, rename_dim_in in Em. apply (in_map snd) in Em. apply mem_In in Em. cbn in Em. rewrite Em. reflexivity.
      - rewrite rename_dim_out by (apply mem_false, Em). rewrite Em. apply orb_true_r. }
    rewrite He, Ev, Ek, nthz_map, Er. cbn. eapply Forall_nthz in IH; [|exact Er]. apply IH; auto.
    intros e Hx. apply Hs. cbn. apply orb_true_iff. right. apply existsb_exists. exists r. split; [eapply nthz_In; eauto|exact Hx].
Qed.
