(** * The lengths promised by signatures: the theorem (C56) *)

From Verif Require Export SigLen2.
From Coq Require Import ZifyBool Permutation.

(** The lengths of [t] are the promised ones. *)
Definition kept_promise (t : struct) (sg : sig) : Prop :=
  forall st q n l, promised sg st q = Some n -> get (Len q) st = None -> length_ t q st = Some l -> vz l = Some n.

Section One.
  Variables (sg : sig) (d : dim) (st st' : state).
  Hypothesis Hn : snodup sg = true.
  Hypothesis Same : forall e, any_accept e sg = true -> e <> d -> get (Idx e) st' = get (Idx e) st.

  Lemma below_fun a r q : under sg (SFun d a r) -> promised r st' q = promised r st q.
  Proof.
    intros Hu. apply promised_ext. intros e He _. apply Same.
    - apply (under_accept _ _ Hu). cbn. rewrite He. apply orb_true_r.
    - intros ->. pose proof (under_nodup _ _ Hu Hn) as H. apply snodup_fun in H. destruct H. congruence.
  Qed.
  Lemma below_dep rs k r q : under sg (SDep d rs) -> nthz rs k = Some r -> promised r st' q = promised r st q.
  Proof.
    intros Hu Hr. apply promised_ext. intros e He _. pose proof (under_nodup _ _ Hu Hn) as H. destruct (snodup_dep _ _ _ _ H Hr) as [Hd _]. apply Same.
    - apply (under_accept _ r); [eapply u_dep; eauto|exact He].
    - intros ->. congruence.
  Qed.
  Lemma one_other f sg' q n : sreplace [d] f sg = Some sg' -> promised sg' st q = Some n ->
    (forall a r o', under sg (SFun d a r) -> f (SFun d a r) = Some o' -> promised o' st q = Some n -> promised (SFun d a r) st' q = Some n) ->
    (forall rs o', under sg (SDep d rs) -> f (SDep d rs) = Some o' -> promised o' st q = Some n -> promised (SDep d rs) st' q = Some n) ->
    promised sg st' q = Some n.
  Proof.
    intros E P H1 H2. eapply replace_same; eauto.
    - intros e He Hm. apply Same; auto. intros ->. cbn in Hm. rewrite Z.eqb_refl in Hm. discriminate.
    - intros d' o o' Hu Hd Hm Ho Po. cbn in Hm. rewrite orb_false_r in Hm. apply Z.eqb_eq in Hm. subst d'. destruct Hd as [(a & r & ->)|(rs & ->)]; eauto.
  Qed.
End One.

(** The promise for the dimension that is replaced. *)
Lemma one_self sg d f sg' st n (C : Prop) : sreplace [d] f sg = Some sg' -> promised sg' st d = Some n ->
  (forall a r o', under sg (SFun d a r) -> f (SFun d a r) = Some o' -> promised o' st d = Some n -> C) ->
  (forall rs o', under sg (SDep d rs) -> f (SDep d rs) = Some o' -> promised o' st d = Some n -> C) -> C.
Proof.
  intros E P H1 H2. apply (replace_promise sg [d] f st d n (fun _ => C)) with (sg := sg) (sg' := sg'); auto.
  - intros o _ Hm. cbn in Hm. rewrite Z.eqb_refl in Hm. discriminate.
  - intros d' o o' Hu Hd Hm Ho Po. cbn in Hm. rewrite orb_false_r in Hm. apply Z.eqb_eq in Hm. subst d'. destruct Hd as [(a & r & ->)|(rs & ->)]; eauto.
  - constructor.
Qed.
(** The promise for a dimension that is new. *)
Lemma one_new sg d f sg' st q n (C : sig -> Prop) : sreplace [d] f sg = Some sg' -> promised sg' st q = Some n ->
  (any_accept q sg = true -> q = d) ->
  (forall x a r, x <> d -> C r -> C (SFun x a r)) ->
  (forall x rs k r v, under sg (SDep x rs) -> x <> d -> get (Idx x) st = Some v -> vstatic v = Some k -> nthz rs k = Some r -> C r -> C (SDep x rs)) ->
  (forall a r o', under sg (SFun d a r) -> f (SFun d a r) = Some o' -> promised o' st q = Some n -> C (SFun d a r)) ->
  (forall rs o', under sg (SDep d rs) -> f (SDep d rs) = Some o' -> promised o' st q = Some n -> C (SDep d rs)) -> C sg.
Proof.
  intros E P Hq HF HD H1 H2. apply (replace_promise sg [d] f st q n C) with (sg := sg) (sg' := sg'); auto.
  - intros x a r _ Hm _. apply HF. intros ->. cbn in Hm. rewrite Z.eqb_refl in Hm. discriminate.
  - intros x rs k r w Hu Hm _ Hw Hk Hr. eapply HD; eauto. intros ->. cbn in Hm. rewrite Z.eqb_refl in Hm. discriminate.
  - intros o Hu Hm Hd _. apply node_accept in Hd. rewrite (Hq (under_accept _ _ Hu _ Hd)) in Hm. cbn in Hm. rewrite Z.eqb_refl in Hm. discriminate.
  - intros d' o o' Hu Hd Hm Ho Po. cbn in Hm. rewrite orb_false_r in Hm. apply Z.eqb_eq in Hm. subst d'. destruct Hd as [(a & r & ->)|(rs & ->)]; eauto.
  - constructor.
Qed.

Section Views.
  Variables (t : struct) (sg sg' : sig).
  Hypothesis E0 : signature t = Some sg.
  Hypothesis Hn : snodup sg = true.
  Hypothesis IH : kept_promise t sg.

  Lemma same_idx v st st' : view_swf v t = true -> view_sig v sg = Some sg' -> renames v = false -> view_sub_state v (has_length t) (length_ t) st = Some st' ->
    forall e, any_accept e sg = true -> ~ In e (touched v) -> get (Idx e) st' = get (Idx e) st.
  Proof. intros Hw Ev Hr E e He Ht. eapply st_kept; eauto. eapply acc_fresh; eauto. Qed.

  (** A dimension the view does not touch. *)
  Lemma through v st q n l : renames v = false -> ~ In q (touched v) -> ~ In q (fresh v) -> (forall x, v <> VSetLength q x) ->
    (forall st', view_sub_state v (has_length t) (length_ t) st = Some st' -> promised sg st' q = Some n) ->
    get (Len q) st = None -> (do st' <- view_sub_state v (has_length t) (length_ t) st; length_ t q st') = Some l -> vz l = Some n.
  Proof.
    intros Hr Ht Hf Hs P HL E. destruct (view_sub_state _ _ _ st) as [st'|] eqn:Es; [|discriminate]. cbn in E. eapply IH; eauto. rewrite (len_kept _ _ _ _ _ _ Es); auto.
  Qed.

  Ltac viewstart := intros Hw Ev P HL E; rewrite length_View in E; apply guard_Some in E; destruct E as [Hh E]; rewrite has_length_View in Hh;
    cbn [view_length] in E; cbn [view_has_length] in Hh; cbv zeta in Hh, E.
  Ltac other := eapply through; eauto; try reflexivity; try (intros ? Hx; inv Hx; congruence); try discriminate; cbn [touched fresh]; try (cbn; intuition congruence).
  Ltac same Hs := intros e He Hne; eapply same_idx; try exact Hs; eauto; cbn; intuition congruence.

  Lemma p_bcast d st q n l : view_swf (VBcast d) t = true -> view_sig (VBcast d) sg = Some sg' -> promised sg' st q = Some n -> get (Len q) st = None ->
    length_ (View (VBcast d) t) q st = Some l -> vz l = Some n.
  Proof.
    viewstart. assert (Esg : sg' = SFun d ADyn sg) by (cbn in Ev; congruence). rewrite Esg in P. cbn [promised] in P. destruct (Z.eqb_spec q d) as [->|Hd]; [discriminate|].
    other. intros st' Hs. rewrite <- P. apply promised_ext. intros e He _. eapply same_idx; eauto.
  Qed.

  Lemma p_fix d i st q n l : view_swf (VFix d i) t = true -> view_sig (VFix d i) sg = Some sg' -> promised sg' st q = Some n -> get (Len q) st = None ->
    length_ (View (VFix d i) t) q st = Some l -> vz l = Some n.
  Proof.
    viewstart. assert (Ev' := Ev). cbn [view_sig] in Ev. destruct (Z.eqb_spec q d) as [->|Hd]; [discriminate|].
    other. intros st' Hs. eapply (one_other sg d st st'); eauto.
    - same Hs.
    - intros a r o' Hu Ho Po. injection Ho as <-. cbn [promised]. destruct (Z.eqb_spec q d); [contradiction|]. rewrite (below_fun sg d st st' Hn) with (a := a); [exact Po|same Hs|exact Hu].
    - intros rs o' Hu Ho Po. destruct (vstatic i) as [k|] eqn:Ei; [|discriminate]. rewrite (promised_component d rs st' q i k o'); auto.
      + rewrite (below_dep sg d st st' Hn) with (rs := rs) (k := k); [exact Po|same Hs|exact Hu|exact Ho].
      + cbn in Hs. injection Hs as <-. rewrite get_with; teq. rewrite Z.eqb_refl. reflexivity.
  Qed.

  Lemma p_set_length d m st q n l : uswf t = true -> negb (is_static m) || free_length d t = true ->
    view_swf (VSetLength d m) t = true -> view_sig (VSetLength d m) sg = Some sg' -> promised sg' st q = Some n -> get (Len q) st = None ->
    length_ (View (VSetLength d m) t) q st = Some l -> vz l = Some n.
  Proof.
    intros Hus Htr. viewstart. assert (Ev' := Ev). cbn [view_sig] in Ev. destruct (Z.eqb_spec q d) as [->|Hd].
    - assert (Hm : vstatic m = Some n).
      { eapply (one_self sg d); eauto; [|intros; discriminate]. intros a r o' _ Ho Po. injection Ho as <-. cbn [promised] in Po. rewrite Z.eqb_refl in Po.
        apply arglen_of_static. destruct (arglen_of m); [discriminate|congruence]. }
      rewrite (static_arg _ _ Hm) in Htr. cbn in Htr. cbn in E. assert (l = m); [|subst; apply vstatic_vz, Hm].
      eapply (free_len d t); eauto; [congruence|]. rewrite get_with; teq. rewrite Z.eqb_refl. reflexivity.
    - other. intros st' Hs. assert (S : forall e, any_accept e sg = true -> e <> d -> get (Idx e) st' = get (Idx e) st) by same Hs. eapply (one_other sg d st st'); eauto.
      + intros a r o' Hu Ho Po. injection Ho as <-. cbn [promised] in *. destruct (Z.eqb_spec q d); [contradiction|]. rewrite (below_fun sg d st st' Hn S a) by exact Hu. exact Po.
      + intros; discriminate.
  Qed.

  (** How the dependent part is picked. *)
  Lemma pick_other d len f0 (g : val -> val) st st' rs ss q n :
    (forall e, any_accept e sg = true -> e <> d -> get (Idx e) st' = get (Idx e) st) -> q <> d ->
    under sg (SDep d rs) -> pick_sigs rs len f0 = Some ss ->
    (forall i, get (Idx d) st = Some i -> get (Idx d) st' = Some (g i)) -> (forall i j, vstatic i = Some j -> vstatic (g i) = Some (u64 (f0 j))) ->
    promised (SDep d ss) st q = Some n -> promised (SDep d rs) st' q = Some n.
  Proof.
    intros S Hd Hu Ep Hg Hf Po. apply promised_component_inv in Po; [|exact Hd]. destruct Po as (v & j & r & Hv & Hj & Hr & Po). destruct (pick_sigs_spec _ _ _ _ Ep) as (_ & _ & Hp). rewrite Hp in Hr.
    destruct ((0 <=? j) && _) in Hr; [|discriminate]. rewrite (promised_component d rs st' q (g v) (u64 (f0 j)) r); auto. rewrite (below_dep sg d st st' Hn S rs (u64 (f0 j)) r q Hu Hr). exact Po.
  Qed.

  Lemma p_shift d s st q n l : view_swf (VShift d s) t = true -> view_sig (VShift d s) sg = Some sg' -> promised sg' st q = Some n -> get (Len q) st = None ->
    length_ (View (VShift d s) t) q st = Some l -> vz l = Some n.
  Proof.
    viewstart. assert (Ev' := Ev). cbn [view_sig] in Ev. destruct (Z.eqb_spec q d) as [->|Hd].
    - rewrite HL in E. destruct (view_sub_state _ _ _ st) as [st'|] eqn:Hs; [|discriminate]. cbn [obind] in E. destruct (length_ t d st') as [l0|] eqn:El; [|discriminate]. cbn in E. injection E as <-.
      assert (HL' : get (Len d) st' = None).
      { cbn in Hs. rewrite HL in Hs. destruct (get (Idx d) st); injection Hs as <-; rewrite ?get_with, get_remove; teq; rewrite Z.eqb_refl; reflexivity. }
      assert (C : exists n0 k, promised sg st' d = Some n0 /\ vstatic s = Some k /\ n = u64 (n0 - k)).
      { apply (one_new sg d _ sg' st d n (fun o => exists n0 k, promised o st' d = Some n0 /\ vstatic s = Some k /\ n = u64 (n0 - k)) Ev P); auto.
        - intros x a r Hx (n0 & k & H1 & H2 & H3). exists n0, k. cbn [promised]. destruct (Z.eqb_spec d x); [congruence|auto].
        - intros x rs k r w Hu Hx Hw' Hk Hr (n0 & k' & H1 & H2 & H3). exists n0, k'. rewrite (promised_component x rs st' d w k r); auto.
          rewrite (same_idx _ _ _ Hw Ev' eq_refl Hs); auto; [|cbn; intuition congruence]. apply (under_accept _ _ Hu). cbn. rewrite Z.eqb_refl. reflexivity.
        - intros a r o' Hu Ho Po. injection Ho as <-. cbn [promised] in *. rewrite Z.eqb_refl in *. destruct a as [|x]; [discriminate|]. destruct s as [z|z|]; try discriminate.
          cbn in Po. injection Po as <-. exists x, (u64 z). auto.
        - intros rs o' Hu Ho Po. destruct (vstatic s) as [k|] eqn:Ek; [|discriminate]. destruct (pick_sigs _ _ _) as [ss|] eqn:Ep; [|discriminate]. injection Ho as <-.
          cbn [promised] in *. rewrite Z.eqb_refl in *. injection Po as <-. destruct (pick_sigs_spec _ _ _ _ Ep) as (Hl & _ & _). exists (Z.of_nat (List.length rs)), k.
          repeat split; auto. rewrite Hl, Z2Nat.id; [reflexivity|]. apply u64_range. }
      destruct C as (n0 & k & H1 & H2 & ->). pose proof (IH _ _ _ _ H1 HL' El) as Hv. apply vz_vsub'; [exact Hv|apply vstatic_vz, H2].
    - other. intros st' Hs. assert (S : forall e, any_accept e sg = true -> e <> d -> get (Idx e) st' = get (Idx e) st) by same Hs. eapply (one_other sg d st st'); eauto.
      + intros a r o' Hu Ho Po. injection Ho as <-. cbn [promised] in *. destruct (Z.eqb_spec q d); [contradiction|]. rewrite (below_fun sg d st st' Hn S a) by exact Hu. exact Po.
      + intros rs o' Hu Ho Po. destruct (vstatic s) as [k|] eqn:Ek; [|discriminate]. destruct (pick_sigs _ _ _) as [ss|] eqn:Ep; [|discriminate]. injection Ho as <-.
        eapply (pick_other d _ _ (fun i => vadd i s)); eauto.
        * intros i Hi. cbn in Hs. rewrite Hi in Hs. destruct (get (Len d) st); injection Hs as <-; rewrite get_with; teq; rewrite Z.eqb_refl; reflexivity.
        * intros i j Hi. apply vstatic_add; auto.
  Qed.

  Lemma p_slice d s m st q n l : view_swf (VSlice d s m) t = true -> view_sig (VSlice d s m) sg = Some sg' -> promised sg' st q = Some n -> get (Len q) st = None ->
    length_ (View (VSlice d s m) t) q st = Some l -> vz l = Some n.
  Proof.
    viewstart. assert (Ev' := Ev). cbn [view_sig] in Ev. destruct (Z.eqb_spec q d) as [->|Hd].
    - injection E as <-. eapply (one_self sg d); eauto.
      + intros a r o' _ Ho Po. injection Ho as <-. cbn [promised] in Po. rewrite Z.eqb_refl in Po. apply vstatic_vz, arglen_of_static. destruct (arglen_of m); [discriminate|congruence].
      + intros rs o' _ Ho Po. destruct (vstatic s) as [k|]; [|discriminate]. destruct (vstatic m) as [x|] eqn:Em; [|discriminate].
        destruct (pick_sigs _ _ _) as [ss|] eqn:Ep; [|discriminate]. injection Ho as <-. cbn [promised] in Po. rewrite Z.eqb_refl in Po. injection Po as <-.
        destruct (pick_sigs_spec _ _ _ _ Ep) as (Hl & _ & _). apply vstatic_vz in Em. pose proof (vz_range _ _ Em). rewrite Hl, Z2Nat.id by lia. exact Em.
    - other. intros st' Hs. assert (S : forall e, any_accept e sg = true -> e <> d -> get (Idx e) st' = get (Idx e) st) by same Hs. eapply (one_other sg d st st'); eauto.
      + intros a r o' Hu Ho Po. injection Ho as <-. cbn [promised] in *. destruct (Z.eqb_spec q d); [contradiction|]. rewrite (below_fun sg d st st' Hn S a) by exact Hu. exact Po.
      + intros rs o' Hu Ho Po. destruct (vstatic s) as [k|] eqn:Ek; [|discriminate]. destruct (vstatic m) as [x|] eqn:Em; [|discriminate]. destruct (pick_sigs _ _ _) as [ss|] eqn:Ep; [|discriminate]. injection Ho as <-.
        eapply (pick_other d _ _ (fun i => vadd i s)); eauto.
        * intros i Hi. cbn in Hs. rewrite Hi in Hs. injection Hs as <-; rewrite get_with; teq; rewrite Z.eqb_refl; reflexivity.
        * intros i j Hi. apply vstatic_add; auto.
  Qed.

  Lemma p_span d s e st q n l : negb (is_static e) || is_sta 0 s || negb (has_fun d t) = true ->
    view_swf (VSpan d s e) t = true -> view_sig (VSpan d s e) sg = Some sg' -> promised sg' st q = Some n -> get (Len q) st = None ->
    length_ (View (VSpan d s e) t) q st = Some l -> vz l = Some n.
  Proof.
    intros Htr. viewstart. assert (Ev' := Ev). cbn [view_sig] in Ev. destruct (Z.eqb_spec q d) as [->|Hd].
    - injection E as <-. eapply (one_self sg d); eauto.
      + intros a r o' Hu Ho Po. injection Ho as <-. cbn [promised] in Po. rewrite Z.eqb_refl in Po. assert (He : vstatic e = Some n) by (apply arglen_of_static; destruct (arglen_of e); [discriminate|congruence]).
        rewrite (static_arg _ _ He) in Htr. unfold has_fun in Htr. rewrite E0, (under_fun _ _ d Hu) in Htr by (cbn; rewrite Z.eqb_refl; reflexivity).
        cbn in Htr. rewrite orb_false_r in Htr. destruct s as [z|z|]; try discriminate. cbn in Htr. apply Z.eqb_eq in Htr. apply vstatic_vz in He.
        rewrite (vz_vsub' e (Sta z) n 0); [|exact He|cbn; congruence]. pose proof (vz_range _ _ He). rewrite u64_small by lia. f_equal. lia.
      + intros rs o' _ Ho Po. destruct (vstatic s) as [k|] eqn:Ek; [|discriminate]. destruct (vstatic e) as [x|] eqn:Em; [|discriminate].
        destruct (pick_sigs _ _ _) as [ss|] eqn:Ep; [|discriminate]. injection Ho as <-. cbn [promised] in Po. rewrite Z.eqb_refl in Po. injection Po as <-.
        destruct (pick_sigs_spec _ _ _ _ Ep) as (Hl & _ & _). rewrite Hl, Z2Nat.id by apply u64_range. apply vz_vsub'; apply vstatic_vz; assumption.
    - other. intros st' Hs. assert (S : forall x, any_accept x sg = true -> x <> d -> get (Idx x) st' = get (Idx x) st).
      { intros x Hx Hne; eapply same_idx; try exact Hs; eauto; cbn; intuition congruence. } eapply (one_other sg d st st'); eauto.
      + intros a r o' Hu Ho Po. injection Ho as <-. cbn [promised] in *. destruct (Z.eqb_spec q d); [contradiction|]. rewrite (below_fun sg d st st' Hn S a) by exact Hu. exact Po.
      + intros rs o' Hu Ho Po. destruct (vstatic s) as [k|] eqn:Ek; [|discriminate]. destruct (vstatic e) as [x|] eqn:Em; [|discriminate]. destruct (pick_sigs _ _ _) as [ss|] eqn:Ep; [|discriminate]. injection Ho as <-.
        eapply (pick_other d _ _ (fun i => vadd i s)); eauto.
        * intros i Hi. cbn in Hs. rewrite Hi in Hs. injection Hs as <-; rewrite get_with; teq; rewrite Z.eqb_refl; reflexivity.
        * intros i j Hi. apply vstatic_add; auto.
  Qed.

  Lemma p_step d s r st q n l : negb (is_static r) || negb (has_fun d t) = true ->
    view_swf (VStep d s r) t = true -> view_sig (VStep d s r) sg = Some sg' -> promised sg' st q = Some n -> get (Len q) st = None ->
    length_ (View (VStep d s r) t) q st = Some l -> vz l = Some n.
  Proof.
    intros Htr. viewstart. assert (Ev' := Ev). cbn [view_sig] in Ev. destruct (Z.eqb_spec q d) as [->|Hd].
    - destruct (length_ t d st) as [l0|] eqn:El; [|discriminate]. cbn in E. injection E as <-.
      assert (C : exists n0 k x, promised sg st d = Some n0 /\ vstatic s = Some k /\ vstatic r = Some x /\ x <> 0 /\ n = u64 (n0 + x - k - 1) / x).
      { apply (one_new sg d _ sg' st d n (fun o => exists n0 k x, promised o st d = Some n0 /\ vstatic s = Some k /\ vstatic r = Some x /\ x <> 0 /\ n = u64 (n0 + x - k - 1) / x) Ev P); auto.
        - intros x a o Hx (n0 & k & y & H1 & H2). exists n0, k, y. cbn [promised]. destruct (Z.eqb_spec d x); [congruence|auto].
        - intros x rs k o w Hu Hx Hw' Hk Hr (n0 & k' & y & H1 & H2). exists n0, k', y. rewrite (promised_component x rs st d w k o); auto.
        - intros a o o' Hu Ho Po. injection Ho as <-. cbn [promised] in Po. rewrite Z.eqb_refl in Po. assert (He : vstatic r = Some n) by (apply arglen_of_static; destruct (arglen_of r); [discriminate|congruence]).
          rewrite (static_arg _ _ He) in Htr. unfold has_fun in Htr. rewrite E0, (under_fun _ _ d Hu) in Htr by (cbn; rewrite Z.eqb_refl; reflexivity). discriminate.
        - intros rs o' Hu Ho Po. destruct (vstatic s) as [k|] eqn:Ek; [|discriminate]. destruct (vstatic r) as [x|] eqn:Ex; [|discriminate]. destruct (Z.eqb_spec x 0); [discriminate|].
          destruct (pick_sigs _ _ _) as [ss|] eqn:Ep; [|discriminate]. injection Ho as <-.
          cbn [promised] in *. rewrite Z.eqb_refl in *. injection Po as <-. destruct (pick_sigs_spec _ _ _ _ Ep) as (Hl & _ & _). exists (Z.of_nat (List.length rs)), k, x.
          repeat split; auto. rewrite Hl, Z2Nat.id; [reflexivity|]. apply Z.div_pos; [apply u64_range|]. apply vstatic_vz, vz_range in Ex. lia. }
      destruct C as (n0 & k & x & H1 & H2 & H3 & H4 & ->). pose proof (IH _ _ _ _ H1 HL El) as Hv. apply vstatic_vz in H2, H3.
      apply vz_vdiv; auto. rewrite (vz_vsub' _ _ (u64 (u64 (n0 + x) - k)) 1); [|apply vz_vsub'; [apply vz_vadd'; assumption|assumption]|reflexivity].
      f_equal. unfold u64. rewrite Zminus_mod_idemp_l. replace ((n0 + x) mod W - k - 1) with ((n0 + x) mod W - (k + 1)) by lia. rewrite Zminus_mod_idemp_l. f_equal. lia.
    - other. intros st' Hs. assert (S : forall x, any_accept x sg = true -> x <> d -> get (Idx x) st' = get (Idx x) st).
      { intros x Hx Hne; eapply same_idx; try exact Hs; eauto; cbn; intuition congruence. } eapply (one_other sg d st st'); eauto.
      + intros a o o' Hu Ho Po. injection Ho as <-. cbn [promised] in *. destruct (Z.eqb_spec q d); [contradiction|]. rewrite (below_fun sg d st st' Hn S a) by exact Hu. exact Po.
      + intros rs o' Hu Ho Po. destruct (vstatic s) as [k|] eqn:Ek; [|discriminate]. destruct (vstatic r) as [x|] eqn:Em; [|discriminate]. destruct (Z.eqb_spec x 0); [discriminate|]. destruct (pick_sigs _ _ _) as [ss|] eqn:Ep; [|discriminate]. injection Ho as <-.
        eapply (pick_other d _ _ (fun i => vadd (vmul i r) s)); eauto.
        * intros i Hi. cbn in Hs. rewrite Hi in Hs. injection Hs as <-; rewrite get_with; teq; rewrite Z.eqb_refl; reflexivity.
        * intros i j Hi. rewrite (vstatic_add _ _ (u64 (j * x)) k); [|apply vstatic_mul; auto|auto]. f_equal. unfold u64. rewrite Zplus_mod_idemp_l. reflexivity.
  Qed.

  Lemma p_reverse d st q n l : view_swf (VReverse d) t = true -> view_sig (VReverse d) sg = Some sg' -> promised sg' st q = Some n -> get (Len q) st = None ->
    length_ (View (VReverse d) t) q st = Some l -> vz l = Some n.
  Proof.
    viewstart. unfold view_swf in Hw. rewrite E0, andb_true_iff, negb_true_iff in Hw. destruct Hw as [Hm _]. rewrite (reverse_sig _ _ _ Hm Ev) in P. eapply IH; eauto.
  Qed.

  Lemma fresh_dim (x d : dim) : negb (x =? d) && any_accept x sg = false -> any_accept x sg = true -> x = d.
  Proof. intros H Ha. rewrite Ha in H. destruct (Z.eqb_spec x d); [assumption|discriminate]. Qed.

  Lemma p_blocks d M m st q n l : view_swf (VBlocks d M m) t = true -> view_sig (VBlocks d M m) sg = Some sg' -> promised sg' st q = Some n -> get (Len q) st = None ->
    length_ (View (VBlocks d M m) t) q st = Some l -> vz l = Some n.
  Proof.
    viewstart. assert (Ev' := Ev). cbn [view_sig] in Ev. destruct ((M =? m) || _ || _) eqn:Ef in Ev; [discriminate|].
    rewrite !orb_false_iff in Ef. destruct Ef as [[_ EfM] Efm].
    assert (Hnew : (any_accept q sg = true -> q = d) -> q = M \/ q = m -> False).
    { intros Hq Hor. apply (one_new sg d _ sg' st q n (fun _ => False) Ev P); auto; [|intros; discriminate]. intros a r o' _ Ho Po. injection Ho as <-. cbn [promised] in Po.
      destruct (Z.eqb_spec q M); [discriminate|]. destruct (Z.eqb_spec q m); [discriminate|]. tauto. }
    destruct (Z.eqb_spec q m) as [->|Hm]; [destruct Hnew; auto; apply fresh_dim, Efm|]. destruct (Z.eqb_spec q M) as [->|HM]; [destruct Hnew; auto; apply fresh_dim, EfM|].
    destruct (Z.eqb_spec q d) as [->|Hd]; [discriminate|].
    other. intros st' Hs. assert (S : forall x, any_accept x sg = true -> x <> d -> get (Idx x) st' = get (Idx x) st).
    { intros x Hx Hne; eapply same_idx; try exact Hs; eauto; cbn; intuition congruence. } eapply (one_other sg d st st'); eauto; [|intros; discriminate].
    intros a r o' Hu Ho Po. injection Ho as <-. cbn [promised] in *. destruct (Z.eqb_spec q d), (Z.eqb_spec q M), (Z.eqb_spec q m); try contradiction. rewrite (below_fun sg d st st' Hn S a) by exact Hu. exact Po.
  Qed.

  Lemma p_blocks_dyn d M m p st q n l : view_swf (VBlocksDyn d M m p) t = true -> view_sig (VBlocksDyn d M m p) sg = Some sg' -> promised sg' st q = Some n -> get (Len q) st = None ->
    length_ (View (VBlocksDyn d M m p) t) q st = Some l -> vz l = Some n.
  Proof.
    viewstart. assert (Ev' := Ev). cbn [view_sig] in Ev. destruct ((M =? m) || _ || _ || _ || _ || _) eqn:Ef in Ev; [discriminate|].
    rewrite !orb_false_iff in Ef. destruct Ef as [[[_ EfM] Efm] Efp].
    assert (Hnew : (any_accept q sg = true -> q = d) -> q = M \/ q = m \/ q = p -> False).
    { intros Hq Hor. apply (one_new sg d _ sg' st q n (fun _ => False) Ev P); auto; [|intros; discriminate]. intros a r o' _ Ho Po. injection Ho as <-. cbn [promised] in Po.
      destruct (Z.eqb_spec q M); [discriminate|]. destruct (Z.eqb_spec q m); [discriminate|]. destruct (Z.eqb_spec q p); [discriminate|]. tauto. }
    destruct (Z.eqb_spec q p) as [->|Hp]; [destruct Hnew; auto; apply fresh_dim, Efp|].
    destruct (Z.eqb_spec q m) as [->|Hm]; [destruct Hnew; auto; apply fresh_dim, Efm|]. destruct (Z.eqb_spec q M) as [->|HM]; [destruct Hnew; auto; apply fresh_dim, EfM|].
    destruct (Z.eqb_spec q d) as [->|Hd]; [discriminate|].
    other. intros st' Hs. assert (S : forall x, any_accept x sg = true -> x <> d -> get (Idx x) st' = get (Idx x) st).
    { intros x Hx Hne; eapply same_idx; try exact Hs; eauto; cbn; intuition congruence. } eapply (one_other sg d st st'); eauto; [|intros; discriminate].
    intros a r o' Hu Ho Po. injection Ho as <-. cbn [promised] in *. destruct (Z.eqb_spec q d), (Z.eqb_spec q M), (Z.eqb_spec q m), (Z.eqb_spec q p); try contradiction.
    rewrite (below_fun sg d st st' Hn S a) by exact Hu. exact Po.
  Qed.

  Lemma p_blocks_sta d b M m ml st q n l : view_swf (VBlocksSta d b M m ml) t = true -> view_sig (VBlocksSta d b M m ml) sg = Some sg' -> promised sg' st q = Some n -> get (Len q) st = None ->
    length_ (View (VBlocksSta d b M m ml) t) q st = Some l -> vz l = Some n.
  Proof.
    viewstart. assert (Ev' := Ev). cbn [view_sig] in Ev. destruct ((b =? M) || _ || _ || _ || _ || _) eqn:Ef in Ev; [discriminate|].
    rewrite !orb_false_iff in Ef. destruct Ef as [[[[[EbM Ebm] EMm] EfM] Efm] Efb]. rewrite Z.eqb_neq in EbM, Ebm, EMm.
    destruct (has (Idx q) st); [discriminate|].
    destruct (Z.eqb_spec q b) as [->|Hb].
    { injection E as <-. apply (one_new sg d _ sg' st b n (fun _ => vz (Sta 2) = Some n) Ev P); auto; [apply fresh_dim, Efb| |intros; discriminate].
      intros a r o' _ Ho Po. cbv beta iota in Ho. destruct (arglen_divmod _ _) as [[quo rem]|]; [|discriminate]. injection Ho as <-. cbn [promised] in Po. rewrite Z.eqb_refl in Po. cbn in Po. injection Po as <-. reflexivity. }
    assert (Hml : exists y, vz ml = Some y /\ y <> 0).
    { unfold view_swf in Hw. rewrite E0, andb_true_iff in Hw. destruct Hw as [Hw _]. destruct (vz ml) as [y|]; [|discriminate]. exists y. split; [reflexivity|lia]. }
    destruct Hml as (y & Hy & Hy0).
    assert (Hcl : forall st', view_sub_state (VBlocksSta d b M m ml) (has_length t) (length_ t) st = Some st' -> get (Len d) st' = None).
    { cbn [view_sub_state]. unfold clean_blocks_sta. intros st'. destruct (has (Len b) st || _ || _); [destruct (get (Idx b) st), (get (Idx M) st), (get (Idx m) st); try destruct (is_body b st); discriminate|].
      destruct (get (Idx b) st), (get (Idx M) st), (get (Idx m) st); try destruct (is_body b st) as [[|]|]; cbn [obind]; try discriminate;
        try destruct (length_ t d _); cbn [obind]; try discriminate; intros Hs; injection Hs as <-; rewrite ?get_with, get_remove; teq; rewrite Z.eqb_refl; teq; rewrite ?orb_true_r; reflexivity. }
    (* the promise about the two parts *)
    assert (Hpart : q = M \/ q = m -> forall st', view_sub_state (VBlocksSta d b M m ml) (has_length t) (length_ t) st = Some st' -> exists body, is_body b st = Some body /\
      (if body then if q =? m then Some n = Some y else exists x, promised sg st' d = Some x /\ n = x / y
       else if q =? m then exists x, promised sg st' d = Some x /\ n = x mod y else n = 1)).
    { intros Hor st' Hs. assert (S : forall x, any_accept x sg = true -> x <> d -> get (Idx x) st' = get (Idx x) st).
      { intros x Hx Hne; eapply same_idx; try exact Hs; eauto; cbn; intuition congruence. }
      apply (one_new sg d _ sg' st q n (fun o => exists body, is_body b st = Some body /\
        (if body then if q =? m then Some n = Some y else exists x, promised o st' d = Some x /\ n = x / y
         else if q =? m then exists x, promised o st' d = Some x /\ n = x mod y else n = 1)) Ev P).
      - destruct Hor as [->| ->]; apply fresh_dim; assumption.
      - intros x a r Hx (body & Hbd & H). exists body. split; [exact Hbd|]. cbn [promised]. destruct (Z.eqb_spec d x); [congruence|exact H].
      - intros x rs k r w Hu Hx Hw' Hk Hr (body & Hbd & H). exists body. split; [exact Hbd|]. rewrite (promised_component x rs st' d w k r); auto.
        rewrite S; auto. apply (under_accept _ _ Hu). cbn. rewrite Z.eqb_refl. reflexivity.
      - intros a r o' Hu Ho Po. cbv beta iota in Ho. destruct (arglen_divmod _ _) as [[quo rem]|] eqn:Edm; [|discriminate]. injection Ho as <-. apply promised_component_inv in Po; [|exact Hb].
        destruct Po as (w & k & o & Hw' & Hk & Hr & Po). unfold is_body. rewrite Hw', Hk.
        assert (Hkk : k = 0 /\ o = SFun M quo (SFun m (arglen_of ml) r) \/ k = 1 /\ o = SFun M (ASta 1) (SFun m rem r)).
        { rewrite nthz_nth_error in Hr. destruct (Z.leb_spec 0 k); [|discriminate]. destruct (Z.to_nat k) as [|[|j]] eqn:Ej; cbn in Hr; [left|right|destruct j; discriminate]; (split; [lia|congruence]). }
        destruct Hkk as [[-> ->]|[-> ->]]; cbn [Z.eqb Pos.eqb]; cbn [promised] in Po.
        + exists true. split; [reflexivity|]. destruct (Z.eqb_spec q M) as [->|HM].
          * destruct (Z.eqb_spec M m); [contradiction|]. unfold arglen_divmod in Edm. destruct a as [|x]; [injection Edm as <- <-; discriminate|].
            destruct (arglen_of ml) as [|y'] eqn:Eml; [injection Edm as <- <-; discriminate|]. destruct (y' =? 0); [discriminate|]. injection Edm as <- <-. injection Po as <-.
            apply arglen_of_static, vstatic_vz in Eml. exists x. cbn [promised]. rewrite Z.eqb_refl. split; [reflexivity|congruence].
          * destruct Hor as [Hq|Hq]; [contradiction|]. subst q. rewrite Z.eqb_refl in *. destruct (arglen_of ml) as [|y'] eqn:Eml; [discriminate|]. apply arglen_of_static, vstatic_vz in Eml. congruence.
        + exists false. split; [reflexivity|]. destruct (Z.eqb_spec q M) as [->|HM].
          * destruct (Z.eqb_spec M m); [contradiction|]. congruence.
          * destruct Hor as [Hq|Hq]; [contradiction|]. subst q. rewrite Z.eqb_refl in *. unfold arglen_divmod in Edm. destruct a as [|x]; [injection Edm as <- <-; discriminate|].
            destruct (arglen_of ml) as [|y'] eqn:Eml; [injection Edm as <- <-; discriminate|]. destruct (y' =? 0); [discriminate|]. injection Edm as <- <-. injection Po as <-.
            apply arglen_of_static, vstatic_vz in Eml. exists x. cbn [promised]. rewrite Z.eqb_refl. split; [reflexivity|congruence].
      - intros; discriminate. }
    destruct (Z.eqb_spec q m) as [->|Hm].
    { destruct (is_body b st) as [body|] eqn:Ebd; [|discriminate]. cbn [obind] in E.
      destruct (view_sub_state (VBlocksSta d b M m ml) (has_length t) (length_ t) st) as [st'|] eqn:Hs; cbn [obind] in E.
      - destruct (Hpart (or_intror eq_refl) _ eq_refl) as (body' & Hbd & H). injection Hbd as <-. cbn in H. destruct body; [injection E as <-; congruence|].
        destruct H as (x & Hx & ->). destruct (length_ t d st') as [l0|] eqn:El; [|discriminate]. cbn in E. injection E as <-. apply vz_vmod; auto. eapply IH; eauto.
      - destruct body; [|discriminate]. injection E as <-.
        apply (one_new sg d _ sg' st m n (fun _ => vz ml = Some n) Ev P); auto; [apply fresh_dim, Efm| |intros; discriminate].
        intros a r o' _ Ho Po. cbv beta iota in Ho. destruct (arglen_divmod _ _) as [[quo rem]|]; [|discriminate]. injection Ho as <-. apply promised_component_inv in Po; [|exact Hb].
        destruct Po as (w & k & o & Hw' & Hk & Hr & Po). unfold is_body in Ebd. rewrite Hw', Hk in Ebd. destruct (Z.eqb_spec k 0) as [Hk0|Hk0]; [rewrite Hk0 in Hr|destruct (k =? 1); discriminate].
        cbn in Hr. injection Hr as <-. cbn [promised] in Po. destruct (Z.eqb_spec m M); [congruence|]. rewrite Z.eqb_refl in Po.
        destruct (arglen_of ml) as [|y'] eqn:Eml; [discriminate|]. apply arglen_of_static, vstatic_vz in Eml. congruence. }
    destruct (Z.eqb_spec q M) as [->|HM].
    { destruct (is_body b st) as [body|] eqn:Ebd; [|discriminate]. cbn [obind] in E.
      destruct (view_sub_state (VBlocksSta d b M m ml) (has_length t) (length_ t) st) as [st'|] eqn:Hs; cbn [obind] in E.
      - destruct (Hpart (or_introl eq_refl) _ eq_refl) as (body' & Hbd & H). injection Hbd as <-. destruct (Z.eqb_spec M m); [contradiction|].
        destruct body; [|injection E as <-; subst n; reflexivity].
        destruct H as (x & Hx & ->). destruct (length_ t d st') as [l0|] eqn:El; [|discriminate]. cbn in E. injection E as <-. apply vz_vdiv; auto. eapply IH; eauto.
      - destruct body; [discriminate|]. injection E as <-.
        apply (one_new sg d _ sg' st M n (fun _ => vz (Sta 1) = Some n) Ev P); auto; [apply fresh_dim, EfM| |intros; discriminate].
        intros a r o' _ Ho Po. cbv beta iota in Ho. destruct (arglen_divmod _ _) as [[quo rem]|]; [|discriminate]. injection Ho as <-. apply promised_component_inv in Po; [|exact Hb].
        destruct Po as (w & k & o & Hw' & Hk & Hr & Po). unfold is_body in Ebd. rewrite Hw', Hk in Ebd. destruct (Z.eqb_spec k 0) as [Hk0|Hk0]; [discriminate|].
        destruct (Z.eqb_spec k 1) as [Hk1|Hk1]; [rewrite Hk1 in Hr|discriminate]. cbn in Hr. injection Hr as <-. cbn [promised] in Po. rewrite Z.eqb_refl in Po. injection Po as <-. reflexivity. }
    destruct (Z.eqb_spec q d) as [->|Hd]; [discriminate|].
    other. intros st' Hs. assert (S : forall x, any_accept x sg = true -> x <> d -> get (Idx x) st' = get (Idx x) st).
    { intros x Hx Hne; eapply same_idx; try exact Hs; eauto; cbn; intuition congruence. } eapply (one_other sg d st st'); eauto; [|intros; discriminate].
    intros a r o' Hu Ho Po. cbv beta iota in Ho. destruct (arglen_divmod _ _) as [[quo rem]|]; [|discriminate]. injection Ho as <-. apply promised_component_inv in Po; [|exact Hb].
    destruct Po as (w & k & o & Hw' & Hk & Hr & Po). cbn [promised]. destruct (Z.eqb_spec q d); [contradiction|]. rewrite (below_fun sg d st st' Hn S a) by exact Hu.
    rewrite nthz_nth_error in Hr. destruct (0 <=? k); [|discriminate].
    destruct (Z.to_nat k) as [|[|j]]; cbn in Hr; [| |destruct j; discriminate]; injection Hr as <-; cbn [promised] in Po; destruct (Z.eqb_spec q M), (Z.eqb_spec q m); try contradiction; exact Po.
  Qed.

  Lemma p_reorder ds st q n l : view_sig (VReorder ds) sg = Some sg' -> promised sg' st q = Some n -> get (Len q) st = None ->
    length_ (View (VReorder ds) t) q st = Some l -> vz l = Some n.
  Proof.
    intros Ev P HL E. rewrite length_View in E. apply guard_Some in E. destruct E as [_ E]. cbn in E. eapply IH; eauto. eapply build_promised; eauto. intros x v k Hx. discriminate.
  Qed.

  Lemma p_hoist d st q n l : view_sig (VHoist d) sg = Some sg' -> promised sg' st q = Some n -> get (Len q) st = None ->
    length_ (View (VHoist d) t) q st = Some l -> vz l = Some n.
  Proof.
    intros Ev P HL E. rewrite length_View in E. apply guard_Some in E. destruct E as [_ E]. cbn in E. eapply IH; eauto. clear E. cbn [view_sig] in Ev.
    destruct (sig_find_dim d [] sg) as [o|] eqn:Eo; [|discriminate]. destruct (PlanFacts.find_dim _ _ _ _ Eo) as [(a & r & ->)|(rs & ->)]; [|discriminate].
    destruct (sreplace _ _ sg) as [s|] eqn:Es; [|discriminate]. cbn in Ev. assert (Esg : sg' = SFun d a s) by congruence. rewrite Esg in P. cbn [promised] in P. destruct (Z.eqb_spec q d) as [->|Hd].
    - eapply find_promised; eauto; [cbn [promised]; rewrite Z.eqb_refl; exact P|discriminate].
    - eapply (one_other sg d st st); eauto; [|intros; discriminate]. intros a' r' o' Hu Ho Po. injection Ho as <-. cbn [promised]. destruct (Z.eqb_spec q d); [contradiction|exact Po].
  Qed.

  Lemma p_rename ps st q n l : view_sig (VRename ps) sg = Some sg' -> promised sg' st q = Some n -> get (Len q) st = None ->
    length_ (View (VRename ps) t) q st = Some l -> vz l = Some n.
  Proof.
    intros Ev P HL E. rewrite length_View in E. apply guard_Some in E. destruct E as [_ E]. cbn in E. cbn [view_sig] in Ev. destruct (nodupb _ && _ && _) eqn:Ef in Ev; [|discriminate].
    assert (Hok : rename_ok ps sg = true) by exact Ef. assert (Esg : sg' = rename_sig ps sg) by congruence. rewrite Esg in P.
    rewrite !andb_true_iff, !nodupb_NoDup in Ef. destruct Ef as [[H1 H2] _].
    destruct (rename_accept _ _ _ (promised_accept _ _ _ _ P)) as (x & Hx & <-). rewrite (GoodFacts.rename_back ps sg x Hok Hx) in E. apply (IH (rename_state ps st) x n l); auto.
    - eapply rename_promised; eauto.
    - rewrite get_rename_state by assumption. destruct (ext_name ps x) as [e|] eqn:Ee; [|reflexivity].
      assert (He : e = rename_dim ps x); [|subst e; exact HL]. unfold ext_name in Ee. destruct (mem x (map fst ps)) eqn:Em; [congruence|].
      rewrite rename_dim_out by (apply mem_false, Em). destruct (mem x (map snd ps)); [discriminate|congruence].
  Qed.

  (** *** Merging *)

  Lemma under_trans a b c : under a b -> under b c -> under a c.
  Proof. intros Hab. induction 1; [exact Hab| |]; [eapply u_fun; eauto|eapply u_dep; eauto]. Qed.

  Lemma p_merge M m d st q n l : view_swf (VMerge M m d) t = true -> view_sig (VMerge M m d) sg = Some sg' -> promised sg' st q = Some n -> get (Len q) st = None ->
    length_ (View (VMerge M m d) t) q st = Some l -> vz l = Some n.
  Proof.
    viewstart. assert (Ev' := Ev). cbn [view_sig] in Ev. destruct ((M =? m) || _) eqn:Ef in Ev; [discriminate|].
    rewrite orb_false_iff, Z.eqb_neq in Ef. destruct Ef as [HMm Ef]. destruct (has (Idx q) st); [discriminate|].
    assert (S : forall st', view_sub_state (VMerge M m d) (has_length t) (length_ t) st = Some st' ->
      forall x, any_accept x sg = true -> mem x [M; m] = false -> get (Idx x) st' = get (Idx x) st).
    { intros st' Hs x Hx Hm. eapply same_idx; try exact Hs; eauto. apply mem_false, Hm. }
    assert (Hmm : forall x, mem x [m; M] = mem x [M; m]) by (intros x; cbn; destruct (x =? m), (x =? M); reflexivity).
    assert (Hd : mem d [M; m] = false -> any_accept d sg = true -> False).
    { intros Hm Ha. cbn in Hm. rewrite orb_false_r, orb_false_iff in Hm. destruct Hm as [H1 H2]. rewrite H1, H2, Ha in Ef. discriminate. }
    destruct (Z.eqb_spec q d) as [->|Hqd].
    - rewrite HL in E. destruct (view_sub_state _ _ _ st) as [st'|] eqn:Hs; [|discriminate]. cbn [obind] in E. specialize (S _ eq_refl).
      destruct (length_ t M st') as [lM|] eqn:ElM; [|discriminate]. destruct (length_ t m st') as [lm|] eqn:Elm; [|discriminate]. cbn in E. injection E as <-.
      assert (HLs : get (Len M) st' = None /\ get (Len m) st' = None).
      { cbn [view_sub_state] in Hs. rewrite HL in Hs. destruct (has_length t m _) as [hm|]; [|discriminate]. destruct (has_length t M _) as [hM|]; [|discriminate]. cbn [obind] in Hs. unfold clean_merge in Hs.
        destruct hm, hM; cbn [andb] in Hs; destruct (get (Idx d) st); try destruct (length_ t _ _); cbn [obind] in Hs; try discriminate; injection Hs as <-;
          rewrite ?get_with, !get_remove; teq; rewrite !Z.eqb_refl; teq; rewrite ?orb_true_r; auto. }
      destruct HLs as [HLM HLm].
      assert (C : exists x y, promised sg st' M = Some x /\ promised sg st' m = Some y /\ n = u64 (x * y)).
      { revert Ev P. apply (replace_promise sg [M; m] _ st d n (fun o => exists x y, promised o st' M = Some x /\ promised o st' m = Some y /\ n = u64 (x * y))); [| | | |constructor].
        - intros x a r _ Hx _ (y & z & H1 & H2 & H3). exists y, z. cbn in Hx. cbn [promised]. destruct (Z.eqb_spec M x) as [<-|]; [rewrite Z.eqb_refl in Hx; discriminate|].
          destruct (Z.eqb_spec m x) as [<-|]; [rewrite Z.eqb_refl, orb_true_r in Hx; discriminate|]. auto.
        - intros x rs k r w Hu Hx _ Hw' Hk Hr (y & z & H1 & H2 & H3). exists y, z. assert (Hg : get (Idx x) st' = Some w).
          { rewrite S; auto. apply (under_accept _ _ Hu). cbn. rewrite Z.eqb_refl. reflexivity. }
          cbn in Hx. rewrite orb_false_r, orb_false_iff, !Z.eqb_neq in Hx. destruct Hx. rewrite !(promised_component x rs st' _ w k r); auto.
        - intros o Hu Hm Hnd _. destruct (Hd Hm). apply (under_accept _ _ Hu), node_accept, Hnd.
        - intros d1 o o' Hu Hnd Hm Ho Po. destruct Hnd as [(oa & r & ->)|(rs & ->)]; [|discriminate].
          assert (Hur : under sg r) by (eapply u_fun, Hu). set (oth := if d1 =? M then m else M).
          assert (Hoth : mem oth [M; m] = true) by (unfold oth; cbn; destruct (d1 =? M); rewrite Z.eqb_refl, ?orb_true_r; reflexivity).
          assert (Hoth2 : forall x, mem x [M; m] = true -> x <> d1 -> x = oth).
          { intros x Hx Hne. unfold oth. cbn in Hm, Hx. rewrite orb_false_r, orb_true_iff, !Z.eqb_eq in Hm, Hx. destruct (Z.eqb_spec d1 M); intuition congruence. }
          assert (C2 : exists x y, oa = ASta x /\ promised r st' oth = Some y /\ n = u64 (x * y)).
          { revert Ho Po. apply (replace_promise sg [m; M] _ st d n (fun o => exists x y, oa = ASta x /\ promised o st' oth = Some y /\ n = u64 (x * y))); [| | | |exact Hur].
            - intros x a r' _ Hx _ (y & z & H1 & H2 & H3). exists y, z. rewrite Hmm in Hx. cbn [promised]. destruct (Z.eqb_spec oth x) as [Ex|]; [rewrite <- Ex, Hoth in Hx; discriminate|]. auto.
            - intros x rs k r' w Hu' Hx _ Hw' Hk Hr (y & z & H1 & H2 & H3). exists y, z. rewrite Hmm in Hx. assert (Hg : get (Idx x) st' = Some w).
              { rewrite S; auto. apply (under_accept _ _ Hu'). cbn. rewrite Z.eqb_refl. reflexivity. }
              rewrite (promised_component x rs st' oth w k r'); auto. intros Ex. rewrite <- Ex, Hoth in Hx. discriminate.
            - intros o Hu' Hm' Hnd _. rewrite Hmm in Hm'. destruct (Hd Hm'). apply (under_accept _ _ Hu'), node_accept, Hnd.
            - intros d2 o o2 Hu' Hnd Hm' Ho Po. rewrite Hmm in Hm'. destruct Hnd as [(ia & r' & ->)|(rs & ->)]; [|discriminate]. destruct (Z.eqb_spec d1 d2) as [|Hne]; [discriminate|].
              injection Ho as <-. cbn [promised] in Po. rewrite Z.eqb_refl in Po. destruct oa as [|x]; [discriminate|]. destruct ia as [|y]; [discriminate|]. cbn in Po. injection Po as <-.
              exists x, y. split; [reflexivity|]. split; [|reflexivity]. cbn [promised]. rewrite (Hoth2 d2 Hm') by congruence. rewrite Z.eqb_refl. reflexivity. }
          destruct C2 as (x & y & -> & H2 & ->). unfold oth in H2. cbn [promised]. cbn in Hm. rewrite orb_false_r, orb_true_iff, !Z.eqb_eq in Hm. destruct (Z.eqb_spec d1 M) as [->|HdM].
          + exists x, y. rewrite Z.eqb_refl. destruct (Z.eqb_spec m M); [congruence|]. auto.
          + destruct Hm as [Hm|Hm]; [contradiction|]. subst d1. exists y, x. rewrite Z.eqb_refl. destruct (Z.eqb_spec M m); [congruence|]. rewrite Z.mul_comm. auto. }
      destruct C as (x & y & Hx & Hy & ->). apply vz_vmul'; [eapply (IH st' M)|eapply (IH st' m)]; eauto.
    - destruct ((q =? m) || (q =? M)) eqn:Eq; [discriminate|]. rewrite orb_false_iff, !Z.eqb_neq in Eq. destruct Eq as [Hqm HqM].
      other. intros st' Hs. specialize (S _ Hs). revert Ev P. intros Ev P. eapply replace_same; eauto.
      intros d1 o o' Hu Hnd Hm Ho Po. destruct Hnd as [(oa & r & ->)|(rs & ->)]; [|discriminate]. pose proof (snodup_fun _ _ _ (under_nodup _ _ Hu Hn)) as [Hd1 Hnr].
      assert (Hur : under sg r) by (eapply u_fun, Hu). cbn [promised]. destruct (Z.eqb_spec q d1) as [->|]; [cbn in Hm; rewrite orb_false_r, orb_true_iff, !Z.eqb_eq in Hm; intuition congruence|].
      eapply replace_same; eauto.
      + intros x Hx Hm'. rewrite Hmm in Hm'. apply S; auto. apply (under_accept _ _ Hur), Hx.
      + intros d2 o o2 Hu' Hnd Hm' Ho' Po'. rewrite Hmm in Hm'. destruct Hnd as [(ia & r' & ->)|(rs & ->)]; [|discriminate]. destruct (Z.eqb_spec d1 d2) as [|Hne]; [discriminate|].
        injection Ho' as <-. cbn [promised] in *. destruct (Z.eqb_spec q d); [contradiction|]. destruct (Z.eqb_spec q d2) as [->|]; [cbn in Hm'; rewrite orb_false_r, orb_true_iff, !Z.eqb_eq in Hm'; intuition congruence|].
        rewrite <- Po'. apply promised_ext. intros e He _. pose proof (snodup_fun _ _ _ (under_nodup _ _ Hu' Hnr)) as [Hd2 _].
        assert (Her : any_accept e r = true) by (apply (under_accept _ _ Hu'); cbn; rewrite He; apply orb_true_r). apply S; [apply (under_accept _ _ Hur), Her|].
        cbn in Hm, Hm' |- *. rewrite orb_false_r in *. rewrite orb_true_iff, !Z.eqb_eq in Hm, Hm'. rewrite orb_false_iff, !Z.eqb_neq. assert (e <> d1) by congruence. assert (e <> d2) by congruence. intuition congruence.
  Qed.

  (** *** The z-curve *)

  Section ZCurve.
    Variables (d : dim) (ds : list dim) (st st' : state).
    Hypothesis Hds : NoDup ds.

    Definition fit (o : sig) (es : list dim) : Prop :=
      NoDup es /\ incl es ds /\ (forall e, In e es -> any_accept e o = false) /\ snodup o = true /\
      (forall e, any_accept e o = true -> mem e ds = false -> get (Idx e) st' = get (Idx e) st).

    Lemma fit_inner od a r es : fit (SFun od a r) es -> mem od ds = true -> fit r (od :: es).
    Proof.
      intros (H1 & H2 & H3 & H4 & H5) Hod. apply snodup_fun in H4. destruct H4 as [H4 H6].
      assert (Hr : forall e, any_accept e r = true -> any_accept e (SFun od a r) = true) by (intros e He; cbn; rewrite He; apply orb_true_r).
      split; [|split; [|split; [|split]]].
      - constructor; [|exact H1]. intros Hin. specialize (H3 _ Hin). cbn in H3. rewrite Z.eqb_refl in H3. discriminate.
      - intros e [<-|He]; [apply mem_In, Hod|auto].
      - intros e [<-|He]; [exact H4|]. destruct (any_accept e r) eqn:Ee; [|reflexivity]. rewrite <- (H3 _ He). symmetry. apply Hr, Ee.
      - exact H6.
      - intros e He. apply H5, Hr, He.
    Qed.
    Lemma fit_under r o es : fit r es -> under r o -> fit o es.
    Proof.
      intros (H1 & H2 & H3 & H4 & H5) Hu. repeat split; auto.
      - intros e He. specialize (H3 _ He). destruct (any_accept e o) eqn:Ee; [|reflexivity]. rewrite (under_accept _ _ Hu _ Ee) in H3. discriminate.
      - apply (under_nodup _ _ Hu H4).
      - intros e He. apply H5, (under_accept _ _ Hu), He.
    Qed.

    Lemma zc_keep q v : q <> d -> forall n acc o o' es, zc_replace n acc d ds o = Some o' -> fit o es -> (List.length es + n = List.length ds)%nat ->
      (exists x, node o x /\ mem x ds = true) -> promised o' st q = Some v -> promised o st' q = Some v.
    Proof.
      intros Hq. induction n as [|n IHn]; intros acc o o' es E F Hlen (x & Hx & Hm) P; [destruct o; discriminate|].
      destruct Hx as [(a & r & ->)|(rs & ->)]; [|destruct n; discriminate]. pose proof (fit_inner _ _ _ _ F Hm) as Fr.
      assert (Pr : promised r st' q = Some v).
      { destruct n as [|n].
        - cbn [zc_replace] in E. injection E as <-. cbn [promised] in P. destruct (Z.eqb_spec q d); [contradiction|]. rewrite <- P. apply promised_ext. intros e He _.
          destruct F as (_ & _ & _ & _ & F5). apply F5; [cbn; rewrite He; apply orb_true_r|]. apply mem_false. intros Hin. destruct Fr as (G1 & G2 & G3 & _).
          assert (Hall : incl ds (x :: es)) by (apply NoDup_length_incl; [exact G1|cbn; lia|exact G2]). rewrite (G3 _ (Hall _ Hin)) in He. discriminate.
        - change (sreplace ds (zc_replace (S n) (arglen_mul acc a) d ds) r = Some o') in E. eapply replace_same; eauto.
          + destruct Fr as (_ & _ & _ & _ & F5). exact F5.
          + intros x2 o2 o2' Hu Hnd Hm2 Ho Po. eapply IHn; eauto; [eapply fit_under; eauto|cbn; lia]. }
      cbn [promised]. destruct (Z.eqb_spec q x) as [->|]; [|exact Pr]. destruct Fr as (_ & _ & F3 & _).
      pose proof (F3 x (or_introl eq_refl)) as Hf. rewrite (promised_accept _ _ _ _ Pr) in Hf. discriminate.
    Qed.

    Definition prodz (xs : list Z) (a : Z) : Z := fold_left (fun p x => u64 (p * x)) xs a.

    Lemma zc_prod v : forall n acc o o' es, zc_replace n acc d ds o = Some o' -> fit o es ->
      (mem d ds = false -> any_accept d o = false) ->
      (exists x, node o x /\ mem x ds = true) -> promised o' st d = Some v ->
      exists a fs xs, acc = ASta a /\ List.length fs = n /\ NoDup fs /\ incl fs ds /\ Forall2 (fun e x => promised o st' e = Some x) fs xs /\ v = prodz xs a.
    Proof.
      induction n as [|n IHn]; intros acc o o' es E F Hd (x & Hx & Hm) P; [destruct o; discriminate|].
      destruct Hx as [(al & r & ->)|(rs & ->)]; [|destruct n; discriminate]. pose proof (fit_inner _ _ _ _ F Hm) as Fr. destruct n as [|n].
      - cbn [zc_replace] in E. injection E as <-. cbn [promised] in P. rewrite Z.eqb_refl in P. destruct acc as [|a]; [discriminate|]. destruct al as [|y]; [discriminate|]. cbn in P. injection P as <-.
        exists a, [x], [y]. split; [reflexivity|]. split; [reflexivity|]. split; [repeat constructor; auto|]. split; [intros e [<-|[]]; apply mem_In, Hm|].
        split; [constructor; [cbn [promised]; rewrite Z.eqb_refl; reflexivity|constructor]|reflexivity].
      - change (sreplace ds (zc_replace (S n) (arglen_mul acc al) d ds) r = Some o') in E.
        assert (C : exists b fs xs, arglen_mul acc al = ASta b /\ List.length fs = S n /\ NoDup fs /\ incl fs ds /\ Forall2 (fun e y => promised r st' e = Some y) fs xs /\ v = prodz xs b).
        { revert E P. apply (replace_promise r ds _ st d v (fun o => exists b fs xs, arglen_mul acc al = ASta b /\ List.length fs = S n /\ NoDup fs /\ incl fs ds /\
            Forall2 (fun e y => promised o st' e = Some y) fs xs /\ v = prodz xs b)); [| | | |constructor].
          - intros y a r' _ Hy _ (b & fs & xs & H1 & H2 & H3 & H4 & H5 & H6). exists b, fs, xs. repeat split; auto. clear - H5 H4 Hy. induction H5 as [|e z fs xs He _ IHf]; constructor.
            + cbn [promised]. destruct (Z.eqb_spec e y) as [->|]; [|exact He]. apply mem_false in Hy. destruct Hy. apply H4. left. reflexivity.
            + apply IHf. intros e' He'. apply H4. right. exact He'.
          - intros y rs k r' w Hu Hy _ Hw Hk Hr (b & fs & xs & H1 & H2 & H3 & H4 & H5 & H6). exists b, fs, xs. repeat split; auto.
            assert (Hg : get (Idx y) st' = Some w).
            { destruct Fr as (_ & _ & _ & _ & F5). rewrite F5; auto. apply (under_accept _ _ Hu). cbn. rewrite Z.eqb_refl. reflexivity. }
            clear - H5 H4 Hy Hg Hk Hr. induction H5 as [|e z fs xs He _ IHf]; constructor.
            + rewrite (promised_component y rs st' e w k r'); auto. intros ->. apply mem_false in Hy. destruct Hy. apply H4. left. reflexivity.
            + apply IHf. intros e' He'. apply H4. right. exact He'.
          - intros o Hu Hmd Hnd _. specialize (Hd Hmd). cbn in Hd. rewrite (under_accept r o Hu), orb_true_r in Hd by apply node_accept, Hnd. discriminate.
          - intros x2 o2 o2' Hu Hnd Hm2 Ho Po. eapply IHn; eauto; [eapply fit_under; eauto|]. intros Hmd. specialize (Hd Hmd). cbn in Hd. rewrite orb_false_iff in Hd. destruct Hd as [_ Hd].
            destruct (any_accept d o2) eqn:Ed; [|reflexivity]. rewrite (under_accept _ _ Hu _ Ed) in Hd. discriminate. }
        destruct C as (b & fs & xs & H1 & H2 & H3 & H4 & H5 & H6). destruct acc as [|a]; [discriminate|]. destruct al as [|y]; [discriminate|]. cbn in H1. injection H1 as <-.
        assert (Hnx : forall e z, promised r st' e = Some z -> e <> x).
        { intros e z He ->. destruct Fr as (_ & _ & F3 & _). pose proof (F3 x (or_introl eq_refl)) as Hf. rewrite (promised_accept _ _ _ _ He) in Hf. discriminate. }
        exists a, (x :: fs), (y :: xs). split; [reflexivity|]. split; [cbn; congruence|]. split; [|split; [|split]].
        + constructor; [|exact H3]. intros Hin. clear - H5 Hin Hnx. induction H5 as [|e z fs xs He _ IHf]; [destruct Hin|]. destruct Hin as [->|Hin]; [eapply Hnx; eauto|auto].
        + intros e [<-|He]; [apply mem_In, Hm|auto].
        + constructor; [cbn [promised]; rewrite Z.eqb_refl; reflexivity|]. clear - H5 Hnx. induction H5 as [|e z fs xs He _ IHf]; constructor; auto. cbn [promised].
          destruct (Z.eqb_spec e x) as [->|]; [destruct (Hnx _ _ He); reflexivity|exact He].
        + exact H6.
    Qed.
  End ZCurve.
End Views.

Lemma prodz_spec xs : forall a, u64 (prodz xs a) = u64 (a * fold_right Z.mul 1 xs).
Proof.
  induction xs as [|x xs IHx]; intros a; cbn [prodz fold_left fold_right]; [f_equal; lia|]. fold (prodz xs (u64 (a * x))). rewrite IHx. unfold u64. rewrite Zmult_mod_idemp_l. f_equal. lia.
Qed.
Lemma prod_perm xs ys : Permutation xs ys -> fold_right Z.mul 1 xs = fold_right Z.mul 1 ys.
Proof. induction 1; cbn; lia. Qed.
Lemma fold_dyn r : forall l a xs, vz l = Some a -> Forall2 (fun v x => vz v = Some x) r xs -> vz (fold_left (dyn2 Z.mul) r l) = Some (prodz xs a).
Proof.
  induction r as [|v r IHr]; intros l a xs Hl F; inv F; cbn [fold_left prodz]; [exact Hl|]. fold (prodz l' (u64 (a * y))). apply IHr; auto. unfold dyn2. rewrite Hl, H1. cbn. rewrite u64_u64. reflexivity.
Qed.
Lemma vz_u64 v x : vz v = Some x -> u64 x = x.
Proof. intros H. apply u64_small. eapply vz_range; eauto. Qed.

Lemma p_zcurve t sg sg' sl gl d ds st q n l : signature t = Some sg -> snodup sg = true -> kept_promise t sg ->
  view_swf (VZCurve sl gl d ds) t = true -> view_sig (VZCurve sl gl d ds) sg = Some sg' -> promised sg' st q = Some n -> get (Len q) st = None ->
  length_ (View (VZCurve sl gl d ds) t) q st = Some l -> vz l = Some n.
Proof.
  intros E0 Hn IH Hw Ev P HL E. rewrite length_View in E. apply guard_Some in E. destruct E as [_ E]. cbn [view_length] in E. cbv zeta in E.
  assert (Ev' := Ev). cbn [view_sig] in Ev. destruct (_ && _ && _ && _ && nodupb ds && _) eqn:Ef in Ev; [|discriminate]. rewrite !andb_true_iff in Ef. destruct Ef as [[[[_ Hne] _] Hds] Hdd].
  apply nodupb_NoDup in Hds. apply Nat.ltb_lt in Hne.
  destruct (view_sub_state _ _ _ st) as [st'|] eqn:Hs; [|destruct (q =? d); discriminate]. cbn [obind] in E.
  assert (S : forall x, any_accept x sg = true -> mem x ds = false -> get (Idx x) st' = get (Idx x) st).
  { intros x Hx Hm. eapply same_idx; try exact Hs; eauto. apply mem_false, Hm. }
  assert (HLs : forall x, get (Len x) st' = if mem x ds then None else get (Len x) st).
  { intros x. cbn [view_sub_state] in Hs. destruct (get (Idx d) st); [destruct (omap _ ds); [|discriminate]|]; injection Hs as <-; rewrite ?get_with, ?get_combine_len, get_clean_zcurve_len; reflexivity. }
  assert (F : fit ds st st' sg []) by (repeat split; auto; [constructor|intros e []|intros e []]).
  destruct (Z.eqb_spec q d) as [->|Hq].
  - destruct (omap _ ds) as [ls|] eqn:El; [|discriminate]. cbn [obind] in E.
    assert (C : exists fs xs, List.length fs = List.length ds /\ NoDup fs /\ incl fs ds /\ Forall2 (fun e y => promised sg st' e = Some y) fs xs /\ n = prodz xs 1).
    { revert Ev P. apply (replace_promise sg ds _ st d n (fun o => exists fs xs, List.length fs = List.length ds /\ NoDup fs /\ incl fs ds /\
        Forall2 (fun e y => promised o st' e = Some y) fs xs /\ n = prodz xs 1)); [| | | |constructor].
      - intros y a r' _ Hy _ (fs & xs & H2 & H3 & H4 & H5 & H6). exists fs, xs. repeat split; auto. clear - H5 H4 Hy. induction H5 as [|e z fs xs He _ IHf]; constructor.
        + cbn [promised]. destruct (Z.eqb_spec e y) as [->|]; [|exact He]. apply mem_false in Hy. destruct Hy. apply H4. left. reflexivity.
        + apply IHf. intros e' He'. apply H4. right. exact He'.
      - intros y rs k r' w Hu Hy _ Hw' Hk Hr (fs & xs & H2 & H3 & H4 & H5 & H6). exists fs, xs. repeat split; auto.
        assert (Hg : get (Idx y) st' = Some w) by (rewrite S; auto; apply (under_accept _ _ Hu); cbn; rewrite Z.eqb_refl; reflexivity).
        clear - H5 H4 Hy Hg Hk Hr. induction H5 as [|e z fs xs He _ IHf]; constructor.
        + rewrite (promised_component y rs st' e w k r'); auto. intros ->. apply mem_false in Hy. destruct Hy. apply H4. left. reflexivity.
        + apply IHf. intros e' He'. apply H4. right. exact He'.
      - intros o Hu Hmd Hnd _. rewrite Hmd, (under_accept _ _ Hu d (node_accept _ _ Hnd)) in Hdd. discriminate.
      - intros x o o' Hu Hnd Hm Ho Po. destruct (zc_prod d ds st st' n _ _ _ _ [] Ho) as (a & fs & xs & Ha & H2 & H3 & H4 & H5 & H6).
        + eapply fit_under; eauto.
        + intros Hmd. rewrite Hmd in Hdd. cbn in Hdd. apply negb_true_iff in Hdd. destruct (any_accept d o) eqn:Ed; [|reflexivity]. rewrite (under_accept _ _ Hu _ Ed) in Hdd. discriminate.
        + eauto.
        + exact Po.
        + injection Ha as <-. exists fs, xs. auto. }
    destruct C as (fs & xs & H2 & H3 & H4 & H5 & ->).
    assert (Hperm : Permutation fs ds).
    { apply NoDup_Permutation; auto. intros x. split; [apply H4|]. apply NoDup_length_incl; auto. lia. }
    set (X := fun e => match promised sg st' e with Some x => x | None => 0 end).
    assert (Exs : xs = map X fs).
    { clear - H5. induction H5 as [|e y fs xs He _ IHf]; [reflexivity|]. cbn. unfold X at 1. rewrite He. congruence. }
    assert (HX : forall e, In e ds -> promised sg st' e = Some (X e)).
    { intros e He. apply (Permutation_in e (Permutation_sym Hperm)) in He. clear - H5 He. induction H5 as [|e' y fs xs Hy _ IHf]; [destruct He|]. destruct He as [->|He]; [|auto]. unfold X. rewrite Hy. reflexivity. }
    assert (Hv : Forall2 (fun v x => vz v = Some x) ls (map X ds)).
    { assert (G : forall ds' ls', Forall2 (fun x y => length_ t x st' = Some y) ds' ls' -> incl ds' ds -> Forall2 (fun v x => vz v = Some x) ls' (map X ds')).
      { induction 1 as [|e v ds' ls' He _ IHf]; intros Hin; constructor.
        - apply (IH st' e); auto; [apply HX, Hin; left; reflexivity|]. rewrite HLs. replace (mem e ds) with true; [reflexivity|]. symmetry. apply mem_In, Hin. left. reflexivity.
        - apply IHf. intros x Hx. apply Hin. right. exact Hx. }
      apply G; [apply omap_Some_Forall2, El|apply incl_refl]. }
    destruct ls as [|l0 ls]; [discriminate|]. injection E as <-. destruct ds as [|e0 ds]; [inv Hv|]. cbn [map] in Hv. inv Hv.
    rewrite (fold_dyn ls l0 (X e0) (map X ds)) by assumption. f_equal.
    assert (R1 : u64 (prodz (map X ds) (X e0)) = prodz (map X ds) (X e0)).
    { apply (vz_u64 (fold_left (dyn2 Z.mul) ls l0)). apply fold_dyn; assumption. }
    assert (R2 : u64 (prodz (map X fs) 1) = prodz (map X fs) 1).
    { destruct (map X fs) as [|y ys] eqn:Eys; [destruct fs; [cbn in H2; lia|discriminate]|]. clear. revert y. cbn [prodz fold_left]. generalize 1. induction ys as [|z ys IHy]; intros a y; cbn [fold_left]; [apply u64_u64|apply IHy]. }
    rewrite <- R1, <- R2, !prodz_spec. rewrite (prod_perm (map X fs) (map X (e0 :: ds))) by (apply Permutation_map, Hperm). cbn [map fold_right]. f_equal. lia.
  - apply (IH st' q); auto; [|rewrite HLs, HL; destruct (mem q ds); reflexivity]. eapply replace_same; eauto.
    intros x o o' Hu Hnd Hm Ho Po. eapply zc_keep with (es := []); eauto. eapply fit_under; eauto.
Qed.

Lemma forall2_len {A B} (R : A -> B -> Prop) l r : Forall2 R l r -> List.length l = List.length r.
Proof. induction 1; cbn; congruence. Qed.

Theorem promise s : forall sg, uswf s = true -> trusted s = true -> signature s = Some sg -> kept_promise s sg.
Proof.
  induction s as [c|d ts IH|d t IH|v t IH|ts IH] using struct_ind'; intros sg Hu Ht Es st q n l P HL E.
  - unfold length_ in E. cbn in E. discriminate.
  - destruct (signature_Tuple_inv _ _ _ Es) as (ss & F & _ & ->). cbn [uswf trusted] in Hu, Ht. apply andb_true_iff in Hu. destruct Hu as [Hlen Hu].
    apply length_tuple in E. destruct E as [[-> ->]|(Hq & v & k & t & Hv & Hk & Hn & E)].
    + cbn [promised] in P. rewrite Z.eqb_refl in P. injection P as <-. rewrite <- (forall2_len _ _ _ F). cbn. rewrite u64_small; [reflexivity|lia].
    + apply promised_component_inv in P; [|exact Hq]. destruct P as (v' & k' & r & Hv' & Hk' & Hr & P). assert (k' = k) by congruence. subst k'.
      pose proof (Forall2_nthz _ _ _ k F) as H. rewrite Hn, Hr in H. rewrite forallb_forall in Hu, Ht. pose proof (nthz_In _ _ _ Hn) as Hin. rewrite Forall_forall in IH.
      apply (IH _ Hin r (Hu _ Hin) (Ht _ Hin) H (remove [Idx d] st) q n l); auto; [|rewrite get_remove; teq; exact HL].
      rewrite <- P. apply promised_ext. intros e He Hne. rewrite get_remove; teq. destruct (Z.eqb_spec e d) as [->|]; [|reflexivity].
      pose proof (uswf_snodup (Tuple d ts) (SDep d ss)) as Hnd. cbn [uswf] in Hnd. rewrite Hlen in Hnd. rewrite (proj2 (forallb_forall _ _) Hu) in Hnd. specialize (Hnd eq_refl Es).
      destruct (snodup_dep _ _ _ _ Hnd Hr). congruence.
  - destruct (signature_Vector_inv _ _ _ Es) as (s0 & E0 & Ha & ->). cbn [uswf trusted] in Hu, Ht. cbn [promised] in P. apply length_vector in E.
    destruct E as [[-> _]|[Hq E]]; [rewrite Z.eqb_refl in P; discriminate|]. destruct (Z.eqb_spec q d); [contradiction|].
    apply (IH s0 Hu Ht E0 (remove [Idx d; Len d] st) q n l); auto; [|rewrite get_remove; teq; destruct (Z.eqb_spec q d); [contradiction|exact HL]].
    rewrite <- P. apply promised_ext. intros e He Hne. rewrite get_remove; teq. destruct (Z.eqb_spec e d) as [->|]; [congruence|reflexivity].
  - destruct (signature_View_inv _ _ _ Es) as (s0 & E0 & Ev). apply uswf_view in Hu. destruct Hu as [Hw Hu]. cbn [trusted] in Ht. apply andb_true_iff in Ht. destruct Ht as [Ht Htv].
    specialize (IH s0 Hu Ht E0). pose proof (uswf_snodup _ _ Hu E0) as Hn.
    destruct v as [d|d i|d m|d s|d s m|d s e|d s r|d|d M m|d M m p|d b M m ml|M m d|sl gl d ds|ds|d|ps|y z d].
    + eapply p_bcast; eauto.
    + eapply p_fix; eauto.
    + eapply p_set_length; eauto.
    + eapply p_shift; eauto.
    + eapply p_slice; eauto.
    + eapply p_span; eauto.
    + eapply p_step; eauto.
    + eapply p_reverse; eauto.
    + eapply p_blocks; eauto.
    + eapply p_blocks_dyn; eauto.
    + eapply p_blocks_sta; eauto.
    + eapply p_merge; eauto.
    + eapply p_zcurve; eauto.
    + eapply p_reorder; eauto.
    + eapply p_hoist; eauto.
    + eapply p_rename; eauto.
    + unfold view_swf in Hw. rewrite E0 in Hw. discriminate.
  - cbn [signature] in Es. destruct (omap signature ts) as [ss|] eqn:Eo; [|discriminate]. destruct (length_first _ _ _ _ _ Eo E) as (t & s & Hin & Hf & Hs & Hl).
    destruct ss as [|s0 ss]; [discriminate|]. cbn [uswf trusted] in Hu, Ht. apply andb_true_iff in Hu. destruct Hu as [Hu _]. rewrite forallb_forall in Hu, Ht. rewrite Forall_forall in IH.
    apply (IH _ Hin s (Hu _ Hin) (Ht _ Hin) Hs st q n l); auto. eapply union_promised; eauto.
Qed.

Theorem join_lengths t sg a b d st n la lb :
  uswf t = true -> trusted t = true -> signature t = Some sg -> signature (View (VJoin a b d) t) <> None ->
  promised sg [] a = Some n -> get (Len a) st = None -> get (Len b) st = None ->
  length_ t a st = Some la -> length_ t b st = Some lb -> vz la = Some n /\ vz lb = Some n.
Proof.
  intros Hu Ht Es Hj P Ha Hb Ela Elb. cbn [signature] in Hj. rewrite Es in Hj. cbn [view_sig] in Hj. destruct ((a =? b) || _); [contradiction|].
  destruct (sig_find_dim a [] sg) as [oa|] eqn:Ea; [|contradiction]. destruct (PlanFacts.find_dim _ _ _ _ Ea) as [(xa & ra & ->)|(rs & ->)]; [|contradiction].
  destruct (sig_find_dim b [] sg) as [ob|] eqn:Eb; [|contradiction]. destruct (PlanFacts.find_dim _ _ _ _ Eb) as [(xb & rb & ->)|(rs & ->)]; [|contradiction].
  destruct (arglen_eqb xa xb) eqn:Eab; [|contradiction]. clear Hj.
  assert (Hxa : xa = ASta n).
  { destruct xa as [|x].
    - exfalso. revert Ea P. clear. induction sg as [c| |d' al r IH|d' rs IH] using sig_ind'; cbn [sig_find_dim promised]; try discriminate.
      + rewrite (Z.eqb_sym a d'). destruct (d' =? a); [|exact IH]. intros E. injection E as -> ->. discriminate.
      + rewrite (Z.eqb_sym a d'). destruct (d' =? a); discriminate.
    - assert (E : promised sg [] a = Some x) by (apply (find_promised a sg [] [] _ x Ea); [cbn [promised]; rewrite Z.eqb_refl; reflexivity|discriminate]). congruence. }
  subst xa. destruct xb as [|x]; [discriminate|]. cbn in Eab. apply Z.eqb_eq in Eab. subst x.
  assert (Pa : promised sg st a = Some n) by (apply (find_promised a sg [] st _ n Ea); [cbn [promised]; rewrite Z.eqb_refl; reflexivity|discriminate]).
  assert (Pb : promised sg st b = Some n) by (apply (find_promised b sg [] st _ n Eb); [cbn [promised]; rewrite Z.eqb_refl; reflexivity|discriminate]).
  split; [apply (promise t sg Hu Ht Es st a n la)|apply (promise t sg Hu Ht Es st b n lb)]; assumption.
Qed.
