(** * Facts about planners (C31) *)

From Verif Require Export SpecPlan RangeFacts.
From Verif Require Views2.

(** ** Signatures all of whose dimensions have an index *)

Fixpoint full (s : sig) (st : state) : bool :=
  match s with
  | SScalar _ | SVoid => true
  | SFun d _ r => has (Idx d) st && full r st
  | SDep d rs =>
      match get (Idx d) st with
      | Some v => match vstatic v with
                  | Some k => match nthz (map (fun r => full r st) rs) k with Some b => b | None => true end
                  | None => false end
      | None => false end
  end.

Lemma full_dep d rs st : full (SDep d rs) st = true <->
  exists v k, get (Idx d) st = Some v /\ vstatic v = Some k /\ forall r, nthz rs k = Some r -> full r st = true.
Proof.
  cbn [full]. split.
  - destruct (get (Idx d) st) as [v|]; [|discriminate]. destruct (vstatic v) as [k|] eqn:E; [|discriminate].
    intros H. exists v, k. split; [reflexivity|]. split; [exact E|]. intros r Hr. rewrite nthz_map, Hr in H. exact H.
  - intros (v & k & -> & -> & H). rewrite nthz_map. destruct (nthz rs k) as [r|]; [|reflexivity]. simpl. auto.
Qed.

Lemma has_get t st : has t st = match get t st with Some _ => true | None => false end.
Proof. reflexivity. Qed.

Lemma full_ext s : forall st st', (forall q, any_accept q s = true -> get (Idx q) st = get (Idx q) st') -> full s st = full s st'.
Proof.
  induction s as [c| |d al r IH|d rs IH] using sig_ind'; intros st st' H; try reflexivity.
  - cbn [full]. rewrite !has_get. rewrite (H d) by (simpl; rewrite Z.eqb_refl; reflexivity). f_equal. apply IH. intros q Hq. apply H.
    simpl. rewrite Hq. apply orb_true_r.
  - cbn [full]. rewrite (H d) by (simpl; rewrite Z.eqb_refl; reflexivity). destruct (get (Idx d) st') as [v|]; [|reflexivity].
    destruct (vstatic v) as [k|]; [|reflexivity]. rewrite !nthz_map. destruct (nthz rs k) as [r|] eqn:Er; [|reflexivity]. simpl.
    rewrite Forall_forall in IH. apply IH; [eapply nthz_In; eauto|]. intros q Hq. apply H. simpl. apply orb_true_iff. right.
    apply existsb_exists. exists r. split; [eapply nthz_In; eauto|exact Hq].
Qed.

Definition hits (ds : list dim) (o : sig) : Prop :=
  (exists d al r, mem d ds = true /\ o = SFun d al r) \/ (exists d rs, mem d ds = true /\ o = SDep d rs).

Definition below (o s : sig) : Prop :=
  (forall q, any_accept q o = true -> any_accept q s = true) /\ (forall q, In q (sdep_dims o) -> In q (sdep_dims s)).
Lemma below_refl s : below s s.
Proof. split; auto. Qed.
Lemma below_fun o d al r : below o r -> below o (SFun d al r).
Proof. intros [H1 H2]. split; [|exact H2]. intros q Hq. simpl. rewrite (H1 q Hq). apply orb_true_r. Qed.
Lemma below_dep o d rs r : In r rs -> below o r -> below o (SDep d rs).
Proof.
  intros Hr [H1 H2]. split; intros q Hq; simpl.
  - apply orb_true_iff. right. apply existsb_exists. eauto.
  - right. apply in_flat_map. eauto.
Qed.

Section Replace.
  Variables (ds : list dim) (f : sig -> option sig) (st st' : state).

  Lemma sreplace_full s : forall s', snodup s = true -> sreplace ds f s = Some s' -> full s st' = true ->
    (forall q, any_accept q s = true -> mem q ds = false -> get (Idx q) st' = get (Idx q) st) ->
    (forall o o', hits ds o -> snodup o = true -> below o s -> f o = Some o' -> full o st' = true -> full o' st = true) ->
    full s' st = true.
  Proof.
    induction s as [c| |d al r IH|d rs IH] using sig_ind'; intros s' Hn Es Hf Hg Ho.
    - inv Es. reflexivity.
    - inv Es. reflexivity.
    - cbn [sreplace] in Es. destruct (mem d ds) eqn:Em.
      + apply (Ho _ _ (or_introl (ex_intro _ d (ex_intro _ al (ex_intro _ r (conj Em eq_refl))))) Hn (below_refl _) Es Hf).
      + destruct (sreplace ds f r) as [r'|] eqn:Er; [|discriminate]. inv Es. cbn [full] in *. apply andb_true_iff in Hf. destruct Hf as [H1 H2].
        apply andb_true_iff. rewrite !has_get in *. rewrite <- Hg; [split; [exact H1|]|simpl; rewrite Z.eqb_refl; reflexivity|exact Em].
        apply (IH r'); auto.
        * apply snodup_fun in Hn. apply Hn.
        * intros q Hq. apply Hg. simpl. rewrite Hq. apply orb_true_r.
        * intros o o' Hh Hno Hs. apply Ho; auto. apply below_fun, Hs.
    - cbn [sreplace] in Es. destruct (mem d ds) eqn:Em.
      + apply (Ho _ _ (or_intror (ex_intro _ d (ex_intro _ rs (conj Em eq_refl)))) Hn (below_refl _) Es Hf).
      + destruct (omap (sreplace ds f) rs) as [rs'|] eqn:Er; [|discriminate]. inv Es. apply full_dep in Hf. destruct Hf as (v & k & Hv & Hk & Hr).
        rewrite Hg in Hv by (try exact Em; simpl; rewrite Z.eqb_refl; reflexivity).
        apply full_dep. exists v, k. split; [exact Hv|]. split; [exact Hk|]. intros r' Hr'. apply omap_Some_Forall2 in Er.
        pose proof (Forall2_nthz _ _ _ k Er) as H. rewrite Hr' in H. destruct (nthz rs k) as [r|] eqn:Ek; [|contradiction].
        rewrite Forall_forall in IH. assert (Hin : In r rs) by (eapply nthz_In; eauto). apply (IH r Hin r'); auto.
        * eapply snodup_dep; eauto.
        * intros q Hq. apply Hg. simpl. apply orb_true_iff. right. apply existsb_exists. eauto.
        * intros o o' Hh Hno Hs. apply Ho; auto. eapply below_dep; eauto.
  Qed.
End Replace.

(** Adding the fixed index again. *)
Lemma fix_full_back d v s s' st st' : snodup s = true -> view_sig (VFix d v) s = Some s' ->
  (forall q, get (Idx q) st' = if q =? d then Some v else get (Idx q) st) -> full s' st = true -> full s st' = true.
Proof.
  cbn [view_sig]. intros Hn Es Hg. revert s' Es. induction s as [c| |d0 al r IH|d0 rs IH] using sig_ind'; intros s' Es Hf; try reflexivity.
  - cbn [sreplace mem existsb] in Es. destruct (Z.eqb_spec d0 d) as [->|Hne]; cbn [orb] in Es.
    + injection Es as <-. cbn [full]. rewrite has_get, Hg, Z.eqb_refl. simpl. apply snodup_fun in Hn. destruct Hn as [Hd _].
      rewrite <- Hf. apply full_ext. intros q Hq. rewrite Hg. destruct (Z.eqb_spec q d) as [->|]; [congruence|reflexivity].
    + destruct (sreplace [d] _ r) as [r'|] eqn:Er; [|discriminate]. injection Es as <-. cbn [full] in *. apply andb_true_iff in Hf.
      apply andb_true_iff. rewrite has_get, Hg in *. destruct (Z.eqb_spec d0 d) as [E|_]; [contradiction|]. split; [apply Hf|].
      apply snodup_fun in Hn. apply (IH (proj2 Hn) r' eq_refl), Hf.
  - cbn [sreplace mem existsb] in Es. destruct (Z.eqb_spec d0 d) as [->|Hne]; cbn [orb] in Es.
    + destruct (vstatic v) as [k|] eqn:Ek; [|discriminate]. apply full_dep. exists v, k. rewrite Hg, Z.eqb_refl. split; [reflexivity|]. split; [exact Ek|].
      intros r Hr. assert (r = s') by congruence. subst r. rewrite <- Hf. apply full_ext. intros q Hq. rewrite Hg.
      destruct (Z.eqb_spec q d) as [->|]; [|reflexivity]. destruct (snodup_dep _ _ _ _ Hn Es). congruence.
    + destruct (omap _ rs) as [rs'|] eqn:Er; [|discriminate]. injection Es as <-. apply full_dep in Hf. destruct Hf as (w & k & Hw & Hk & Hr).
      apply full_dep. exists w, k. rewrite Hg. destruct (Z.eqb_spec d0 d) as [E|_]; [contradiction|]. split; [exact Hw|]. split; [exact Hk|].
      intros r Er'. apply omap_Some_Forall2 in Er. pose proof (Forall2_nthz _ _ _ k Er) as H. rewrite Er' in H.
      destruct (nthz rs' k) as [r'|] eqn:Ek; [|contradiction]. rewrite Forall_forall in IH.
      apply (IH r (nthz_In _ _ _ Er') (proj2 (snodup_dep _ _ _ _ Hn Er')) r' H). apply Hr. reflexivity.
Qed.

Lemma ground_full st : forall s g, snodup s = true -> sig_fix st s = Some g -> ground g = true -> full s st = true.
Proof.
  induction st as [|[[d|d|n] v] st IH]; intros s g Hn E Hg; cbn [sig_fix] in E.
  - injection E as ->. destruct g; try discriminate; reflexivity.
  - destruct (view_sig (VFix d v) s) as [s'|] eqn:Es; [|discriminate]. cbn [obind] in E.
    apply (fix_full_back d v s s' st); [exact Hn|exact Es| |].
    + intros q. cbn [get tag_eqb]. destruct (q =? d); reflexivity.
    + apply (IH s' g); auto. eapply view_snodup; eauto. exact I.
  - rewrite <- (IH s g Hn E Hg). apply full_ext. intros q _. reflexivity.
  - rewrite <- (IH s g Hn E Hg). apply full_ext. intros q _. reflexivity.
Qed.

(** ** Going up through a view *)

Lemma hit_one d o : hits [d] o -> (exists al r, o = SFun d al r) \/ (exists rs, o = SDep d rs).
Proof.
  intros [(d0 & al & r & H & ->)|(d0 & rs & H & ->)]; cbn [mem existsb] in H; rewrite orb_false_r in H; apply Z.eqb_eq in H; subst d0; eauto.
Qed.
Lemma mem_one q d : mem q [d] = false <-> q <> d.
Proof. cbn [mem existsb]. rewrite orb_false_r. apply Z.eqb_neq. Qed.

(** Below a function over [d], nothing else depends on [d]. *)
Lemma full_below d al r st st' : snodup (SFun d al r) = true -> (forall q, any_accept q r = true -> q <> d -> get (Idx q) st' = get (Idx q) st) ->
  full r st' = true -> full r st = true.
Proof.
  intros Hn H Hf. rewrite <- Hf. apply full_ext. intros q Hq. symmetry. apply H; [exact Hq|]. intros ->. apply snodup_fun in Hn. destruct Hn. congruence.
Qed.
Lemma full_below_dep d rs k r st st' : snodup (SDep d rs) = true -> nthz rs k = Some r -> (forall q, any_accept q r = true -> q <> d -> get (Idx q) st' = get (Idx q) st) ->
  full r st' = true -> full r st = true.
Proof.
  intros Hn Hk H Hf. rewrite <- Hf. apply full_ext. intros q Hq. symmetry. apply H; [exact Hq|]. intros ->. destruct (snodup_dep _ _ _ _ Hn Hk). congruence.
Qed.

Lemma vadd_static i s j : vstatic (vadd i s) = Some j -> forall k, vstatic s = Some k -> exists x, vstatic i = Some x /\ j = u64 (x + k).
Proof.
  intros H k Hk. destruct s as [z|z|]; try discriminate. cbn [vstatic] in Hk. injection Hk as <-.
  destruct i as [x|x|]; cbn [vadd is_sta] in H.
  - cbn [vstatic] in *. injection H as <-. exists (u64 x). split; [reflexivity|]. rewrite u64_u64, u64_add_l, u64_add_r. reflexivity.
  - destruct (u64 z =? 0); [discriminate|]. rewrite vstatic_dyn2 in H. discriminate.
  - destruct (u64 z =? 0); [discriminate|]. rewrite vstatic_dyn2 in H. discriminate.
Qed.

Lemma vmul_static i s j : vstatic (vmul i s) = Some j -> forall k, vstatic s = Some k -> k <> 0 -> exists x, vstatic i = Some x /\ j = u64 (x * k).
Proof.
  intros H k Hk H0. destruct s as [z|z|]; try discriminate. cbn [vstatic] in Hk. injection Hk as <-.
  destruct i as [x|x|]; cbn [vmul is_sta] in H.
  - cbn [vstatic] in *. injection H as <-. exists (u64 x). split; [reflexivity|]. rewrite u64_u64, u64_mul_l, u64_mul_r. reflexivity.
  - destruct (Z.eqb_spec (u64 z) 0); [contradiction|]. rewrite vstatic_dyn2 in H. discriminate.
  - destruct (Z.eqb_spec (u64 z) 0); [contradiction|]. rewrite vstatic_dyn2 in H. discriminate.
Qed.

Definition moved_ok (d : dim) (g : val -> val) (o' : sig) (o : sig) : Prop :=
  match o with
  | SFun _ _ r => exists al, o' = SFun d al r
  | SDep _ rs => exists len f ss, pick_sigs rs len f = Some ss /\ o' = SDep d ss /\
      (forall i j, vstatic (g i) = Some j -> exists x, vstatic i = Some x /\ j = u64 (f x))
  | _ => False
  end.

Lemma moved_full d g f st st' s s' : snodup s = true -> sreplace [d] f s = Some s' ->
  (forall q, get (Idx q) st' = if q =? d then option_map g (get (Idx d) st) else get (Idx q) st) ->
  (forall o o', ((exists al r, o = SFun d al r) \/ (exists rs, o = SDep d rs)) -> f o = Some o' -> moved_ok d g o' o) ->
  full s st' = true -> full s' st = true.
Proof.
  intros Hn Es Hg Hf H. assert (Hq : forall q, q <> d -> get (Idx q) st' = get (Idx q) st).
  { intros q Hq. rewrite Hg. apply Z.eqb_neq in Hq. rewrite Hq. reflexivity. }
  apply (sreplace_full [d] f st st' s s' Hn Es H).
  - intros q _ Hm. apply Hq, mem_one, Hm.
  - intros o o' Hh Hno _ Ef Ho. apply hit_one in Hh. pose proof (Hf o o' Hh Ef) as Hm. destruct Hh as [(al & r & ->)|(rs & ->)]; cbn [moved_ok] in Hm.
    + destruct Hm as (al' & ->). cbn [full] in *. apply andb_true_iff in Ho. destruct Ho as [H1 H2]. apply andb_true_iff. split.
      * rewrite has_get in *. rewrite Hg, Z.eqb_refl in H1. destruct (get (Idx d) st); [reflexivity|discriminate].
      * apply (full_below d al r st st' Hno); auto.
    + destruct Hm as (len & h & ss & Ep & -> & Hx). apply full_dep in Ho. destruct Ho as (w & j & Hw & Hj & Hr).
      rewrite Hg, Z.eqb_refl in Hw. destruct (get (Idx d) st) as [i|] eqn:Ei; [|discriminate]. cbn [option_map] in Hw. injection Hw as <-.
      destruct (Hx i j Hj) as (x & Hi & ->). apply full_dep. exists i, x. split; [exact Ei|]. split; [exact Hi|]. intros r Er.
      apply pick_sigs_spec in Ep. destruct Ep as (_ & _ & Ep). rewrite Ep in Er. destruct ((0 <=? x) && (x <? len)); [|discriminate].
      apply (full_below_dep d rs _ r st st' Hno Er); auto.
Qed.

Lemma find_full q s : forall st0 st o, sig_find_dim q st0 s = Some o -> full s st = true ->
  (forall x v, get (Idx x) st0 = Some v -> vstatic v <> None -> exists w, get (Idx x) st = Some w /\ vstatic w = vstatic v) ->
  full o st = true.
Proof.
  induction s as [c| |d al r IH|d rs IH] using sig_ind'; intros st0 st o E H Hs; cbn [sig_find_dim] in E; try discriminate.
  - destruct (d =? q); [injection E as <-; exact H|]. cbn [full] in H. apply andb_true_iff in H. eapply IH; [exact E|apply H|exact Hs].
  - destruct (d =? q); [injection E as <-; exact H|]. destruct (get (Idx d) st0) as [v|] eqn:Ev; [|discriminate].
    destruct (vstatic v) as [k|] eqn:Ek; [|discriminate]. rewrite nthz_map in E. destruct (nthz rs k) as [r|] eqn:Er; [|discriminate]. cbn in E.
    apply full_dep in H. destruct H as (w & j & Hw & Hj & Hr). destruct (Hs d v Ev) as (w' & Hw' & Es); [congruence|].
    assert (w' = w) by congruence. subst w'. assert (j = k) by congruence. subst j.
    rewrite Forall_forall in IH. eapply (IH r (nthz_In _ _ _ Er)); [exact E|apply Hr, Er|exact Hs].
Qed.

Lemma find_dim q s : forall st0 o, sig_find_dim q st0 s = Some o -> (exists al r, o = SFun q al r) \/ (exists rs, o = SDep q rs).
Proof.
  induction s as [c| |d al r IH|d rs IH] using sig_ind'; intros st0 o E; cbn [sig_find_dim] in E; try discriminate.
  - destruct (Z.eqb_spec d q) as [->|_]; [injection E as <-; eauto|eauto].
  - destruct (Z.eqb_spec d q) as [->|_]; [injection E as <-; eauto|]. destruct (get (Idx d) st0) as [v|]; [|discriminate].
    destruct (vstatic v) as [k|]; [|discriminate]. rewrite nthz_map in E. destruct (nthz rs k) as [r|] eqn:Er; [|discriminate]. cbn in E.
    rewrite Forall_forall in IH. apply (IH r (nthz_In _ _ _ Er) _ _ E).
Qed.

Lemma scalar_full s : forall st0 s' st, reassemble_scalar s st0 = Some s' -> full s' st = true.
Proof.
  induction s as [c| |d al r IH|d rs IH] using sig_ind'; intros st0 s' st E; cbn [reassemble_scalar] in E.
  - injection E as <-. reflexivity.
  - injection E as <-. reflexivity.
  - destruct (has (Idx d) st0); [eauto|injection E as <-; reflexivity].
  - destruct (get (Idx d) st0) as [v|]; [|injection E as <-; reflexivity]. destruct (vstatic v) as [k|]; [|discriminate].
    rewrite nthz_map in E. destruct (nthz rs k) as [r|] eqn:Er; [|discriminate]. cbn in E. rewrite Forall_forall in IH. apply (IH r (nthz_In _ _ _ Er) _ _ _ E).
Qed.

Lemma build_full top st ds : full top st = true -> forall st0 s', reassemble_build top st0 ds = Some s' ->
  (forall x v, get (Idx x) st0 = Some v -> vstatic v <> None -> exists w, get (Idx x) st = Some w /\ vstatic w = vstatic v) ->
  full s' st = true.
Proof.
  intros H. induction ds as [|d ds IH]; intros st0 s' E Hs; cbn [reassemble_build] in E; [eapply scalar_full; eauto|].
  destruct (mem d ds); [discriminate|]. destruct (sig_find_dim d st0 top) as [o|] eqn:Eo; [|discriminate].
  pose proof (find_full d top st0 st o Eo H Hs) as Ho. destruct (find_dim d top st0 o Eo) as [(al & r & ->)|(rs & ->)].
  - destruct (reassemble_build top _ ds) as [s1|] eqn:E1; [|discriminate]. injection E as <-. cbn [full] in *. apply andb_true_iff in Ho.
    apply andb_true_iff. split; [apply Ho|]. apply (IH _ _ E1). intros x v Hx Hv. rewrite get_with in Hx. cbn [get tag_eqb] in Hx.
    destruct (x =? d); [injection Hx as <-; exfalso; apply Hv; reflexivity|]. apply Hs; assumption.
  - destruct (omap _ _) as [ss|] eqn:E1; [|discriminate]. injection E as <-. apply full_dep in Ho. destruct Ho as (w & k & Hw & Hk & _).
    apply full_dep. exists w, k. split; [exact Hw|]. split; [exact Hk|]. intros r Er. apply omap_Some_Forall2 in E1.
    pose proof (Forall2_nthz _ _ _ k E1) as H1. rewrite Er, nthz_zseq in H1. destruct ((0 <=? k) && _) eqn:Ek; [|contradiction].
    apply (IH _ _ H1). intros x v Hx Hv. rewrite get_with in Hx. cbn [get tag_eqb] in Hx. destruct (Z.eqb_spec x d) as [->|].
    + injection Hx as <-. exists w. split; [exact Hw|]. rewrite Hk. cbn [vstatic]. f_equal. symmetry. apply u64_small.
      destruct w; try discriminate. cbn [vstatic] in Hk. injection Hk as <-. apply u64_range.
    + apply Hs; assumption.
Qed.

Lemma remove_none st : remove [] st = st.
Proof. induction st as [|x st IH]; [reflexivity|]. unfold remove in *. cbn. f_equal. exact IH. Qed.

Lemma gets_clean ts q st : get (Idx q) (remove ts st) = if tag_mem (Idx q) ts then None else get (Idx q) st.
Proof. apply get_remove. Qed.

Lemma hit_lists a b o : hits [a; b] o -> exists x, (x = a \/ x = b) /\ ((exists al r, o = SFun x al r) \/ (exists rs, o = SDep x rs)).
Proof.
  intros [(d0 & al & r & H & ->)|(d0 & rs & H & ->)]; cbn [mem existsb] in H; rewrite orb_false_r in H; apply orb_true_iff in H;
    rewrite !Z.eqb_eq in H; exists d0; (split; [exact H|]); eauto.
Qed.

Theorem view_full v t l sg sg' st st' : signature t = Some sg -> snodup sg = true -> view_sig v sg = Some sg' ->
  sub_state v t st = Some st' -> hands_on v t l -> full sg st' = true -> full sg' st = true.
Proof.
  intros Ht Hn Es Hs Hh Hf. unfold sub_state in Hs.
  destruct v as [d|d i|d n|d b|d b len|d b en|d b sr|d|d M m|d M m pd|d b M m ml|M m d|sl gl d ds|ds|d|ps|xa xb d]; cbn [hands_on] in Hh; try contradiction; cbn [view_sub_state] in Hs.
  - (* fix *) injection Hs as <-. cbn [view_sig] in Es. apply (sreplace_full [d] _ st _ sg sg' Hn Es Hf).
    + intros q _ Hm. apply mem_one, Z.eqb_neq in Hm. rewrite get_with, get_remove. cbn [get tag_eqb tag_mem existsb]. rewrite Hm. reflexivity.
    + assert (Hg : forall q, q <> d -> get (Idx q) (with_ [(Idx d, i)] (remove [Len d] st)) = get (Idx q) st).
      { intros q Hq. apply Z.eqb_neq in Hq. rewrite get_with, get_remove. cbn [get tag_eqb tag_mem existsb]. rewrite Hq. reflexivity. }
      intros o o' Hhit Hno _ Ef Ho. apply hit_one in Hhit. destruct Hhit as [(al & r & ->)|(rs & ->)].
      * injection Ef as <-. cbn [full] in Ho. apply andb_true_iff in Ho. apply (full_below d al r st _ Hno (fun q _ H => Hg q H)), Ho.
      * destruct (vstatic i) as [k|] eqn:Ek; [|discriminate]. apply full_dep in Ho. destruct Ho as (w & j & Hw & Hj & Hr).
        rewrite get_with in Hw. cbn [get tag_eqb] in Hw. rewrite Z.eqb_refl in Hw. injection Hw as <-. assert (j = k) by congruence. subst j.
        apply (full_below_dep d rs k o' st _ Hno Ef (fun q _ H => Hg q H)), Hr, Ef.
  - (* set_length *) injection Hs as <-. cbn [view_sig] in Es. refine (moved_full d (fun x => x) _ st _ sg sg' Hn Es _ _ Hf).
    + intros q. rewrite get_with. cbn [get tag_eqb]. destruct (Z.eqb_spec q d) as [->|]; [destruct (get (Idx d) st); reflexivity|reflexivity].
    + intros o o' [(al & r & ->)|(rs & ->)] Ef; [injection Ef as <-; cbn; eauto|discriminate].
  - (* shift *) injection Hs as <-. cbn [view_sig] in Es. refine (moved_full d (fun x => vadd x b) _ st _ sg sg' Hn Es _ _ Hf).
    + intros q. destruct (get (Idx d) st) as [x|], (get (Len d) st) as [y|]; rewrite ?get_with, ?get_remove; cbn [get tag_eqb tag_mem existsb];
        destruct (Z.eqb_spec q d) as [->|]; cbn [orb option_map]; reflexivity.
    + intros o o' [(al & r & ->)|(rs & ->)] Ef; [injection Ef as <-; cbn; eauto|]. destruct (vstatic b) as [k|] eqn:Ek; [|discriminate].
      destruct (pick_sigs rs _ _) as [ss|] eqn:Ep; [|discriminate]. injection Ef as <-. cbn. do 3 eexists. split; [exact Ep|]. split; [reflexivity|].
      intros i j Hj. exact (vadd_static i b j Hj k Ek).
  - (* slice *) injection Hs as <-. cbn [view_sig] in Es. refine (moved_full d (fun x => vadd x b) _ st _ sg sg' Hn Es _ _ Hf).
    + intros q. destruct (get (Idx d) st) as [x|] eqn:Ex; rewrite ?get_with; cbn [get tag_eqb]; destruct (Z.eqb_spec q d) as [->|]; cbn [option_map]; auto.
    + intros o o' [(al & r & ->)|(rs & ->)] Ef; [injection Ef as <-; cbn; eauto|]. destruct (vstatic b) as [k|] eqn:Ek; [|discriminate]. destruct (vstatic len); [|discriminate].
      destruct (pick_sigs rs _ _) as [ss|] eqn:Ep; [|discriminate]. injection Ef as <-. cbn. do 3 eexists. split; [exact Ep|]. split; [reflexivity|].
      intros i j Hj. exact (vadd_static i b j Hj k Ek).
  - (* span *) injection Hs as <-. cbn [view_sig] in Es. refine (moved_full d (fun x => vadd x b) _ st _ sg sg' Hn Es _ _ Hf).
    + intros q. destruct (get (Idx d) st) as [x|] eqn:Ex; rewrite ?get_with; cbn [get tag_eqb]; destruct (Z.eqb_spec q d) as [->|]; cbn [option_map]; auto.
    + intros o o' [(al & r & ->)|(rs & ->)] Ef; [injection Ef as <-; cbn; eauto|]. destruct (vstatic b) as [k|] eqn:Ek; [|discriminate]. destruct (vstatic en); [|discriminate].
      destruct (pick_sigs rs _ _) as [ss|] eqn:Ep; [|discriminate]. injection Ef as <-. cbn. do 3 eexists. split; [exact Ep|]. split; [reflexivity|].
      intros i j Hj. exact (vadd_static i b j Hj k Ek).
  - (* step *) injection Hs as <-. cbn [view_sig] in Es. refine (moved_full d (fun x => vadd (vmul x sr) b) _ st _ sg sg' Hn Es _ _ Hf).
    + intros q. destruct (get (Idx d) st) as [x|] eqn:Ex; rewrite ?get_with; cbn [get tag_eqb]; destruct (Z.eqb_spec q d) as [->|]; cbn [option_map]; auto.
    + intros o o' [(al & r & ->)|(rs & ->)] Ef; [injection Ef as <-; cbn; eauto|]. destruct (vstatic b) as [k|] eqn:Ek; [|discriminate]. destruct (vstatic sr) as [n|] eqn:En; [|discriminate].
      destruct (Z.eqb_spec n 0) as [|H0]; [discriminate|].
      destruct (pick_sigs rs _ _) as [ss|] eqn:Ep; [|discriminate]. injection Ef as <-. cbn. do 3 eexists. split; [exact Ep|]. split; [reflexivity|].
      intros i j Hj. destruct (vadd_static _ b j Hj k Ek) as (y & Hy & ->). destruct (vmul_static i sr y Hy n En H0) as (x & Hx & ->).
      exists x. split; [exact Hx|]. rewrite u64_add_l. reflexivity.
  - (* reverse *) destruct Hh as (sg0 & Hsg & Hd). assert (sg0 = sg) by congruence. subst sg0. cbn [view_sig] in Es.
    assert (Hg : exists g, forall q, get (Idx q) st' = if q =? d then match get (Idx d) st with Some i => g i | None => None end else get (Idx q) st).
    { destruct (get (Idx d) st) as [x|] eqn:Ex.
      - destruct (has_length t d _) as [[]|]; cbn [obind] in Hs; [|injection Hs as <-|discriminate].
        + destruct (length_ t d _) as [y|]; [|discriminate]. cbn [obind] in Hs. injection Hs as <-.
          eexists (fun _ => Some _). intros q. rewrite get_with, get_remove. cbn [get tag_eqb tag_mem existsb]. destruct (q =? d); reflexivity.
        + exists (fun _ => None). intros q. rewrite get_remove. cbn [tag_mem existsb tag_eqb]. rewrite orb_false_r. destruct (q =? d); reflexivity.
      - injection Hs as <-. exists (fun _ => None). intros q. destruct (Z.eqb_spec q d) as [->|]; [exact Ex|reflexivity]. }
    destruct Hg as [g Hg]. apply (sreplace_full [d] _ st _ sg sg' Hn Es Hf).
    + intros q _ Hm. apply mem_one, Z.eqb_neq in Hm. rewrite Hg, Hm. reflexivity.
    + intros o o' Hhit Hno Hsub Ef Ho. apply hit_one in Hhit. destruct Hhit as [(al & r & ->)|(rs & ->)].
      * injection Ef as <-. cbn [full] in *. apply andb_true_iff in Ho. destruct Ho as [H1 H2]. apply andb_true_iff. rewrite has_get in *. rewrite Hg, Z.eqb_refl in H1.
        destruct (get (Idx d) st); [|discriminate]. split; [reflexivity|]. apply (full_below d al r st st' Hno); [|exact H2]. intros q _ Hq. apply Z.eqb_neq in Hq. rewrite Hg, Hq. reflexivity.
      * exfalso. apply Hd, (proj2 Hsub). left. reflexivity.
  - (* blocks *) cbn [view_sig] in Es.
    destruct ((M =? m) || (negb (M =? d) && any_accept M sg) || (negb (m =? d) && any_accept m sg)) eqn:Ec; [discriminate|].
    apply orb_false_iff in Ec. destruct Ec as [Ec Em]. apply orb_false_iff in Ec. destruct Ec as [EMm EM].
    assert (Hcs : forall q, get (Idx q) (clean_blocks d M m st) = if (q =? d) || (q =? M) || (q =? m) then None else get (Idx q) st).
    { intros q. unfold clean_blocks. rewrite get_remove. cbn [tag_mem existsb tag_eqb]. rewrite !orb_false_r. cbn [orb]. rewrite orb_assoc. reflexivity. }
    assert (Hg : (forall q, q <> d -> q <> M -> q <> m -> get (Idx q) st' = get (Idx q) st) /\
                 (get (Idx d) st' <> None -> get (Idx M) st <> None /\ get (Idx m) st <> None)).
    { assert (K : forall st1, (exists x y, st1 = with_ ((Len d, x) :: y) (clean_blocks d M m st) /\ (y = [] \/ exists i, y = [(Idx d, i)] /\ get (Idx M) st <> None /\ get (Idx m) st <> None)) \/
        (exists y, st1 = with_ y (clean_blocks d M m st) /\ (y = [] \/ exists i, y = [(Idx d, i)] /\ get (Idx M) st <> None /\ get (Idx m) st <> None)) ->
        (forall q, q <> d -> q <> M -> q <> m -> get (Idx q) st1 = get (Idx q) st) /\ (get (Idx d) st1 <> None -> get (Idx M) st <> None /\ get (Idx m) st <> None)).
      { intros st1 [(x & y & -> & [->|(i & -> & H)])|(y & -> & [->|(i & -> & H)])]; (split; [intros q H1 H2 H3; apply Z.eqb_neq in H1, H2, H3; rewrite get_with; cbn [get tag_eqb]; rewrite ?H1, Hcs, H1, H2, H3; reflexivity|]);
          first [intros _; exact H | rewrite get_with; cbn [get tag_eqb]; rewrite Hcs, Z.eqb_refl; cbn [orb]; intros H; exfalso; apply H; reflexivity]. }
      assert (Hw : forall st1, st1 = clean_blocks d M m st -> st1 = with_ [] (clean_blocks d M m st)). { intros st1 ->. unfold with_. cbn [map]. rewrite app_nil_r. symmetry. apply remove_none. }
      apply K. destruct (get (Len M) st) as [lM|], (get (Len m) st) as [lm|], (get (Idx M) st) as [iM|], (get (Idx m) st) as [im|]; cbn [obind negb] in Hs.
      all: try (destruct (has_length t d (clean_blocks d M m st)) as [[|]|]; cbn [obind negb] in Hs; try discriminate Hs).
      all: try (destruct (length_ t d (clean_blocks d M m st)); cbn [obind] in Hs; try discriminate Hs).
      all: injection Hs as Hs; symmetry in Hs.
      all: first [left; do 2 eexists; split; [exact Hs|]; first [left; reflexivity | right; eexists; split; [reflexivity|split; discriminate]]
                 |right; eexists; split; [first [exact (Hw _ Hs)|exact Hs]|]; first [left; reflexivity | right; eexists; split; [reflexivity|split; discriminate]]]. }
    destruct Hg as [Hg1 Hg2]. apply (sreplace_full [d] _ st _ sg sg' Hn Es Hf).
    + intros q Hq Hm. apply mem_one in Hm. apply Hg1; [exact Hm| |]; intros ->; [rewrite Hq, andb_true_r in EM|rewrite Hq, andb_true_r in Em]; apply negb_false_iff, Z.eqb_eq in EM || apply negb_false_iff, Z.eqb_eq in Em; congruence.
    + intros o o' Hhit Hno [Hsub _] Ef Ho. apply hit_one in Hhit. destruct Hhit as [(al & r & ->)|(rs & ->)]; [|discriminate]. injection Ef as <-. cbn [full] in *.
      apply andb_true_iff in Ho. destruct Ho as [H1 H2]. rewrite !has_get in *. destruct (get (Idx d) st') eqn:Ed; [|discriminate]. destruct Hg2 as [G1 G2]; [discriminate|].
      destruct (get (Idx M) st); [|contradiction]. destruct (get (Idx m) st); [|contradiction]. cbn [andb].
      apply (full_below d al r st st' Hno); [|exact H2]. intros q Hq Hne. assert (Hq' : any_accept q sg = true) by (apply Hsub; simpl; rewrite Hq; apply orb_true_r).
      apply Hg1; [exact Hne| |]; intros ->; [rewrite Hq', andb_true_r in EM|rewrite Hq', andb_true_r in Em]; apply negb_false_iff, Z.eqb_eq in EM || apply negb_false_iff, Z.eqb_eq in Em; congruence.
  - (* blocks, static *) cbn [view_sig] in Es.
    destruct ((b =? M) || (b =? m) || (M =? m) || (negb (M =? d) && any_accept M sg) || (negb (m =? d) && any_accept m sg) || (negb (b =? d) && any_accept b sg)) eqn:Ec; [discriminate|].
    apply orb_false_iff in Ec. destruct Ec as [Ec Eb]. apply orb_false_iff in Ec. destruct Ec as [Ec Em]. apply orb_false_iff in Ec. destruct Ec as [Ec EM].
    assert (Hg : (forall q, q <> d -> q <> b -> q <> M -> q <> m -> get (Idx q) st' = get (Idx q) st) /\
                 (get (Idx d) st' <> None -> is_body b st <> None /\ get (Idx M) st <> None /\ get (Idx m) st <> None)).
    { assert (Hcs : forall cs q, clean_blocks_sta d b M m st = Some cs -> get (Idx q) cs = if (q =? d) || (q =? b) || (q =? M) || (q =? m) then None else get (Idx q) st).
      { intros cs q E. unfold clean_blocks_sta in E. destruct (has (Len b) st || has (Len M) st || has (Len m) st); [discriminate|]. injection E as <-. rewrite get_remove. cbn [tag_mem existsb tag_eqb]. rewrite !orb_false_r. cbn [orb]. rewrite !orb_assoc. reflexivity. }
      assert (Hplain : clean_blocks_sta d b M m st = Some st' -> (forall q, q <> d -> q <> b -> q <> M -> q <> m -> get (Idx q) st' = get (Idx q) st) /\ (get (Idx d) st' <> None -> is_body b st <> None /\ get (Idx M) st <> None /\ get (Idx m) st <> None)).
      { intros E. split; [intros q H1 H2 H3 H4; apply Z.eqb_neq in H1, H2, H3, H4; rewrite (Hcs _ _ E), H1, H2, H3, H4; reflexivity|]. rewrite (Hcs _ _ E), Z.eqb_refl. intros H. exfalso. apply H. reflexivity. }
      destruct (get (Idx b) st) as [ib|]; [|exact (Hplain Hs)]. destruct (get (Idx M) st) as [iM|]; [|exact (Hplain Hs)]. destruct (get (Idx m) st) as [im|]; [|exact (Hplain Hs)].
      destruct (is_body b st) as [body|]; [|discriminate]. cbn [obind] in Hs. destruct (clean_blocks_sta d b M m st) as [cs|] eqn:Ecs; [|discriminate]. cbn [obind] in Hs.
      split; [|intros _; repeat split; discriminate]. intros q H1 H2 H3 H4. apply Z.eqb_neq in H1, H2, H3, H4.
      destruct body; [injection Hs as <-|destruct (length_ t d cs); [|discriminate]; cbn [obind] in Hs; injection Hs as <-];
        rewrite get_with; cbn [get tag_eqb]; rewrite H1, (Hcs _ _ eq_refl), H1, H2, H3, H4; reflexivity. }
    destruct Hg as [Hg1 Hg2].
    assert (Hg3 : forall q, any_accept q sg = true -> q <> d -> get (Idx q) st' = get (Idx q) st).
    { intros q Hq Hne. apply Hg1; [exact Hne| | |]; intros E; subst q; [rewrite Hq, andb_true_r in Eb; apply negb_false_iff, Z.eqb_eq in Eb|rewrite Hq, andb_true_r in EM; apply negb_false_iff, Z.eqb_eq in EM|rewrite Hq, andb_true_r in Em; apply negb_false_iff, Z.eqb_eq in Em]; congruence. }
    apply (sreplace_full [d] _ st _ sg sg' Hn Es Hf).
    + intros q Hq Hm. apply mem_one in Hm. auto.
    + intros o o' Hhit Hno [Hsub _] Ef Ho. apply hit_one in Hhit. destruct Hhit as [(al & r & ->)|(rs & ->)]; [|discriminate].
      destruct (arglen_divmod al (arglen_of ml)) as [[quo rem]|]; [|discriminate]. injection Ef as <-. cbn [full] in Ho.
      apply andb_true_iff in Ho. destruct Ho as [H1 H2]. rewrite !has_get in *. destruct (get (Idx d) st') eqn:Ed; [|discriminate]. destruct Hg2 as (G0 & G1 & G2); [discriminate|].
      assert (Hr : full r st = true). { apply (full_below d al r st st' Hno); [|exact H2]. intros q Hq Hne. apply Hg3; [|exact Hne]. apply Hsub. simpl. rewrite Hq. apply orb_true_r. }
      unfold is_body in G0. apply full_dep. destruct (get (Idx b) st) as [ib|]; [|contradiction]. destruct (vstatic ib) as [k|] eqn:Ek; [|contradiction]. exists ib, k.
      split; [reflexivity|]. split; [exact Ek|]. intros r0 Hr0. assert (Hin : In r0 [SFun M quo (SFun m (arglen_of ml) r); SFun M (ASta 1) (SFun m rem r)]) by (eapply nthz_In; eauto).
      destruct Hin as [<-|[<-|[]]]; cbn [full]; rewrite !has_get; destruct (get (Idx M) st); try contradiction; destruct (get (Idx m) st); try contradiction; rewrite Hr; reflexivity.
  - (* merge *) cbn [view_sig] in Es. destruct ((M =? m) || (negb (d =? M) && negb (d =? m) && any_accept d sg)) eqn:Ec; [discriminate|].
    apply orb_false_iff in Ec. destruct Ec as [EMm Ed]. apply Z.eqb_neq in EMm.
    assert (Hg : (forall q, q <> d -> q <> M -> q <> m -> get (Idx q) st' = get (Idx q) st) /\
                 (get (Idx M) st' <> None \/ get (Idx m) st' <> None -> get (Idx d) st <> None)).
    { assert (Hcs : forall q, get (Idx q) (clean_merge M m d st) = if (q =? d) || (q =? M) || (q =? m) then None else get (Idx q) st).
      { intros q. unfold clean_merge. rewrite get_remove. cbn [tag_mem existsb tag_eqb]. rewrite !orb_false_r. cbn [orb]. rewrite !orb_assoc. reflexivity. }
      assert (Hc2 : get (Idx M) (clean_merge M m d st) = None /\ get (Idx m) (clean_merge M m d st) = None). { rewrite !Hcs, !Z.eqb_refl, !orb_true_r. auto. } destruct Hc2 as [HcM Hcm].
      destruct (has_length t m _) as [hm|]; [|discriminate]. cbn [obind] in Hs. destruct (has_length t M _) as [hM|]; [|discriminate]. cbn [obind] in Hs.
      destruct hm, hM; cbn [andb] in Hs; destruct (get (Len d) st) as [ld|], (get (Idx d) st) as [id|];
        try (destruct (length_ t m _); [|discriminate]; cbn [obind] in Hs); try (destruct (length_ t M _); [|discriminate]; cbn [obind] in Hs); injection Hs as <-;
        (split; [intros q H1 H2 H3; apply Z.eqb_neq in H1, H2, H3; rewrite ?get_with; cbn [get tag_eqb]; rewrite ?H2, ?H3, Hcs, H1, H2, H3; reflexivity|]);
        first [intros _; discriminate | rewrite ?get_with; cbn [get tag_eqb]; rewrite HcM, Hcm; intros [H|H]; exact H]. }
    destruct Hg as [Hg1 Hg2].
    assert (Hg3 : forall q, any_accept q sg = true -> mem q [M; m] = false -> get (Idx q) st' = get (Idx q) st).
    { intros q Hq Hm. cbn [mem existsb] in Hm. rewrite orb_false_r in Hm. apply orb_false_iff in Hm. destruct Hm as [A1 A2]. apply Z.eqb_neq in A1, A2. apply Hg1; auto.
      intros ->. rewrite Hq, andb_true_r in Ed. apply Z.eqb_neq in A1, A2. rewrite A1, A2 in Ed. discriminate. }
    apply (sreplace_full [M; m] _ st _ sg sg' Hn Es Hf Hg3).
    intros o o' Hhit Hno [Hsub _] Ef Ho. destruct (hit_lists _ _ _ Hhit) as (od & Hod & [(al & r & ->)|(rs & ->)]); [|discriminate].
    cbn [full] in Ho. apply andb_true_iff in Ho. destruct Ho as [H1 H2]. apply snodup_fun in Hno. destruct Hno as [Hnod Hnr].
    assert (Hsubr : forall q, any_accept q r = true -> any_accept q sg = true) by (intros q Hq; apply Hsub; simpl; rewrite Hq; apply orb_true_r).
    apply (sreplace_full [m; M] _ st _ r o' Hnr Ef H2).
    + intros q Hq Hm. apply Hg3; [auto|]. cbn [mem existsb] in *. rewrite orb_false_r in *. rewrite orb_comm. exact Hm.
    + intros o1 o2 Hhit1 Hno1 [Hsub1 _] Ef1 Ho1. destruct (hit_lists _ _ _ Hhit1) as (idd & Hid & [(al1 & r1 & ->)|(rs1 & ->)]); [|discriminate].
      destruct (Z.eqb_spec od idd) as [|Hdiff]; [discriminate|]. injection Ef1 as <-. cbn [full] in *. apply andb_true_iff in Ho1. destruct Ho1 as [K1 K2]. rewrite has_get in *.
      assert (Hgd : get (Idx d) st <> None). { apply Hg2. destruct Hid as [->| ->]; [right|left]; intros E; rewrite E in K1; discriminate. }
      destruct (get (Idx d) st); [|contradiction]. cbn [andb]. apply (full_below idd al1 r1 st st' Hno1); [|exact K2].
      intros q Hq Hne. assert (Hqr : any_accept q r = true) by (apply Hsub1; simpl; rewrite Hq; apply orb_true_r). apply Hg3; [auto|].
      assert (Hqo : q <> od) by (intros ->; congruence). cbn [mem existsb]. rewrite orb_false_r. apply orb_false_iff. rewrite !Z.eqb_neq. destruct Hod as [->| ->], Hid as [->| ->]; split; congruence.
  - (* zcurve *) cbn [view_sig] in Es. destruct (_ && _ && _ && _ && nodupb ds && _) eqn:Ec; [|discriminate]. repeat (apply andb_true_iff in Ec; let H := fresh "Hc" in destruct Ec as [Ec H]).
    apply nodupb_NoDup in Hc0.
    assert (Hg : (forall q, q <> d -> ~ In q ds -> get (Idx q) st' = get (Idx q) st) /\ (forall q, In q ds -> get (Idx q) st' <> None -> get (Idx d) st <> None)).
    { assert (Hcs : forall q, get (Idx q) (clean_zcurve d ds st) = if (q =? d) || mem q ds then None else get (Idx q) st).
      { intros q. unfold clean_zcurve. rewrite get_remove. unfold tag_mem. cbn [existsb tag_eqb]. rewrite existsb_app. assert (E1 : existsb (tag_eqb (Idx q)) (map Idx ds) = mem q ds) by (unfold mem; clear; induction ds as [|x l IH]; cbn; [reflexivity|rewrite IH; reflexivity]).
        assert (E2 : existsb (tag_eqb (Idx q)) (map Len ds) = false) by (clear; induction ds as [|x l IH]; cbn; auto). rewrite E1, E2, orb_false_r. reflexivity. }
      destruct (get (Idx d) st) as [i|] eqn:Ei.
      - destruct (omap _ ds) as [lens|]; [|discriminate]. cbn [obind] in Hs. injection Hs as <-. split; [|intros; discriminate]. intros q Hq1 Hq2. rewrite get_with.
        assert (E : get (Idx q) (combine (map Idx ds) (zc_indices sl gl i lens)) = None). { clear -Hq2. generalize (zc_indices sl gl i lens). induction ds as [|x l IH]; intros [|y ys]; cbn; try reflexivity.
          destruct (Z.eqb_spec q x) as [->|]; [exfalso; apply Hq2; left; reflexivity|]. apply IH. intros H. apply Hq2. right. exact H. }
        rewrite E, Hcs. apply Z.eqb_neq in Hq1. apply mem_false in Hq2. rewrite Hq1, Hq2. reflexivity.
      - injection Hs as <-. split; [|intros q Hq; rewrite Hcs, (proj2 (mem_In q ds) Hq), orb_true_r; auto]. intros q Hq1 Hq2. rewrite Hcs. apply Z.eqb_neq in Hq1. apply mem_false in Hq2. rewrite Hq1, Hq2. reflexivity. }
    destruct Hg as [Hg1 Hg2].
    assert (Hg3 : forall q, any_accept q sg = true -> mem q ds = false -> get (Idx q) st' = get (Idx q) st).
    { intros q Hq Hm. apply Hg1; [|apply mem_false, Hm]. intros ->. rewrite Hq, Hm in Hc. discriminate. }
    assert (Hz : forall n acc s0 s1 seen, NoDup seen -> incl seen ds -> (length seen + n)%nat = length ds -> snodup s0 = true ->
      (forall q, any_accept q s0 = true -> any_accept q sg = true /\ ~ In q seen) -> hits ds s0 -> zc_replace n acc d ds s0 = Some s1 -> full s0 st' = true -> full s1 st = true).
    { induction n as [|n IHn]; intros acc s0 s1 seen Nd Inc Len Sn Acc Hi0 Ez Hf0; [destruct Hi0 as [(e1 & al1 & r1 & Hm1 & ->)|(e1 & rs1 & Hm1 & ->)]; discriminate|].
      destruct Hi0 as [(e & al & r & Hm & ->)|(e1 & rs1 & Hm1 & ->)]; [|cbn in Ez; destruct n; discriminate]. apply mem_In in Hm.
      assert (Hes : ~ In e seen) by (apply Acc; simpl; rewrite Z.eqb_refl; reflexivity). pose proof Sn as Sn'. apply snodup_fun in Sn'. destruct Sn' as [Sn1 Sn2].
      cbn [full] in Hf0. apply andb_true_iff in Hf0. destruct Hf0 as [F1 F2]. rewrite has_get in F1.
      assert (Nd' : NoDup (e :: seen)) by (constructor; assumption). assert (Inc' : incl (e :: seen) ds) by (intros x [<-|Hx]; auto).
      assert (Accr : forall q, any_accept q r = true -> any_accept q sg = true /\ ~ In q (e :: seen)).
      { intros q Hq. destruct (Acc q) as [A1 A2]; [simpl; rewrite Hq; apply orb_true_r|]. split; [exact A1|]. intros [<-|Hx]; [congruence|contradiction]. }
      destruct n as [|n].
      - cbn [zc_replace] in Ez. injection Ez as <-. cbn [full]. rewrite has_get. assert (Hd : get (Idx d) st <> None) by (apply (Hg2 e Hm); intros E; rewrite E in F1; discriminate).
        destruct (get (Idx d) st); [|contradiction]. cbn [andb]. rewrite <- F2. apply full_ext. intros q Hq. symmetry. destruct (Accr q Hq) as [A1 A2]. apply Hg3; [exact A1|].
        apply mem_false. intros Hin. apply A2. assert (Hall : incl ds (e :: seen)) by (apply NoDup_length_incl; [exact Nd'|cbn [length]; lia|exact Inc']). apply Hall, Hin.
      - change (sreplace ds (zc_replace (S n) (arglen_mul acc al) d ds) r = Some s1) in Ez. apply (sreplace_full ds _ st _ r s1 Sn2 Ez F2); [intros q Hq; apply Hg3, Accr, Hq|].
        intros o o' Hi0 Hno [Hsub _] Ef Ho. refine (IHn _ o o' (e :: seen) Nd' Inc' _ Hno _ Hi0 Ef Ho); [cbn [length]; lia|]. intros q Hq. apply Accr, Hsub, Hq. }
    apply (sreplace_full ds _ st _ sg sg' Hn Es Hf Hg3).
    intros o o' Hi0 Hno [Hsub _] Ef Ho. refine (Hz _ _ o o' [] (NoDup_nil _) _ _ Hno _ Hi0 Ef Ho); [intros x []|reflexivity|]. intros q Hq. split; [apply Hsub, Hq|intros []].
  - (* reorder *) injection Hs as <-. cbn [view_sig] in Es. apply (build_full sg st ds Hf [] sg' Es). intros x v Hx. discriminate.
  - (* hoist *) injection Hs as <-. cbn [view_sig] in Es. destruct (sig_find_dim d [] sg) as [o|] eqn:Eo; [|discriminate].
    pose proof (find_full d sg [] st o Eo Hf ltac:(intros x v Hx; discriminate)) as Ho. destruct o as [| |d0 a r|]; try discriminate.
    destruct (find_dim d sg [] _ Eo) as [(al & r0 & E)|(rs & E)]; [|discriminate]. injection E as -> -> ->.
    destruct (sreplace [d] _ sg) as [s1|] eqn:E1; [|discriminate]. injection Es as <-. cbn [full] in *. apply andb_true_iff in Ho. destruct Ho as [Ho _]. rewrite Ho. cbn [andb].
    apply (sreplace_full [d] _ st st sg s1 Hn E1 Hf); [reflexivity|]. intros o o' Hhit Hno _ Ef Ho'. apply hit_one in Hhit. destruct Hhit as [(al1 & r1 & ->)|(rs1 & ->)]; [|discriminate].
    injection Ef as <-. cbn [full] in Ho'. apply andb_true_iff in Ho'. apply Ho'.
  - (* rename *) injection Hs as <-. cbn [view_sig] in Es. destruct (nodupb (map fst ps) && nodupb (map snd ps) && _) eqn:Ec; [|discriminate]. injection Es as <-.
    apply andb_true_iff in Ec. destruct Ec as [Ec _]. apply andb_true_iff in Ec. destruct Ec as [N1 N2]. apply nodupb_NoDup in N1, N2.
    assert (Hg : forall q v, get (Idx q) (rename_state ps st) = Some v -> get (Idx (rename_dim ps q)) st = Some v).
    { intros q v. rewrite get_rename_state, Views2.ext_name_alt by assumption. destruct (_ && _); [discriminate|auto]. }
    clear Ht Hn. revert Hf. induction sg as [c| |d al r IH|d rs IH] using sig_ind'; intros Hf; try reflexivity.
    + cbn [full rename_sig] in *. apply andb_true_iff in Hf. destruct Hf as [H1 H2]. rewrite has_get in *. destruct (get (Idx d) (rename_state ps st)) as [v|] eqn:E; [|discriminate].
      rewrite (Hg d v E), (IH H2). reflexivity.
    + apply full_dep in Hf. destruct Hf as (v & k & Hv & Hk & Hr). change (rename_sig ps (SDep d rs)) with (SDep (rename_dim ps d) (map (rename_sig ps) rs)). apply full_dep.
      exists v, k. split; [apply Hg, Hv|]. split; [exact Hk|]. intros r Er. rewrite nthz_map in Er. destruct (nthz rs k) as [r0|] eqn:E0; [|discriminate]. injection Er as <-.
      rewrite Forall_forall in IH. apply (IH r0 (nthz_In _ _ _ E0)), Hr. reflexivity.
Qed.
