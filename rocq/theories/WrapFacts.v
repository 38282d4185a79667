(** * Views in the order of a traverser and views around the structure: proofs (C68) *)

From Verif Require Import RangeFacts Views3 BagView Parts Sections StateProofs.
From Verif Require Export SpecWrap.

(** ** Structures that give the same answers *)

Definition same_answers (s t : struct) : Prop :=
  signature s = signature t /\
  forall q sg st, signature s = Some sg -> any_accept q sg = true -> has_length s q st = has_length t q st /\ length_ s q st = length_ t q st.

Lemma answers_sym s t : same_answers s t -> same_answers t s.
Proof. intros [Hs H]. split; [congruence|]. intros q sg st E Ha. destruct (H q sg st) as [A B]; [congruence|exact Ha|]. split; congruence. Qed.
Lemma answers_trans s t u : same_answers s t -> same_answers t u -> same_answers s u.
Proof.
  intros [H1 A1] [H2 A2]. split; [congruence|]. intros q sg st E Ha. destruct (A1 q sg st E Ha) as [B C]. destruct (A2 q sg st ltac:(congruence) Ha). split; congruence.
Qed.

Lemma answers_one s : same_answers (Union [s]) s.
Proof.
  split; [apply signature_one|]. intros q sg st E Ha. rewrite signature_one in E. split; [|apply (length_one s q st sg E Ha)].
  unfold has_length. cbn [lenops map fst first_match]. rewrite E, Ha. reflexivity.
Qed.

Section View.
  Variables (v : view) (s t : struct).
  Hypothesis (Hst : same_answers s t).
  Hypothesis (Ht : forall d, In d (takes v) -> has_dim s d).

  Lemma below q : has_dim s q -> forall st, has_length s q st = has_length t q st /\ length_ s q st = length_ t q st.
  Proof using Hst. unfold has_dim. destruct (signature s) as [sg|] eqn:E; [|intros []]. intros Ha st. exact (proj2 Hst q sg st E Ha). Qed.
  Lemma below_h q : has_dim s q -> forall st, has_length s q st = has_length t q st.
  Proof using Hst. intros H st. apply (below q H st). Qed.
  Lemma below_l q : has_dim s q -> forall st, length_ s q st = length_ t q st.
  Proof using Hst. intros H st. apply (below q H st). Qed.

  Ltac present := first [assumption | apply Ht; cbn; tauto].
  Ltac agree :=
    repeat first
    [ reflexivity
    | match goal with |- context [has_length s ?x ?y] => rewrite (below_h x) by present end
    | match goal with |- context [length_ s ?x ?y] => rewrite (below_l x) by present end
    | match goal with |- obind ?o _ = obind ?o _ => destruct o; cbn [obind]; [|reflexivity] end
    | match goal with |- obind (obind ?o _) _ = obind (obind ?o _) _ => destruct o; cbn [obind]; [|reflexivity] end
    | match goal with |- oand ?a (obind ?o _) = oand ?a (obind ?o _) => destruct o; cbn [obind]; [|reflexivity] end
    | match goal with |- (if ?c then _ else _) = (if ?c then _ else _) => let E := fresh "E" in destruct c eqn:E end
    | match goal with |- match ?c with Some _ => _ | None => _ end = match ?c with Some _ => _ | None => _ end => destruct c end ].

  Lemma view_answers_sub st : sub_state v s st = sub_state v t st.
  Proof using Hst Ht.
    unfold sub_state. destruct v; cbn [takes] in Ht; cbn [view_sub_state]; cbv zeta; agree.
    rewrite (omap_ext_in (fun q => length_ s q (clean_zcurve d ds st)) (fun q => length_ t q (clean_zcurve d ds st))); [reflexivity|].
    intros q Hq. apply below_l, Ht, Hq.
  Qed.

  Lemma view_answers : same_answers (View v s) (View v t).
  Proof using Hst Ht.
    pose proof view_answers_sub as Hsub. unfold sub_state in Hsub. assert (Esig : signature (View v s) = signature (View v t)) by (cbn [signature]; rewrite (proj1 Hst); reflexivity).
    split; [exact Esig|]. intros q sg st E Ha.
    destruct (signature_View_inv _ _ _ E) as (s0 & Es & Ev).
    assert (Hq : forall x, any_accept x s0 = true -> has_dim s x) by (intros x Hx; unfold has_dim; rewrite Es; exact Hx).
    assert (Hback : forall ps, v = VRename ps -> has_dim s (rename_dim (swap_pairs ps) q)).
    { intros ps ->. cbn [view_sig] in Ev. fold (rename_ok ps s0) in Ev. destruct (rename_ok ps s0) eqn:Ok; [|discriminate]. injection Ev as <-.
      apply rename_accept in Ha. destruct Ha as (x & Hx & <-). rewrite (GoodFacts.rename_back ps s0 x Ok Hx). apply Hq, Hx. }
    assert (Hin : In q (view_names v) \/ has_dim s q) by (destruct (view_accept v s0 sg q Ev Ha); auto).
    assert (Hz : forall sl gl d ds, v = VZCurve sl gl d ds -> forall st', oall (map (fun x => has_length s x st') ds) = oall (map (fun x => has_length t x st') ds) /\
      omap (fun x => length_ s x st') ds = omap (fun x => length_ t x st') ds).
    { intros sl gl d ds Hv st'. assert (Hd : forall x, In x ds -> has_dim s x) by (rewrite Hv in Ht; exact Ht). split.
      - f_equal. apply map_ext_in. intros x Hx. apply below_h, Hd, Hx.
      - apply omap_ext_in. intros x Hx. apply below_l, Hd, Hx. }
    assert (Hh : has_length (View v s) q st = has_length (View v t) q st).
    { unfold has_length. cbn [lenops fst]. rewrite <- (proj1 Hst).
      change (fst (lenops s)) with (has_length s). change (snd (lenops s)) with (length_ s). change (fst (lenops t)) with (has_length t). change (snd (lenops t)) with (length_ t).
      destruct v; cbn [takes view_names] in *; cbn [view_has_length]; cbv zeta; rewrite <- ?Hsub; agree.
      all: try (apply (Hz _ _ _ _ eq_refl)).
      all: try (apply below_h, (Hback _ eq_refl)).
      all: assert (Hp : has_dim s q) by (destruct Hin as [Hin|Hin]; [|exact Hin]; first [apply Ht, Hin | cbn [In] in Hin; repeat (destruct Hin as [<-|Hin]; [first [present | exfalso; rewrite ?Z.eqb_refl, ?orb_true_r in *; discriminate]|]); first [destruct Hin | apply Ht, Hin]]).
      all: first [apply below_h, Hp | rewrite (below_h q Hp); reflexivity]. }
    split; [exact Hh|]. unfold length_ at 1 2. unfold has_length in Hh at 1 2. cbn [lenops fst snd] in Hh |- *. rewrite <- (proj1 Hst) in Hh |- *. rewrite <- Hh. clear Hh.
    match goal with |- guard ?h _ = _ => destruct h as [[|]|] eqn:Eh; [|reflexivity|reflexivity] end. cbn [guard].
    change (fst (lenops s)) with (has_length s). change (snd (lenops s)) with (length_ s). change (fst (lenops t)) with (has_length t). change (snd (lenops t)) with (length_ t).
    destruct v; cbn [takes view_names] in *; cbn [view_length]; cbv zeta; rewrite <- ?Hsub; agree.
    all: try (rewrite (proj2 (Hz _ _ _ _ eq_refl _)); reflexivity).
    all: try (apply below_l, (Hback _ eq_refl)).
    all: cbn [view_has_length] in Eh.
    all: assert (Hp : has_dim s q) by (destruct Hin as [Hin|Hin]; [|exact Hin]; first [apply Ht, Hin | cbn [In] in Hin; repeat (destruct Hin as [<-|Hin]; [first [present | exfalso; rewrite ?Z.eqb_refl, ?orb_true_r in *; discriminate]|]); first [destruct Hin | apply Ht, Hin]]).
    all: first [apply below_l, Hp | rewrite (below_l q Hp); reflexivity].
  Qed.
End View.

(** ** Orders *)

Lemma has_dim_answers s t d : same_answers s t -> has_dim s d -> has_dim t d.
Proof. intros [E _]. unfold has_dim. rewrite E. auto. Qed.

Lemma suits_answers p : forall s t, same_answers s t -> suits p s -> suits p t.
Proof.
  induction p as [|[d|v] p IH]; intros s t H Hs; [exact I|exact Hs|]. destruct Hs as [Hd Hs]. split.
  - intros d Hin. apply (has_dim_answers s t d H), Hd, Hin.
  - apply (IH (View v s)); [|exact Hs]. apply view_answers; assumption.
Qed.

Lemma suits_app p q s : suits (p ++ q) s <-> suits p s /\ suits q (apply p s).
Proof.
  revert s. induction p as [|[d|v] p IH]; intros s; cbn [app suits apply fold_left apply_layer].
  - tauto.
  - split; [intros []|intros [[] _]].
  - rewrite (IH (View v s)). unfold apply. tauto.
Qed.

Lemma suits_fix e s : suits (p_fix e) s.
Proof.
  revert s. induction e as [|[x w] e IH]; intros s; [exact I|]. unfold p_fix. cbn [flat_map fst snd]. fold (p_fix e).
  destruct x; cbn [app]; [|apply IH|apply IH]. split; [intros d0 []|apply IH].
Qed.

Lemma apply_answers p : forall s t, same_answers s t -> suits p s -> same_answers (apply p s) (apply p t).
Proof.
  induction p as [|[d|v] p IH]; intros s t H Hs; [exact H|destruct Hs|]. destruct Hs as [Hd Hs]. apply IH; [|exact Hs]. apply view_answers; assumption.
Qed.

(** The state that the structure under the views gets. *)
Fixpoint down (p : proto) (s : struct) (st : state) : option state :=
  match p with
  | [] => Some st
  | LView v :: r => do st' <- down r (View v s) st; sub_state v s st'
  | LVector _ :: _ => None
  end.

Lemma down_answers p : forall s t st, same_answers s t -> suits p s -> down p s st = down p t st.
Proof.
  induction p as [|[d|v] p IH]; intros s t st H Hs; [reflexivity|reflexivity|]. destruct Hs as [Hd Hs]. cbn [down].
  rewrite (IH (View v s) (View v t) st (view_answers v s t H Hd) Hs). destruct (down p (View v t) st) as [st'|]; [|reflexivity]. apply view_answers_sub; assumption.
Qed.

Lemma down_app p q s st : down (p ++ q) s st = do st' <- down q (apply p s) st; down p s st'.
Proof.
  revert s. induction p as [|[d|v] p IH]; intros s; cbn [app down apply fold_left apply_layer].
  - destruct (down q s st); reflexivity.
  - destruct (down q _ st); reflexivity.
  - rewrite (IH (View v s)). fold (apply p (View v s)). destruct (down q (apply p (View v s)) st); reflexivity.
Qed.

(** The state of a traverser over one union. *)
Lemma state_at_down ss p : forall st x, suits p x -> (forall v u, same_type (Union ss) (View v u) = false) ->
  state_at (Union ss) (apply p x) st = do st' <- down p x st; state_at (Union ss) x st'.
Proof.
  induction p as [|[d|v] p IH]; intros st x Hs Hu; [reflexivity|destruct Hs|]. destruct Hs as [_ Hs]. cbn [apply fold_left apply_layer down]. fold (apply p (View v x)).
  rewrite (IH st (View v x) Hs Hu). destruct (down p (View v x) st) as [st'|]; [|reflexivity]. cbn [obind]. apply state_at_view, Hu.
Qed.

Lemma state_at_union ss st : state_at (Union ss) (Union ss) st = Some st.
Proof. cbn [state_at has_state_at]. rewrite same_type_refl. reflexivity. Qed.

(** ** Where the views lead *)

Lemma down_offset p : forall s st st' x start o, down p s st' = Some st -> (forall v u, x <> View v u) ->
  offset_of x (apply p s) st' start = Some o -> offset_of x s st start = Some o.
Proof.
  induction p as [|[d|v] p IH]; intros s st st' x start o Hd Hx E; cbn [down] in Hd.
  - injection Hd as <-. exact E.
  - discriminate.
  - destruct (down p (View v s) st') as [st1|] eqn:E1; [|discriminate]. cbn [obind] in Hd.
    specialize (IH (View v s) st1 st' x start o E1 Hx E). cbn [offset_of] in IH. unfold guard in IH.
    assert (Hn : same_type x (View v s) = false) by (destruct x; try reflexivity; exfalso; eapply Hx; reflexivity).
    rewrite Hn, Hd in IH. destruct (has_offset_of x (View v s) st1) as [[|]|]; try discriminate. exact IH.
Qed.

Lemma down_reaches p s st st' : down p s st' = Some st -> reaches s st (apply p s) st'.
Proof.
  intros Hd. split; [intros x start o Hx; apply (down_offset p s st st' x start o Hd Hx)|]. intros o o' E E'.
  unfold offset in E, E'. destruct (scalar_t s st) as [c|]; [|discriminate]. destruct (scalar_t (apply p s) st') as [c'|]; [|discriminate].
  cbn [obind] in E, E'. apply (down_offset p s st st' _ _ _ Hd) in E'; [|discriminate].
  assert (c = c') by (eapply scalar_unique; eauto using offset_of_has). subst. congruence.
Qed.

Lemma down_passes p : Forall passes p -> forall s st, down p s st <> None.
Proof.
  induction 1 as [|[d|v] p Hv _ IH]; intros s st; cbn [down]; [discriminate|destruct Hv|].
  destruct (down p (View v s) st) as [st'|] eqn:E; [|exfalso; exact (IH _ _ E)]. cbn [obind]. unfold sub_state. destruct v; cbn [passes] in Hv; try contradiction; cbn [view_sub_state]; discriminate.
Qed.

(** ** Loops *)

Section Loops.
  Variables (top top' : struct) (sg : sig).
  Hypothesis (Hans : same_answers top top') (Hsg : signature top = Some sg).

  Lemma loop_len d st x : sig_find_dim d st sg = Some x -> length_ top d st = length_ top' d st.
  Proof using Hans Hsg. intros E. apply (proj2 Hans d sg st Hsg). eapply sig_found, E. Qed.

  Lemma ok_answers (ok ok' : state -> bool) t : (forall st, ok st = true -> ok' st = true) -> forall st, fe_ok top sg ok t st = true -> fe_ok top' sg ok' t st = true.
  Proof using Hans Hsg.
    intros Hok. induction t as [|d bs IH] using dtree_ind'; intros st; cbn [fe_ok]; [apply Hok|].
    destruct (sig_find_dim d st sg) as [[c| |d' al r|d' rs]|] eqn:Ef; try discriminate.
    - rewrite (loop_len _ _ _ Ef). destruct (length_ top' d st); [|discriminate].
      destruct bs as [|b [|]]; try discriminate. inversion IH as [|? ? Hb _]; subst. apply Hb.
    - generalize 0. induction IH as [|b bs Hb _ IHl]; intros k H; [reflexivity|]. apply andb_true_iff in H. destruct H as [H1 H2].
      apply andb_true_iff. split; [apply Hb, H1|apply IHl, H2].
  Qed.

  Lemma run_answers t : forall st, fe_run top sg t st = fe_run top' sg t st.
  Proof using Hans Hsg.
    induction t as [|d bs IH] using dtree_ind'; intros st; cbn [fe_run]; [reflexivity|].
    destruct (sig_find_dim d st sg) as [[c| |d' al r|d' rs]|] eqn:Ef; try reflexivity.
    - rewrite (loop_len _ _ _ Ef). destruct (length_ top' d st) as [len|]; [|reflexivity].
      destruct bs as [|b [|]]; try reflexivity. inversion IH as [|? ? Hb _]; subst. destruct (vz len) as [n|]; [|reflexivity]. f_equal. apply map_ext. intros i. apply Hb.
    - f_equal. generalize 0. induction IH as [|b bs Hb _ IHl]; intros k; [reflexivity|]. rewrite Hb, IHl. reflexivity.
  Qed.
End Loops.

Section Wrap.
  Variables (s : struct) (p q : proto).
  Hypothesis (Hsuits : suits (p ++ q) s).
  Let A := order (traverser [s]) (p ++ q).
  Let B := order (traverser [apply p s]) q.

  Lemma wrap_p : suits p (Union [s]) /\ suits p s.
  Proof using Hsuits.
    apply suits_app in Hsuits. destruct Hsuits as [H _]. split; [|exact H]. apply (suits_answers p s); [apply answers_sym, answers_one|exact H].
  Qed.
  Lemma wrap_base : same_answers (apply p (Union [s])) (Union [apply p s]).
  Proof using Hsuits.
    apply (answers_trans _ (apply p s)); [apply apply_answers; [apply answers_one|apply wrap_p]|apply answers_sym, answers_one].
  Qed.
  Lemma wrap_q : suits q (apply p (Union [s])) /\ suits q (Union [apply p s]).
  Proof using Hsuits.
    pose proof Hsuits as H. apply suits_app in H. destruct H as [_ H]. split.
    - apply (suits_answers q (apply p s)); [|exact H]. apply answers_sym, apply_answers; [apply answers_one|apply wrap_p].
    - apply (suits_answers q (apply p s)); [apply answers_sym, answers_one|exact H].
  Qed.

  Lemma wrap_tops e : same_answers (top_struct (inner A e)) (top_struct (inner B e)).
  Proof using Hsuits.
    rewrite !top_inner. apply apply_answers; [|apply suits_fix]. unfold A, B, top_struct, order, traverser. cbn [tr_order tr_struct app].
    rewrite apply_app. apply apply_answers; [apply wrap_base|apply wrap_q].
  Qed.
  Lemma wrap_top : same_answers (top_struct A) (top_struct B).
  Proof using Hsuits. pose proof (wrap_tops []) as H. rewrite !top_inner in H. exact H. Qed.

  Lemma wrap_state e : tr_state (inner A e) = do st' <- tr_state (inner B e); down p s st'.
  Proof using Hsuits.
    unfold tr_state, A, B, inner, order, traverser, top_struct. cbn [tr_order tr_struct app].
    pose proof (suits_app (q ++ p_fix e) [] (Union [apply p s])) as _.
    assert (HB : suits (q ++ p_fix e) (Union [apply p s])) by (apply suits_app; split; [apply wrap_q|apply suits_fix]).
    assert (HA' : suits (q ++ p_fix e) (apply p (Union [s]))) by (apply suits_app; split; [apply wrap_q|apply suits_fix]).
    assert (HA : suits (p ++ q ++ p_fix e) (Union [s])) by (apply suits_app; split; [apply wrap_p|exact HA']).
    rewrite <- app_assoc. rewrite (state_at_down [s] _ [] (Union [s]) HA) by reflexivity. rewrite (state_at_down [apply p s] _ [] (Union [apply p s]) HB) by reflexivity.
    rewrite down_app. rewrite (down_answers (q ++ p_fix e) _ _ [] wrap_base HA').
    destruct (down (q ++ p_fix e) (Union [apply p s]) []) as [st'|]; [|reflexivity]. cbn [obind]. rewrite state_at_union. cbn [obind].
    rewrite (down_answers p (Union [s]) s st' (answers_one s) (proj1 wrap_p)). destruct (down p s st') as [st|]; [|reflexivity]. cbn [obind]. apply state_at_union.
  Qed.

  Lemma wrap_inner_ok e : inner_ok A e = inner_ok B e.
  Proof using Hsuits. unfold inner_ok. rewrite (proj1 (wrap_tops e)). reflexivity. Qed.

  (** The same sections. *)
  Lemma wrap_tree tree : exists o, for_tree A (fun _ => true) tree = out_map (map (inner A)) o /\ for_tree B (fun _ => true) tree = out_map (map (inner B)) o.
  Proof using Hsuits.
    unfold for_tree. pose proof wrap_top as Ht. rewrite <- (proj1 Ht). destruct (signature (top_struct A)) as [sg|] eqn:Es; [|exists Rejected; split; reflexivity].
    destruct tree as [tr|]; [|exists Rejected; split; reflexivity].
    assert (Hok : fe_ok (top_struct A) sg (fun st => inner_ok A st && true) tr [] = fe_ok (top_struct B) sg (fun st => inner_ok B st && true) tr []).
    { apply eq_true_iff_eq. split; apply ok_answers; auto using answers_sym; try (rewrite <- (proj1 Ht); exact Es); intros st; rewrite wrap_inner_ok; auto. }
    rewrite <- Hok. destruct (fe_ok _ _ _ _ _); [|exists Rejected; split; reflexivity].
    exists (fe_run (top_struct A) sg tr []). split; [reflexivity|]. rewrite (run_answers _ _ sg Ht Es). reflexivity.
  Qed.

  Theorem wrap_loops ds :
    (exists o, for_sections A ds = out_map (map (inner A)) o /\ for_sections B ds = out_map (map (inner B)) o) /\
    (exists o, for_dims A ds = out_map (map (inner A)) o /\ for_dims B ds = out_map (map (inner B)) o).
  Proof using Hsuits.
    unfold for_sections, for_sections_with, for_dims. rewrite <- (proj1 wrap_top). split; apply wrap_tree.
  Qed.

  (** The same iterations. *)
  Lemma wrap_states es : match omap tr_state (map (inner A) es), omap tr_state (map (inner B) es) with
    | Some l, Some l' => Forall2 (fun st st' => down p s st' = Some st) l l'
    | Some _, None => False
    | None, Some _ => ~ Forall passes p
    | None, None => True end.
  Proof using Hsuits.
    induction es as [|e es IH]; cbn [map omap]; [constructor|]. rewrite (wrap_state e).
    destruct (tr_state (inner B e)) as [st'|]; cbn [obind]; [|destruct (omap tr_state (map (inner A) es)); exact I].
    destruct (down p s st') as [st|] eqn:Ed.
    - destruct (omap tr_state (map (inner A) es)) as [l|], (omap tr_state (map (inner B) es)) as [l'|]; cbn [obind option_map] in *; auto.
    - destruct (omap tr_state (map (inner B) es)); [|exact I]. intros H. exact (down_passes p H s st' Ed).
  Qed.

  Lemma wrap_ok e : state_ok A e = true -> state_ok B e = true.
  Proof using Hsuits. unfold state_ok. rewrite wrap_state. destruct (tr_state (inner B e)); [reflexivity|discriminate]. Qed.
  Lemma wrap_ok_back e : Forall passes p -> state_ok B e = true -> state_ok A e = true.
  Proof using Hsuits.
    intros Hp. unfold state_ok. rewrite wrap_state. destruct (tr_state (inner B e)) as [st'|]; [|discriminate]. cbn [obind]. destruct (down p s st') eqn:Ed; [reflexivity|].
    exfalso. exact (down_passes p Hp s st' Ed).
  Qed.

  Lemma wrap_each_down ds : (for_each A ds = Rejected /\ ~ Forall passes p) \/ alike (fun st st' => down p s st' = Some st) (for_each A ds) (for_each B ds).
  Proof using Hsuits.
    unfold for_each, for_sections_with, for_tree. pose proof wrap_top as Ht. rewrite <- (proj1 Ht). destruct (signature (top_struct A)) as [sg|] eqn:Es; [|right; exact I].
    cbn [obind]. destruct (sections_tree sg ds) as [tr|]; [|right; exact I]. rewrite <- (run_answers _ _ sg Ht Es).
    assert (HAB : fe_ok (top_struct A) sg (fun st => inner_ok A st && state_ok A st) tr [] = true -> fe_ok (top_struct B) sg (fun st => inner_ok B st && state_ok B st) tr [] = true).
    { apply ok_answers; auto. intros st H. apply andb_true_iff in H. destruct H as [H1 H2]. rewrite <- wrap_inner_ok, H1. apply wrap_ok, H2. }
    assert (HBA : Forall passes p -> fe_ok (top_struct B) sg (fun st => inner_ok B st && state_ok B st) tr [] = true -> fe_ok (top_struct A) sg (fun st => inner_ok A st && state_ok A st) tr [] = true).
    { intros Hp. apply ok_answers; [apply answers_sym, Ht|rewrite <- (proj1 Ht); exact Es|]. intros st H. apply andb_true_iff in H. destruct H as [H1 H2]. rewrite wrap_inner_ok, H1. apply wrap_ok_back; assumption. }
    destruct (fe_ok (top_struct A) sg _ tr []).
    - rewrite (HAB eq_refl). destruct (fe_run (top_struct A) sg tr []) as [| |es]; [right; exact I|right; exact I|]. cbn [out_map out_bind].
      pose proof (wrap_states es) as H. destruct (omap tr_state (map (inner A) es)), (omap tr_state (map (inner B) es)); cbn [alike]; auto.
    - destruct (fe_ok (top_struct B) sg _ tr []); [|right; exact I]. left. split; [reflexivity|]. intros Hp. specialize (HBA Hp eq_refl). discriminate.
  Qed.

  Theorem wrap_each ds : for_each A ds = Rejected \/ alike (fun st st' => reaches s st (apply p s) st') (for_each A ds) (for_each B ds).
  Proof using Hsuits.
    destruct (wrap_each_down ds) as [[H _]|H]; [left; exact H|right]. revert H. unfold alike. destruct (for_each A ds), (for_each B ds); auto.
    induction 1; constructor; auto using down_reaches.
  Qed.
  Theorem wrap_passes ds : Forall passes p -> alike (fun st st' => reaches s st (apply p s) st') (for_each A ds) (for_each B ds).
  Proof using Hsuits.
    intros Hp. destruct (wrap_each_down ds) as [[_ H]|H]; [contradiction|]. revert H. unfold alike. destruct (for_each A ds), (for_each B ds); auto.
    induction 1; constructor; auto using down_reaches.
  Qed.
End Wrap.

(** ** Bags *)

Theorem wrap_bags g b p b' st st' : bag_view g b p = Done b' -> reaches (bg_struct b) st (bg_struct b') st' ->
  (forall v v', bag_read b st = Done v -> bag_read b' st' = Done v' -> v = v') /\
  (forall v b2 b2', bag_write b st v = Done b2 -> bag_write b' st' v = Done b2' -> bg_data b2 = bg_data b2').
Proof.
  intros Hb [Hx Ho]. destruct (bag_view_ok _ _ _ _ Hb) as (_ & Ed & _).
  assert (Hr : forall r r', bag_ref b st = Done r -> bag_ref b' st' = Done r' -> r = r').
  { intros r r' H1 H2. unfold bag_ref in H1, H2. rewrite Ed in H2.
    destruct (scalar_t (bg_struct b) st) as [c|] eqn:Ec; [|discriminate]. destruct (offset (bg_struct b) st) as [o|] eqn:Eo; [|discriminate].
    destruct (scalar_t (bg_struct b') st') as [c'|] eqn:Ec'; [|discriminate]. destruct (offset (bg_struct b') st') as [o'|] eqn:Eo'; [|discriminate].
    pose proof (Ho _ _ eq_refl eq_refl) as <-. assert (c = c'); [|subst; congruence].
    unfold offset in Eo, Eo'. rewrite Ec in Eo. rewrite Ec' in Eo'. cbn [obind] in Eo, Eo'. apply Hx in Eo'; [|discriminate]. eapply scalar_unique; eauto using offset_of_has. }
  split.
  - intros v v' H1 H2. unfold bag_read in *. destruct (bag_ref b st) as [| |r] eqn:E1; try discriminate. destruct (bag_ref b' st') as [| |r'] eqn:E2; try discriminate.
    rewrite (Hr _ _ eq_refl eq_refl) in H1. rewrite Ed in H2. congruence.
  - intros v b2 b2' H1 H2. destruct (write_inv _ _ _ _ H1) as (x & E1 & _ & ->). destruct (write_inv _ _ _ _ H2) as (x' & E2 & _ & ->).
    pose proof (Hr _ _ E1 E2) as E. injection E as <-. cbn [bg_data]. rewrite Ed. reflexivity.
Qed.

(** ** Lengths *)

Lemma sets_pass ls : Forall passes (set_lengths ls).
Proof. unfold set_lengths. induction ls; constructor; auto. exact I. Qed.

Lemma apply_signature p : forall s, signature (apply p s) <> None -> signature s <> None.
Proof.
  induction p as [|l p IH]; intros s H; [exact H|]. apply (IH (apply_layer s l)) in H. destruct l; cbn [apply_layer signature] in H; destruct (signature s); congruence.
Qed.

Lemma down_sets ls : forall s st st', down (set_lengths ls) s st' = Some st -> signature (apply (set_lengths ls) s) <> None ->
  edited st' (lengths ls) st /\ works_as (apply (set_lengths ls) s) st' s st.
Proof.
  induction ls as [|[d n] ls IH]; intros s st st' Hd Hs; cbn [set_lengths map down fst snd] in Hd.
  - injection Hd as <-. split; [intros u; reflexivity|apply works_refl].
  - fold (set_lengths ls) in Hd. destruct (down (set_lengths ls) (View (VSetLength d n) s) st') as [st1|] eqn:E1; [|discriminate]. cbn [obind] in Hd.
    change (signature (apply (set_lengths ls) (View (VSetLength d n) s)) <> None) in Hs. destruct (IH _ _ _ E1 Hs) as [He Hw].
    unfold sub_state in Hd. cbn [view_sub_state] in Hd. injection Hd as <-.
    assert (Hu : forall u, get u (with_ [(Len d, n)] st1) = if tag_eqb u (Len d) then Some n else get u st1).
    { intros u. destruct (tag_eqb_spec u (Len d)) as [->|Hne]; [apply lC01_with_get|apply lC01_with_other, Hne]. }
    split.
    + intros u. rewrite Hu. cbn [lengths map edit_look fst snd]. fold (lengths ls). destruct (tag_eqb u (Len d)); [reflexivity|apply He].
    + eapply works_comp; [exact Hw|]. apply set_length_follows; [exact (apply_signature _ _ Hs)|]. intros u. rewrite Hu. cbn [edit_look]. destruct (tag_eqb u (Len d)); reflexivity.
Qed.

Theorem wrap_lengths s ls q ds : suits (set_lengths ls ++ q) s ->
  alike (fun st st' => edited st' (lengths ls) st /\ works_as (apply (set_lengths ls) s) st' s st)
    (for_each (order (traverser [s]) (set_lengths ls ++ q)) ds) (for_each (order (traverser [apply (set_lengths ls) s]) q) ds).
Proof.
  intros Hsuits. destruct (wrap_each_down s (set_lengths ls) q Hsuits ds) as [[_ H]|H]; [destruct (H (sets_pass ls))|].
  destruct (for_each (order (traverser [s]) (set_lengths ls ++ q)) ds) as [| |l] eqn:EA; destruct (for_each (order (traverser [apply (set_lengths ls) s]) q) ds) as [| |l'] eqn:EB; cbn [alike] in *; auto.
  assert (Hs : signature (apply (set_lengths ls) s) <> None).
  { assert (EB' : signature (top_struct (order (traverser [apply (set_lengths ls) s]) q)) <> None).
    { unfold for_each, for_sections_with, for_tree in EB. destruct (signature (top_struct _)); [discriminate|]. discriminate EB. }
    clear EB. rename EB' into EB. unfold top_struct, order, traverser in EB. cbn [tr_order tr_struct app] in EB. apply apply_signature in EB. rewrite signature_one in EB. exact EB. }
  clear EA EB. induction H; constructor; auto. apply down_sets; assumption.
Qed.
