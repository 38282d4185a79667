(** * Structures whose lengths are known: nothing is rejected *)

From Coq Require Import Permutation.
From Verif Require Export Parts Avail GoodFacts AgnosticSig.
From Verif Require Import SpecKnown.

(** ** There are no tuple dimensions *)

Lemma sreplace_plain' ds f s : (forall o o', plain o = true -> f o = Some o' -> plain o' = true) ->
  forall s', plain s = true -> sreplace ds f s = Some s' -> plain s' = true.
Proof.
  intros Hf. induction s as [c| |d al r IH|d rs IH] using sig_ind'; intros s' Hp E; cbn [sreplace] in E; try (injection E as <-; reflexivity); try discriminate.
  destruct (mem d ds); [exact (Hf _ _ Hp E)|]. rewrite plain_fun in Hp. destruct (sreplace ds f r) as [r'|]; [|discriminate]. injection E as <-. rewrite plain_fun. apply IH; auto.
Qed.

Lemma zc_plain ds d n : forall acc o o', plain o = true -> zc_replace n acc d ds o = Some o' -> plain o' = true.
Proof.
  induction n as [|n IH]; intros acc [c| |x al r|x rs] o' Hc E; cbn [zc_replace] in E; try discriminate.
  destruct n as [|n]; [inv E; exact Hc|]. rewrite plain_fun in Hc. eapply sreplace_plain'; [|exact Hc|exact E]. intros a b Ha Hb. eapply IH; [exact Ha|exact Hb].
Qed.

Lemma rename_plain ps s : plain s = true -> plain (rename_sig ps s) = true.
Proof. induction s as [c| |d al r IH|d rs IH] using sig_ind'; cbn; intros H; auto; try discriminate. Qed.

Ltac one_plain Hc E := eapply sreplace_plain'; [|exact Hc|exact E]; clear; intros [c| |x al r|x rs] o' Ho Eo; try discriminate Ho; try discriminate Eo.

Lemma view_plain v t h s s' : signature t = Some s -> view_known v t h = true -> plain s = true -> view_sig v s = Some s' -> plain s' = true.
Proof.
  intros Es Hk Hc E. unfold view_known in Hk. rewrite Es in Hk. destruct v; try discriminate; cbn [view_sig] in E.
  - inv E. exact Hc.
  - one_plain Hc E. inv Eo. exact Ho.
  - one_plain Hc E. inv Eo. exact Ho.
  - one_plain Hc E. inv Eo. exact Ho.
  - one_plain Hc E. inv Eo. exact Ho.
  - one_plain Hc E. inv Eo. exact Ho.
  - one_plain Hc E. inv Eo. exact Ho.
  - one_plain Hc E; inv Eo; exact Ho.
  - destruct (_ || _); [discriminate|]. one_plain Hc E. inv Eo. exact Ho.
  - destruct (_ || _); [discriminate|]. one_plain Hc E. rewrite plain_fun in Ho. eapply sreplace_plain'; [|exact Ho|exact Eo]. clear. intros [c| |y al' r'|y rs] o1 Ho Eo; try discriminate. destruct (x =? y); [discriminate|]. inv Eo. exact Ho.
  - clear Hk. destruct (_ && _); [|discriminate]. eapply sreplace_plain'; [|exact Hc|exact E]. intros o o'. apply zc_plain.
  - eapply build_plain; eauto.
  - destruct (sig_find_dim d [] s) as [[| |x al r|]|]; try discriminate. destruct (sreplace _ _ _) as [s1|] eqn:E1; [|discriminate]. inv E. rewrite plain_fun. eapply sreplace_plain; eauto.
  - clear Hk. destruct (_ && _); [|discriminate]. inv E. apply rename_plain, Hc.
Qed.

Lemma known_plain s : forall h sg, known_with s h = true -> signature s = Some sg -> plain sg = true.
Proof.
  induction s as [c|d ts IH|d t IH|v t IH|ts IH] using struct_ind'; intros h sg Hk Es; cbn [known_with] in Hk; try discriminate.
  - injection Es as <-. reflexivity.
  - apply andb_prop in Hk. destruct Hk as [_ Hk]. cbn [signature] in Es. destruct (signature t) as [s|]; [|discriminate]. destruct (any_accept d s); [discriminate|]. injection Es as <-.
    rewrite plain_fun. exact (IH _ _ Hk eq_refl).
  - apply andb_prop in Hk. destruct Hk as [Hv Hk]. destruct (signature_View_inv _ _ _ Es) as (s0 & E0 & Ev). exact (view_plain v t h s0 sg E0 Hv (IH _ _ Hk E0) Ev).
  - destruct (signature_Union_inv _ _ Es) as (s0 & ss & F & Eu). inversion F as [|t0 x ts0 xs H0 _]; subst. inversion IH as [|? ? I0 _]; subst. cbn [forallb] in Hk. apply andb_prop in Hk.
    eapply union_plain; [exact Eu|]. exact (I0 _ _ (proj1 Hk) H0).
Qed.

(** ** Lengths in states *)

Definition sees (st : state) (h : dim -> bool) : Prop := forall q, has (Len q) st = h q.

Lemma sees_yes st h q : sees st h -> h q = true -> exists x, get (Len q) st = Some x.
Proof. intros H E. rewrite <- H in E. unfold has in E. destruct (get (Len q) st); [eauto|discriminate]. Qed.
Lemma sees_no st h q : sees st h -> h q = false -> get (Len q) st = None.
Proof. intros H E. rewrite <- H in E. unfold has in E. destruct (get (Len q) st); [discriminate|reflexivity]. Qed.

Lemma sees_off st h ts ds : sees st h -> (forall q, tag_mem (Len q) ts = mem q ds) -> sees (remove ts st) (off h ds).
Proof.
  intros H Ht q. unfold has, off. rewrite get_remove, Ht, <- H. unfold has. destruct (mem q ds); [rewrite andb_false_r; reflexivity|]. rewrite andb_true_r. reflexivity.
Qed.

Lemma sees_with st h items : sees st h -> (forall q, get (Len q) items = None) -> sees (with_ items st) h.
Proof. intros H Hi q. rewrite has_with. unfold has at 1. rewrite Hi. apply H. Qed.

Lemma sees_ext st h h' : (forall q, h q = h' q) -> sees st h -> sees st h'.
Proof. intros E H q. rewrite H. apply E. Qed.

Lemma sees_idx st h ts : sees st h -> (forall q, tag_mem (Len q) ts = false) -> sees (remove ts st) h.
Proof. intros H Ht q. unfold has. rewrite get_remove, Ht. apply H. Qed.

Lemma no_idx q st : get (Idx q) st = None -> has (Idx q) st = false.
Proof. unfold has. intros ->. reflexivity. Qed.

(** What is shown about the lengths of a structure. *)
Definition gives_length (t : struct) (q : dim) (st : state) : Prop := has_length t q st = Some true /\ exists n, length_ t q st = Some n.

Lemma omap_ln {A B} (f : A -> option B) l : (forall x, In x l -> exists y, f x = Some y) -> exists r, omap f l = Some r /\ length r = length l.
Proof.
  induction l as [|x l IH]; intros H; [exists []; auto|]. destruct (H x (or_introl eq_refl)) as [y Ey]. destruct IH as (r & Er & Hr); [intros z Hz; apply H; right; exact Hz|].
  exists (y :: r). cbn. rewrite Ey, Er. cbn. auto.
Qed.

Section View.
  Variables (v : view) (t : struct) (s0 sg : sig) (h : dim -> bool).
  Hypothesis E0 : signature t = Some s0.
  Hypothesis Ev : view_sig v s0 = Some sg.
  Hypothesis Hw : uswf (View v t) = true.
  Hypothesis Hk : view_known v t h = true.
  Hypothesis Hkt : known_with t (given_below v h) = true.
  Hypothesis IH : forall st q, sees st (given_below v h) -> any_accept q s0 = true -> get (Idx q) st = None -> gives_length t q st.

  Let Hs : signature (View v t) = Some sg. Proof. cbn [signature]. rewrite E0. exact Ev. Qed.
  Let Hp0 : plain s0 = true. Proof. exact (known_plain t _ s0 Hkt E0). Qed.
  Let Hp1 : plain sg = true. Proof. exact (view_plain v t h s0 sg E0 Hk Hp0 Ev). Qed.
  Let p' := map (fun d : dim => (d, @None Z)) (sdims s0).
  Let p := map (fun d : dim => (d, @None Z)) (sdims sg).

  Lemma in_p' q k : In (q, k) p' <-> any_accept q s0 = true /\ k = None.
  Proof.
    unfold p'. rewrite in_map_iff. split; [intros (x & Ex & Hx); injection Ex as <- <-; rewrite accept_sdims; auto|]. intros [Hq ->]. exists q. split; [reflexivity|]. apply accept_sdims, Hq.
  Qed.
  Lemma in_p q k : In (q, k) p <-> any_accept q sg = true /\ k = None.
  Proof.
    unfold p. rewrite in_map_iff. split; [intros (x & Ex & Hx); injection Ex as <- <-; rewrite accept_sdims; auto|]. intros [Hq ->]. exists q. split; [reflexivity|]. apply accept_sdims, Hq.
  Qed.

  Lemma down : prel v p' p /\ NoDup (map fst p').
  Proof.
    pose proof (plain_path sg (fun _ => 0) Hp1) as Ep. destruct (uview_down v t sg (fun _ => 0) p (fun _ => None) Hw Hs Ep) as (s1 & p1 & E1 & _ & _ & Ep1 & R & Hn).
    rewrite E0 in E1. injection E1 as <-. rewrite (plain_path s0 _ Hp0) in Ep1. injection Ep1 as <-. auto.
  Qed.

  (** The state given to the sub-structure exists, and it gives the lengths that it should. *)
  Lemma sub_known st : sees st h -> exists st', sub_state v t st = Some st' /\ sees st' (given_below v h).
  Proof.
    intros Hh. unfold sub_state. unfold view_known in Hk. rewrite E0 in Hk. clear Hw Hkt.
    destruct v as [d|d i|d n|d s|d s n|d s e|d s r|d|d M m|d M m pd|d b M m ml|M m d|sl gl d ds|ds|d|ps|xa xb d]; try discriminate; cbn [view_sub_state given_below] in *.
    - eexists. split; [reflexivity|]. apply sees_off; [exact Hh|]. intros q. cbn. rewrite orb_false_r. reflexivity.
    - eexists. split; [reflexivity|]. apply sees_with; [|reflexivity]. apply sees_off; [exact Hh|]. intros q. cbn. rewrite orb_false_r. reflexivity.
    - eexists. split; [reflexivity|]. intros q. rewrite has_with. rewrite (Hh q). f_equal. unfold has. cbn. destruct (q =? d); reflexivity.
    - eexists. split; [reflexivity|]. intros q. rewrite <- Hh. unfold has. destruct (get (Idx d) st) eqn:Ei, (get (Len d) st) eqn:El; rewrite ?get_with, ?get_remove; teq; eqdims; rewrite ?El; reflexivity.
    - eexists. split; [reflexivity|]. destruct (get (Idx d) st); [apply sees_with; [exact Hh|reflexivity]|exact Hh].
    - eexists. split; [reflexivity|]. destruct (get (Idx d) st); [apply sees_with; [exact Hh|reflexivity]|exact Hh].
    - eexists. split; [reflexivity|]. destruct (get (Idx d) st); [apply sees_with; [exact Hh|reflexivity]|exact Hh].
    - destruct (get (Idx d) st) as [i|] eqn:Ei; [|eauto]. assert (Hc : sees (remove [Idx d] st) h) by (apply sees_idx; [exact Hh|reflexivity]).
      destruct (IH (remove [Idx d] st) d Hc Hk) as [E1 [n E2]]; [rewrite get_remove; cbn; rewrite Z.eqb_refl; reflexivity|]. rewrite E1, E2. cbn [obind].
      eexists. split; [reflexivity|]. apply sees_with; [exact Hc|reflexivity].
    - apply andb_prop in Hk. destruct Hk as [Hd Hx]. set (cs := clean_blocks d M m st).
      assert (Hc : sees cs (off h [d; M; m])) by (apply sees_off; [exact Hh|]; intros q; cbn; rewrite !orb_false_r; destruct (q =? d); reflexivity).
      destruct (IH cs d Hc Hd) as [E1 [n E2]]; [unfold cs, clean_blocks; rewrite get_remove; cbn; rewrite Z.eqb_refl; reflexivity|].
      destruct (h M) eqn:EM, (h m) eqn:Em; try discriminate.
      + destruct (sees_yes _ _ _ Hh EM) as [lM ->]. rewrite (sees_no _ _ _ Hh Em), E1. cbn [obind negb]. destruct (get (Idx M) st), (get (Idx m) st); try (eexists; split; [reflexivity|exact Hc]).
        rewrite E2. cbn [obind]. eexists. split; [reflexivity|]. apply sees_with; [exact Hc|reflexivity].
      + destruct (sees_yes _ _ _ Hh Em) as [lm ->]. rewrite (sees_no _ _ _ Hh EM). eexists. split; [reflexivity|].
        destruct (get (Idx M) st), (get (Idx m) st); try exact Hc. apply sees_with; [exact Hc|reflexivity].
    - apply andb_prop in Hk. destruct Hk as [Hk1 Hx]. apply andb_prop in Hk1. destruct Hk1 as [HM Hm]. set (cs := clean_merge M m d st).
      assert (Hc : sees cs (off h [M; m; d])) by (apply sees_off; [exact Hh|]; intros q; cbn; rewrite !orb_false_r; destruct (q =? d), (q =? M), (q =? m); reflexivity).
      destruct (IH cs M Hc HM) as [E1 [n E2]]; [unfold cs, clean_merge; rewrite get_remove; cbn; rewrite Z.eqb_refl, !orb_true_r; reflexivity|].
      destruct (IH cs m Hc Hm) as [E3 [n' E4]]; [unfold cs, clean_merge; rewrite get_remove; cbn; rewrite Z.eqb_refl, !orb_true_r; reflexivity|].
      rewrite E3, E1. cbn [obind andb]. destruct (get (Idx d) st); [|eauto]. rewrite E4. cbn [obind]. eexists. split; [reflexivity|]. apply sees_with; [exact Hc|reflexivity].
    - set (tmp := clean_zcurve d ds st).
      assert (Hc : sees tmp (off h ds)).
      { intros q. unfold tmp, has, off. rewrite get_clean_zcurve_len, <- Hh. unfold has. destruct (mem q ds); [rewrite andb_false_r; reflexivity|]. rewrite andb_true_r. reflexivity. }
      destruct (get (Idx d) st) as [i|]; [|eauto].
      destruct (omap_ln (fun q => length_ t q tmp) ds) as (ls & -> & _).
      { intros q Hq. rewrite forallb_forall in Hk. destruct (IH tmp q Hc (Hk q Hq)) as [_ E]; [|exact E]. unfold tmp. rewrite get_clean_zcurve_idx. rewrite (proj2 (mem_In q ds) Hq), orb_true_r. reflexivity. }
      cbn [obind]. eexists. split; [reflexivity|]. apply sees_with; [exact Hc|]. intros q. apply get_combine_len.
    - eauto.
    - eauto.
    - eexists. split; [reflexivity|]. cbn [view_sig] in Ev. destruct (nodupb (map fst ps) && nodupb (map snd ps) && _) eqn:Er; [|discriminate]. rewrite !andb_true_iff, !nodupb_NoDup in Er. destruct Er as [[N1 N2] _].
      intros q. unfold has. rewrite get_rename_state by assumption. unfold ext_name. destruct (mem q (map fst ps)); [apply Hh|]. destruct (mem q (map snd ps)); [reflexivity|apply Hh].
  Qed.

  (** If all the dimensions have an index, then the sub-structure gets all the indices that it needs. *)
  Lemma sub_indices st st' : sees st h -> sub_state v t st = Some st' -> (forall q, any_accept q sg = true -> has (Idx q) st = true) ->
    forall q, any_accept q s0 = true -> has (Idx q) st' = true.
  Proof.
    intros Hh Est Hi q Hq. destruct down as [R Hnd]. unfold sub_state in Est. unfold view_known in Hk. rewrite E0 in Hk.
    assert (Hpq : In (q, None) p') by (apply in_p'; auto). assert (Hin : forall x, In x (map fst p) -> has (Idx x) st = true).
    { intros x Hx. destruct (fst_in _ _ Hx) as [k Hxk]. apply Hi. apply in_p in Hxk. tauto. }
    destruct (uswf_view _ _ Hw) as [Hv _]. unfold view_swf in Hv. rewrite E0 in Hv.
    destruct v as [d|d i|d n|d s|d s n|d s e|d s r|d|d M m|d M m pd|d b M m ml|M m d|sl gl d ds|ds|d|ps|xa xb d]; try discriminate; cbn [view_sub_state given_below prel] in *.
    - injection Est as <-. unfold has. rewrite get_remove. teq. destruct (Z.eqb_spec q d) as [->|]; [rewrite Hq in Hv; discriminate|]. cbn. apply Hin. rewrite R. right. eapply in_fst; eauto.
    - injection Est as <-. rewrite has_with. unfold has at 1. teq. destruct (Z.eqb_spec q d) as [->|Hne]; [reflexivity|]. cbn [orb]. unfold has. rewrite get_remove. teq. apply Hin. rewrite R. apply pm_keep; [eapply in_fst; eauto|exact Hne].
    - injection Est as <-. destruct R as [R _]. rewrite has_with. apply orb_true_iff. right. apply Hin. rewrite R. eapply in_fst; eauto.
    - assert (Hst : has (Idx q) st = true). { apply Hin. rewrite R. destruct (Z.eq_dec q d) as [->|Hne]; [eapply pm_new; [exact Hpq|left; reflexivity]|apply pm_keep; [eapply in_fst; eauto|exact Hne]]. }
      injection Est as <-. unfold has in *. destruct (get (Idx d) st) eqn:Ei, (get (Len d) st) eqn:El; rewrite ?get_with, ?get_remove; teq; eqdims; try exact Hst; try reflexivity; rewrite Ei in Hst; discriminate.
    - assert (Hst : has (Idx q) st = true). { apply Hin. rewrite R. destruct (Z.eq_dec q d) as [->|Hne]; [eapply pm_new; [exact Hpq|left; reflexivity]|apply pm_keep; [eapply in_fst; eauto|exact Hne]]. }
      injection Est as <-. destruct (get (Idx d) st); [|exact Hst]. rewrite has_with, Hst. apply orb_true_r.
    - assert (Hst : has (Idx q) st = true). { apply Hin. rewrite R. destruct (Z.eq_dec q d) as [->|Hne]; [eapply pm_new; [exact Hpq|left; reflexivity]|apply pm_keep; [eapply in_fst; eauto|exact Hne]]. }
      injection Est as <-. destruct (get (Idx d) st); [|exact Hst]. rewrite has_with, Hst. apply orb_true_r.
    - assert (Hst : has (Idx q) st = true). { apply Hin. rewrite R. destruct (Z.eq_dec q d) as [->|Hne]; [eapply pm_new; [exact Hpq|left; reflexivity]|apply pm_keep; [eapply in_fst; eauto|exact Hne]]. }
      injection Est as <-. destruct (get (Idx d) st); [|exact Hst]. rewrite has_with, Hst. apply orb_true_r.
    - assert (Hst : has (Idx q) st = true) by (apply Hin; rewrite R; eapply in_fst; eauto).
      destruct (get (Idx d) st) as [i|] eqn:Ei; [|injection Est as <-; exact Hst]. assert (Hc : sees (remove [Idx d] st) h) by (apply sees_idx; [exact Hh|reflexivity]).
      destruct (IH (remove [Idx d] st) d Hc Hk) as [E1 [n E2]]; [rewrite get_remove; cbn; rewrite Z.eqb_refl; reflexivity|]. rewrite E1, E2 in Est. cbn [obind] in Est. injection Est as <-.
      rewrite has_with. unfold has at 1. teq. destruct (Z.eqb_spec q d); [reflexivity|]. cbn [orb]. unfold has in *. rewrite get_remove. teq. destruct (Z.eqb_spec q d); [contradiction|exact Hst].
    - destruct R as [R _]. apply andb_prop in Hk. destruct Hk as [Hd Hx]. set (cs := clean_blocks d M m st) in *.
      assert (Hpd : In (d, None) p') by (apply in_p'; auto).
      assert (HM : has (Idx M) st = true) by (apply Hin; rewrite R; eapply pm_new; [exact Hpd|left; reflexivity]).
      assert (Hm : has (Idx m) st = true) by (apply Hin; rewrite R; eapply pm_new; [exact Hpd|right; left; reflexivity]).
      assert (Hc : sees cs (off h [d; M; m])) by (apply sees_off; [exact Hh|]; intros x; cbn; rewrite !orb_false_r; destruct (x =? d); reflexivity).
      destruct (IH cs d Hc Hd) as [E1 [n E2]]; [unfold cs, clean_blocks; rewrite get_remove; cbn; rewrite Z.eqb_refl; reflexivity|].
      assert (Hst' : exists w, st' = with_ [(Idx d, w)] cs).
      { unfold has in HM, Hm. destruct (get (Idx M) st) as [iM|]; [|discriminate]. destruct (get (Idx m) st) as [im|]; [|discriminate]. destruct (h M) eqn:EM, (h m) eqn:Em; try discriminate.
        - destruct (sees_yes _ _ _ Hh EM) as [lM ElM]. rewrite ElM, (sees_no _ _ _ Hh Em), E1 in Est. cbn [obind negb] in Est. rewrite E2 in Est. cbn [obind] in Est. injection Est as <-. eauto.
        - destruct (sees_yes _ _ _ Hh Em) as [lm Elm]. rewrite Elm, (sees_no _ _ _ Hh EM) in Est. injection Est as <-. eauto. }
      destruct Hst' as [w ->]. rewrite has_with. unfold has at 1. teq. destruct (Z.eqb_spec q d) as [->|Hne]; [reflexivity|]. cbn [orb].
      cbn [view_sig] in Ev. destruct ((M =? m) || _ || _) eqn:Ef in Ev; [discriminate|]. apply orb_false_iff in Ef. destruct Ef as [Ef Efm]. apply orb_false_iff in Ef. destruct Ef as [_ EfM].
      assert (q <> M) by (intros ->; rewrite Hq in EfM; destruct (Z.eqb_spec M d); [contradiction|discriminate]). assert (q <> m) by (intros ->; rewrite Hq in Efm; destruct (Z.eqb_spec m d); [contradiction|discriminate]).
      unfold cs, clean_blocks, has. rewrite get_remove. teq. destruct (Z.eqb_spec q d), (Z.eqb_spec q M), (Z.eqb_spec q m); try contradiction. apply Hin. rewrite R. apply pm_keep; [eapply in_fst; eauto|exact Hne].
    - apply andb_prop in Hk. destruct Hk as [Hk1 Hx]. apply andb_prop in Hk1. destruct Hk1 as [HM Hm]. set (cs := clean_merge M m d st) in *.
      assert (Hc : sees cs (off h [M; m; d])) by (apply sees_off; [exact Hh|]; intros x; cbn; rewrite !orb_false_r; destruct (x =? d), (x =? M), (x =? m); reflexivity).
      destruct (IH cs M Hc HM) as [E1 [n E2]]; [unfold cs, clean_merge; rewrite get_remove; cbn; rewrite Z.eqb_refl, !orb_true_r; reflexivity|].
      destruct (IH cs m Hc Hm) as [E3 [n' E4]]; [unfold cs, clean_merge; rewrite get_remove; cbn; rewrite Z.eqb_refl, !orb_true_r; reflexivity|].
      rewrite E3, E1 in Est. cbn [obind andb] in Est. cbn [view_sig] in Ev. destruct ((M =? m) || _) eqn:Ef in Ev; [discriminate|]. apply orb_false_iff in Ef. destruct Ef as [EMm Ef]. apply Z.eqb_neq in EMm.
      assert (Hdi : has (Idx d) st = true).
      { apply Hin. eapply in_fst. eapply peeled_new; [exact R|]. apply (proj2 (inside_all [M; m] p' ltac:(repeat constructor; cbn; intuition congruence) Hnd)).
        intros x [<-|[<-|[]]]; (eapply in_fst; apply in_p'; auto). }
      unfold has in Hdi. destruct (get (Idx d) st) as [i|] eqn:Ei; [|discriminate]. rewrite E4 in Est. cbn [obind] in Est. injection Est as <-.
      rewrite has_with. unfold has at 1. teq. destruct (Z.eqb_spec q M); [reflexivity|]. destruct (Z.eqb_spec q m); [reflexivity|]. cbn [orb].
      assert (q <> d) by (intros ->; rewrite Hq in Ef; destruct (Z.eqb_spec d M), (Z.eqb_spec d m); cbn in Ef; congruence).
      unfold cs, clean_merge, has. rewrite get_remove. teq. destruct (Z.eqb_spec q d), (Z.eqb_spec q M), (Z.eqb_spec q m); try contradiction. apply Hin. eapply peeled_keep; [exact R|eapply in_fst; eauto|cbn; intuition congruence].
    - set (tmp := clean_zcurve d ds st) in *. rewrite forallb_forall in Hk.
      assert (Hc : sees tmp (off h ds)).
      { intros x. unfold tmp, has, off. rewrite get_clean_zcurve_len, <- Hh. unfold has. destruct (mem x ds); [rewrite andb_false_r; reflexivity|]. rewrite andb_true_r. reflexivity. }
      cbn [view_sig] in Ev. destruct (_ && _ && _ && _ && nodupb ds && _) eqn:Ef in Ev; [|discriminate]. rewrite !andb_true_iff in Ef. destruct Ef as [[_ HND] Hdd]. apply nodupb_NoDup in HND.
      assert (Hdi : has (Idx d) st = true).
      { apply Hin. eapply in_fst. eapply peeled_new; [exact R|]. apply (proj2 (inside_all ds p' HND Hnd)). intros x Hx. eapply in_fst. apply in_p'. auto. }
      unfold has in Hdi. destruct (get (Idx d) st) as [i|]; [|discriminate].
      destruct (omap_ln (fun x => length_ t x tmp) ds) as (ls & El & Hl).
      { intros x Hx. destruct (IH tmp x Hc (Hk x Hx)) as [_ E]; [|exact E]. unfold tmp. rewrite get_clean_zcurve_idx. rewrite (proj2 (mem_In x ds) Hx), orb_true_r. reflexivity. }
      rewrite El in Est. cbn [obind] in Est. injection Est as <-. rewrite has_with. destruct (mem q ds) eqn:Em.
      + apply orb_true_iff. left. unfold has. rewrite get_combine_idx. apply mem_In in Em. assert (Hlz : length (zc_indices sl gl i ls) = length ds) by (rewrite zc_indices_length; exact Hl).
        clear - Em Hlz. revert Hlz. generalize (zc_indices sl gl i ls). induction ds as [|x ds IHd]; intros [|z l] Hl; try discriminate; [destruct Em|]. cbn [combine alook fst snd]. cbn in Hl.
        destruct (Z.eqb_spec q x) as [->|Hne]; [reflexivity|]. destruct Em as [Em|Em]; [congruence|]. apply IHd; [exact Em|congruence].
      + apply orb_true_iff. right. assert (q <> d) by (intros ->; rewrite Em, Hq in Hdd; discriminate). unfold tmp, has. rewrite get_clean_zcurve_idx, Em. destruct (Z.eqb_spec q d); [contradiction|].
        apply Hin. eapply peeled_keep; [exact R|eapply in_fst; eauto|apply mem_false, Em].
    - injection Est as <-. apply Hin. eapply Permutation_in; [apply Permutation_map, Permutation_sym, R|eapply in_fst; eauto].
    - injection Est as <-. destruct R as [_ R]. apply Hin. rewrite R. destruct (Z.eq_dec q d) as [->|]; [left; reflexivity|]. right. apply pm_keep; [eapply in_fst; eauto|assumption].
    - injection Est as <-. cbn [view_sig] in Ev. destruct (nodupb (map fst ps) && nodupb (map snd ps) && _) eqn:Er; [|discriminate]. rewrite !andb_true_iff, !nodupb_NoDup, forallb_forall in Er. destruct Er as [[N1 N2] N3].
      assert (Hr : has (Idx (rename_dim ps q)) st = true). { apply Hin. rewrite R. apply in_map_iff. exists (rename_dim ps q, None). split; [reflexivity|]. apply in_map_iff. exists (q, None). auto. }
      unfold has in *. rewrite get_rename_state by assumption. unfold ext_name. destruct (mem q (map fst ps)) eqn:Em; [exact Hr|]. destruct (mem q (map snd ps)) eqn:Es.
      + apply mem_In in Es. specialize (N3 q Es). rewrite Hq, Em in N3. discriminate.
      + rewrite rename_dim_out in Hr by (apply mem_false, Em). exact Hr.
  Qed.

  (** Each dimension without an index has a length. *)
  Lemma view_len st q : sees st h -> any_accept q sg = true -> get (Idx q) st = None -> gives_length (View v t) q st.
  Proof.
    intros Hh Hq Hi. destruct down as [R Hnd]. destruct (sub_known st Hh) as (st' & Est & Hh').
    assert (Hpq : In (q, None) p) by (apply in_p; auto).
    (** what is passed to the sub-structure *)
    assert (Hsub : forall x, any_accept x s0 = true -> get (Idx x) st' = None -> has_length t x st' = Some true /\ exists n, length_ t x st' = Some n) by (intros x Hx Hxi; exact (IH st' x Hh' Hx Hxi)).
    assert (G : view_has_length v (Some sg) (has_length t) (length_ t) q st = Some true /\ (exists n, view_length v (has_length t) (length_ t) q st = Some n) -> gives_length (View v t) q st).
    { intros [E1 E2]. assert (E3 : has_length (View v t) q st = Some true) by (rewrite has_length_View, Hs; exact E1). split; [exact E3|]. rewrite length_View, E3. exact E2. }
    assert (Gs : forall x, any_accept x s0 = true -> get (Idx x) st' = None ->
      (do st' <- view_sub_state v (has_length t) (length_ t) st; has_length t x st') = Some true /\ exists n, (do st' <- view_sub_state v (has_length t) (length_ t) st; length_ t x st') = Some n).
    { intros x Hx Hxi. unfold sub_state in Est. rewrite Est. cbn [obind]. exact (Hsub x Hx Hxi). }
    destruct (uswf_view _ _ Hw) as [Hv _]. unfold view_swf in Hv. rewrite E0 in Hv. pose proof Hk as Hk'. unfold view_known in Hk'. rewrite E0 in Hk'. pose proof Ev as Ev'. unfold sub_state in Est.
    assert (Hin : forall x k, In (x, k) p' -> any_accept x s0 = true) by (intros x k Hx; apply in_p' in Hx; tauto). apply no_idx in Hi as Hi'.
    apply G; clear G Hs;
    destruct v as [d|d i|d n|d s|d s n|d s e|d s r|d|d M m|d M m pd|d b M m ml|M m d|sl gl d ds|ds|d|ps|xa xb d]; try discriminate; cbn [view_has_length view_length given_below prel] in *.
    - destruct (Z.eqb_spec q d) as [->|Hne].
      + rewrite (Hh d), Hk', Hi'. split; [reflexivity|]. exact (sees_yes _ _ _ Hh Hk').
      + apply Gs.
        * rewrite R in Hpq. destruct Hpq as [E|Hpq]; [congruence|eauto].
        * injection Est as <-. rewrite get_remove. teq. destruct (Z.eqb_spec q d); [contradiction|exact Hi].
    - rewrite R in Hpq. apply in_pm in Hpq. destruct Hpq as [[Hpq Hne]|(n' & _ & [])]. destruct (Z.eqb_spec q d); [contradiction|]. apply Gs; [eauto|].
      injection Est as <-. rewrite get_with, get_remove. teq. destruct (Z.eqb_spec q d); [contradiction|exact Hi].
    - destruct R as [R _]. rewrite R in Hpq. apply Gs; [eauto|]. injection Est as <-. rewrite get_with. exact Hi.
    - assert (Hq0 : any_accept q s0 = true). { rewrite R in Hpq. apply in_pm in Hpq. destruct Hpq as [[Hpq _]|(n' & Hd & [E|[]])]; [eauto|]. injection E as <- _. eauto. }
      assert (Hi1 : get (Idx q) st' = None). { injection Est as <-. destruct (get (Idx d) st) eqn:Ei, (get (Len d) st) eqn:El; rewrite ?get_with, ?get_remove; teq; eqdims; try exact Hi; congruence. }
      destruct (Gs q Hq0 Hi1) as [E1 [n E2]]. rewrite E1, E2. destruct (Z.eqb_spec q d) as [->|Hne]; cbn [andb]; [|eauto]. unfold has. destruct (get (Len d) st); cbn [obind]; eauto.
    - assert (Hq0 : any_accept q s0 = true). { rewrite R in Hpq. apply in_pm in Hpq. destruct Hpq as [[Hpq _]|(n' & Hd & [E|[]])]; [eauto|]. injection E as <- _. eauto. }
      assert (Hi1 : get (Idx q) st' = None). { injection Est as <-. destruct (get (Idx d) st) eqn:Ei; rewrite ?get_with; teq; eqdims; try exact Hi; congruence. }
      destruct (Gs q Hq0 Hi1) as [E1 [n1 E2]]. rewrite E1, E2. destruct (Z.eqb_spec q d); eauto.
    - assert (Hq0 : any_accept q s0 = true). { rewrite R in Hpq. apply in_pm in Hpq. destruct Hpq as [[Hpq _]|(n' & Hd & [E|[]])]; [eauto|]. injection E as <- _. eauto. }
      assert (Hi1 : get (Idx q) st' = None). { injection Est as <-. destruct (get (Idx d) st) eqn:Ei; rewrite ?get_with; teq; eqdims; try exact Hi; congruence. }
      destruct (Gs q Hq0 Hi1) as [E1 [n1 E2]]. rewrite E1, E2. destruct (Z.eqb_spec q d); eauto.
    - assert (Hq0 : any_accept q s0 = true). { rewrite R in Hpq. apply in_pm in Hpq. destruct Hpq as [[Hpq _]|(n' & Hd & [E|[]])]; [eauto|]. injection E as <- _. eauto. }
      assert (Hi1 : get (Idx q) st' = None). { injection Est as <-. destruct (get (Idx d) st) eqn:Ei; rewrite ?get_with; teq; eqdims; try exact Hi; congruence. }
      destruct (Gs q Hq0 Hi1) as [E1 [n1 E2]]. rewrite E1, E2. destruct (Z.eqb_spec q d) as [->|]; [|eauto]. destruct (IH st d Hh Hq0 Hi) as [_ [l ->]]. cbn [obind]. eauto.
    - assert (Hq0 : any_accept q s0 = true) by (rewrite R in Hpq; eauto).
      assert (Hi1 : get (Idx q) st' = None).
      { cbn [view_sub_state] in Est. destruct (get (Idx d) st) as [i|] eqn:Ei; [|injection Est as <-; exact Hi]. assert (q <> d) by congruence.
        destruct (has_length t d (remove [Idx d] st)) as [[|]|]; try discriminate; cbn [obind] in Est; [|injection Est as <-; rewrite get_remove; destruct (tag_mem _ _); auto].
        destruct (length_ t d (remove [Idx d] st)); [|discriminate]. cbn [obind] in Est. injection Est as <-. rewrite get_with, get_remove. teq. eqdims; congruence. }
      split; [apply Gs; assumption|]. apply (IH st q Hh Hq0 Hi).
    - destruct R as [R _]. apply andb_prop in Hk'. destruct Hk' as [Hd Hx]. set (cs := clean_blocks d M m st) in *.
      assert (Hc : sees cs (off h [d; M; m])) by (apply sees_off; [exact Hh|]; intros x; cbn; rewrite !orb_false_r; destruct (x =? d); reflexivity).
      destruct (IH cs d Hc Hd) as [E1 [n E2]]; [unfold cs, clean_blocks; rewrite get_remove; cbn; rewrite Z.eqb_refl; reflexivity|].
      assert (Hst' : (get (Idx M) st = None \/ get (Idx m) st = None -> st' = cs) /\ forall x, get (Idx x) st = None -> x <> d -> get (Idx x) st' = None).
      { assert (Hcs : forall x, get (Idx x) st = None -> get (Idx x) cs = None) by (intros x Hx0; unfold cs, clean_blocks; rewrite get_remove; destruct (tag_mem _ _); auto).
        cbn [view_sub_state] in Est. fold cs in Est. destruct (h M) eqn:EM, (h m) eqn:Em; try discriminate.
        - destruct (sees_yes _ _ _ Hh EM) as [lM ElM]. rewrite ElM, (sees_no _ _ _ Hh Em), E1 in Est. cbn [obind negb] in Est. rewrite E2 in Est. cbn [obind] in Est.
          destruct (get (Idx M) st), (get (Idx m) st); injection Est as <-; split; intros; auto; try (destruct H; congruence). rewrite get_with. teq. eqdims; try congruence; auto.
        - destruct (sees_yes _ _ _ Hh Em) as [lm Elm]. rewrite Elm, (sees_no _ _ _ Hh EM) in Est.
          destruct (get (Idx M) st), (get (Idx m) st); injection Est as <-; split; intros; auto; try (destruct H; congruence). rewrite get_with. teq. eqdims; try congruence; auto. }
      destruct Hst' as [Hst1 Hst2]. rewrite R in Hpq. apply in_pm in Hpq.
      assert (HM : has (Len M) st = h M) by apply Hh. assert (Hm : has (Len m) st = h m) by apply Hh.
      destruct (Z.eqb_spec q m) as [->|Hqm].
      { rewrite Hi', Hm, HM, E1, E2, Est. cbn [obind]. rewrite (Hst1 (or_intror Hi)). rewrite E1. cbn [obind]. destruct (h M) eqn:EM, (h m) eqn:Em; try discriminate; cbn [andb].
        - split; [reflexivity|]. rewrite (sees_no _ _ _ Hh Em). destruct (sees_yes _ _ _ Hh EM) as [lM ->]. cbn [obind]. eauto.
        - split; [reflexivity|]. destruct (sees_yes _ _ _ Hh Em) as [lM ->]. eauto. }
      destruct (Z.eqb_spec q M) as [->|HqM].
      { rewrite Hi', Hm, HM, E1, Est. cbn [obind]. rewrite (Hst1 (or_introl Hi)). rewrite E1, E2. cbn [obind]. destruct (h M) eqn:EM, (h m) eqn:Em; try discriminate; cbn [andb].
        - split; [reflexivity|]. destruct (sees_yes _ _ _ Hh EM) as [lM ->]. eauto.
        - split; [reflexivity|]. rewrite (sees_no _ _ _ Hh EM). destruct (sees_yes _ _ _ Hh Em) as [lM ->]. cbn [obind]. eauto. }
      destruct Hpq as [[Hpq Hne]|(n' & _ & [E|[E|[]]])]; try congruence. destruct (Z.eqb_spec q d); [contradiction|]. apply Gs; eauto.
    - apply andb_prop in Hk'. destruct Hk' as [Hk1 Hx]. apply andb_prop in Hk1. destruct Hk1 as [HM Hm]. apply negb_true_iff in Hx. set (cs := clean_merge M m d st) in *.
      assert (Hc : sees cs (off h [M; m; d])) by (apply sees_off; [exact Hh|]; intros x; cbn; rewrite !orb_false_r; destruct (x =? d), (x =? M), (x =? m); reflexivity).
      destruct (IH cs M Hc HM) as [E1 [n E2]]; [unfold cs, clean_merge; rewrite get_remove; cbn; rewrite Z.eqb_refl, !orb_true_r; reflexivity|].
      destruct (IH cs m Hc Hm) as [E3 [n' E4]]; [unfold cs, clean_merge; rewrite get_remove; cbn; rewrite Z.eqb_refl, !orb_true_r; reflexivity|].
      assert (Hst' : (get (Idx d) st = None -> st' = cs) /\ forall x, get (Idx x) st = None -> x <> M -> x <> m -> get (Idx x) st' = None).
      { assert (Hcs : forall x, get (Idx x) st = None -> get (Idx x) cs = None) by (intros x Hx0; unfold cs, clean_merge; rewrite get_remove; destruct (tag_mem _ _); auto).
        cbn [view_sub_state] in Est. fold cs in Est. rewrite E3, E1 in Est. cbn [obind andb] in Est. destruct (get (Idx d) st); [|injection Est as <-; auto]. rewrite E4 in Est. cbn [obind] in Est. injection Est as <-.
        split; [discriminate|]. intros x Hx0 Hx1 Hx2. rewrite get_with. teq. eqdims; try congruence. auto. }
      destruct Hst' as [Hst1 Hst2]. rewrite Hi'. destruct (Z.eqb_spec q d) as [->|Hne].
      + rewrite (Hh d), Hx, (sees_no _ _ _ Hh Hx), Est. cbn [obind]. rewrite (Hst1 Hi), E1, E2, E3, E4. cbn. eauto.
      + destruct (peeled_inv _ _ _ _ _ _ _ R Hpq) as [[E _]|[Hp3 Hno]]; [congruence|]. cbn in Hno. destruct (Z.eqb_spec q m); [exfalso; apply Hno; auto|]. destruct (Z.eqb_spec q M); [exfalso; apply Hno; auto|]. cbn [orb].
        apply Gs; [eauto|]. apply Hst2; assumption.
    - set (tmp := clean_zcurve d ds st) in *. rewrite forallb_forall in Hk'.
      assert (Hc : sees tmp (off h ds)).
      { intros x. unfold tmp, has, off. rewrite get_clean_zcurve_len, <- Hh. unfold has. destruct (mem x ds); [rewrite andb_false_r; reflexivity|]. rewrite andb_true_r. reflexivity. }
      rewrite Hi'. assert (Hlens : forall x, In x ds -> gives_length t x tmp).
      { intros x Hx. apply (IH tmp x Hc (Hk' x Hx)). unfold tmp. rewrite get_clean_zcurve_idx. rewrite (proj2 (mem_In x ds) Hx), orb_true_r. reflexivity. }
      assert (Hst' : (get (Idx d) st = None -> st' = tmp) /\ forall x, get (Idx x) st = None -> ~ In x ds -> get (Idx x) st' = None).
      { assert (Hcs : forall x, get (Idx x) st = None -> get (Idx x) tmp = None) by (intros x Hx0; unfold tmp; rewrite get_clean_zcurve_idx; destruct (_ || _); auto).
        cbn [view_sub_state] in Est. fold tmp in Est. destruct (get (Idx d) st) as [i|]; [|injection Est as <-; auto].
        destruct (omap_ln (fun x => length_ t x tmp) ds) as (ls & El & Hl); [intros x Hx; apply (Hlens x Hx)|]. rewrite El in Est. cbn [obind] in Est. injection Est as <-. split; [discriminate|].
        intros x Hx0 Hx1. rewrite get_with, get_combine_idx. destruct (alook x (combine ds (zc_indices sl gl i ls))) eqn:Ea; [apply alook_In, in_combine_l in Ea; contradiction|]. auto. }
      destruct Hst' as [Hst1 Hst2]. destruct (Z.eqb_spec q d) as [->|Hne].
      + rewrite Est. cbn [obind]. rewrite (Hst1 Hi). split.
        * apply Lib.oall_true, Forall_forall. intros o Ho. apply in_map_iff in Ho. destruct Ho as (x & <- & Hx). apply (Hlens x Hx).
        * destruct (omap_ln (fun x => length_ t x tmp) ds) as (ls & El & Hl); [intros x Hx; apply (Hlens x Hx)|]. rewrite El. cbn [obind]. destruct ls; [|eauto]. destruct ds; [|discriminate].
          rewrite !andb_true_iff in Hv. cbn in Hv. intuition discriminate.
      + destruct (peeled_inv _ _ _ _ _ _ _ R Hpq) as [[E _]|[Hp3 Hno]]; [congruence|]. apply Gs; [eauto|]. apply Hst2; assumption.
    - rewrite Hq, orb_true_r. assert (Hq0 : any_accept q s0 = true) by (eapply Hin, Permutation_in; [exact R|exact Hpq]). injection Est as <-. destruct (Gs q Hq0 Hi) as [E1 E2]. rewrite E1. auto.
    - assert (Hq0 : any_accept q s0 = true). { destruct R as [Hd R]. rewrite R in Hpq. destruct Hpq as [E|Hpq]; [injection E as <-; eauto|]. apply in_pm in Hpq. destruct Hpq as [[Hpq _]|(n' & _ & [])]. eauto. }
      injection Est as <-. apply Gs; assumption.
    - rewrite R in Hpq. apply in_map_iff in Hpq. destruct Hpq as ([x k] & E & Hx). cbn [fst snd] in E. injection E as E ->. subst q. assert (Hx0 := Hin _ _ Hx).
      cbn [view_sig] in Ev'. destruct (nodupb (map fst ps) && nodupb (map snd ps) && _) eqn:Er in Ev'; [|discriminate]. rewrite (GoodFacts.rename_back ps s0 x Er Hx0). apply Gs; [exact Hx0|].
      rewrite !andb_true_iff, !nodupb_NoDup, forallb_forall in Er. destruct Er as [[N1 N2] N3]. injection Est as <-. rewrite get_rename_state by assumption. unfold ext_name.
      destruct (mem x (map fst ps)) eqn:Em; [exact Hi|]. destruct (mem x (map snd ps)) eqn:Es.
      + apply mem_In in Es. specialize (N3 x Es). rewrite Hx0, Em in N3. discriminate.
      + rewrite rename_dim_out in Hi by (apply mem_false, Em). exact Hi.
  Qed.
End View.

(** ** The type of the elements *)

Fixpoint bottom (s : sig) : option cty := match s with SScalar c => Some c | SFun _ _ r => bottom r | _ => None end.
Fixpoint elem_ty (s : struct) : option cty := match s with Scalar c => Some c | Vector _ t | View _ t => elem_ty t | _ => None end.

Lemma sreplace_bottom ds f s : (forall o o', plain o = true -> f o = Some o' -> bottom o' = bottom o) ->
  forall s', plain s = true -> sreplace ds f s = Some s' -> bottom s' = bottom s.
Proof.
  intros Hf. induction s as [c| |d al r IH|d rs IH] using sig_ind'; intros s' Hp E; cbn [sreplace] in E; try (injection E as <-; reflexivity); try discriminate.
  destruct (mem d ds); [exact (Hf _ _ Hp E)|]. rewrite plain_fun in Hp. destruct (sreplace ds f r) as [r'|]; [|discriminate]. injection E as <-. cbn [bottom]. apply IH; auto.
Qed.

Lemma zc_bottom ds d n : forall acc o o', plain o = true -> zc_replace n acc d ds o = Some o' -> bottom o' = bottom o.
Proof.
  induction n as [|n IH]; intros acc [c| |x al r|x rs] o' Hc E; cbn [zc_replace] in E; try discriminate.
  destruct n as [|n]; [inv E; reflexivity|]. rewrite plain_fun in Hc. cbn [bottom]. eapply sreplace_bottom; [|exact Hc|exact E]. intros a b Ha Hb. eapply IH; [exact Ha|exact Hb].
Qed.

Lemma rename_bottom ps s : bottom (rename_sig ps s) = bottom s.
Proof. induction s as [c| |d al r IH|d rs IH] using sig_ind'; cbn; auto. Qed.

Lemma scalar_bottom s st : forall s', reassemble_scalar s st = Some s' -> plain s = true -> sig_complete s' = true -> bottom s' = bottom s.
Proof.
  induction s as [c| |d al r IH|d rs IH] using sig_ind'; intros s' E Hp Hc; cbn [reassemble_scalar] in E; try (inv E; reflexivity); [|discriminate Hp].
  destruct (has _ _); [cbn [bottom]; apply IH; auto|inv E; discriminate Hc].
Qed.

Lemma build_bottom top : plain top = true -> forall ds st s', reassemble_build top st ds = Some s' -> sig_complete s' = true -> bottom s' = bottom top.
Proof.
  intros Hp. induction ds as [|d ds IH]; intros st s' E Hc; cbn [reassemble_build] in E; [exact (scalar_bottom _ _ _ E Hp Hc)|]. destruct (mem d ds); [discriminate|].
  destruct (sig_find_dim d st top) as [[c| |x al r|x rs]|] eqn:Ef; try discriminate; [|pose proof (find_plain _ _ _ _ Hp Ef); discriminate].
  destruct (reassemble_build top _ ds) as [s0|] eqn:Eb; [|discriminate]. inv E. cbn [bottom sig_complete] in *. eapply IH; eauto.
Qed.

Ltac one_bottom Hc E := eapply sreplace_bottom; [|exact Hc|exact E]; clear; intros [c| |x al r|x rs] o' Ho Eo; try discriminate Ho; try discriminate Eo.

Lemma view_bottom v t h s s' : signature t = Some s -> view_known v t h = true -> view_swf v t = true -> plain s = true -> view_sig v s = Some s' -> bottom s' = bottom s.
Proof.
  intros Es Hk Hv Hc E. unfold view_known in Hk. unfold view_swf in Hv. rewrite Es in Hk, Hv. destruct v; try discriminate; cbn [view_sig] in E.
  - inv E. reflexivity.
  - one_bottom Hc E. inv Eo. reflexivity.
  - one_bottom Hc E. inv Eo. reflexivity.
  - one_bottom Hc E. inv Eo. reflexivity.
  - one_bottom Hc E. inv Eo. reflexivity.
  - one_bottom Hc E. inv Eo. reflexivity.
  - one_bottom Hc E. inv Eo. reflexivity.
  - one_bottom Hc E; inv Eo; reflexivity.
  - destruct (_ || _); [discriminate|]. one_bottom Hc E. inv Eo. reflexivity.
  - destruct (_ || _); [discriminate|]. one_bottom Hc E. rewrite plain_fun in Ho. cbn [bottom]. eapply sreplace_bottom; [|exact Ho|exact Eo]. clear. intros [c| |y al' r'|y rs] o1 Ho Eo; try discriminate. destruct (x =? y); [discriminate|]. inv Eo. reflexivity.
  - clear Hk. destruct (_ && _ && _ && _ && _ && _); [|discriminate]. eapply sreplace_bottom; [|exact Hc|exact E]. intros o o'. apply zc_bottom.
  - cbn [view_sig] in Hv. rewrite E in Hv. eapply build_bottom; eauto.
  - destruct (sig_find_dim d [] s) as [[| |x al r|]|]; try discriminate. destruct (sreplace _ _ _) as [s1|] eqn:E1; [|discriminate]. inv E. cbn [bottom]. one_bottom Hc E1. inv Eo. reflexivity.
  - clear Hk. destruct (_ && _ && _); [|discriminate]. inv E. apply rename_bottom.
Qed.

Lemma known_bottom s : forall h sg, swf s = true -> known_with s h = true -> signature s = Some sg -> bottom sg = elem_ty s /\ elem_ty s <> None.
Proof.
  induction s as [c|d ts IH|d t IH|v t IH|ts IH] using struct_ind'; intros h sg Hw Hk Es; cbn [known_with] in Hk; try discriminate.
  - injection Es as <-. split; [reflexivity|discriminate].
  - apply andb_prop in Hk. destruct Hk as [_ Hk]. cbn [signature] in Es. destruct (signature t) as [s|]; [|discriminate]. destruct (any_accept d s); [discriminate|]. injection Es as <-. cbn [bottom elem_ty].
    exact (IH _ _ Hw Hk eq_refl).
  - apply andb_prop in Hk. destruct Hk as [Hv Hk]. destruct (signature_View_inv _ _ _ Es) as (s0 & E0 & Ev). destruct (swf_view _ _ Hw) as [Hvw Hwt].
    destruct (IH _ _ Hwt Hk E0) as [E1 E2]. rewrite (view_bottom v t h s0 sg E0 Hv Hvw (known_plain t _ _ Hk E0) Ev). auto.
Qed.

Lemma plain_scalar s : plain s = true -> forall st, sig_get_scalar s st = bottom s.
Proof. induction s as [c| |d al r IH|d rs IH] using sig_ind'; intros Hp st; try reflexivity; [|discriminate]. cbn [sig_get_scalar bottom]. apply IH. exact Hp. Qed.

Lemma known_scalar s h st : swf s = true -> signature s <> None -> known_with s h = true -> scalar_t s st = elem_ty s /\ elem_ty s <> None.
Proof.
  intros Hw Hs Hk. unfold scalar_t. destruct (signature s) as [sg|] eqn:E; [|congruence]. cbn [obind]. destruct (known_bottom s h sg Hw Hk E) as [E1 E2]. rewrite (plain_scalar sg (known_plain s h sg Hk E)). auto.
Qed.

(** ** Structures *)

Theorem known_usable s : forall h sg, uswf s = true -> signature s = Some sg -> known_with s h = true -> forall st, sees st h ->
  (forall q, any_accept q sg = true -> get (Idx q) st = None -> gives_length s q st) /\
  (swf s = true -> has_size s st = Some true /\
    forall c, elem_ty s = Some c -> (forall q, any_accept q sg = true -> has (Idx q) st = true) -> has_offset_of (Scalar c) s st = Some true).
Proof.
  induction s as [c|d ts IH|d t IH|v t IH|ts IH] using struct_ind'; intros h sg Hw Hs Hk st Hh; cbn [known_with] in Hk; try discriminate.
  - injection Hs as <-. split; [discriminate|]. intros _. split; [reflexivity|]. intros c' E _. injection E as <-. cbn [has_offset_of].
    replace (same_type (Scalar c) (Scalar c)) with true; [reflexivity|]. symmetry. cbn. unfold cty_eqb. rewrite !Z.eqb_refl. reflexivity.
  - apply andb_prop in Hk. destruct Hk as [Hd Hk]. cbn [signature] in Hs. destruct (signature t) as [s0|] eqn:E0; [|discriminate]. destruct (any_accept d s0) eqn:Ed; [discriminate|]. injection Hs as <-.
    assert (Hh' : sees (remove [Idx d; Len d] st) (off h [d])) by (apply sees_off; [exact Hh|]; intros q; cbn; rewrite orb_false_r; reflexivity).
    destruct (IH (off h [d]) s0 Hw eq_refl Hk _ Hh') as (A & BC). destruct (sees_yes _ _ _ Hh Hd) as [l El]. assert (Hl : has (Len d) st = true) by (rewrite (Hh d); exact Hd).
    split; [|intros Hsw; destruct (BC Hsw) as [B C]; split].
    + intros q Hq Hi. cbn [any_accept] in Hq. unfold gives_length, has_length, length_. cbn [lenops fst snd]. destruct (Z.eqb_spec q d) as [->|Hne].
      * rewrite Hl, (no_idx _ _ Hi), El. cbn. eauto.
      * assert (Hq' : any_accept q s0 = true) by (destruct (Z.eqb_spec d q); [congruence|exact Hq]). destruct (A q Hq') as [A1 [n A2]]; [rewrite get_remove; teq; destruct (Z.eqb_spec q d); [contradiction|exact Hi]|]. unfold has_length, length_ in A1, A2. rewrite A1, A2. cbn. eauto.
    + cbn [has_size]. rewrite Hl. exact B.
    + intros c Ec Hi. cbn [has_offset_of]. cbn [same_type]. rewrite (Hi d) by (cbn; rewrite Z.eqb_refl; reflexivity). rewrite Hl. cbn [andb]. apply C; [exact Ec|].
      intros q Hq. unfold has. rewrite get_remove. teq. destruct (Z.eqb_spec q d) as [->|]; [congruence|]. apply Hi. cbn. rewrite Hq. apply orb_true_r.
  - apply andb_prop in Hk. destruct Hk as [Hv Hk]. destruct (signature_View_inv _ _ _ Hs) as (s0 & E0 & Ev). destruct (uswf_view _ _ Hw) as [Hvw Hwt].
    assert (IH1 : forall st q, sees st (given_below v h) -> any_accept q s0 = true -> get (Idx q) st = None -> gives_length t q st) by (intros st1 q Hh1; apply (IH _ _ Hwt E0 Hk st1 Hh1)).
    destruct (sub_known v t s0 sg h E0 Ev Hv IH1 st Hh) as (st' & Est & Hh'). destruct (IH _ _ Hwt E0 Hk st' Hh') as (A & BC).
    assert (Hcomp : view_complete v t = true).
    { unfold view_complete. destruct v; try reflexivity. rewrite Hs. unfold view_swf in Hvw. rewrite E0 in Hvw. rewrite Ev in Hvw. exact Hvw. }
    split; [|intros Hsw; destruct (BC (proj2 (swf_view _ _ Hsw))) as [B C]; split].
    + intros q Hq Hi. exact (view_len v t s0 sg h E0 Ev Hw Hv Hk IH1 st q Hh Hq Hi).
    + cbn [has_size]. rewrite Est. cbn [obind]. rewrite Hcomp, B. reflexivity.
    + intros c Ec Hi. rewrite has_offset_of_View, Est, Hcomp. cbn [same_type obind].
      assert (Hi' : forall q, any_accept q s0 = true -> has (Idx q) st' = true) by exact (sub_indices v t s0 sg h E0 Ev Hw Hv Hk IH1 st st' Hh Est Hi).
      rewrite (C c Ec Hi'). unfold view_known in Hv. rewrite E0 in Hv. destruct v; try discriminate; reflexivity.
  - split; [|discriminate]. intros q Hq Hi. destruct (signature_Union_inv _ _ Hs) as (s0 & ss & F & Eu). cbn [uswf] in Hw. apply andb_prop in Hw. destruct Hw as [Hw _].
    assert (Hex : exists x, In x (s0 :: ss) /\ any_accept q x = true).
    { clear - Eu Hq. revert s0 Eu. induction ss as [|y ss IHs]; cbn [sig_union]; intros s0 Eu; [injection Eu as <-; exists s0; split; [left; reflexivity|exact Hq]|].
      destruct (sig_union2 s0 y) as [s1|] eqn:E1; [|discriminate]. destruct (IHs s1 Eu) as (x & [<-|Hx] & Ha).
      - destruct (union2_accept q s0 y s1 E1 Ha) as [H|H]; [exists s0; split; [left; reflexivity|exact H]|exists y; split; [right; left; reflexivity|exact H]].
      - exists x. split; [right; right; exact Hx|exact Ha]. }
    assert (Hfm : exists t s, In t ts /\ signature t = Some s /\ any_accept q s = true /\ first_match q (map (fun t => (signature t, lenops t)) ts) = Some (Some (lenops t))).
    { destruct Hex as (x & Hx & Ha). clear - F Hx Ha. revert F Hx. generalize (s0 :: ss). intros l F. induction F as [|t s ts l Hts _ IHF]; intros Hx; [destruct Hx|]. cbn [map first_match]. rewrite Hts.
      destruct (any_accept q s) eqn:Eq; [exists t, s; repeat split; auto; left; reflexivity|]. destruct Hx as [<-|Hx]; [congruence|]. destruct (IHF Hx) as (t' & s' & H1 & H2 & H3 & H4). exists t', s'. repeat split; auto. right. exact H1. }
    destruct Hfm as (t & s & Ht & Es & Ha & Ef). rewrite Forall_forall in IH. rewrite forallb_forall in Hw, Hk. destruct (IH t Ht h s (Hw t Ht) Es (Hk t Ht) st Hh) as [A _]. destruct (A q Ha Hi) as [A1 [n A2]].
    unfold gives_length, has_length, length_ in *. cbn [lenops fst snd]. rewrite Ef, A1, A2. cbn. eauto.
Qed.
