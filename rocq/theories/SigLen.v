(** * The lengths promised by signatures: proofs for C56 *)

From Verif Require Export SpecSig Select Defined.
From Coq Require Import ZifyBool.

(** ** Promises and states *)

Lemma promised_accept sg st q n : promised sg st q = Some n -> any_accept q sg = true.
Proof.
  revert n. induction sg as [c| |d a r IH|d rs IH] using sig_ind'; intros n E; try discriminate; cbn [promised any_accept] in *.
  - destruct (Z.eqb_spec q d) as [->|]; [rewrite Z.eqb_refl; reflexivity|]. rewrite (IH _ E). apply orb_true_r.
  - destruct (Z.eqb_spec q d) as [->|]; [rewrite Z.eqb_refl; reflexivity|]. destruct (get (Idx d) st) as [v|]; [|discriminate]. destruct (vstatic v) as [k|]; [|discriminate].
    rewrite nthz_map in E. destruct (nthz rs k) as [r|] eqn:Ek; [|discriminate]. cbn in E. apply orb_true_iff. right. apply existsb_exists. exists r.
    split; [eapply nthz_In; eauto|]. eapply Forall_nthz in IH; [|exact Ek]. eapply IH, E.
Qed.

Lemma promised_ext sg st st' q : (forall d, any_accept d sg = true -> d <> q -> get (Idx d) st' = get (Idx d) st) -> promised sg st' q = promised sg st q.
Proof.
  induction sg as [c| |d a r IH|d rs IH] using sig_ind'; intros H; try reflexivity; cbn [promised].
  - destruct (Z.eqb_spec q d) as [->|]; [reflexivity|]. apply IH. intros e He. apply H. cbn. rewrite He. apply orb_true_r.
  - destruct (Z.eqb_spec q d) as [->|]; [reflexivity|]. rewrite H by (cbn; rewrite ?Z.eqb_refl; auto). destruct (get (Idx d) st) as [v|]; [|reflexivity]. destruct (vstatic v) as [k|]; [|reflexivity].
    rewrite !nthz_map. destruct (nthz rs k) as [r|] eqn:Ek; [|reflexivity]. cbn. eapply Forall_nthz in IH; [|exact Ek]. apply IH.
    intros e He. apply H. cbn. apply orb_true_iff. right. apply existsb_exists. exists r. split; [eapply nthz_In; eauto|exact He].
Qed.

(** A component of a tuple. *)
Lemma promised_component d rs st q v k r : q <> d -> get (Idx d) st = Some v -> vstatic v = Some k -> nthz rs k = Some r ->
  promised (SDep d rs) st q = promised r st q.
Proof. intros Hq Hv Hk Hr. cbn [promised]. destruct (Z.eqb_spec q d); [contradiction|]. rewrite Hv, Hk, nthz_map, Hr. reflexivity. Qed.
Lemma promised_component_inv d rs st q n : q <> d -> promised (SDep d rs) st q = Some n ->
  exists v k r, get (Idx d) st = Some v /\ vstatic v = Some k /\ nthz rs k = Some r /\ promised r st q = Some n.
Proof.
  intros Hq. cbn [promised]. destruct (Z.eqb_spec q d); [contradiction|]. destruct (get (Idx d) st) as [v|]; [|discriminate]. destruct (vstatic v) as [k|] eqn:Ev; [|discriminate].
  rewrite nthz_map. destruct (nthz rs k) as [r|] eqn:Ek; [|discriminate]. cbn. intros E. exists v, k, r. auto.
Qed.

(** ** Parts of signatures *)

Inductive under (top : sig) : sig -> Prop :=
| u_top : under top top
| u_fun d a r : under top (SFun d a r) -> under top r
| u_dep d rs k r : under top (SDep d rs) -> nthz rs k = Some r -> under top r.

Lemma under_accept top o : under top o -> forall q, any_accept q o = true -> any_accept q top = true.
Proof.
  induction 1 as [|d a r _ IH|d rs k r _ IH Hr]; intros q Hq; auto; apply IH; cbn.
  - rewrite Hq. apply orb_true_r.
  - apply orb_true_iff. right. apply existsb_exists. exists r. split; [eapply nthz_In; eauto|exact Hq].
Qed.
Lemma under_nodup top o : under top o -> snodup top = true -> snodup o = true.
Proof.
  induction 1 as [|d a r _ IH|d rs k r _ IH Hr]; intros Hn; auto; specialize (IH Hn).
  - apply snodup_fun in IH. tauto.
  - destruct (snodup_dep _ _ _ _ IH Hr). assumption.
Qed.
Lemma under_fun top o q : under top o -> fun_dim q o = true -> fun_dim q top = true.
Proof.
  induction 1 as [|d a r _ IH|d rs k r _ IH Hr]; intros Hq; auto; apply IH; cbn.
  - rewrite Hq. apply orb_true_r.
  - apply existsb_exists. exists r. split; [eapply nthz_In; eauto|exact Hq].
Qed.

Definition node (o : sig) (d : dim) : Prop := (exists a r, o = SFun d a r) \/ (exists rs, o = SDep d rs).

(** What is promised after a replacement comes from a node that was not replaced, or from one that was. *)
Lemma replace_promise top ds f st q n (C : sig -> Prop) :
  (forall d a r, under top (SFun d a r) -> mem d ds = false -> d <> q -> C r -> C (SFun d a r)) ->
  (forall d rs k r v, under top (SDep d rs) -> mem d ds = false -> d <> q -> get (Idx d) st = Some v -> vstatic v = Some k -> nthz rs k = Some r -> C r -> C (SDep d rs)) ->
  (forall o, under top o -> mem q ds = false -> node o q -> (forall st', promised o st' q = Some n) -> C o) ->
  (forall d o o', under top o -> node o d -> mem d ds = true -> f o = Some o' -> promised o' st q = Some n -> C o) ->
  forall sg sg', under top sg -> sreplace ds f sg = Some sg' -> promised sg' st q = Some n -> C sg.
Proof.
  intros Hfun Hdep Hq Hhit sg. induction sg as [c| |d a r IH|d rs IH] using sig_ind'; intros sg' Hu E P; cbn [sreplace] in E.
  - injection E as <-. discriminate.
  - injection E as <-. discriminate.
  - destruct (mem d ds) eqn:Em. { apply (Hhit d _ sg'); auto. left. eauto. }
    destruct (sreplace ds f r) as [r'|] eqn:Er; [|discriminate]. injection E as <-. cbn [promised] in P. destruct (Z.eqb_spec q d) as [->|Hne].
    + apply Hq; auto; [left; eauto|]. intros st'. cbn [promised]. rewrite Z.eqb_refl. exact P.
    + apply Hfun; auto. apply (IH r'); auto. eapply u_fun, Hu.
  - destruct (mem d ds) eqn:Em. { apply (Hhit d _ sg'); auto. right. eauto. }
    fold (omap (sreplace ds f)) in E. destruct (omap (sreplace ds f) rs) as [rs'|] eqn:Er; [|discriminate]. injection E as <-. destruct (Z.eqb_spec q d) as [->|Hne].
    + cbn [promised] in P. rewrite Z.eqb_refl in P. apply Hq; auto; [right; eauto|]. intros st'. cbn [promised]. rewrite Z.eqb_refl. rewrite (omap_length _ _ _ Er) in P. exact P.
    + apply promised_component_inv in P; [|exact Hne]. destruct P as (v & k & r' & Hv & Hk & Hr' & P). apply omap_Some_Forall2 in Er.
      pose proof (Forall2_nthz _ _ _ k Er) as Hn. rewrite Hr' in Hn. destruct (nthz rs k) as [r|] eqn:Ek; [|contradiction].
      eapply (Hdep d rs k r v); eauto. eapply Forall_nthz in IH; [|exact Ek]. apply (IH r'); auto. eapply u_dep; eauto.
Qed.

(** The same dimension is promised the same length below. *)
Lemma replace_same top ds f st st' q n sg' : sreplace ds f top = Some sg' -> promised sg' st q = Some n ->
  (forall d, any_accept d top = true -> mem d ds = false -> get (Idx d) st' = get (Idx d) st) ->
  (forall d o o', under top o -> node o d -> mem d ds = true -> f o = Some o' -> promised o' st q = Some n -> promised o st' q = Some n) ->
  promised top st' q = Some n.
Proof.
  intros E P Hst Hh. apply (replace_promise top ds f st q n (fun o => promised o st' q = Some n)) with (sg' := sg'); auto.
  - intros d a r _ _ Hd C. cbn [promised]. destruct (Z.eqb_spec q d); [congruence|exact C].
  - intros d rs k r v Hu Hm Hd Hv Hk Hr C. rewrite (promised_component d rs st' q v k r); auto. rewrite Hst; auto. apply (under_accept _ _ Hu). cbn. rewrite Z.eqb_refl. reflexivity.
  - constructor.
Qed.

(** ** What views keep *)

Lemma len_kept v hl ln st st' x : view_sub_state v hl ln st = Some st' -> renames v = false ->
  ~ In x (touched v) -> ~ In x (fresh v) -> (forall n, v <> VSetLength x n) -> get (Len x) st' = get (Len x) st.
Proof.
  intros E Hr Ht Hf Hsl.
  assert (Hc1 : forall d M m, x <> d -> x <> M -> x <> m -> get (Len x) (clean_blocks d M m st) = get (Len x) st).
  { intros. unfold clean_blocks. rewrite get_remove; teq. eqdims. }
  assert (Hc2 : forall d M m p cs, x <> d -> x <> M -> x <> m -> x <> p -> clean_blocks_dyn d M m p st = Some cs ->
            get (Len x) cs = get (Len x) st).
  { intros d M m p cs ? ? ? ?. unfold clean_blocks_dyn. destruct (has _ _); [discriminate|]. intros Ec; inv Ec.
    rewrite get_remove; teq. eqdims. }
  assert (Hc3 : forall d b M m cs, x <> d -> x <> b -> x <> M -> x <> m -> clean_blocks_sta d b M m st = Some cs ->
            get (Len x) cs = get (Len x) st).
  { intros d b M m cs ? ? ? ?. unfold clean_blocks_sta. destruct (_ || _ || _); [discriminate|]. intros Ec; inv Ec.
    rewrite get_remove; teq. eqdims. }
  assert (Hc4 : forall d M m, x <> d -> x <> M -> x <> m -> get (Len x) (clean_merge M m d st) = get (Len x) st).
  { intros. unfold clean_merge. rewrite get_remove; teq. eqdims. }
  destruct v as [d|d i|d n|d s|d s n|d s e|d s r|d|d M m|d M m p|d b M m ml|M m d|sl gl d ds|ds|d|ps|y z d];
    simpl in E, Ht, Hf; try discriminate.
  - inv E. rewrite get_remove; teq. eqdims; tauto.
  - inv E. rewrite get_with, get_remove; teq. eqdims; tauto.
  - inv E. rewrite get_with; teq. destruct (Z.eqb_spec x d) as [->|]; [destruct (Hsl n); reflexivity|reflexivity].
  - destruct (get (Idx d) st), (get (Len d) st); inv E; rewrite ?get_with, get_remove; teq; eqdims; tauto.
  - destruct (get (Idx d) st); inv E; rewrite ?get_with; teq; eqdims; tauto.
  - destruct (get (Idx d) st); inv E; rewrite ?get_with; teq; eqdims; tauto.
  - destruct (get (Idx d) st); inv E; rewrite ?get_with; teq; eqdims; tauto.
  - destruct (get (Idx d) st); [|inv E; reflexivity]. destruct (hl _ _) as [[|]|]; simpl in E; try discriminate.
    + destruct (ln _ _); [|discriminate]. simpl in E. inv E. rewrite get_with, get_remove; teq; eqdims; tauto.
    + inv E. rewrite get_remove; teq; eqdims; tauto.
  - specialize (Hc1 d M m ltac:(intuition congruence) ltac:(intuition congruence) ltac:(intuition congruence)).
    destruct (get (Len M) st), (get (Len m) st), (get (Idx M) st), (get (Idx m) st); try destruct (hl _ _) as [[|]|]; simpl in E; try discriminate;
      try destruct (ln _ _); try discriminate; inv E; rewrite ?get_with; teq; eqdims; tauto.
  - destruct (clean_blocks_dyn d M m p st) as [cs|] eqn:Ec; [|discriminate]. simpl in E.
    specialize (Hc2 d M m p cs ltac:(intuition congruence) ltac:(intuition congruence) ltac:(intuition congruence) ltac:(intuition congruence) Ec).
    destruct (get (Len M) st), (get (Len m) st), (get (Idx M) st), (get (Idx m) st); simpl in E; try discriminate;
      try destruct (ln _ _); try discriminate; inv E; rewrite ?get_with; teq; eqdims; tauto.
  - destruct (clean_blocks_sta d b M m st) as [cs|] eqn:Ec;
      [|destruct (get (Idx b) st), (get (Idx M) st), (get (Idx m) st); try destruct (is_body b st); simpl in E; discriminate].
    specialize (Hc3 d b M m cs ltac:(intuition congruence) ltac:(intuition congruence) ltac:(intuition congruence) ltac:(intuition congruence) Ec).
    destruct (get (Idx b) st), (get (Idx M) st), (get (Idx m) st); try (inv E; exact Hc3).
    destruct (is_body b st) as [[|]|]; simpl in E; try discriminate.
    + inv E. rewrite get_with; teq; eqdims; tauto.
    + destruct (ln d cs); [|discriminate]. inv E. rewrite get_with; teq; eqdims; tauto.
  - specialize (Hc4 d M m ltac:(intuition congruence) ltac:(intuition congruence) ltac:(intuition congruence)).
    destruct (hl m _) as [hm|]; [|discriminate]. destruct (hl M _) as [hM|]; [|discriminate].
    simpl in E. destruct hm, hM; simpl in E.
    + destruct (get (Idx d) st); [|inv E; exact Hc4]. destruct (ln _ _); [|discriminate]. inv E.
      rewrite get_with; teq; eqdims; tauto.
    + destruct (ln _ _); [|discriminate]. simpl in E. destruct (get (Len d) st), (get (Idx d) st); inv E; try exact Hc4;
      rewrite ?get_with; teq; eqdims; tauto.
    + destruct (ln _ _); [|discriminate]. simpl in E. destruct (get (Len d) st), (get (Idx d) st); inv E; try exact Hc4;
      rewrite ?get_with; teq; eqdims; tauto.
    + inv E. exact Hc4.
  - assert (Hm : mem x ds = false) by (apply mem_false; exact Ht).
    assert (Hne : (x =? d) = false) by (apply Z.eqb_neq; intuition congruence).
    destruct (get (Idx d) st).
    + destruct (omap _ ds) as [ls|] eqn:El; [|discriminate]. inv E. rewrite get_with, get_combine_len, get_clean_zcurve_len, Hm. reflexivity.
    + inv E. rewrite get_clean_zcurve_len, Hm. reflexivity.
  - inv E. reflexivity.
  - inv E. reflexivity.
Qed.

Lemma acc_fresh v t sg sg' x : view_swf v t = true -> signature t = Some sg -> view_sig v sg = Some sg' ->
  any_accept x sg = true -> ~ In x (touched v) -> ~ In x (fresh v).
Proof.
  intros Hw E0 Ev Hac Ht. unfold view_swf in Hw. rewrite E0 in Hw.
  assert (Hfr : forall d y, negb (y =? d) && any_accept y sg = false -> x <> d -> x <> y).
  { intros d y Hf Hqd ->. rewrite Hac in Hf. destruct (Z.eqb_spec y d); [contradiction|discriminate]. }
  destruct v as [d|d i|d n|d st|d st len|d st en|d st sr|d|d M m|d M m pd|d b M m ml|M m d|sl gl d ds|ds|d|ps|xa xb d];
    cbn [touched fresh] in *; auto.
  - apply negb_true_iff in Hw. intros [<-|[]]. congruence.
  - assert (Hne : x <> d) by (simpl in Ht; intuition congruence). cbn [view_sig] in Ev. destruct ((M =? m) || _ || _) eqn:Ef in Ev; [discriminate|].
    rewrite !orb_false_iff in Ef. destruct Ef as [[_ EfM] Efm]. pose proof (Hfr d M EfM Hne). pose proof (Hfr d m Efm Hne). simpl; intuition congruence.
  - assert (Hne : x <> d) by (simpl in Ht; intuition congruence). cbn [view_sig] in Ev. destruct ((M =? m) || _ || _ || _ || _ || _) eqn:Ef in Ev; [discriminate|].
    rewrite !orb_false_iff in Ef. destruct Ef as [[[_ EfM] Efm] Efp]. pose proof (Hfr d M EfM Hne). pose proof (Hfr d m Efm Hne). pose proof (Hfr d pd Efp Hne). simpl; intuition congruence.
  - assert (Hne : x <> d) by (simpl in Ht; intuition congruence). cbn [view_sig] in Ev. destruct ((b =? M) || _ || _ || _ || _ || _) eqn:Ef in Ev; [discriminate|].
    rewrite !orb_false_iff in Ef. destruct Ef as [[[_ EfM] Efm] Efp]. pose proof (Hfr d M EfM Hne). pose proof (Hfr d m Efm Hne). pose proof (Hfr d b Efp Hne). simpl; intuition congruence.
  - cbn [view_sig] in Ev. destruct ((M =? m) || _) eqn:Ef in Ev; [discriminate|]. rewrite !orb_false_iff in Ef. destruct Ef as [_ Ef]. intros [<-|[]]. rewrite Hac in Ef.
    simpl in Ht. destruct (Z.eqb_spec d M), (Z.eqb_spec d m); try discriminate; intuition congruence.
  - cbn [view_sig] in Ev. destruct (_ && _ && _ && _ && nodupb ds && _) eqn:Ef in Ev; [|discriminate]. rewrite !andb_true_iff in Ef. destruct Ef as [_ Hdd]. intros [<-|[]].
    rewrite Hac in Hdd. apply Ht, mem_In. destruct (mem d ds); [reflexivity|discriminate].
Qed.

(** ** Lengths that are set from outside *)

Lemma guard_Some {A} c (x : option A) y : guard c x = Some y -> c = Some true /\ x = Some y.
Proof. destruct c as [[|]|]; cbn; try discriminate. auto. Qed.

Lemma length_tuple d ts q st l : length_ (Tuple d ts) q st = Some l ->
  (q = d /\ l = Sta (Z.of_nat (List.length ts))) \/
  (q <> d /\ exists v k t, get (Idx d) st = Some v /\ vstatic v = Some k /\ nthz ts k = Some t /\ length_ t q (remove [Idx d] st) = Some l).
Proof.
  unfold length_. cbn [lenops snd]. intros E. apply guard_Some in E. destruct E as [_ E]. destruct (Z.eqb_spec q d) as [->|Hq]; [left; injection E as <-; auto|right].
  split; [exact Hq|]. destruct (get (Idx d) st) as [v|]; [|discriminate]. destruct (vstatic v) as [k|] eqn:Ev; [|discriminate]. rewrite nthz_map in E.
  destruct (nthz ts k) as [t|] eqn:Ek; [|discriminate]. cbn in E. exists v, k, t. auto.
Qed.
Lemma length_vector d t q st l : length_ (Vector d t) q st = Some l ->
  (q = d /\ get (Len d) st = Some l) \/ (q <> d /\ length_ t q (remove [Idx d; Len d] st) = Some l).
Proof.
  unfold length_. cbn [lenops snd]. intros E. apply guard_Some in E. destruct E as [_ E]. destruct (Z.eqb_spec q d) as [->|Hq]; auto.
Qed.

Lemma free_len q s : forall st l l', uswf s = true -> free_length q s = true -> signature s <> None -> get (Len q) st = Some l -> length_ s q st = Some l' -> l' = l.
Proof.
  revert q. induction s as [c|d ts IH|d t IH|v t IH|ts IH] using struct_ind'; intros q st l l' Hu Hf Hs Hl E.
  - unfold length_ in E. cbn in E. discriminate.
  - cbn [free_length] in Hf. apply andb_true_iff in Hf. destruct Hf as [Hd Hf]. apply negb_true_iff, Z.eqb_neq in Hd.
    apply length_tuple in E. destruct E as [[? _]|(_ & v & k & t & _ & _ & Ht & E)]; [contradiction|]. cbn [uswf] in Hu. apply andb_true_iff in Hu. destruct Hu as [_ Hu].
    rewrite forallb_forall in Hf, Hu. pose proof (nthz_In _ _ _ Ht) as Hin. rewrite Forall_forall in IH. apply (IH _ Hin q (remove [Idx d] st) l l'); auto.
    + destruct (signature (Tuple d ts)) as [sg|] eqn:Esg; [|contradiction]. apply signature_Tuple_inv in Esg. destruct Esg as (ss & F & _).
      pose proof (Forall2_nthz _ _ _ k F) as Hn. rewrite Ht in Hn. destruct (nthz ss k); [congruence|contradiction].
    + rewrite get_remove; teq. exact Hl.
  - cbn [free_length] in Hf. apply length_vector in E. destruct E as [[-> E]|[Hq E]]; [congruence|]. destruct (Z.eqb_spec q d) as [->|]; [contradiction|]. cbn in Hf, Hu.
    destruct (signature (Vector d t)) as [sg|] eqn:Esg; [|contradiction]. apply signature_Vector_inv in Esg. destruct Esg as (s0 & E0 & _).
    apply (IH q (remove [Idx d; Len d] st) l l'); auto; [congruence|]. rewrite get_remove; teq. destruct (Z.eqb_spec q d); [contradiction|exact Hl].
  - destruct (signature (View v t)) as [sg'|] eqn:Esg; [|contradiction]. apply signature_View_inv in Esg. destruct Esg as (sg & E0 & Ev).
    apply uswf_view in Hu. destruct Hu as [Hw Hu]. assert (H0 : signature t <> None) by congruence.
    rewrite length_View in E. apply guard_Some in E. destruct E as [_ E].
    assert (K : renames v = false -> ~ In q (touched v) -> ~ In q (fresh v) -> (forall n, v <> VSetLength q n) -> free_length q t = true ->
      (do st' <- view_sub_state v (has_length t) (length_ t) st; length_ t q st') = Some l' -> l' = l).
    { intros Hr Ht Hfr Hsl Hfq Es. destruct (view_sub_state _ _ _ st) as [st'|] eqn:Est; [|discriminate]. cbn in Es. apply (IH q st' l l'); auto.
      rewrite (len_kept _ _ _ _ _ _ Est); auto. }
    destruct v as [d|d i|d n|d s|d s n|d s e|d s r|d|d M m|d M m p|d b M m ml|M m d|sl gl d ds|ds|d|ps|y z d];
      cbn [free_length renames] in *; cbn [view_length] in E; cbv zeta in E; rewrite ?andb_true_iff, ?negb_true_iff in Hf; cbn [mem existsb orb] in Hf.
    all: try (lazymatch type of Hf with _ /\ _ => idtac end; destruct Hf as [Hd Hf]; apply Z.eqb_neq in Hd; try rewrite (proj2 (Z.eqb_neq _ _) Hd) in E; apply K; auto; cbn; try (intuition congruence); intros ? Hx; inv Hx; congruence).
    + destruct (Z.eqb_spec q d) as [->|Hd]; [congruence|]. apply K; auto; cbn; try (intuition congruence); discriminate.
    + destruct (Z.eqb_spec q d) as [->|Hd]; [rewrite Hl in E; congruence|]. apply K; auto; cbn; try (intuition congruence); discriminate.
    + eapply IH; eauto.
    + destruct (Z.eqb_spec q m) as [->|Hm]; [rewrite Hl in E; congruence|]. destruct (Z.eqb_spec q M) as [->|HM]; [rewrite Hl in E; congruence|]. cbn in Hf.
      destruct (Z.eqb_spec q d); [discriminate|]. apply K; auto; cbn; try (intuition congruence); discriminate.
    + destruct Hf as [Hp Hf]. rewrite Hp in E. apply Z.eqb_neq in Hp.
      destruct (Z.eqb_spec q m) as [->|Hm]; [rewrite Hl in E; congruence|]. destruct (Z.eqb_spec q M) as [->|HM]; [rewrite Hl in E; congruence|]. cbn in Hf.
      destruct (Z.eqb_spec q d); [discriminate|]. apply K; auto; cbn; try (intuition congruence); discriminate.
    + destruct Hf as [Hp Hf]. rewrite !orb_false_iff in Hp. destruct Hp as (Hd & Hb & HM & Hm & _). rewrite Hb, HM, Hm in E. rewrite Z.eqb_neq in *.
      apply K; auto; cbn; try (intuition congruence); discriminate.
    + destruct (Z.eqb_spec q d) as [->|Hd]; [rewrite Hl in E; congruence|]. cbn in Hf. rewrite andb_true_iff, negb_true_iff, !orb_false_iff, !Z.eqb_neq in Hf.
      apply K; auto; cbn; try (intuition congruence); discriminate.
    + destruct Hf as [Hp Hf]. rewrite !orb_false_iff in Hp. destruct Hp as [Hd Hds]. rewrite Hd in E. apply mem_false in Hds. rewrite Z.eqb_neq in *.
      apply K; auto; cbn; try (intuition congruence); discriminate.
    + apply K; auto; cbn; try (intuition congruence); discriminate.
    + apply K; auto; cbn; try (intuition congruence); discriminate.
    + destruct Hf as [Hk Hf]. cbn [view_sub_state] in E. cbn in E. cbn [view_sig] in Ev. destruct (nodupb _ && _ && _) eqn:En in Ev; [|discriminate]. rewrite !andb_true_iff, !nodupb_NoDup in En.
      destruct En as [[H1 H2] _]. eapply IH; eauto. rewrite get_rename_state by assumption.
      rewrite (proj1 (ext_name_spec ps q (rename_dim (swap_pairs ps) q) H1 H2 Hk) eq_refl). exact Hl.
    + discriminate.
  - destruct (length_Union _ _ _ _ E) as (t & s & Hin & Es & _ & Et). cbn [free_length] in Hf. cbn [uswf] in Hu. apply andb_true_iff in Hu. destruct Hu as [Hu _].
    rewrite forallb_forall in Hf, Hu. rewrite Forall_forall in IH. eapply (IH _ Hin); eauto. congruence.
Qed.
