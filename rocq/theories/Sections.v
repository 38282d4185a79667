(** * Sections of a traversal (C28) *)

From Coq Require Import Permutation Sorted.
From Verif Require Export Select.

(** ** Fixing several indices *)

Fixpoint fix_asg (e : state) (a : asg) : asg :=
  match e with
  | [] => a
  | (Idx d, v) :: r => fupd (fix_asg r a) d (vzd v)
  | _ :: r => fix_asg r a
  end.

Lemma fix_asg_get e a q : fix_asg e a q = match get (Idx q) e with Some v => vzd v | None => a q end.
Proof.
  induction e as [|[[d|d|n] v] e IH]; cbn [fix_asg get]; [reflexivity| | |]; try exact IH.
  unfold fupd. destruct (tag_eqb_spec (Idx q) (Idx d)) as [E|E].
  - injection E as ->. rewrite Z.eqb_refl. reflexivity.
  - destruct (Z.eqb_spec q d) as [->|_]; [congruence|exact IH].
Qed.

Definition free (e : state) (x : dim * option Z) : bool := match get (Idx (fst x)) e with Some _ => false | None => true end.

Lemma apply_fix_cons d v e t : apply (p_fix ((Idx d, v) :: e)) t = apply (p_fix e) (View (VFix d v) t).
Proof. reflexivity. Qed.

Lemma apply_sig p : forall t, signature (apply p t) <> None -> signature t <> None.
Proof.
  induction p as [|x p IH]; intros t H; [exact H|]. cbn [apply fold_left] in H. apply IH in H.
  destruct x as [d|v]; cbn [apply_layer] in H; [apply signature_vector in H; exact H|].
  destruct (signature_view _ _ H) as (s & E & _). congruence.
Qed.

Lemma free_cons d v e p : filter (free e) (pm (fun _ => []) d p) = filter (free ((Idx d, v) :: e)) p.
Proof.
  unfold pm. induction p as [|[q k] p IH]; [reflexivity|]. cbn [flat_map fst]. rewrite filter_app, IH. cbn [filter].
  unfold free at 3. cbn [fst get]. destruct (Z.eqb_spec q d) as [->|Hne].
  - destruct (tag_eqb_spec (Idx d) (Idx d)); [reflexivity|congruence].
  - destruct (tag_eqb_spec (Idx q) (Idx d)); [congruence|]. cbn [filter]. unfold free at 1. cbn [fst]. destruct (get (Idx q) e); reflexivity.
Qed.

Lemma filter_free_nil p : filter (free []) p = p.
Proof. apply filter_true_all. reflexivity. Qed.

Lemma fix_path e : forall t sg sge, idx_only e -> signature t = Some sg -> snodup sg = true -> signature (apply (p_fix e) t) = Some sge ->
  snodup sge = true /\ forall a,
    (forall p', spath sge a = Some p' -> exists p, spath sg (fix_asg e a) = Some p /\ p' = filter (free e) p) /\
    (forall p, spath sg (fix_asg e a) = Some p -> spath sge a = Some (filter (free e) p)).
Proof.
  induction e as [|[t0 v] e IH]; intros t sg sge Hi Es Hn Ee.
  - cbn in Ee. rewrite Es in Ee. injection Ee as <-. split; [exact Hn|]. intros a. cbn [fix_asg]. split.
    + intros p' E. exists p'. rewrite filter_free_nil. auto.
    + intros p E. rewrite filter_free_nil. exact E.
  - destruct (idx_only_cons _ _ Hi) as [[d Hd] Hi']. cbn [fst] in Hd. subst t0. rewrite apply_fix_cons in Ee.
    assert (Hv : signature (View (VFix d v) t) <> None) by (apply (apply_sig (p_fix e)); congruence).
    destruct (signature (View (VFix d v) t)) as [s1|] eqn:E1; [|congruence].
    assert (Ev : view_sig (VFix d v) sg = Some s1) by (cbn [signature] in E1; rewrite Es in E1; exact E1).
    assert (Hn1 : snodup s1 = true) by (eapply view_snodup; eauto; exact I).
    destruct (IH _ _ _ Hi' E1 Hn1 Ee) as [H1 H2]. split; [exact H1|]. intros a. destruct (H2 a) as [A B]. clear H2. cbn [fix_asg]. split.
    + intros p' E. destruct (A p' E) as (p1 & Ep1 & ->).
      destruct (view_path (VFix d v) sg s1 (ilen t) nolens (fix_asg e a) p1 Hn Ev Ep1 I) as (p & Ep & Hr).
      exists p. split; [exact Ep|]. cbn [prel] in Hr. rewrite Hr. apply free_cons.
    + intros p E. destruct (view_path_back (VFix d v) sg s1 (ilen t) nolens (fix_asg e a) p Hn Ev E I) as (p1 & Ep1 & Hr).
      rewrite (B _ Ep1). cbn [prel] in Hr. rewrite Hr. f_equal. apply free_cons.
Qed.

Lemma nolens_upd d : eqf (fupd nolens d None) nolens.
Proof. intros q. unfold fupd, nolens. destruct (q =? d); reflexivity. Qed.

Lemma fix_len e : forall t a q, idx_only e -> ilen (apply (p_fix e) t) nolens a q = ilen t nolens (fix_asg e a) q.
Proof.
  induction e as [|[t0 v] e IH]; intros t a q Hi; [reflexivity|].
  destruct (idx_only_cons _ _ Hi) as [[d Hd] Hi']. cbn [fst] in Hd. subst t0. rewrite apply_fix_cons, IH by exact Hi'.
  cbn [ilen view_ilen view_lenv view_asg fix_asg]. apply ilen_ext; [apply nolens_upd|apply eqf_refl].
Qed.

Lemma fix_lenok e : forall t, idx_only e -> lenok t nolens -> lenok (apply (p_fix e) t) nolens.
Proof.
  induction e as [|[t0 v] e IH]; intros t Hi H; [exact H|].
  destruct (idx_only_cons _ _ Hi) as [[d Hd] Hi']. cbn [fst] in Hd. subst t0. rewrite apply_fix_cons. apply IH; [exact Hi'|].
  split; [exact I|]. cbn [view_lenv]. eapply lenok_ext; [|exact H]. intros q. symmetry. apply nolens_upd.
Qed.

Lemma fix_valid e t sg sge a p' : idx_only e -> signature t = Some sg -> snodup sg = true ->
  pvalid (apply (p_fix e) t) nolens a sge p' ->
  exists p, spath sg (fix_asg e a) = Some p /\ p' = filter (free e) p /\
    ((forall d, In (d, None) p -> get (Idx d) e <> None -> 0 <= fix_asg e a d < ilen t nolens (fix_asg e a) d) ->
     pvalid t nolens (fix_asg e a) sg p).
Proof.
  intros Hi Es Hn (Ee & Ep & R). destruct (fix_path e t sg sge Hi Es Hn Ee) as [_ H]. destruct (H a) as [H1 _].
  destruct (H1 p' Ep) as (p & E & ->). exists p. split; [exact E|]. split; [reflexivity|]. intros Hr. split; [exact Es|]. split; [exact E|].
  rewrite Forall_forall in *. intros [d [n|]] Hin; unfold in_range; cbn [fst snd]; [eapply spath_dep_range; eauto|].
  destruct (get (Idx d) e) as [v|] eqn:Ed; [apply Hr; [exact Hin|congruence]|].
  assert (Hin' : In (d, None) (filter (free e) p)) by (apply filter_In; split; [exact Hin|]; unfold free; cbn [fst]; rewrite Ed; reflexivity).
  specialize (R _ Hin'). unfold in_range in R. cbn [fst snd] in R. rewrite fix_len in R by exact Hi.
  rewrite fix_asg_get, Ed. exact R.
Qed.

Lemma fix_valid_back e t sg sge b p : idx_only e -> signature t = Some sg -> snodup sg = true ->
  signature (apply (p_fix e) t) = Some sge -> pvalid t nolens b sg p -> (forall d v, get (Idx d) e = Some v -> vzd v = b d) ->
  pvalid (apply (p_fix e) t) nolens b sge (filter (free e) p).
Proof.
  intros Hi Es Hn Ee (_ & Ep & R) Hb.
  assert (He : eqf (fix_asg e b) b).
  { intros q. rewrite fix_asg_get. destruct (get (Idx q) e) as [v|] eqn:E; [apply Hb, E|reflexivity]. }
  destruct (fix_path e t sg sge Hi Es Hn Ee) as [_ H]. destruct (H b) as [_ H2].
  split; [exact Ee|]. split; [apply H2; rewrite (spath_eqf sg _ _ He); exact Ep|].
  rewrite Forall_forall in *. intros [d k] Hin. apply filter_In in Hin. destruct Hin as [Hin _]. specialize (R _ Hin).
  unfold in_range in *. cbn [fst snd] in *. destruct k; [exact R|]. rewrite fix_len by exact Hi.
  rewrite (ilen_ext t nolens nolens (fix_asg e b) b d) by (try exact He; apply eqf_refl). exact R.
Qed.

(** ** What the loops of a section reach *)

Section Visits.
  Variables (top : struct) (sg : sig).
  Hypothesis Hsig : signature top = Some sg.
  Hypothesis Hlk : lenok top nolens.

  Lemma visits_tags t st e : visits top sg t st e -> tnodup t = true -> TravFacts.fresh t st ->
    (forall x, In x e -> exists d, fst x = Idx d /\ dtree_contains d t = true) /\ NoDup (map fst e).
  Proof.
    induction 1 as [st|d bs st d' rs k b e F0 Fk Fb Fv IH|d b st d' al r len n i e F0 Fl Fn Fi Fv IH]; intros Hn Hf.
    - split; [intros x []|constructor].
    - pose proof (nthz_In _ _ _ Fb) as Hin. destruct (fresh_sub d bs b st (Sta k) Hf Hn Hin) as (Hd & Hnb & Hfb).
      destruct (IH Hnb Hfb) as [H1 H2]. split.
      + intros x [<-|Hx]; [exists d; split; [reflexivity|]; simpl; rewrite Z.eqb_refl; reflexivity|].
        destruct (H1 x Hx) as (q & E & Hq). exists q. split; [exact E|]. simpl. apply orb_true_iff. right. apply existsb_exists. eauto.
      + cbn [map fst]. constructor; [|exact H2]. intros Hc. apply in_map_iff in Hc. destruct Hc as (x & E & Hx).
        destruct (H1 x Hx) as (q & Eq & Hq). rewrite E in Eq. injection Eq as <-. apply andb_true_iff in Hn. destruct Hn as [Hn _].
        rewrite forallb_forall in Hn. specialize (Hn _ Hin). rewrite Hq in Hn. discriminate.
    - destruct (fresh_sub d [b] b st (Dyn i) Hf Hn (or_introl eq_refl)) as (Hd & Hnb & Hfb).
      destruct (IH Hnb Hfb) as [H1 H2]. split.
      + intros x [<-|Hx]; [exists d; split; [reflexivity|]; simpl; rewrite Z.eqb_refl; reflexivity|].
        destruct (H1 x Hx) as (q & E & Hq). exists q. split; [exact E|]. simpl. rewrite Hq, orb_true_r. reflexivity.
      + cbn [map fst]. constructor; [|exact H2]. intros Hc. apply in_map_iff in Hc. destruct Hc as (x & E & Hx).
        destruct (H1 x Hx) as (q & Eq & Hq). rewrite E in Eq. injection Eq as <-. apply andb_true_iff in Hn. destruct Hn as [Hn _].
        simpl in Hn. rewrite Hq in Hn. discriminate.
  Qed.

  Lemma visits_idx t st e : visits top sg t st e -> idx_only e.
  Proof.
    induction 1 as [st|d bs st d' rs k b e F0 Fk Fb Fv [ds IH]|d b st d' al r len n i e F0 Fl Fn Fi Fv [ds IH]].
    - exists []. reflexivity.
    - exists (d :: ds). cbn [map fst]. rewrite IH. reflexivity.
    - exists (d :: ds). cbn [map fst]. rewrite IH. reflexivity.
  Qed.

  Lemma get_here d v st e : get (Idx d) st = None -> get (Idx d) (st ++ (Idx d, v) :: e) = Some v.
  Proof. intros H. rewrite get_app, H. cbn [get]. destruct (tag_eqb_spec (Idx d) (Idx d)); congruence. Qed.

  Lemma visits_values t st e a p : visits top sg t st e -> tnodup t = true -> tsmall t = true -> TravFacts.fresh t st ->
    agree (st ++ e) nolens a -> spath sg a = Some p ->
    forall d v, In (Idx d, v) e -> exists k, In (d, k) p /\
      match k with None => v = Dyn (a d) /\ 0 <= a d < ilen top nolens a d | Some _ => v = Sta (a d) end.
  Proof.
    induction 1 as [st|d bs st d' rs k b e F0 Fk Fb Fv IH|d b st d' al r len n i e F0 Fl Fn Fi Fv IH]; intros Hn Hs Hf Ha Ep q w Hq.
    - destruct Hq.
    - pose proof (nthz_In _ _ _ Fb) as Hin. destruct (fresh_sub d bs b st (Sta k) Hf Hn Hin) as (Hd & Hnb & Hfb).
      simpl in Hs. apply andb_true_iff in Hs. destruct Hs as [HW Hs]. apply Z.ltb_lt in HW. rewrite forallb_forall in Hs.
      destruct Hq as [E|Hq].
      + injection E as <- <-. pose proof (nthz_Some_range _ _ _ Fb) as Hk.
        pose proof (ag_idx _ _ _ Ha _ _ (get_here d (Sta k) st e Hd)) as Hv. unfold vagree in Hv. cbn [vz] in Hv. rewrite u64_small in Hv by lia.
        assert (Ha' : agree st nolens a).
        { destruct Ha as [A B]. split; intros x; [specialize (A x)|intros y Hy; apply B]; rewrite get_app in *.
          - destruct (get (Len x) st); [exact A|exact I].
          - rewrite Hy. reflexivity. }
        destruct (sig_find_path d sg st nolens a p _ Ha' Ep F0) as (_ & Hin' & _). exists (Some (Z.of_nat (List.length rs))). split; [exact Hin'|]. congruence.
      + apply IH; auto. rewrite <- app_assoc. exact Ha.
    - destruct (fresh_sub d [b] b st (Dyn i) Hf Hn (or_introl eq_refl)) as (Hd & Hnb & Hfb).
      simpl in Hs. apply andb_true_iff in Hs. destruct Hs as [_ Hs]. rewrite andb_true_r in Hs.
      destruct Hq as [E|Hq].
      + injection E as <- <-. pose proof (vz_range _ _ Fn) as HnW.
        pose proof (ag_idx _ _ _ Ha _ _ (get_here d (Dyn i) st e Hd)) as Hv. unfold vagree in Hv. cbn [vz] in Hv. rewrite u64_small in Hv by lia.
        assert (Ha' : agree st nolens a).
        { destruct Ha as [A B]. split; intros x; [specialize (A x)|intros y Hy; apply B]; rewrite get_app in *.
          - destruct (get (Len x) st); [exact A|exact I].
          - rewrite Hy. reflexivity. }
        destruct (sig_find_path d sg st nolens a p _ Ha' Ep F0) as (_ & Hin'). exists None. split; [exact Hin'|]. split; [congruence|].
        pose proof (length_agree top ltac:(congruence) _ _ _ _ _ Hlk Ha' Fl) as Hl. unfold vagree in Hl. rewrite Fn in Hl. lia.
      + apply IH; auto. rewrite <- app_assoc. exact Ha.
  Qed.

  Lemma agree_head st d v e a : get (Idx d) st = None -> agree (st ++ (Idx d, v) :: e) nolens a -> vagree v (a d).
  Proof. intros Hd Ha. exact (ag_idx _ _ _ Ha _ _ (get_here d v st e Hd)). Qed.

  Lemma visits_unique t st e1 a : visits top sg t st e1 -> forall e2, visits top sg t st e2 -> tnodup t = true -> tsmall t = true -> TravFacts.fresh t st ->
    agree (st ++ e1) nolens a -> agree (st ++ e2) nolens a -> e1 = e2.
  Proof.
    induction 1 as [st|d bs st d' rs k b e F0 Fk Fb Fv IH|d b st d' al r len n i e F0 Fl Fn Fi Fv IH]; intros e2 Hv2 Hn Hs Hf Ha Ha2.
    - inversion Hv2. reflexivity.
    - inversion Hv2 as [|d1 bs1 st1 d2 rs2 k2 b2 e0 G0 Gk Gb Gv|d1 b1 st1 d2 al2 r2 len2 n2 i2 e0 G0 Gl Gn Gi Gv]; subst; [|rewrite F0 in G0; discriminate].
      pose proof (nthz_In _ _ _ Fb) as Hin. destruct (fresh_sub d bs b st (Sta k) Hf Hn Hin) as (Hd & Hnb & Hfb).
      simpl in Hs. apply andb_true_iff in Hs. destruct Hs as [HW Hs]. apply Z.ltb_lt in HW. rewrite forallb_forall in Hs.
      pose proof (nthz_Some_range _ _ _ Fb). pose proof (nthz_Some_range _ _ _ Gb).
      pose proof (agree_head _ _ _ _ _ Hd Ha) as V1. pose proof (agree_head _ _ _ _ _ Hd Ha2) as V2.
      unfold vagree in *. cbn [vz] in *. rewrite u64_small in V1, V2 by lia. assert (EK : k2 = k) by lia. clear V1 V2. subst k2.
      rewrite Fb in Gb. injection Gb as <-. f_equal. apply IH; auto; rewrite <- app_assoc; assumption.
    - inversion Hv2 as [|d1 bs1 st1 d2 rs2 k2 b2 e0 G0 Gk Gb Gv|d1 b1 st1 d2 al2 r2 len2 n2 i2 e0 G0 Gl Gn Gi Gv]; subst; [rewrite F0 in G0; discriminate|].
      destruct (fresh_sub d [b] b st (Dyn i) Hf Hn (or_introl eq_refl)) as (Hd & Hnb & Hfb).
      simpl in Hs. apply andb_true_iff in Hs. destruct Hs as [_ Hs]. rewrite andb_true_r in Hs.
      pose proof (vz_range _ _ Fn) as HnW. pose proof (vz_range _ _ Gn) as HnW2.
      pose proof (agree_head _ _ _ _ _ Hd Ha) as V1. pose proof (agree_head _ _ _ _ _ Hd Ha2) as V2.
      unfold vagree in *. cbn [vz] in *. rewrite u64_small in V1, V2 by lia. assert (EK : i2 = i) by lia. clear V1 V2. subst i2.
      f_equal. apply IH; auto; rewrite <- app_assoc; assumption.
  Qed.
End Visits.

(** ** The states of the loops are determined by the indices *)

Definition entry_of (p : path) (a : asg) (d : dim) : option val :=
  match find (fun e => fst e =? d) p with
  | Some (_, None) => Some (Dyn (a d))
  | Some (_, Some _) => Some (Sta (a d))
  | None => None
  end.

Definition canonical (top : struct) (sg : sig) (st : state) : Prop :=
  exists p, dims_of top st = Some p /\ pvalid top nolens (asg_of st) sg p /\
    forall d, get (Len d) st = None /\ get (Idx d) st = entry_of p (asg_of st) d.

Lemma entry_in p a d k : NoDup (map fst p) -> In (d, k) p ->
  entry_of p a d = Some (match k with None => Dyn (a d) | Some _ => Sta (a d) end).
Proof.
  intros Hn Hin. unfold entry_of. assert (E : find (fun e => fst e =? d) p = Some (d, k)).
  { induction p as [|[q j] p IH]; [destruct Hin|]. cbn [find fst]. cbn [map fst] in Hn. apply NoDup_cons_iff in Hn. destruct Hn as [Hq Hn].
    destruct Hin as [E|Hin]; [injection E as -> ->; rewrite Z.eqb_refl; reflexivity|].
    destruct (Z.eqb_spec q d) as [->|_]; [exfalso; apply Hq; eapply in_fst; eauto|auto]. }
  rewrite E. destruct k; reflexivity.
Qed.

Lemma entry_out p a d : ~ In d (map fst p) -> entry_of p a d = None.
Proof.
  intros H. unfold entry_of. destruct (find (fun e => fst e =? d) p) as [[q k]|] eqn:E; [|reflexivity]. exfalso. apply H.
  apply find_some in E. destruct E as [E1 E2]. cbn [fst] in E2. apply Z.eqb_eq in E2. subst q. eapply in_fst; eauto.
Qed.

Lemma entry_ext p a b d : (forall q, In q (map fst p) -> a q = b q) -> entry_of p a d = entry_of p b d.
Proof.
  intros H. unfold entry_of. destruct (find (fun e => fst e =? d) p) as [[q k]|] eqn:E; [|reflexivity].
  apply find_some in E. destruct E as [E1 E2]. cbn [fst] in E2. apply Z.eqb_eq in E2. subst q. rewrite H by (eapply in_fst; eauto). reflexivity.
Qed.

Lemma canonical_same top sg st st' : canonical top sg st -> canonical top sg st' -> index_list top st = index_list top st' -> same_get st st'.
Proof.
  intros (p & Ed & (Es & Ep & _) & G) (p' & Ed' & (_ & Ep' & _) & G') H.
  rewrite (index_list_at top st (asg_of st) p Ed), (index_list_at top st' (asg_of st') p' Ed') in H by auto.
  destruct (path_of_index _ _ _ _ _ Ep Ep' H) as [-> Ha]. intros d. destruct (G d) as [G1 G2], (G' d) as [G1' G2'].
  rewrite G1, G1', G2, G2'. split; [|reflexivity]. apply entry_ext, Ha.
Qed.

Lemma run_canonical top sg l e : signature top = Some sg -> snodup sg = true -> lenok top nolens ->
  fe_run top sg (sig_dim_tree sg) [] = Done l -> In e l -> canonical top sg e.
Proof.
  intros Hs Hn Hlk E He. destruct (run_valid top sg l Hs Hn Hlk E e He) as (p & D & V). exists p. split; [exact D|]. split; [exact V|].
  pose proof (run_nolen top sg l Hs Hn E e He) as Hl. pose proof (run_agree top sg l Hs Hn E e He) as Ha.
  pose proof (proj2 (run_tags top sg l Hs Hn E e He)) as Hnd. apply (run_in top sg l Hn E) in He.
  destruct V as (_ & Ep & _). pose proof (spath_nodup _ _ _ Hn Ep) as Hnp. intros d. split; [apply Hl|].
  destruct (visits_path top sg sg [] e nolens (asg_of e) Hn ltac:(intros ? ?; reflexivity) ltac:(intros ? ? ? ?; reflexivity) He Ha) as (p' & Ep' & Em & _).
  rewrite Ep in Ep'. injection Ep' as <-.
  destruct (in_dec Z.eq_dec d (map fst p)) as [Hd|Hd].
  - assert (Hi : In (Idx d) (map fst e)) by (rewrite Em; apply in_map, Hd).
    apply in_map_iff in Hi. destruct Hi as ([t0 v] & Et & Hv). cbn [fst] in Et. subst t0.
    destruct (visits_values top sg Hs Hlk _ [] e (asg_of e) p He (tree_tnodup _ Hn) (tree_tsmall _ Hn) (run_fresh sg) Ha Ep d v Hv) as (k & Hk & Hv').
    rewrite (get_idx_in e Hnd _ _ Hv), (entry_in p _ d k Hnp Hk). f_equal. destruct k; [exact Hv'|apply Hv'].
  - rewrite (entry_out p _ d Hd). destruct (get (Idx d) e) as [v|] eqn:Eg; [|reflexivity]. exfalso. apply get_In in Eg.
    assert (Hi : In (Idx d) (map fst e)) by (apply in_map_iff; exists (Idx d, v); auto). rewrite Em in Hi.
    apply in_map_iff in Hi. destruct Hi as (q & Eq & Hq). injection Eq as <-. contradiction.
Qed.

(** ** Lists *)

Lemma perm_Forall2 {A B} (R : A -> B -> Prop) l l' m : Permutation l l' -> Forall2 R l m -> exists m', Permutation m m' /\ Forall2 R l' m'.
Proof.
  intros P. revert m. induction P as [|x l l' P IH|x y l|l l' l'' P1 IH1 P2 IH2]; intros m F.
  - inversion F; subst. exists []. split; constructor.
  - inversion F as [|? b ? m0 H F0]; subst. destruct (IH _ F0) as (m' & P' & F'). exists (b :: m'). split; [constructor; exact P'|constructor; assumption].
  - inversion F as [|? b ? m0 H F0]; subst. inversion F0 as [|? b' ? m1 H' F1]; subst. exists (b' :: b :: m1). split; [constructor|repeat (constructor; try assumption)].
  - destruct (IH1 _ F) as (m' & P' & F'). destruct (IH2 _ F') as (m'' & P'' & F''). exists m''. split; [eapply perm_trans; eauto|exact F''].
Qed.

Lemma NoDup_app_intro {A} (l m : list A) : NoDup l -> NoDup m -> (forall x, In x l -> In x m -> False) -> NoDup (l ++ m).
Proof.
  induction 1 as [|x l Hx Hn IH]; intros Hm H; [exact Hm|]. simpl. constructor.
  - intros Hin. apply in_app_iff in Hin. destruct Hin as [Hin|Hin]; [contradiction|]. apply (H x); [left; reflexivity|exact Hin].
  - apply IH; [exact Hm|]. intros y Hy. apply H. right. exact Hy.
Qed.

Lemma nodup_flat {A B C} (key : B -> C) (f : A -> list B) L : NoDup L -> (forall x, In x L -> NoDup (map key (f x))) ->
  (forall x y b c, In x L -> In y L -> In b (f x) -> In c (f y) -> key b = key c -> x = y) -> NoDup (map key (flat_map f L)).
Proof.
  induction 1 as [|x L Hx Hn IH]; intros H1 H2; [constructor|]. cbn [flat_map]. rewrite map_app. apply NoDup_app_intro.
  - apply H1. left. reflexivity.
  - apply IH; [intros; apply H1; right; assumption|]. intros y z b c Hy Hz. apply H2; right; assumption.
  - intros k Hk Hk'. apply in_map_iff in Hk, Hk'. destruct Hk as (b & <- & Hb), Hk' as (c & E & Hc). apply in_flat_map in Hc.
    destruct Hc as (y & Hy & Hc). rewrite (H2 x y b c) in Hx; auto; [left; reflexivity|right; exact Hy].
Qed.

(** ** The sections together make the whole traversal *)

Section Main.
  Variables (t : trav) (sg : sig) (stsS : list state) (l1 : list state) (ls : list (list state)).
  Let u := tr_struct t.
  Let top := top_struct t.
  Hypothesis Hx : forall v s, tr_struct t <> View v s.
  Hypothesis Hsig : signature top = Some sg.
  Hypothesis Hn : snodup sg = true.
  Hypothesis Hlk : lenok top nolens.
  Hypothesis sec_tags : forall e, In e stsS -> idx_only e /\ NoDup (map fst e) /\ forall d, get (Len d) e = None.
  Hypothesis sec_nodup : NoDup stsS.
  Hypothesis sec_values : forall e a p, In e stsS -> agree e nolens a -> spath sg a = Some p ->
    forall d v, In (Idx d, v) e -> exists k, In (d, k) p /\
      match k with None => v = Dyn (a d) /\ 0 <= a d < ilen top nolens a d | Some _ => v = Sta (a d) end.
  Hypothesis sec_complete : forall a p, pvalid top nolens a sg p -> exists s, In s stsS /\ agree s nolens a.
  Hypothesis sec_unique : forall e1 e2 a, In e1 stsS -> In e2 stsS -> agree e1 nolens a -> agree e2 nolens a -> e1 = e2.
  Hypothesis E1 : for_each t [] = Done l1.
  Hypothesis E2 : Forall2 (fun e l => for_each (inner t e) [] = Done l) stsS ls.

  Let Hu v s : same_type u (View v s) = false.
  Proof. unfold u. destruct (tr_struct t) eqn:E; try reflexivity. exfalso. exact (Hx _ _ eq_refl). Qed.

  (** What runs inside the section [e]. *)
  Definition sub_run (e : state) (sub : list state) : Prop :=
    exists sge, signature (apply (p_fix e) top) = Some sge /\ snodup sge = true /\ lenok (apply (p_fix e) top) nolens /\
      fe_run (apply (p_fix e) top) sge (sig_dim_tree sge) [] = Done sub.

  Lemma sec_sub e l : In e stsS -> for_each (inner t e) [] = Done l ->
    exists sub, sub_run e sub /\ Forall2 (leads u top) (map (fun e' => e' ++ rev e) sub) l.
  Proof.
    intros He E. destruct (sec_tags e He) as (Hi & Hnd & Hlen).
    pose proof (for_each_signature _ _ E) as Hs. rewrite top_inner in Hs. fold top in Hs.
    destruct (signature (apply (p_fix e) top)) as [sge|] eqn:Ee; [|congruence].
    destruct (fix_path e top sg sge Hi Hsig Hn Ee) as [Hne _].
    destruct (each_run (inner t e) l) as (sg' & sub & Es' & Er & _ & F); auto.
    { unfold distinct_dims. rewrite top_inner. fold top. rewrite Ee. exact Hne. }
    rewrite top_inner in Es', Er, F. fold top in Es', Er, F. change (Some sge = Some sg') in Es' || rewrite Ee in Es'. injection Es' as <-.
    exists sub. split; [exists sge; split; [exact Ee|]; split; [exact Hne|]; split; [apply fix_lenok; auto|exact Er]|].
    change (tr_struct (inner t e)) with u in F.
    pose proof (run_nolen _ _ _ Ee Hne Er) as Hsl.
    assert (Hsc : forall e', In e' sub -> canonical (apply (p_fix e) top) sge e') by (intros e' He'; eapply run_canonical; eauto using fix_lenok).
    clear Er. revert F Hsl Hsc. clear -Hu Hi Hnd Hlen Ee Hne Hsig Hn. intros F. induction F as [|e' r sub l H F IH]; intros Hsl Hsc; [constructor|].
    cbn [map]. constructor; [|apply IH; intros; [apply Hsl|apply Hsc]; right; assumption].
    destruct H as (s' & Es' & G). exists s'. split; [|exact G]. rewrite <- state_at_fix; auto.
    - intros d. apply Hsl. left. reflexivity.
    - intros [t0 v] Hy. cbn [fst]. destruct Hi as [ds Hds].
      assert (Ht : In t0 (map Idx ds)) by (rewrite <- Hds; apply in_map_iff; exists (t0, v); auto).
      apply in_map_iff in Ht. destruct Ht as (d & <- & _).
      destruct (Hsc e' (or_introl eq_refl)) as (p & _ & V & G'). destruct (G' d) as [_ ->]. apply entry_out.
      destruct (fix_valid e top sg sge _ p (ex_intro _ ds Hds) Hsig Hn V) as (q & _ & -> & _). intros Hin.
      apply fst_in in Hin. destruct Hin as [k Hin]. apply filter_In in Hin. destruct Hin as [_ Hf]. unfold free in Hf. cbn [fst] in Hf.
      rewrite (get_idx_in e Hnd _ _ Hy) in Hf. discriminate.
  Qed.

  Lemma sec_subs all : (forall e, In e all -> In e stsS) -> forall lls, Forall2 (fun e l => for_each (inner t e) [] = Done l) all lls ->
    exists F : list (state * list state), map fst F = all /\ (forall x, In x F -> sub_run (fst x) (snd x)) /\
    Forall2 (leads u top) (flat_map (fun x => map (fun e' => e' ++ rev (fst x)) (snd x)) F) (concat lls).
  Proof.
    intros Hin lls F. induction F as [|e l all lls H F IH].
    - exists []. split; [reflexivity|]. split; [intros x []|constructor].
    - destruct IH as (G & G1 & G2 & G3); [intros; apply Hin; right; assumption|].
      destruct (sec_sub e l (Hin e (or_introl eq_refl)) H) as (sub & S1 & S2).
      exists ((e, sub) :: G). split; [cbn [map fst]; congruence|]. split; [intros x [<-|Hx']; auto|].
      cbn [flat_map fst snd concat]. apply Forall2_app; assumption.
  Qed.

  Lemma sec_asg e' e q : asg_of (e' ++ rev e) q = match get (Idx q) e' with Some v => vzd v | None => asg_of (rev e) q end.
  Proof. unfold asg_of. rewrite get_app. destruct (get (Idx q) e'); reflexivity. Qed.

  (** A state of the inner loops, together with the state of the section, is a state of the whole. *)
  Lemma sec_canonical e sub e' : In e stsS -> sub_run e sub -> In e' sub ->
    canonical top sg (e' ++ rev e) /\ agree e nolens (asg_of (e' ++ rev e)) /\
    (forall q, get (Idx q) e = None -> get (Idx q) (e' ++ rev e) = get (Idx q) e').
  Proof.
    intros He (sge & Ee & Hne & Hlke & Er) He'. destruct (sec_tags e He) as (Hi & Hnd & Hlen).
    pose proof (run_canonical _ _ _ e' Ee Hne Hlke Er He') as (p' & D' & V' & G').
    destruct (fix_valid e top sg sge _ p' Hi Hsig Hn V') as (p & Ep & Epp & Hval).
    set (a := fix_asg e (asg_of e')) in *.
    assert (Hfr : forall q, get (Idx q) e <> None -> get (Idx q) e' = None).
    { intros q Hq. destruct (G' q) as [_ ->]. apply entry_out. rewrite Epp. intros Hin. apply fst_in in Hin. destruct Hin as [k Hin].
      apply filter_In in Hin. destruct Hin as [_ Hf]. unfold free in Hf. cbn [fst] in Hf. destruct (get (Idx q) e); congruence. }
    assert (Hasg : eqf (asg_of (e' ++ rev e)) a).
    { intros q. unfold a. rewrite fix_asg_get. unfold asg_of at 1. rewrite get_app, get_rev by exact Hnd.
      destruct (get (Idx q) e) as [v|] eqn:Eq.
      - rewrite Hfr by congruence. reflexivity.
      - unfold asg_of. destruct (get (Idx q) e'); reflexivity. }
    assert (Hag : agree e nolens a).
    { split; intros d; [rewrite Hlen; exact I|]. intros v Hv. unfold a. rewrite fix_asg_get, Hv. unfold vagree, vzd. destruct (vz v); auto. }
    pose proof (sec_values e a p He Hag Ep) as Hvals.
    assert (V : pvalid top nolens a sg p).
    { apply Hval. intros d Hd Hg. destruct (get (Idx d) e) as [v|] eqn:Eg; [|congruence]. apply get_In in Eg.
      destruct (Hvals d v Eg) as (k & Hk & Hv). assert (k = None).
      { pose proof (entry_in p a d k (spath_nodup _ _ _ Hn Ep) Hk) as A1. pose proof (entry_in p a d None (spath_nodup _ _ _ Hn Ep) Hd) as A2.
        rewrite A1 in A2. destruct k; [discriminate|reflexivity]. }
      subst k. apply Hv. }
    assert (V2 : pvalid top nolens (asg_of (e' ++ rev e)) sg p).
    { destruct V as (_ & _ & R). split; [exact Hsig|]. split; [rewrite (spath_eqf sg _ _ Hasg); exact Ep|].
      rewrite Forall_forall in *. intros [d k] Hin. specialize (R _ Hin). unfold in_range in *. cbn [fst snd] in *. rewrite Hasg.
      destruct k; [exact R|]. rewrite (ilen_ext top nolens nolens _ a d) by (try exact Hasg; apply eqf_refl). exact R. }
    split; [|split].
    - exists p. split; [unfold dims_of; rewrite Hsig; exact (proj1 (proj2 V2))|]. split; [exact V2|]. intros d. split.
      + rewrite get_app, (proj1 (G' d)), get_rev by exact Hnd. apply Hlen.
      + rewrite (entry_ext p _ a) by (intros q _; apply Hasg). rewrite get_app, get_rev by exact Hnd.
        destruct (get (Idx d) e) as [v|] eqn:Eg.
        * rewrite Hfr by congruence. pose proof (get_In _ _ _ Eg) as Hv. destruct (Hvals d v Hv) as (k & Hk & Hv').
          rewrite (entry_in p a d k (spath_nodup _ _ _ Hn Ep) Hk). f_equal. destruct k; [exact Hv'|apply Hv'].
        * assert (Ea : a d = asg_of e' d) by (unfold a; rewrite fix_asg_get, Eg; reflexivity).
          destruct (in_dec Z.eq_dec d (map fst p)) as [Hd|Hd].
          -- apply fst_in in Hd. destruct Hd as [k Hk]. assert (Hk' : In (d, k) p').
             { rewrite Epp. apply filter_In. split; [exact Hk|]. unfold free. cbn [fst]. rewrite Eg. reflexivity. }
             rewrite (entry_in p a d k (spath_nodup _ _ _ Hn Ep) Hk), (proj2 (G' d)), (entry_in p' _ d k); [rewrite Ea; reflexivity| |exact Hk'].
             eapply spath_nodup; [exact Hne|apply V'].
          -- rewrite (entry_out p a d Hd), (proj2 (G' d)), entry_out; [reflexivity|]. intros Hin. apply Hd.
             apply fst_in in Hin. destruct Hin as [k Hin]. rewrite Epp in Hin. apply filter_In in Hin. eapply in_fst. apply Hin.
    - split; intros d; [rewrite Hlen; exact I|]. intros v Hv. rewrite Hasg. exact (ag_idx _ _ _ Hag d v Hv).
    - intros q Hq. rewrite get_app, get_rev, Hq by exact Hnd. destruct (get (Idx q) e'); reflexivity.
  Qed.

  (** Every state of the whole is a state of an inner loop. *)
  Lemma sec_all G e : map fst G = stsS -> (forall x, In x G -> sub_run (fst x) (snd x)) -> canonical top sg e ->
    In (index_list top e) (map (index_list top) (flat_map (fun x => map (fun e' => e' ++ rev (fst x)) (snd x)) G)).
  Proof.
    intros G1 G2 (p & D & V & Hg).
      destruct (sec_complete (asg_of e) p V) as (s & Hvs & Hs).
        destruct (sec_tags s Hvs) as (Hi & Hnd & Hlen).
        assert (HG : In s (map fst G)) by (rewrite G1; exact Hvs). apply in_map_iff in HG. destruct HG as ([s' sub] & Es' & HG). cbn [fst] in Es'. subst s'.
        pose proof (G2 _ HG) as Hsub. cbn [fst snd] in Hsub. pose proof Hsub as (sge & Ee & Hne & Hlke & Ers).
        pose proof (sec_values s (asg_of e) p Hvs Hs (proj1 (proj2 V))) as Hvals.
        assert (Hb : forall d v, get (Idx d) s = Some v -> vzd v = asg_of e d).
        { intros d v Hv. pose proof (ag_idx _ _ _ Hs d v Hv) as Hva. apply get_In in Hv. destruct (Hvals d v Hv) as (k & _ & Hk).
          destruct k; [subst v|destruct Hk as [-> _]]; exact Hva. }
        pose proof (fix_valid_back s top sg sge (asg_of e) p Hi Hsig Hn Ee V Hb) as V'.
        destruct (run_reaches _ sge sub Ee Hne Hlke Ers _ _ V') as (e' & He' & _ & De' & Hsame).
        apply in_map_iff. exists (e' ++ rev s). split.
        + destruct (sec_canonical s sub e' Hvs Hsub He') as ((pm & Dm & _ & Gm) & Agm & _).
          assert (Hsm : forall d, In d (map fst p) -> asg_of (e' ++ rev s) d = asg_of e d).
          { intros d Hd. unfold asg_of at 1. rewrite get_app, get_rev by exact Hnd.
            destruct (run_canonical _ _ _ e' Ee Hne Hlke Ers He') as (pe & Dpe & Vpe & Ge). rewrite De' in Dpe. injection Dpe as <-.
            destruct (get (Idx d) s) as [v|] eqn:Eg.
            - rewrite (proj2 (Ge d)), entry_out; [apply Hb, Eg|]. intros Hin. apply fst_in in Hin. destruct Hin as [k Hin].
              apply filter_In in Hin. destruct Hin as [_ Hf]. unfold free in Hf. cbn [fst] in Hf. rewrite Eg in Hf. discriminate.
            - apply fst_in in Hd. destruct Hd as [k Hk]. assert (Hk' : In (d, k) (filter (free s) p)).
              { apply filter_In. split; [exact Hk|]. unfold free. cbn [fst]. rewrite Eg. reflexivity. }
              rewrite <- (Hsame d) by (eapply in_fst; eauto). unfold asg_of. rewrite (proj2 (Ge d)).
              rewrite (entry_in _ _ d k (spath_nodup _ _ _ Hne (proj1 (proj2 Vpe))) Hk'). reflexivity. }
          rewrite (index_list_eq _ _ _ D). assert (Dm' : dims_of top (e' ++ rev s) = Some p).
          { unfold dims_of. rewrite Hsig. cbn [obind]. eapply spath_local; [|apply V]. exact Hsm. }
          rewrite (index_list_eq _ _ _ Dm'). apply map_ext_in. exact Hsm.
        + apply in_flat_map. exists (s, sub). split; [exact HG|]. cbn [fst snd]. apply in_map_iff. exists e'. auto.
  Qed.

  (** The same loop indices give the same states. *)
  Lemma leads_same sts M' l' : Forall2 (leads u top) sts l1 -> map (index_list top) sts = map (index_list top) M' -> Forall2 (leads u top) M' l' ->
    (forall m, In m M' -> canonical top sg m) -> (forall e, In e sts -> canonical top sg e) -> Forall2 same_get l1 l'.
  Proof.
    intros F1 EM Fl HM' Hcan1. assert (Hsig' : signature top <> None) by congruence.
    clear - F1 EM Fl HM' Hcan1 Hsig'. revert M' l1 l' F1 EM Fl HM' Hcan1. induction sts as [|e sts IH]; intros M' l1 l' F1 EM Fl HM' Hcan1.
    - destruct M'; [|discriminate]. inversion F1; subst. inversion Fl; subst. constructor.
    - destruct M' as [|m M']; [discriminate|]. cbn [map] in EM. injection EM as Em EM. inversion F1 as [|? r ? l0 H1 F0]; subst. inversion Fl as [|? r' ? l0' H2 F0']; subst.
      constructor; [|apply (IH M'); auto; intros; [apply HM'|apply Hcan1]; right; assumption].
      pose proof (canonical_same _ _ _ _ (Hcan1 e (or_introl eq_refl)) (HM' m (or_introl eq_refl)) Em) as Hsg.
      destruct H1 as (s1 & A1 & B1), H2 as (s2 & A2 & B2).
      pose proof (state_at_rel eq congruence_eq (fun _ => True) u _ _ (struct_rel_refl eq (fun x => eq_refl) top) Hsig' (fun _ _ => I) e m (same_get_srel _ _ Hsg)) as Hr.
      rewrite A1, A2 in Hr. cbn [orel] in Hr. pose proof (srel_same_get _ _ Hr) as Hg.
      intros d. destruct (B1 d), (B2 d), (Hg d). split; congruence.
  Qed.

  Theorem parts_perm : exists l', Permutation l' (concat ls) /\ Forall2 same_get l1 l'.
  Proof.
    destruct (each_run t l1 Hx ltac:(unfold distinct_dims; fold top; rewrite Hsig; exact Hn) E1) as (sg0 & sts & Es0 & Er & _ & F1).
    fold top in Es0, Er, F1. fold u in F1. rewrite Hsig in Es0. injection Es0 as <-.
    destruct (sec_subs stsS (fun _ H => H) ls E2) as (G & G1 & G2 & G3).
    set (M := flat_map (fun x => map (fun e' => e' ++ rev (fst x)) (snd x)) G) in *.
    assert (Gin : forall x, In x G -> In (fst x) stsS) by (intros x Hx'; rewrite <- G1; apply in_map, Hx').
    assert (HM : forall m, In m M -> exists x e', In x G /\ In e' (snd x) /\ m = e' ++ rev (fst x)).
    { intros m Hm. apply in_flat_map in Hm. destruct Hm as (x & HxG & Hm). apply in_map_iff in Hm. destruct Hm as (e' & <- & He'). eauto. }
    assert (Hcan : forall m, In m M -> canonical top sg m).
    { intros m Hm. destruct (HM m Hm) as (x & e' & HxG & He' & ->). apply (sec_canonical (fst x) (snd x)); auto. }
    assert (Hcan1 : forall e, In e sts -> canonical top sg e) by (intros e He; eapply run_canonical; eauto).
    assert (Hagr : forall st, canonical top sg st -> agree st nolens (asg_of st)).
    { intros st (p & _ & _ & Hg). split; intros d; [rewrite (proj1 (Hg d)); exact I|]. intros v Hv. unfold asg_of. rewrite Hv. unfold vagree, vzd. destruct (vz v); auto. }
    assert (Hincl1 : forall m, In m M -> In (index_list top m) (map (index_list top) sts)).
    { intros m Hm. destruct (Hcan m Hm) as (p & D & V & _).
      destruct (run_reaches top sg sts Hsig Hn Hlk Er (asg_of m) p V) as (e & He & _ & De & Hsame).
      apply in_map_iff. exists e. split; [|exact He]. rewrite (index_list_eq _ _ _ D), (index_list_eq _ _ _ De). apply map_ext_in. exact Hsame. }
    assert (Hincl2 : forall e, In e sts -> In (index_list top e) (map (index_list top) M)) by (intros e He; apply sec_all; auto).
    assert (Hnd1 : NoDup (map (index_list top) sts)) by (apply ssorted_nodup; exact (run_ordered top sg sts Hsig Hn Er)).
    assert (Hnd2 : NoDup (map (index_list top) M)).
    { apply nodup_flat.
      - apply (NoDup_map_inv (@fst state (list state))). rewrite G1. exact sec_nodup.
      - intros [e sub] HxG. cbn [fst snd]. pose proof (G2 _ HxG) as Hsub. pose proof (Gin _ HxG) as Hes. cbn [fst snd] in Hsub, Hes.
        pose proof Hsub as (sge & Ee & Hne & Hlke & Ers).
        rewrite map_map. pose proof (ssorted_nodup _ (run_ordered _ sge sub Ee Hne Ers)) as Hk.
        assert (Hinj : forall a b, In a sub -> In b sub -> index_list top (a ++ rev e) = index_list top (b ++ rev e) -> index_list (apply (p_fix e) top) a = index_list (apply (p_fix e) top) b).
        { intros a b Ha Hb Hab. destruct (sec_canonical e sub a Hes Hsub Ha) as (Ca & _ & Fa). destruct (sec_canonical e sub b Hes Hsub Hb) as (Cb & _ & Fb).
          pose proof (canonical_same _ _ _ _ Ca Cb Hab) as Hsg. apply index_same_get. intros d.
          destruct (run_canonical _ _ _ a Ee Hne Hlke Ers Ha) as (pa & Da & Va & Ga). destruct (run_canonical _ _ _ b Ee Hne Hlke Ers Hb) as (pb & Db & Vb & Gb).
          rewrite (proj1 (Ga d)), (proj1 (Gb d)). split; [|reflexivity]. destruct (get (Idx d) e) as [v|] eqn:Eg.
          - destruct (sec_tags e Hes) as (Hi & _ & _).
            assert (Hout : forall st q, pvalid (apply (p_fix e) top) nolens (asg_of st) sge q -> ~ In d (map fst q)).
            { intros st q Vq Hin. destruct (fix_valid e top sg sge _ q Hi Hsig Hn Vq) as (z & _ & -> & _). apply fst_in in Hin. destruct Hin as [k Hin].
              apply filter_In in Hin. destruct Hin as [_ Hf]. unfold free in Hf. cbn [fst] in Hf. rewrite Eg in Hf. discriminate. }
            rewrite (proj2 (Ga d)), (proj2 (Gb d)), !entry_out by (eapply Hout; eauto). reflexivity.
          - rewrite <- (Fa d Eg), <- (Fb d Eg). apply Hsg. }
        revert Hk Hinj. clear. induction sub as [|a sub IH]; intros Hk Hinj; [constructor|]. cbn [map] in *. apply NoDup_cons_iff in Hk. destruct Hk as [H1 H2].
        constructor; [|apply IH; [exact H2|]; intros x y Hx Hy; apply Hinj; right; assumption].
        intros Hin. apply in_map_iff in Hin. destruct Hin as (b & Eb & Hb). apply H1. apply in_map_iff. exists b. split; [|exact Hb].
        apply Hinj; [right; exact Hb|left; reflexivity|exact Eb].
      - intros [e sub] [e2 sub2] a b HxG HyG Ha Hb Hab. cbn [fst snd] in *. apply in_map_iff in Ha, Hb.
        destruct Ha as (a' & <- & Ha), Hb as (b' & <- & Hb).
        destruct (sec_canonical e sub a' (Gin _ HxG) (G2 _ HxG) Ha) as (Ca & Aa & _). destruct (sec_canonical e2 sub2 b' (Gin _ HyG) (G2 _ HyG) Hb) as (Cb & Ab & _).
        pose proof (canonical_same _ _ _ _ Ca Cb Hab) as Hsg.
        assert (Ab' : agree e2 nolens (asg_of (a' ++ rev e))).
        { destruct Ab as [A B]. split; [exact A|]. intros d v Hv. rewrite (asg_same_get _ _ Hsg). auto. }
        assert (e = e2).
        { apply (sec_unique e e2 (asg_of (a' ++ rev e))); auto; [exact (Gin _ HxG)|exact (Gin _ HyG)]. }
        subst e2. f_equal. destruct (G2 _ HxG) as (s1 & A1 & _ & _ & A2). destruct (G2 _ HyG) as (s2 & B1 & _ & _ & B2). cbn [fst snd] in *.
        rewrite A1 in B1. injection B1 as <-. rewrite A2 in B2. injection B2 as <-. reflexivity. }
    assert (P : Permutation (map (index_list top) sts) (map (index_list top) M)).
    { apply NoDup_Permutation; auto. intros k. split; intros Hk; apply in_map_iff in Hk; destruct Hk as (z & <- & Hz); auto. }
    apply Permutation_map_inv in P. destruct P as (M' & EM & PM).
    destruct (perm_Forall2 _ _ _ _ PM G3) as (l' & Pl & Fl). exists l'. split; [symmetry; exact Pl|].
    apply (leads_same sts M'); auto. intros m Hm. apply Hcan. eapply Permutation_in; [symmetry; exact PM|exact Hm].
  Qed.
End Main.

(** The states of the sections of a traversal: every element is in exactly one section. *)
Definition parts (t : trav) (sg : sig) (stsS : list state) : Prop :=
  signature (top_struct t) = Some sg /\ snodup sg = true /\
  (forall e, In e stsS -> idx_only e /\ NoDup (map fst e) /\ forall d, get (Len d) e = None) /\
  NoDup stsS /\
  (forall e a p, In e stsS -> agree e nolens a -> spath sg a = Some p -> forall d v, In (Idx d, v) e -> exists k, In (d, k) p /\
     match k with None => v = Dyn (a d) /\ 0 <= a d < ilen (top_struct t) nolens a d | Some _ => v = Sta (a d) end) /\
  (forall a p, pvalid (top_struct t) nolens a sg p -> exists s, In s stsS /\ agree s nolens a) /\
  forall e1 e2 a, In e1 stsS -> In e2 stsS -> agree e1 nolens a -> agree e2 nolens a -> e1 = e2.

Lemma perm_of_parts t sg stsS l ls : (forall v s, tr_struct t <> View v s) -> lenok (top_struct t) nolens -> parts t sg stsS ->
  for_each t [] = Done l -> Forall2 (fun e l => for_each (inner t e) [] = Done l) stsS ls -> exists l', Permutation l' (concat ls) /\ Forall2 same_get l l'.
Proof. intros Hx Hlk (H1 & H2 & H3 & H4 & H5 & H6 & H7) El F. exact (parts_perm t sg stsS l ls Hx H1 H2 Hlk H3 H4 H5 H6 H7 El F). Qed.

Lemma sig_found d st sg : forall x, sig_find_dim d st sg = Some x -> any_accept d sg = true.
Proof.
  induction sg as [c| |d' al r IH|d' rs IH] using sig_ind'; intros x E; simpl in E; try discriminate; simpl; (destruct (d' =? d); [reflexivity|]); [eauto|].
  destruct (get (Idx d') st) as [v|]; [|discriminate]. destruct (vstatic v) as [k|]; [|discriminate].
  rewrite nthz_map in E. destruct (nthz rs k) as [r|] eqn:Er; [|discriminate]. pose proof (nthz_In _ _ _ Er) as Hin.
  rewrite Forall_forall in IH. apply existsb_exists. exists r. split; [exact Hin|]. exact (IH r Hin x E).
Qed.

Lemma visits_accept top sg t st e d v : visits top sg t st e -> In (Idx d, v) e -> any_accept d sg = true.
Proof.
  induction 1 as [st|d0 bs st d' rs k b e F0 Fk Fb Fv IH|d0 b st d' al r len n i e F0 Fl Fn Fi Fv IH]; intros Hin; [destruct Hin| |];
    (destruct Hin as [E|Hin]; [injection E as <- _; eapply sig_found; eauto|auto]).
Qed.

Section Loops.
  Variables (t : trav) (sg : sig) (tr : dtree) (stsS : list state).
  Let top := top_struct t.
  Hypothesis Hsig : signature top = Some sg.
  Hypothesis Hn : snodup sg = true.
  Hypothesis Hlk : lenok top nolens.
  Hypothesis Htn : tnodup tr = true.
  Hypothesis Hts : tsmall tr = true.
  Hypothesis Hfull : full sg tr [].
  Hypothesis ES : fe_run top sg tr [] = Done stsS.

  Let fresh0 : TravFacts.fresh tr [].
  Proof. intros ? ?. reflexivity. Qed.

  Lemma sec_in e : In e stsS <-> visits top sg tr [] e.
  Proof.
    rewrite (fe_run_visits top sg tr [] stsS Htn fresh0 ES e). split.
    - intros (e' & -> & He). exact He.
    - intros He. exists e. auto.
  Qed.

  Theorem loops_parts : parts t sg stsS.
  Proof.
    split; [exact Hsig|]. split; [exact Hn|]. split; [|split; [|split; [|split]]].
    - intros e He. apply sec_in in He. pose proof (visits_idx _ _ _ _ _ He) as Hi. split; [exact Hi|].
      split; [exact (proj2 (visits_tags _ _ _ _ _ He Htn fresh0))|]. destruct Hi as [ds Hi]. eapply map_fst_Idx; eauto.
    - pose proof (ssorted_nodup _ (run_sorted top sg tr [] stsS Htn Hts fresh0 ES)) as H. exact (NoDup_map_inv _ _ H).
    - intros e a p He Ha Ep. apply (visits_values top sg Hsig Hlk tr [] e a p); auto. apply sec_in, He.
    - intros a p V. destruct (run_complete top sg Hsig Hlk tr [] stsS a p Htn fresh0 ES Hfull) as (s & Hvs & Hs).
      + split; [intros d; exact I|intros d v Hv; discriminate].
      + apply V.
      + intros d Hd. destruct V as (_ & _ & R). rewrite Forall_forall in R. exact (R _ Hd).
      + intros d n Hd. eapply snodup_small; eauto. apply V.
      + exists s. split; [apply sec_in; exact Hvs|exact Hs].
    - intros e1 e2 a H1 H2 A1 A2. refine (visits_unique top sg tr [] e1 a _ e2 _ Htn Hts fresh0 _ _); try assumption; apply sec_in; assumption.
  Qed.

  Lemma loops_accept e d v : In e stsS -> In (Idx d, v) e -> any_accept d sg = true.
  Proof. intros He. apply sec_in in He. eapply visits_accept; eauto. Qed.
End Loops.
