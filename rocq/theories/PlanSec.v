(** * Sections of a planner (C31) *)

From Verif Require Export PlanRun.
From Verif Require Import Views.

Notation full := PlanFacts.full.

(** ** Places in the loop nest *)

(** [s] is what remains of [sg] inside the loops whose indices are [st]. *)
Inductive reach (sg : sig) : sig -> state -> Prop :=
| reach_nil : reach sg sg []
| reach_fun d al r st v : reach sg (SFun d al r) st -> vz v <> None -> reach sg r (st ++ [(Idx d, v)])
| reach_dep d rs r st k : reach sg (SDep d rs) st -> nthz rs k = Some r -> reach sg r (st ++ [(Idx d, Sta k)]).

Lemma get_snoc t st x : get t (st ++ [x]) = match get t st with Some v => Some v | None => if tag_eqb t (fst x) then Some (snd x) else None end.
Proof. rewrite TravFacts.get_app. destruct x as [t' v]. cbn [get fst snd]. reflexivity. Qed.

Lemma idx_snoc st d v : idx_only st -> idx_only (st ++ [(Idx d, v)]).
Proof. intros [ds E]. exists (ds ++ [d]). rewrite !map_app, E. reflexivity. Qed.

Lemma nodup_snoc st d v : NoDup (map fst st) -> get (Idx d) st = None -> NoDup (map fst (st ++ [(Idx d, v)])).
Proof.
  intros H Hg. rewrite map_app. apply NoDup_app_intro; [exact H|cbn; constructor; [intros []|constructor]|]. intros x Hx [<-|[]]. cbn [fst] in Hx. apply in_map_iff in Hx.
  destruct Hx as ([t w] & E & Hin). cbn [fst] in E. subst t. apply In_get in Hin. congruence.
Qed.

Lemma dep_small d rs k r : snodup (SDep d rs) = true -> nthz rs k = Some r -> u64 k = k.
Proof. intros Hn Hk. apply u64_small. cbn [snodup] in Hn. apply andb_true_iff in Hn. destruct Hn as [Hl _]. apply Z.ltb_lt in Hl. apply nthz_Some_range in Hk. lia. Qed.

Lemma reach_facts sg s st : snodup sg = true -> reach sg s st ->
  snodup s = true /\ (forall q, any_accept q s = true -> get (Idx q) st = None) /\ idx_only st /\ NoDup (map fst st) /\ (forall q v, get (Idx q) st = Some v -> vz v <> None).
Proof.
  intros Hn. induction 1 as [|d al r st v H IH Hv|d rs r st k H IH Hk].
  - split; [exact Hn|]. split; [reflexivity|]. split; [exists []; reflexivity|]. split; [constructor|discriminate].
  - destruct IH as (A & B & C & D & E). pose proof (B d ltac:(simpl; rewrite Z.eqb_refl; reflexivity)) as Hg. apply snodup_fun in A. destruct A as [A1 A2].
    split; [exact A2|]. split; [|split; [apply idx_snoc, C|split; [apply nodup_snoc; assumption|]]].
    + intros q Hq. rewrite get_snoc, B by (simpl; rewrite Hq; apply orb_true_r). cbn [fst tag_eqb]. destruct (Z.eqb_spec q d) as [->|]; [congruence|reflexivity].
    + intros q w Hw. rewrite get_snoc in Hw. destruct (get (Idx q) st) as [x|] eqn:Ex; [injection Hw as <-; eauto|]. cbn [fst snd] in Hw. destruct (tag_eqb _ _); [|discriminate]. injection Hw as <-. exact Hv.
  - destruct IH as (A & B & C & D & E). pose proof (B d ltac:(simpl; rewrite Z.eqb_refl; reflexivity)) as Hg. destruct (snodup_dep _ _ _ _ A Hk) as [A1 A2].
    split; [exact A2|]. split; [|split; [apply idx_snoc, C|split; [apply nodup_snoc; assumption|]]].
    + intros q Hq. rewrite get_snoc, B by (simpl; apply orb_true_iff; right; apply existsb_exists; exists r; split; [eapply nthz_In; eauto|exact Hq]).
      cbn [fst tag_eqb]. destruct (Z.eqb_spec q d) as [->|]; [congruence|reflexivity].
    + intros q w Hw. rewrite get_snoc in Hw. destruct (get (Idx q) st) as [x|] eqn:Ex; [injection Hw as <-; eauto|]. cbn [fst snd] in Hw. destruct (tag_eqb _ _); [|discriminate]. injection Hw as <-. discriminate.
Qed.

Lemma extends_snoc st d v X : get (Idx d) st = None -> extends (st ++ [(Idx d, v)]) X -> extends st X /\ get (Idx d) X = Some v.
Proof.
  intros Hd H. split.
  - intros q w Hq. apply H. rewrite get_snoc, Hq. reflexivity.
  - apply H. rewrite get_snoc, Hd. cbn [fst tag_eqb snd]. rewrite Z.eqb_refl. reflexivity.
Qed.

Lemma reach_find sg s st : snodup sg = true -> reach sg s st -> forall q X, any_accept q s = true -> extends st X -> sig_find_dim q X sg = sig_find_dim q X s.
Proof.
  intros Hn. induction 1 as [|d al r st v H IH Hv|d rs r st k H IH Hk]; intros q X Hq HX; [reflexivity| |];
    destruct (reach_facts _ _ _ Hn H) as (A & B & _); pose proof (B d ltac:(simpl; rewrite Z.eqb_refl; reflexivity)) as Hg; destruct (extends_snoc _ _ _ _ Hg HX) as [H1 H2].
  - rewrite IH; [|simpl; rewrite Hq; apply orb_true_r|exact H1]. cbn [sig_find_dim]. apply snodup_fun in A. destruct A as [A1 _]. destruct (Z.eqb_spec d q) as [->|]; [congruence|reflexivity].
  - rewrite IH; [|simpl; apply orb_true_iff; right; apply existsb_exists; exists r; split; [eapply nthz_In; eauto|exact Hq]|exact H1]. cbn [sig_find_dim].
    destruct (snodup_dep _ _ _ _ A Hk) as [A1 _]. destruct (Z.eqb_spec d q) as [->|]; [congruence|]. rewrite H2. cbn [vstatic]. rewrite (dep_small _ _ _ _ A Hk), nthz_map, Hk. reflexivity.
Qed.

Lemma reach_full sg s st : snodup sg = true -> reach sg s st -> forall X, extends st X -> full sg X = true -> full s X = true.
Proof.
  intros Hn. induction 1 as [|d al r st v H IH Hv|d rs r st k H IH Hk]; intros X HX Hf; [exact Hf| |];
    destruct (reach_facts _ _ _ Hn H) as (A & B & _); pose proof (B d ltac:(simpl; rewrite Z.eqb_refl; reflexivity)) as Hg; destruct (extends_snoc _ _ _ _ Hg HX) as [H1 H2].
  - specialize (IH X H1 Hf). cbn [full] in IH. apply andb_true_iff in IH. apply IH.
  - specialize (IH X H1 Hf). apply full_dep in IH. destruct IH as (v & j & Hv & Hj & Hr). apply Hr. assert (v = Sta k) by congruence. subst v. cbn [vstatic] in Hj. rewrite (dep_small _ _ _ _ A Hk) in Hj. congruence.
Qed.

Lemma p_fix_app st st' : p_fix (st ++ st') = p_fix st ++ p_fix st'.
Proof. unfold p_fix. apply flat_map_app. Qed.

Lemma reach_sig top sg s st : signature top = Some sg -> snodup sg = true -> reach sg s st -> signature (apply (p_fix st) top) = Some s.
Proof.
  intros Hs Hn. induction 1 as [|d al r st v H IH Hv|d rs r st k H IH Hk]; [exact Hs| |]; rewrite p_fix_app, apply_app; cbn [p_fix flat_map fst snd app apply fold_left apply_layer signature]; rewrite IH; cbn [obind view_sig sreplace mem existsb]; rewrite Z.eqb_refl; cbn [orb]; [reflexivity|].
  cbn [vstatic]. destruct (reach_facts _ _ _ Hn H) as (A & _). rewrite (dep_small _ _ _ _ A Hk). exact Hk.
Qed.

(** ** The loops inside a section are those of the fixed structure *)

Lemma length_fix q e : forall t st, idx_only e -> NoDup (map fst e) -> signature (apply (p_fix e) t) <> None -> get (Idx q) e = None -> get (Idx q) st = None ->
  (forall d, get (Len d) st = None) -> (forall y, In y e -> get (fst y) st = None) -> length_ (apply (p_fix e) t) q st = length_ t q (e ++ st).
Proof.
  induction e as [|[t0 v] e IH]; intros t st Hi Hn Hs Hq Hqs Hl Hf; [reflexivity|].
  destruct (idx_only_cons _ _ Hi) as [[d Ed] Hi']. cbn [fst] in Ed. subst t0. cbn [map fst] in Hn. apply NoDup_cons_iff in Hn. destruct Hn as [Hd Hn].
  rewrite apply_fix_cons in Hs |- *. cbn [get] in Hq. destruct (tag_eqb_spec (Idx q) (Idx d)) as [E|E]; [discriminate|].
  assert (Hqd : q <> d) by congruence. rewrite IH; auto. 2: intros y Hy; apply Hf; right; exact Hy.
  apply apply_sig in Hs. assert (Hge : get (Idx d) e = None) by (destruct (get (Idx d) e) eqn:E1; [exfalso; apply Hd; apply get_In in E1; eapply in_fst; eauto|reflexivity]).
  assert (Hle : forall x, get (Len x) e = None) by (destruct Hi' as [ds Hds]; eapply map_fst_Idx; eauto).
  refine (proj2 (length_view (VFix d v) t q (e ++ st) _ ((Idx d, v) :: e ++ st) eq_refl eq_refl _ _ Hs eq_refl _)).
  - cbn [own]. intros [->|[]]. contradiction.
  - rewrite TravFacts.get_app, Hq. exact Hqs.
  - intros x. rewrite !get_with, !get_remove. cbn [get tag_eqb tag_mem existsb orb]. rewrite !TravFacts.get_app, !Hle, !Hl. rewrite ?orb_false_r. split; destruct (x =? d); reflexivity.
Qed.

Lemma reach_app sg s1 st s y : reach sg s1 st -> reach s1 s y -> reach sg s (st ++ y).
Proof.
  intros H. induction 1 as [|d al r y v H1 IH Hv|d rs r y k H1 IH Hk]; [rewrite app_nil_r; exact H| |]; rewrite app_assoc; [eapply reach_fun|eapply reach_dep]; eauto.
Qed.

Lemma extends_refl st : extends st st.
Proof. intros q v H. exact H. Qed.

Lemma sub_find s q X : (exists al r, s = SFun q al r) \/ (exists rs, s = SDep q rs) -> any_accept q s = true /\ sig_find_dim q X s = Some s.
Proof. intros [(al & r & ->)|(rs & ->)]; simpl; rewrite Z.eqb_refl; auto. Qed.

Section Inside.
  Variables (top : struct) (sg s1 : sig) (st : state).
  Hypothesis Hs : signature top = Some sg.
  Hypothesis Hn : snodup sg = true.
  Hypothesis Hr : reach sg s1 st.

  Lemma inside_length q s y : reach s1 s y -> any_accept q s = true -> length_ (apply (p_fix st) top) q y = length_ top q (st ++ y).
  Proof using Hs Hn Hr.
    intros Hy Hq. destruct (reach_facts _ _ _ Hn Hr) as (A & B & C & D & E). destruct (reach_facts _ _ _ A Hy) as (A' & B' & C' & D' & E').
    destruct (reach_facts _ _ _ Hn (reach_app _ _ _ _ _ Hr Hy)) as (_ & B2 & _ & D2 & _). specialize (B2 q Hq). rewrite TravFacts.get_app in B2.
    apply length_fix; auto.
    - rewrite (reach_sig _ _ _ _ Hs Hn Hr). discriminate.
    - destruct (get (Idx q) st); [discriminate|reflexivity].
    - destruct C' as [ds Hds]. eapply map_fst_Idx; eauto.
    - intros [t v] Hin. cbn [fst]. destruct (get t y) as [w|] eqn:Ew; [|reflexivity]. exfalso. apply get_In in Ew. rewrite map_app in D2.
      revert D2. apply (in_map fst) in Hin, Ew. cbn [fst] in *. clear -Hin Ew. intros D2. induction (map fst st) as [|x l IH]; [destruct Hin|]. cbn [app] in D2. apply NoDup_cons_iff in D2. destruct D2 as [D1 D2].
      destruct Hin as [->|Hin]; [apply D1, in_app_iff; right; exact Ew|auto].
  Qed.

  Lemma inside_run s : forall y, reach s1 s y ->
    out_rel (Forall2 (fun x y => x = st ++ y)) (fe_run top sg (sig_dim_tree s) (st ++ y)) (fe_run (apply (p_fix st) top) s1 (sig_dim_tree s) y).
  Proof using Hs Hn Hr.
    destruct (reach_facts _ _ _ Hn Hr) as (Hn1 & _).
    assert (Hnode : forall q s y, (exists al r, s = SFun q al r) \/ (exists rs, s = SDep q rs) -> reach s1 s y ->
      sig_find_dim q (st ++ y) sg = Some s /\ sig_find_dim q y s1 = Some s /\ length_ (apply (p_fix st) top) q y = length_ top q (st ++ y) /\
      (forall v, with_ [(Idx q, v)] (st ++ y) = st ++ (y ++ [(Idx q, v)])) /\ (forall v, with_ [(Idx q, v)] y = y ++ [(Idx q, v)])).
    { intros q s0 y Hs0 Hy. pose proof (reach_app _ _ _ _ _ Hr Hy) as Hsy. destruct (sub_find s0 q (st ++ y) Hs0) as [Ha Hf1]. destruct (sub_find s0 q y Hs0) as [_ Hf2].
      destruct (reach_facts _ _ _ Hn Hsy) as (_ & B & _). destruct (reach_facts _ _ _ Hn1 Hy) as (_ & B' & _).
      rewrite (reach_find _ _ _ Hn Hsy q _ Ha (extends_refl _)), (reach_find _ _ _ Hn1 Hy q _ Ha (extends_refl _)). repeat split; auto.
      - eapply inside_length; eauto.
      - intros v. rewrite with_fresh by (apply B, Ha). rewrite app_assoc. reflexivity.
      - intros v. apply with_fresh, B', Ha. }
    induction s as [c| |d al r IH|d rs IH] using sig_ind'; intros y Hy.
    - cbn. constructor; [reflexivity|constructor].
    - cbn. constructor; [reflexivity|constructor].
    - destruct (Hnode d _ y (or_introl (ex_intro _ al (ex_intro _ r eq_refl))) Hy) as (F1 & F2 & L & W1 & W2). cbn [sig_dim_tree fe_run]. rewrite F1, F2, L.
      destruct (length_ top d (st ++ y)) as [len|]; [|exact I]. destruct (vz len) as [n|]; [|exact I]. apply out_cat_rel. intros i _. rewrite W1, W2. apply IH. eapply reach_fun; eauto. discriminate.
    - destruct (Hnode d _ y (or_intror (ex_intro _ rs eq_refl)) Hy) as (F1 & F2 & L & W1 & W2). change (sig_dim_tree (SDep d rs)) with (DNode d (map sig_dim_tree rs)).
      rewrite (fe_run_dep top sg _ _ _ _ _ F1), (fe_run_dep _ s1 _ _ _ _ _ F2). apply out_cat_rel. intros [k b] Hk. cbn [fst snd]. apply numbered_In in Hk. rewrite Z.sub_0_r, nthz_map in Hk. destruct Hk as [_ Hk].
      destruct (nthz rs k) as [r|] eqn:Er; [|discriminate]. cbn [option_map] in Hk. assert (b = sig_dim_tree r) by congruence. subst b. rewrite W1, W2. rewrite Forall_forall in IH. apply IH; [eapply nthz_In; eauto|eapply reach_dep; eauto].
  Qed.

  Lemma section_run : out_rel (Forall2 (fun x y => x = st ++ y)) (fe_run top sg (sig_dim_tree s1) st) (fe_run (apply (p_fix st) top) s1 (sig_dim_tree s1) []).
  Proof using Hs Hn Hr. pose proof (inside_run s1 [] (reach_nil s1)) as H. rewrite app_nil_r in H. exact H. Qed.
End Inside.

(** ** Stopping at some of the loops *)

Lemma out_cat_flat {A B C} (h : A -> list C) (g : C -> outcome (list B)) l : out_cat (map (fun a => out_cat (map g (h a))) l) = out_cat (map g (flat_map h l)).
Proof.
  assert (Happ : forall (x y : list (outcome (list B))), out_cat (x ++ y) = out_bind (out_cat x) (fun a => out_map (app a) (out_cat y))).
  { induction x as [|o x IH]; intros y; cbn [app out_cat out_bind]; [destruct (out_cat y); reflexivity|]. destruct o; cbn [out_bind]; try reflexivity. rewrite IH. destruct (out_cat x); cbn [out_bind out_map]; try reflexivity.
    destruct (out_cat y); cbn [out_map]; try reflexivity. rewrite app_assoc. reflexivity. }
  induction l as [|a l IH]; [reflexivity|]. cbn [map out_cat flat_map]. rewrite map_app, Happ, <- IH. reflexivity.
Qed.

Section Cut.
  Variables (top : struct) (sg : sig) (act : state -> option bool).
  Hypothesis Hn : snodup sg = true.

  Definition cut (s : sig) (st : state) (sts : list state) : Prop :=
    exists cs : list (state * sig), sts = map fst cs /\ NoDup sts /\
      (forall c, In c cs -> reach sg (snd c) (fst c) /\ act (fst c) = Some true /\ exists e, fst c = st ++ e) /\
      fe_run top sg (sig_dim_tree s) st = out_cat (map (fun c => fe_run top sg (sig_dim_tree (snd c)) (fst c)) cs).

  Lemma cut_join {A} (f g : A -> outcome (list state)) l (nx : A -> state) (sb : A -> sig) sts st :
    NoDup (map nx l) -> (forall a, In a l -> exists x, nx a = st ++ [x]) -> (forall a, In a l -> g a = fe_run top sg (sig_dim_tree (sb a)) (nx a)) ->
    (forall a y, In a l -> f a = Done y -> cut (sb a) (nx a) y) -> out_cat (map f l) = Done sts ->
    exists cs : list (state * sig), sts = map fst cs /\ NoDup sts /\
      (forall c, In c cs -> reach sg (snd c) (fst c) /\ act (fst c) = Some true /\ exists e, fst c = st ++ e) /\
      out_cat (map g l) = out_cat (map (fun c => fe_run top sg (sig_dim_tree (snd c)) (fst c)) cs).
  Proof using.
    intros Hd Hx Hg Hc E.
    assert (H : exists h : list (A * list (state * sig)), map fst h = l /\ sts = flat_map (fun x => map fst (snd x)) h /\
      forall x, In x h -> NoDup (map fst (snd x)) /\ (forall c, In c (snd x) -> reach sg (snd c) (fst c) /\ act (fst c) = Some true /\ exists e, fst c = nx (fst x) ++ e) /\
        g (fst x) = out_cat (map (fun c => fe_run top sg (sig_dim_tree (snd c)) (fst c)) (snd x))).
    { clear Hd. revert sts E. induction l as [|a l IH]; intros sts E; cbn [map out_cat] in E.
      - injection E as <-. exists []. split; [reflexivity|]. split; [reflexivity|intros x []].
      - destruct (f a) as [| |y] eqn:Ea; try discriminate. cbn [out_bind] in E. destruct (out_cat (map f l)) as [| |z] eqn:Ez; try discriminate. cbn [out_map] in E.
        destruct (IH (fun b Hb => Hx b (or_intror Hb)) (fun b Hb => Hg b (or_intror Hb)) (fun b y Hb => Hc b y (or_intror Hb)) z eq_refl) as (h & H1 & H2 & H3).
        destruct (Hc a y (or_introl eq_refl) Ea) as (cs & C1 & C2 & C3 & C4). exists ((a, cs) :: h). split; [cbn; congruence|]. split; [cbn; congruence|].
        intros x [<-|Hin]; [|auto]. cbn [fst snd]. split; [rewrite <- C1; exact C2|]. split; [exact C3|]. rewrite Hg by (left; reflexivity). exact C4. }
    destruct H as (h & H1 & H2 & H3). exists (flat_map snd h). split; [rewrite H2; clear; induction h as [|x h IH]; [reflexivity|]; cbn [flat_map]; rewrite map_app, IH; reflexivity|].
    assert (Hl : forall x, In x h -> In (fst x) l) by (intros x Hin; rewrite <- H1; apply in_map; exact Hin).
    split; [|split].
    - rewrite H2. rewrite <- (map_id (flat_map _ h)). apply nodup_flat.
      + rewrite <- H1, map_map in Hd. eapply NoDup_map_inv; exact Hd.
      + intros x Hin. rewrite map_id. apply (H3 x Hin).
      + intros x x' b c Hin Hin' Hb Hc' ->. apply in_map_iff in Hb, Hc'. destruct Hb as (c1 & E1 & Hc1), Hc' as (c2 & E2 & Hc2).
        destruct (proj1 (proj2 (H3 x Hin)) c1 Hc1) as (_ & _ & e1 & X1). destruct (proj1 (proj2 (H3 x' Hin')) c2 Hc2) as (_ & _ & e2 & X2).
        destruct (Hx _ (Hl x Hin)) as [v1 V1]. destruct (Hx _ (Hl x' Hin')) as [v2 V2]. rewrite V1 in X1. rewrite V2 in X2.
        assert (Hv : v1 = v2). { rewrite <- E2, X2, X1, <- !app_assoc in E1. apply app_inv_head in E1. cbn [app] in E1. congruence. }
        assert (Hnx : nx (fst x) = nx (fst x')) by congruence. rewrite <- H1, map_map in Hd.
        clear -Hin Hin' Hnx Hd. induction h as [|z h IH]; [destruct Hin|]. cbn [map] in Hd. apply NoDup_cons_iff in Hd. destruct Hd as [D1 D2].
        destruct Hin as [->|Hin], Hin' as [->|Hin']; auto; exfalso; apply D1; rewrite in_map_iff; eauto.
    - intros c Hc'. apply in_flat_map in Hc'. destruct Hc' as (x & Hin & Hc'). destruct (proj1 (proj2 (H3 x Hin)) c Hc') as (R1 & R2 & e & R3). split; [exact R1|]. split; [exact R2|].
      destruct (Hx _ (Hl x Hin)) as [v V]. rewrite V, <- app_assoc in R3. eauto.
    - rewrite <- out_cat_flat, <- H1, map_map. f_equal. apply map_ext_in. intros x Hin. apply (H3 x Hin).
  Qed.

  Lemma cut_run s : forall st sts, reach sg s st -> pe_run top sg act (sig_dim_tree s) st = Done sts -> cut s st sts.
  Proof using Hn.
    assert (Hhere : forall s st sts, reach sg s st -> act st = Some true -> pe_run top sg act (sig_dim_tree s) st = Done sts -> cut s st sts).
    { intros s0 st sts Hr Ha E. assert (sts = [st]). { destruct (sig_dim_tree s0); cbn [pe_run] in E; rewrite Ha in E; congruence. } subst sts.
      exists [(st, s0)]. split; [reflexivity|]. split; [repeat constructor; intros []|]. split.
      - intros c [<-|[]]. split; [exact Hr|]. split; [exact Ha|]. exists []. rewrite app_nil_r. reflexivity.
      - cbn [map fst snd out_cat]. destruct (fe_run _ _ _ _); cbn; try reflexivity. rewrite app_nil_r. reflexivity. }
    assert (Hnode : forall q s y, (exists al r, s = SFun q al r) \/ (exists rs, s = SDep q rs) -> reach sg s y ->
      sig_find_dim q y sg = Some s /\ (forall v, with_ [(Idx q, v)] y = y ++ [(Idx q, v)])).
    { intros q s0 y Hs0 Hy. destruct (sub_find s0 q y Hs0) as [Ha Hf]. destruct (reach_facts _ _ _ Hn Hy) as (_ & B & _).
      rewrite (reach_find _ _ _ Hn Hy q _ Ha (extends_refl _)). split; [exact Hf|]. intros v. apply with_fresh, B, Ha. }
    induction s as [c| |d al r IH|d rs IH] using sig_ind'; intros st sts Hr E.
    - destruct (act st) as [[|]|] eqn:Ea; [apply Hhere; assumption| |]; cbn in E; rewrite Ea in E; discriminate.
    - destruct (act st) as [[|]|] eqn:Ea; [apply Hhere; assumption| |]; cbn in E; rewrite Ea in E; discriminate.
    - destruct (act st) as [[|]|] eqn:Ea; [apply Hhere; assumption| |cbn in E; rewrite Ea in E; discriminate].
      destruct (Hnode d _ st (or_introl (ex_intro _ al (ex_intro _ r eq_refl))) Hr) as [F W]. unfold cut. cbn [sig_dim_tree pe_run fe_run] in *. rewrite Ea, F in E. rewrite F.
      destruct (length_ top d st) as [len|]; [|discriminate]. destruct (vz len) as [n|]; [|discriminate].
      refine (cut_join _ _ (zseq n) (fun i => st ++ [(Idx d, Dyn i)]) (fun _ => r) sts st _ _ _ _ E).
      + apply FinFun.Injective_map_NoDup; [|apply zseq_NoDup]. intros i j Eij. apply app_inv_head in Eij. congruence.
      + intros i _. eauto.
      + intros i _. rewrite W. reflexivity.
      + intros i y _ Ey. rewrite W in Ey. apply IH; [|exact Ey]. eapply reach_fun; eauto. discriminate.
    - destruct (act st) as [[|]|] eqn:Ea; [apply Hhere; assumption| |cbn in E; rewrite Ea in E; discriminate].
      destruct (Hnode d _ st (or_intror (ex_intro _ rs eq_refl)) Hr) as [F W]. change (sig_dim_tree (SDep d rs)) with (DNode d (map sig_dim_tree rs)) in E. cbn [pe_run] in E. rewrite Ea, F in E. discriminate.
  Qed.
End Cut.

(** ** Running everything *)


Lemma hands_ext u s l l' : over hands_on u s l -> eqf l l' -> over hands_on u s l'.
Proof.
  intros H. revert l'. induction H as [l Hl|v t l Hp Ho IH]; intros l' He.
  - constructor. intros d. rewrite <- He. apply Hl.
  - constructor; [destruct v; exact Hp|]. apply IH. apply view_lenv_ext, He.
Qed.

Lemma plannable_inner t sg s st : plannable t -> signature (top_struct t) = Some sg -> reach sg s st -> plannable (inner t st).
Proof.
  intros (Hx & Ho & Hw) Hs Hr. pose proof (uswf_snodup _ _ Hw Hs) as Hn. split; [exact Hx|]. change (tr_struct (inner t st)) with (tr_struct t). rewrite top_inner.
  induction Hr as [|d al r st v H IH Hv|d rs r st k H IH Hk]; [split; assumption| |]; destruct IH as [IH1 IH2]; pose proof (reach_sig _ _ _ _ Hs Hn H) as Hss;
    rewrite p_fix_app, apply_app; cbn [p_fix flat_map fst snd app apply fold_left apply_layer]; (split; [constructor; [exact I|]; cbn [view_lenv]; eapply hands_ext; [exact IH1|]; intros q; symmetry; apply nolens_upd|]);
    cbn [uswf]; rewrite IH2; unfold view_swf; rewrite Hss; [destruct (vz v); [reflexivity|contradiction]|reflexivity].
Qed.

Definition is_around (e : ending) : Prop := en_kind e = Around.

Lemma combine_In {A B} (l : list A) (m : list B) a b : In (a, b) (combine l m) -> In a l.
Proof. apply in_combine_l. Qed.

Lemma endings_fix_In es s ss : endings_fix es s = Some ss -> Forall2 (fun e g => sig_fix s (en_sig e) = Some g) es ss.
Proof.
  unfold endings_fix. destruct (omap _ es) as [ss'|] eqn:E; [|discriminate]. cbn [obind]. destruct (endings_ok ss'); [|discriminate]. intros H. assert (ss' = ss) by congruence. subst ss'. clear H.
  revert ss E. induction es as [|e es IH]; intros ss E; cbn [omap] in E; [injection E as <-; constructor|]. destruct (sig_fix s (en_sig e)) as [g|] eqn:Eg; [|discriminate]. cbn [obind] in E.
  destruct (omap _ es) as [r|]; [|discriminate]. cbn [obind] in E. injection E as <-. constructor; auto.
Qed.

(** What the endings of a planner do at a place in the loop nest. *)
Lemma fire_cases t f sgu ar st c : Forall is_around ar -> fire (fixed {| pl_trav := t; pl_endings := {| en_sig := sgu; en_kind := Body; en_fun := f |} :: ar |} st) = Some c ->
  exists s, tr_state (inner t st) = Some s /\
    ((c = CallBody f s /\ exists g, sig_fix s sgu = Some g /\ ground g = true) \/
     (exists e ar' g, In e ar /\ sig_fix s (en_sig e) = Some g /\ ground g = true /\ Forall is_around ar' /\ incl ar' ar /\
        c = CallAround (en_fun e) {| pl_trav := inner t st; pl_endings := {| en_sig := sgu; en_kind := Body; en_fun := f |} :: ar' |})).
Proof.
  intros Har E. unfold fire in E. change (pl_trav (fixed _ st)) with (inner t st) in E. destruct (tr_state (inner t st)) as [s|]; [|discriminate]. cbn [obind] in E.
  cbn [fixed pl_order pl_endings] in E. destruct (endings_fix _ s) as [ss|] eqn:Ef; [|discriminate]. cbn [obind] in E. exists s. split; [reflexivity|].
  apply endings_fix_In in Ef. inversion Ef as [|e0 g0 es0 gs Hg0 Hgs]; subst. cbn [en_sig] in Hg0. cbn [combine filter fst snd] in E. destruct (ground g0) eqn:E0.
  - left. destruct (filter _ _); [|discriminate]. cbn [en_kind en_fun] in E. split; [congruence|eauto].
  - right. destruct (filter (fun x => ground (snd x)) (combine ar gs)) as [|[e g] [|]] eqn:Efl; try discriminate.
    assert (Hin : In (e, g) (combine ar gs) /\ ground g = true). { assert (H : In (e, g) (filter (fun x => ground (snd x)) (combine ar gs))) by (rewrite Efl; left; reflexivity). apply filter_In in H. exact H. }
    destruct Hin as [Hin Hgr]. assert (Hs : sig_fix s (en_sig e) = Some g). { clear -Hgs Hin. induction Hgs as [|x y l m H _ IH]; [destruct Hin|]. destruct Hin as [Hi|Hin]; [injection Hi as -> ->; exact H|auto]. }
    pose proof (in_combine_l _ _ _ _ Hin) as Hie. rewrite Forall_forall in Har. pose proof (Har e Hie) as Hk. red in Hk. rewrite Hk in E.
    unfold endings_next in E. cbn [combine filter snd] in E. rewrite E0 in E. cbn [negb map fst] in E.
    set (ar' := map fst (filter (fun x => negb (ground (snd x))) (combine ar gs))) in E.
    assert (Hincl : incl ar' ar). { intros x Hx. apply in_map_iff in Hx. destruct Hx as ([x' y] & <- & Hx). apply filter_In in Hx. destruct Hx as [Hx _]. eapply in_combine_l; eauto. }
    exists e, ar', g. split; [exact Hie|]. split; [exact Hs|]. split; [exact Hgr|]. split; [apply Forall_forall; intros x Hx; apply Har, Hincl, Hx|]. split; [exact Hincl|]. congruence.
Qed.

(** If the body is called, then inside all loops. *)
Lemma body_inside t sg s st sgu s' g : plannable t -> signature (top_struct t) = Some sg -> signature (tr_struct t) = Some sgu -> reach sg s st ->
  tr_state (inner t st) = Some s' -> sig_fix s' sgu = Some g -> ground g = true -> sig_dim_tree s = DLeaf.
Proof.
  intros (Hx & Ho & Hw) Hs Hu Hr Ht Hf Hg. pose proof (uswf_snodup _ _ Hw Hs) as Hn. destruct (reach_facts _ _ _ Hn Hr) as (A & B & C & D & E).
  unfold tr_state in Ht. change (tr_struct (inner t st)) with (tr_struct t) in Ht. rewrite top_inner in Ht. rewrite state_at_fix in Ht; auto.
  2: { intros v u. destruct (tr_struct t); try reflexivity. exfalso. eapply Hx. reflexivity. }
  cbn [app] in Ht. assert (Hfu : full sgu s' = true) by (eapply ground_full; [eapply uswf_snodup; [eapply over_uswf; eauto|exact Hu]|exact Hf|exact Hg]).
  pose proof (over_full _ _ _ Ho sg sgu (rev st) s' Hx Hw Hs Hu Ht Hfu) as Hfull.
  assert (Hfull' : full sg st = true) by (rewrite <- Hfull; apply full_ext; intros q _; symmetry; apply get_rev, D).
  pose proof (reach_full _ _ _ Hn Hr st (extends_refl st) Hfull') as H1. destruct s as [c| |d al r|d rs]; try reflexivity.
  - cbn [full] in H1. rewrite has_get, (B d) in H1 by (simpl; rewrite Z.eqb_refl; reflexivity). discriminate.
  - apply full_dep in H1. destruct H1 as (v & k & H1 & _). rewrite (B d) in H1 by (simpl; rewrite Z.eqb_refl; reflexivity). discriminate.
Qed.

Lemma omap_map {A B C} (f : A -> B) (g : B -> option C) l : omap g (map f l) = omap (fun x => g (f x)) l.
Proof. induction l as [|a l IH]; [reflexivity|]. cbn [map omap]. rewrite IH. reflexivity. Qed.

Lemma omap_Some_Forall2 {A B} (f : A -> option B) l m : omap f l = Some m -> Forall2 (fun a b => f a = Some b) l m.
Proof.
  revert m. induction l as [|a l IH]; intros m E; cbn [omap] in E; [injection E as <-; constructor|]. destruct (f a) as [b|] eqn:Ea; [|discriminate]. destruct (omap f l) as [r|]; [|discriminate]. injection E as <-. constructor; auto.
Qed.

Lemma omap_concat {A B} (f : A -> option B) xs ys : Forall2 (fun x y => omap f x = Some y) xs ys -> omap f (concat xs) = Some (concat ys).
Proof. induction 1 as [|x y xs ys H _ IH]; [reflexivity|]. cbn [concat]. clear -H IH. revert y H. induction x as [|a x IHx]; intros y H; cbn [omap] in H; [injection H as <-; exact IH|].
  cbn [app omap]. destruct (f a) as [b|]; [|discriminate]. destruct (omap f x) as [r|]; [|discriminate]. injection H as <-. rewrite (IHx r eq_refl). reflexivity. Qed.

Lemma out_cat_Done_intro {A} (l : list (outcome (list A))) xs : Forall2 (fun o y => o = Done y) l xs -> out_cat l = Done (concat xs).
Proof. induction 1 as [|o y l xs -> _ IH]; [reflexivity|]. cbn [out_cat out_bind]. rewrite IH. reflexivity. Qed.

Definition loop_states (t : trav) (ss : list state) : Prop :=
  exists sg sts, signature (top_struct t) = Some sg /\ fe_run (top_struct t) sg (sig_dim_tree sg) [] = Done sts /\ omap tr_state (map (inner t) sts) = Some ss.

Lemma inner_inner t st e : inner (inner t st) e = inner t (st ++ e).
Proof. unfold inner, order. cbn [tr_struct tr_order]. rewrite p_fix_app, app_assoc. reflexivity. Qed.

Theorem execute_all_calls n : forall t f sgu ar evs, plannable t -> signature (tr_struct t) = Some sgu -> Forall is_around ar ->
  execute_all n {| pl_trav := t; pl_endings := {| en_sig := sgu; en_kind := Body; en_fun := f |} :: ar |} = Done evs ->
  exists ss, loop_states t ss /\ body_calls evs = map (pair f) ss.
Proof.
  induction n as [|n IH]; intros t f sgu ar evs Hp Hu Har E; [discriminate|]. cbn [execute_all] in E. set (p := {| pl_trav := t; pl_endings := _ |}) in E.
  destruct (execute p) as [| |calls] eqn:Ex; try discriminate. cbn [out_bind] in E. unfold execute in Ex. cbn [pl_endings p pl_trav] in Ex. fold p in Ex.
  destruct (signature (top_struct t)) as [sg|] eqn:Es; [|discriminate]. pose proof (uswf_snodup _ _ (proj2 (proj2 Hp)) Es) as Hn.
  destruct (pe_ok _ _ _ _ _ _); [|discriminate]. destruct (pe_run (top_struct t) sg (activated p) (sig_dim_tree sg) []) as [| |sts] eqn:Er; try discriminate. cbn [out_bind] in Ex.
  destruct (omap (fun st => fire (fixed p st)) sts) as [calls'|] eqn:Ec; [|discriminate]. assert (calls' = calls) by congruence. subst calls'. clear Ex.
  destruct (cut_run (top_struct t) sg (activated p) Hn sg [] sts (reach_nil sg) Er) as (cs & C1 & _ & C3 & C4).
  apply omap_Some_Forall2 in Ec. apply out_cat_Done in E. destruct E as (parts & Hparts & ->).
  assert (H : exists xs ys, Forall2 (fun o y => o = Done y) (map (fun c => fe_run (top_struct t) sg (sig_dim_tree (snd c)) (fst c)) cs) xs /\
    Forall2 (fun x y => omap tr_state (map (inner t) x) = Some y) xs ys /\ body_calls (concat parts) = map (pair f) (concat ys)).
  { clear C4 Er. subst sts. revert calls parts Ec Hparts. induction cs as [|[st s] cs IHc]; intros calls parts Ec Hparts.
    - inversion Ec; subst. inversion Hparts; subst. exists [], []. repeat split; constructor.
    - cbn [map fst] in Ec. inversion Ec as [|x c l calls' Hc Hcalls]; subst. cbn [map] in Hparts. inversion Hparts as [|o ev l parts' Hev Hpl]; subst.
      destruct (IHc (fun c Hc => C3 c (or_intror Hc)) calls' parts' Hcalls Hpl) as (xs & ys & X1 & X2 & X3). destruct (C3 _ (or_introl eq_refl)) as (Hr & _ & _). cbn [fst snd] in Hr.
      assert (Hone : exists x y, fe_run (top_struct t) sg (sig_dim_tree s) st = Done x /\ omap tr_state (map (inner t) x) = Some y /\ body_calls ev = map (pair f) y).
      { destruct (fire_cases _ _ _ _ _ _ Har Hc) as (s' & Hs' & [(-> & g & Hg & Hgr)|(e & ar' & g & He & Hg & Hgr & Har' & _ & ->)]).
        - assert (Hev' : ev = [ECall f s']) by congruence. subst ev. exists [st], [s']. rewrite (body_inside t sg s st sgu s' g Hp Es Hu Hr Hs' Hg Hgr). split; [reflexivity|]. split; [cbn [map omap]; rewrite Hs'; reflexivity|reflexivity].
        - destruct (execute_all n _) as [| |tr] eqn:En in Hev; try discriminate. cbn [out_map] in Hev.
          pose proof (IH (inner t st) f sgu ar' tr (plannable_inner _ _ _ _ Hp Es Hr) Hu Har' En) as (ss & (sg1 & sub & L1 & L2 & L3) & L4).
          rewrite top_inner in L1, L2. rewrite (reach_sig _ _ _ _ Es Hn Hr) in L1. assert (sg1 = s) by congruence. subst sg1.
          pose proof (section_run (top_struct t) sg s st Es Hn Hr) as Hsim. rewrite L2 in Hsim. destruct (fe_run (top_struct t) sg (sig_dim_tree s) st) as [| |x]; try contradiction. cbn [out_rel] in Hsim.
          exists x, ss. split; [reflexivity|]. split.
          + rewrite <- L3, !omap_map. clear -Hsim. induction Hsim as [|a b x sub -> _ IHs]; [reflexivity|]. cbn [omap]. rewrite IHs, inner_inner. reflexivity.
          + assert (Hev' : ev = EEnter (en_fun e) {| pl_trav := inner t st; pl_endings := {| en_sig := sgu; en_kind := Body; en_fun := f |} :: ar' |} :: tr ++ [ELeave (en_fun e)]) by congruence. subst ev.
            unfold body_calls in *. cbn [flat_map app]. rewrite flat_map_app. cbn [flat_map]. rewrite app_nil_r. exact L4. }
      destruct Hone as (x & y & O1 & O2 & O3). exists (x :: xs), (y :: ys). split; [constructor; assumption|]. split; [constructor; assumption|].
      cbn [concat]. unfold body_calls in *. rewrite flat_map_app, map_app, O3, X3. reflexivity. }
  destruct H as (xs & ys & X1 & X2 & X3). exists (concat ys). split; [|exact X3]. exists sg, (concat xs). split; [exact Es|]. split; [rewrite C4; apply out_cat_Done_intro; exact X1|].
  rewrite omap_map. apply omap_concat. clear -X2. induction X2 as [|x y xs ys H _ IHx]; constructor; [rewrite <- omap_map; exact H|exact IHx].
Qed.

(** ** The dimensions of a section are known inside *)

Fixpoint on_paths (d : dim) (s : sig) : bool :=
  match s with
  | SScalar _ | SVoid => false
  | SFun q _ r => (q =? d) || on_paths d r
  | SDep q rs => (q =? d) || forallb (on_paths d) rs
  end.

Lemma build_paths top ds : forall st s d, reassemble_build top st ds = Some s -> In d ds -> on_paths d s = true.
Proof.
  induction ds as [|x ds IH]; intros st s d E Hd; [destruct Hd|]. cbn [reassemble_build] in E. destruct (mem x ds); [discriminate|].
  destruct (sig_find_dim x st top) as [[c| |q al r|q rs]|]; try discriminate.
  - destruct (reassemble_build _ _ ds) as [s1|] eqn:E1; [|discriminate]. injection E as <-. cbn [on_paths]. destruct Hd as [->|Hd]; [rewrite Z.eqb_refl; reflexivity|]. rewrite (IH _ _ d E1 Hd). apply orb_true_r.
  - destruct (omap _ _) as [ss|] eqn:E1; [|discriminate]. injection E as <-. cbn [on_paths]. destruct Hd as [->|Hd]; [rewrite Z.eqb_refl; reflexivity|]. apply orb_true_iff. right. apply forallb_forall. intros s Hs.
    apply omap_Some_Forall2 in E1. clear -E1 Hs IH Hd. induction E1 as [|k s0 l m H _ IHm]; [destruct Hs|]. destruct Hs as [->|Hs]; [eapply IH; eauto|auto].
Qed.

Lemma fix_paths d q v s s' : view_sig (VFix d v) s = Some s' -> q <> d -> on_paths q s = true -> on_paths q s' = true.
Proof.
  cbn [view_sig]. intros E Hq. revert s' E. induction s as [c| |x al r IH|x rs IH] using sig_ind'; intros s' E H; try discriminate; cbn [sreplace mem existsb on_paths] in *; rewrite orb_false_r in E.
  - destruct (Z.eqb_spec x d) as [->|Hx].
    + injection E as <-. destruct (Z.eqb_spec d q); [congruence|exact H].
    + destruct (sreplace [d] _ r) as [r'|]; [|discriminate]. injection E as <-. cbn [on_paths]. destruct (x =? q); [reflexivity|]. cbn [orb] in *. apply IH; auto.
  - destruct (Z.eqb_spec x d) as [->|Hx].
    + destruct (vstatic v) as [k|]; [|discriminate]. destruct (Z.eqb_spec d q); [congruence|]. cbn [orb] in H. rewrite forallb_forall in H. apply H. eapply nthz_In; eauto.
    + destruct (omap _ rs) as [rs'|] eqn:E1; [|discriminate]. injection E as <-. cbn [on_paths]. destruct (x =? q); [reflexivity|]. cbn [orb] in *. rewrite forallb_forall in *. intros r' Hr'.
      apply omap_Some_Forall2 in E1. rewrite Forall_forall in IH. clear -E1 Hr' IH H. induction E1 as [|r s0 l m Hr _ IHm]; [destruct Hr'|].
      destruct Hr' as [->|Hr']; [apply (IH r); [left; reflexivity|exact Hr|apply H; left; reflexivity]|]. apply IHm; auto; intros y Hy; [apply IH|apply H]; right; exact Hy.
Qed.

Lemma sig_fix_paths st : forall s g d, sig_fix st s = Some g -> on_paths d s = true -> has (Idx d) st = true \/ on_paths d g = true.
Proof.
  induction st as [|[[q|q|n] v] st IH]; intros s g d E H; cbn [sig_fix] in E.
  - injection E as <-. right. exact H.
  - destruct (view_sig (VFix q v) s) as [s1|] eqn:E1; [|discriminate]. cbn [obind] in E. destruct (Z.eq_dec d q) as [->|Hd].
    + left. rewrite has_get. cbn [get tag_eqb]. rewrite Z.eqb_refl. reflexivity.
    + destruct (IH s1 g d E (fix_paths _ _ _ _ _ E1 Hd H)) as [H1|H1]; [left|right; exact H1]. rewrite has_get in *. cbn [get tag_eqb]. destruct (d =? q); [reflexivity|exact H1].
  - destruct (IH s g d E H) as [H1|H1]; [left|right; exact H1]. rewrite has_get in *. cbn [get tag_eqb]. exact H1.
  - destruct (IH s g d E H) as [H1|H1]; [left|right; exact H1]. rewrite has_get in *. cbn [get tag_eqb]. exact H1.
Qed.

Definition section_of (sgu : sig) (x : list dim * Z) (e : ending) : Prop := en_kind e = Around /\ en_fun e = snd x /\ view_sig (VReorder (fst x)) sgu = Some (en_sig e).

Lemma add_sections_endings secs : forall p q sgu, signature (tr_struct (pl_trav p)) = Some sgu -> add_sections p secs = Some q ->
  pl_trav q = pl_trav p /\ exists ar, pl_endings q = pl_endings p ++ ar /\ Forall2 (section_of sgu) secs ar.
Proof.
  induction secs as [|[ds g] secs IH]; intros p q sgu Hs E; cbn [add_sections] in E.
  - injection E as <-. split; [reflexivity|]. exists []. rewrite app_nil_r. split; [reflexivity|constructor].
  - destruct (pl_for_sections p ds g) as [p1|] eqn:E1; [|discriminate]. cbn [obind] in E. unfold pl_for_sections in E1. rewrite Hs in E1. cbn [obind] in E1.
    destruct (view_sig (VReorder ds) sgu) as [s1|] eqn:Ev; [|discriminate]. cbn [obind] in E1. destruct (endings_ok _); [|discriminate].
    assert (Ep1 : p1 = {| pl_trav := pl_trav p; pl_endings := pl_endings p ++ [{| en_sig := s1; en_kind := Around; en_fun := g |}] |}) by congruence. subst p1.
    destruct (IH {| pl_trav := pl_trav p; pl_endings := pl_endings p ++ [{| en_sig := s1; en_kind := Around; en_fun := g |}] |} q sgu Hs E) as (T & ar & A1 & A2). cbn [pl_trav pl_endings] in *. split; [exact T|]. eexists. rewrite A1, <- app_assoc. split; [reflexivity|]. constructor; [|exact A2]. split; [reflexivity|]. split; [reflexivity|exact Ev].
Qed.

Theorem planner_calls t f p q secs n evs sts : plannable t -> pl_for_each {| pl_trav := t; pl_endings := [] |} f = Some p -> add_sections p secs = Some q ->
  for_each t [] = Done sts -> execute_all n q = Done evs -> body_calls evs = map (pair f) sts.
Proof.
  intros Hp Hf Ha He Hx. unfold pl_for_each in Hf. cbn [pl_endings pl_trav] in Hf. destruct (signature (tr_struct t)) as [sgu|] eqn:Eu; [|discriminate]. cbn [obind] in Hf.
  set (b := {| en_sig := sgu; en_kind := Body; en_fun := f |}) in *. assert (Ep : p = {| pl_trav := t; pl_endings := [b] |}) by congruence. subst p. clear Hf.
  destruct (add_sections_endings secs {| pl_trav := t; pl_endings := [b] |} q sgu Eu Ha) as (T & ar & A1 & A2). cbn [pl_trav pl_endings app] in *.
  destruct q as [t' es]. cbn [pl_trav pl_endings] in *. subst t' es. destruct (execute_all_calls n t f sgu ar evs Hp Eu) as (ss & (sg & sub & L1 & L2 & L3) & L4); [|exact Hx|].
  - apply Forall_forall. intros e Hin. clear -A2 Hin. induction A2 as [|x y l m H _ IH]; [destruct Hin|]. destruct Hin as [->|Hin]; [apply H|auto].
  - rewrite L4. f_equal. unfold for_each, for_sections_with, for_tree, sections_tree in He. rewrite L1 in He. cbn [obind] in He. destruct (fe_ok _ _ _ _ _); [|discriminate]. rewrite L2 in He. cbn [out_map out_bind] in He. rewrite L3 in He. congruence.
Qed.

Theorem planner_sections t f p q secs calls : plannable t -> pl_for_each {| pl_trav := t; pl_endings := [] |} f = Some p -> add_sections p secs = Some q -> execute q = Done calls ->
  exists sts, NoDup sts /\ Forall2 (called_at t f secs) sts calls /\
    forall all ls, for_each t [] = Done all -> Forall2 (fun st l => for_each (order t (p_fix st)) [] = Done l) sts ls -> all = concat ls.
Proof.
  intros Hp Hf Ha Ex. unfold pl_for_each in Hf. cbn [pl_endings pl_trav] in Hf. destruct (signature (tr_struct t)) as [sgu|] eqn:Eu; [|discriminate]. cbn [obind] in Hf.
  set (b := {| en_sig := sgu; en_kind := Body; en_fun := f |}) in *. assert (Ep : p = {| pl_trav := t; pl_endings := [b] |}) by congruence. subst p. clear Hf.
  destruct (add_sections_endings secs {| pl_trav := t; pl_endings := [b] |} q sgu Eu Ha) as (T & ar & A1 & A2). cbn [pl_trav pl_endings app] in *.
  destruct q as [t' es]. cbn [pl_trav pl_endings] in *. subst t' es. set (q := {| pl_trav := t; pl_endings := b :: ar |}) in *.
  assert (Har : Forall is_around ar). { apply Forall_forall. intros e Hin. clear -A2 Hin. induction A2 as [|x y l m H _ IH]; [destruct Hin|]. destruct Hin as [->|Hin]; [apply H|auto]. }
  unfold execute in Ex. cbn [pl_endings q pl_trav] in Ex. fold q in Ex.
  destruct (signature (top_struct t)) as [sg|] eqn:Es; [|discriminate]. pose proof (uswf_snodup _ _ (proj2 (proj2 Hp)) Es) as Hn.
  destruct (pe_ok _ _ _ _ _ _); [|discriminate]. destruct (pe_run (top_struct t) sg (activated q) (sig_dim_tree sg) []) as [| |sts] eqn:Er; try discriminate. cbn [out_bind] in Ex.
  destruct (omap (fun st => fire (fixed q st)) sts) as [calls'|] eqn:Ec; [|discriminate]. assert (calls' = calls) by congruence. subst calls'. clear Ex.
  destruct (cut_run (top_struct t) sg (activated q) Hn sg [] sts (reach_nil sg) Er) as (cs & C1 & C2 & C3 & C4).
  exists sts. split; [exact C2|]. split.
  - apply omap_Some_Forall2 in Ec. clear -Ec Har A2. induction Ec as [|st c l m H _ IH]; constructor; [|exact IH]. destruct (fire_cases _ _ _ _ _ _ Har H) as (s & Hs & [(-> & _)|(e & ar' & g & He & Hg & Hgr & _ & _ & ->)]).
    + exists s. split; [exact Hs|]. split; reflexivity.
    + exists s. split; [exact Hs|]. split; [reflexivity|]. assert (Hx : exists x, In x secs /\ section_of sgu x e).
      { clear -A2 He. induction A2 as [|x y l m H _ IH]; [destruct He|]. destruct He as [->|He]; [exists x; split; [left; reflexivity|exact H]|]. destruct (IH He) as (z & Z1 & Z2). exists z. split; [right; exact Z1|exact Z2]. }
      destruct Hx as ([ds g0] & Hin & (_ & Hfun & Hsig)). cbn [fst snd] in *. exists ds. split; [rewrite Hfun; exact Hin|]. intros d Hd. cbn [view_sig] in Hsig.
      destruct (sig_fix_paths s _ _ d Hg (build_paths _ _ _ _ _ Hsig Hd)) as [H1|H1]; [exact H1|]. destruct g; discriminate.
  - intros all ls He Hl. unfold for_each, for_sections_with, for_tree, sections_tree in He. rewrite Es in He. cbn [obind] in He. destruct (fe_ok _ _ _ _ _); [|discriminate].
    destruct (fe_run (top_struct t) sg (sig_dim_tree sg) []) as [| |sub] eqn:Ef; try discriminate. cbn [out_map out_bind] in He. destruct (omap tr_state (map (inner t) sub)) as [all'|] eqn:Eo; [|discriminate]. assert (all' = all) by congruence. subst all'. clear He.
    assert (H : exists xs, Forall2 (fun o y => o = Done y) (map (fun c => fe_run (top_struct t) sg (sig_dim_tree (snd c)) (fst c)) cs) xs /\ Forall2 (fun x y => omap tr_state (map (inner t) x) = Some y) xs ls).
    { clear -C1 C3 Hl Es Hn. subst sts. revert ls Hl. induction cs as [|[st s] cs IHc]; intros ls Hl; cbn [map fst] in Hl; inversion Hl as [|x l y ls' H Hls]; subst.
      - exists []. split; constructor.
      - destruct (IHc (fun c Hc => C3 c (or_intror Hc)) _ Hls) as (xs & X1 & X2). destruct (C3 _ (or_introl eq_refl)) as (Hr & _ & _). cbn [fst snd] in Hr. pose proof (section_run (top_struct t) sg s st Es Hn Hr) as Hsim.
        unfold for_each, for_sections_with, for_tree, sections_tree in H. change (order t (p_fix st)) with (inner t st) in H. rewrite top_inner, (reach_sig _ _ _ _ Es Hn Hr) in H. cbn [obind] in H. destruct (fe_ok _ _ _ _ _); [|discriminate].
        destruct (fe_run (apply (p_fix st) (top_struct t)) s (sig_dim_tree s) []) as [| |su] eqn:E2; try discriminate. cbn [out_map out_bind] in H. destruct (omap tr_state (map (inner (inner t st)) su)) as [l'|] eqn:Eo; [|discriminate]. assert (El : Done l' = Done l) by exact H. injection El as <-.
        destruct (fe_run (top_struct t) sg (sig_dim_tree s) st) as [| |x] eqn:E3; try contradiction. cbn [out_rel] in Hsim. exists (x :: xs). split; [cbn [map fst snd]; constructor; assumption|]. constructor; [|exact X2].
        rewrite <- Eo, !omap_map. clear -Hsim. induction Hsim as [|a b x sub -> _ IHs]; [reflexivity|]. cbn [omap]. rewrite IHs, inner_inner. reflexivity. }
    destruct H as (xs & X1 & X2). rewrite (out_cat_Done_intro _ _ X1) in C4. assert (sub = concat xs) by congruence. subst sub.
    assert (Hc : omap tr_state (map (inner t) (concat xs)) = Some (concat ls)). { rewrite omap_map. apply omap_concat. clear -X2. induction X2 as [|x y xs ys H _ IHx]; constructor; [rewrite <- omap_map; exact H|exact IHx]. }
    congruence.
Qed.

(** ** As used: the order is given last *)

Lemma plan_order ss o f p : pl_for_each (plan ss) f = Some p ->
  pl_for_each {| pl_trav := order (traverser ss) o; pl_endings := [] |} f = Some (pl_order p o).
Proof.
  unfold pl_for_each, plan. cbn [pl_endings pl_trav]. change (tr_struct (order (traverser ss) o)) with (tr_struct (traverser ss)).
  destruct (signature (tr_struct (traverser ss))) as [sg|]; [|discriminate]. cbn [obind]. intros E. assert (Ep : p = {| pl_trav := traverser ss; pl_endings := [{| en_sig := sg; en_kind := Body; en_fun := f |}] |}) by congruence. subst p. reflexivity.
Qed.

Lemma sections_order o secs : forall p q, add_sections p secs = Some q -> add_sections (pl_order p o) secs = Some (pl_order q o).
Proof.
  induction secs as [|[ds g] secs IH]; intros p q E; cbn [add_sections] in *; [injection E as <-; reflexivity|].
  destruct (pl_for_sections p ds g) as [p1|] eqn:E1; [|discriminate]. cbn [obind] in E. unfold pl_for_sections in *. change (tr_struct (pl_trav (pl_order p o))) with (tr_struct (pl_trav p)). change (pl_endings (pl_order p o)) with (pl_endings p).
  destruct (signature (tr_struct (pl_trav p))) as [sg|]; [|discriminate]. cbn [obind] in *. destruct (view_sig (VReorder ds) sg) as [s|]; [|discriminate]. cbn [obind] in *. destruct (endings_ok _); [|discriminate].
  cbn [obind]. match type of E1 with Some ?x = Some _ => assert (Ex : p1 = x) by congruence end. subst p1. exact (IH _ _ E).
Qed.

Lemma order_plannable ss o : over hands_on (Union ss) (top_struct (order (traverser ss) o)) nolens -> uswf (top_struct (order (traverser ss) o)) = true -> plannable (order (traverser ss) o).
Proof. intros H1 H2. split; [discriminate|]. split; assumption. Qed.

Theorem plan_for_each ss o f p : over hands_on (Union ss) (top_struct (order (traverser ss) o)) nolens -> uswf (top_struct (order (traverser ss) o)) = true ->
  pl_for_each (plan ss) f = Some p -> execute (pl_order p o) <> Rejected -> execute (pl_order p o) = out_map (map (CallBody f)) (for_each (order (traverser ss) o) []).
Proof. intros Ho Hw Hp. apply execute_for_each; [discriminate|exact Ho|exact Hw|apply plan_order, Hp]. Qed.

Theorem plan_calls ss o f p secs q n evs sts : over hands_on (Union ss) (top_struct (order (traverser ss) o)) nolens -> uswf (top_struct (order (traverser ss) o)) = true ->
  pl_for_each (plan ss) f = Some p -> add_sections p secs = Some q -> for_each (order (traverser ss) o) [] = Done sts -> execute_all n (pl_order q o) = Done evs ->
  body_calls evs = map (pair f) sts.
Proof. intros Ho Hw Hp Hq. eapply planner_calls; [apply order_plannable; assumption|apply plan_order, Hp|apply sections_order, Hq]. Qed.

Theorem plan_sections ss o f p secs q calls : over hands_on (Union ss) (top_struct (order (traverser ss) o)) nolens -> uswf (top_struct (order (traverser ss) o)) = true ->
  pl_for_each (plan ss) f = Some p -> add_sections p secs = Some q -> execute (pl_order q o) = Done calls ->
  exists sts, NoDup sts /\ Forall2 (called_at (order (traverser ss) o) f secs) sts calls /\
    forall all ls, for_each (order (traverser ss) o) [] = Done all ->
      Forall2 (fun st l => for_each (order (order (traverser ss) o) (p_fix st)) [] = Done l) sts ls -> all = concat ls.
Proof. intros Ho Hw Hp Hq Hx. eapply planner_sections; [apply order_plannable; assumption|apply plan_order, Hp|apply sections_order, Hq|exact Hx]. Qed.
