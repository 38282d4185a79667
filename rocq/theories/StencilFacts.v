(** * Moving the indices of a state: proofs *)

From Verif Require Import RaceOrder Contig UnionTrav.
From Verif Require Export SpecStencil StateTools.

(** ** [neighbor] on states *)

Lemma get_Idx_map (l : list (dim * val)) items st d : NoDup (map fst l) ->
  omap (fun x => do i <- get (Idx (fst x)) st; match i with Sta _ => None | _ => Some (Idx (fst x), vadd i (snd x)) end) l = Some items ->
  get (Idx d) items = match find (fun x => fst x =? d) l, get (Idx d) st with Some x, Some i => Some (vadd i (snd x)) | _, _ => None end /\
  (forall x, find (fun x => fst x =? d) l = Some x -> exists i, get (Idx d) st = Some i /\ runtime i = true).
Proof.
  revert items. induction l as [|[y v] l IH]; intros items Hn E.
  - injection E as <-. split; [reflexivity|discriminate].
  - cbn [omap fst snd] in E. destruct (get (Idx y) st) as [i|] eqn:Ei; [|discriminate]. cbn [obind] in E.
    destruct (match i with Sta _ => None | _ => _ end) as [b|] eqn:Eb; [|discriminate]. cbn [obind] in E. destruct (omap _ l) as [r|] eqn:Er; [|discriminate].
    injection E as <-. inversion Hn as [|? ? Hy Hn']; subst. cbn [find fst snd]. destruct (IH r Hn' eq_refl) as [A B].
    assert (Hb : b = (Idx y, vadd i v) /\ runtime i = true) by (destruct i; try discriminate; injection Eb as <-; split; reflexivity). destruct Hb as [-> Hb].
    cbn [get fst snd tag_eqb]. destruct (Z.eqb_spec y d) as [->|Hne].
    + rewrite Z.eqb_refl, Ei. split; [reflexivity|]. intros x _. eauto.
    + rewrite (proj2 (Z.eqb_neq d y)) by congruence. split; [exact A|exact B].
Qed.

Lemma items_other (l : list (dim * val)) items st t : (forall d, t <> Idx d) ->
  omap (fun x => do i <- get (Idx (fst x)) st; match i with Sta _ => None | _ => Some (Idx (fst x), vadd i (snd x)) end) l = Some items ->
  get t items = None.
Proof.
  intros Ht. revert items. induction l as [|[y v] l IH]; intros items E; [injection E as <-; reflexivity|].
  cbn [omap fst snd] in E. destruct (get (Idx y) st) as [i|] eqn:Ei; [|discriminate]. cbn [obind] in E.
  destruct (match i with Sta _ => None | _ => _ end) as [b|] eqn:Eb; [|discriminate]. cbn [obind] in E. destruct (omap _ l) as [r|] eqn:Er; [|discriminate].
  injection E as <-. assert (Hb : b = (Idx y, vadd i v)) by (destruct i; try discriminate; injection Eb as <-; reflexivity). subst b. cbn [get fst snd].
  destruct (tag_eqb_spec t (Idx y)) as [E|_]; [exfalso; exact (Ht _ E)|]. apply IH. reflexivity.
Qed.

Lemma find_fst (l : list (dim * val)) d x : NoDup (map fst l) -> In (d, x) l -> find (fun y => fst y =? d) l = Some (d, x).
Proof.
  induction l as [|[y v] l IH]; intros Hn Hin; [destruct Hin|]. destruct Hin as [E|Hin]; inversion Hn as [|? ? Hy Hn']; subst; cbn [find fst].
  - injection E as -> ->. rewrite Z.eqb_refl. reflexivity.
  - destruct (Z.eqb_spec y d) as [->|_]; [exfalso; apply Hy; eapply in_fst; eauto|]. auto.
Qed.
Lemma find_none (l : list (dim * val)) d : ~ In d (map fst l) -> find (fun y => fst y =? d) l = None.
Proof.
  induction l as [|[y v] l IH]; intros H; [reflexivity|]. cbn [find fst]. destruct (Z.eqb_spec y d) as [->|_]; [exfalso; apply H; left; reflexivity|].
  apply IH. intros X. apply H. right. exact X.
Qed.

Theorem neighbor_moves l st st' : NoDup (map fst l) -> neighbor l st = Some st' ->
  (forall d x, In (d, x) l -> exists i, get (Idx d) st = Some i /\ runtime i = true /\ get (Idx d) st' = Some (vadd i x)) /\
  (forall t, (forall d, In d (map fst l) -> t <> Idx d) -> get t st' = get t st).
Proof.
  intros Hn E. unfold neighbor in E. destruct (omap _ l) as [items|] eqn:Eo; [|discriminate]. injection E as <-. split.
  - intros d x Hin. destruct (get_Idx_map l items st d Hn Eo) as [A B]. pose proof (find_fst l d x Hn Hin) as Hf. destruct (B _ Hf) as (i & Hi & Hst).
    exists i. split; [exact Hi|]. split; [exact Hst|]. rewrite get_with, A, Hf, Hi. reflexivity.
  - intros t Ht. rewrite get_with. destruct t as [d|d|d].
    + destruct (get_Idx_map l items st d Hn Eo) as [A _]. rewrite A, (find_none l d); [reflexivity|]. intros X. exact (Ht d X eq_refl).
    + rewrite (items_other l items st (Len d)); [reflexivity|discriminate|exact Eo].
    + rewrite (items_other l items st (Other d)); [reflexivity|discriminate|exact Eo].
Qed.

Lemma neighbor_defined l st : neighbor l st <> None <-> forall d, In d (map fst l) -> exists i, get (Idx d) st = Some i /\ runtime i = true.
Proof.
  unfold neighbor. split.
  - intros H. destruct (omap _ l) as [items|] eqn:Eo; [|contradiction]. clear H. revert items Eo. induction l as [|[y v] l IH]; intros items Eo d Hd; [destruct Hd|].
    cbn [omap fst snd] in Eo. destruct (get (Idx y) st) as [i|] eqn:Ei; [|discriminate]. cbn [obind] in Eo.
    destruct (match i with Sta _ => None | _ => _ end) as [b|] eqn:Eb; [|discriminate]. cbn [obind] in Eo. destruct (omap _ l) as [r|] eqn:Er; [|discriminate].
    destruct Hd as [<-|Hd]; [exists i; split; [exact Ei|destruct i; try discriminate; reflexivity]|]. exact (IH r eq_refl d Hd).
  - intros H. assert (Ho : omap (fun x => do i <- get (Idx (fst x)) st; match i with Sta _ => None | _ => Some (Idx (fst x), vadd i (snd x)) end) l <> None).
    { induction l as [|[y v] l IH]; [discriminate|]. cbn [omap fst snd]. destruct (H y (or_introl eq_refl)) as (i & -> & Hi). cbn [obind].
      destruct i as [z|z|]; [discriminate| |]; cbn [obind]; (destruct (omap _ l) as [r|]; [discriminate|]; apply IH; intros d Hd; apply H; right; exact Hd). }
    destruct (omap _ l); [discriminate|contradiction].
Qed.

(** Words that cancel. *)
Lemma move_back i x y a b : vz x = Some a -> vz y = Some b -> (a + b) mod W = 0 -> vz (vadd (vadd i x) y) = vz i.
Proof.
  intros Hx Hy E. rewrite !vz_vadd, Hx, Hy. destruct (vz i) as [c|] eqn:Ei; [|reflexivity]. f_equal. apply vz_range in Ei. unfold u64.
  rewrite Zplus_mod_idemp_l, <- Z.add_assoc, <- Zplus_mod_idemp_r, E, Z.add_0_r. apply Z.mod_small, Ei.
Qed.

Lemma runtime_vadd i x : runtime i = true -> runtime (vadd i x) = true.
Proof. destruct i as [a|a|], x as [b|b|]; intros H; try discriminate; unfold vadd, dyn2; cbn [is_sta vz]; try reflexivity; destruct (_ =? 0); reflexivity. Qed.

Lemma opposite_fst l l' : opposite l l' -> map fst l' = map fst l.
Proof. induction 1 as [|x y l l' [E _] H IH]; [reflexivity|]. cbn [map]. congruence. Qed.

Lemma opposite_in l l' d y : opposite l l' -> In (d, y) l' -> exists x a b, In (d, x) l /\ vz x = Some a /\ vz y = Some b /\ (a + b) mod W = 0.
Proof.
  induction 1 as [|[d1 x] [d2 z] l l' (E & a & b & A & B & C) H IH]; intros Hin; [destruct Hin|]. destruct Hin as [Hin|Hin]; cbn [fst snd] in *.
  - injection Hin as -> ->. subst d1. exists x, a, b. repeat split; auto. left. reflexivity.
  - destruct (IH Hin) as (w & a' & b' & Hw & R). exists w, a', b'. split; [right; exact Hw|exact R].
Qed.

Theorem neighbor_back l l' st st' : NoDup (map fst l) -> opposite l l' -> neighbor l st = Some st' ->
  exists st2, neighbor l' st' = Some st2 /\ (forall d, In d (map fst l) -> exists i j, get (Idx d) st = Some i /\ get (Idx d) st2 = Some j /\ vz j = vz i) /\
    forall t, (forall d, In d (map fst l) -> t <> Idx d) -> get t st2 = get t st.
Proof.
  intros Hn Ho E. destruct (neighbor_moves l st st' Hn E) as [A B]. pose proof (opposite_fst _ _ Ho) as Ef.
  destruct (neighbor l' st') as [st2|] eqn:E2.
  - exists st2. split; [reflexivity|]. assert (Hn' : NoDup (map fst l')) by (rewrite Ef; exact Hn). destruct (neighbor_moves l' st' st2 Hn' E2) as [A2 B2]. split.
    + intros d Hd. rewrite <- Ef in Hd. apply in_map_iff in Hd. destruct Hd as ([d' y] & <- & Hy). cbn [fst].
      destruct (opposite_in l l' d' y Ho Hy) as (x & a & b & Hx & Va & Vb & Hab). destruct (A d' x Hx) as (i & Gi & _ & Gi').
      destruct (A2 d' y Hy) as (j & Gj & _ & Gj'). exists i, (vadd j y). split; [exact Gi|]. split; [exact Gj'|].
      rewrite Gi' in Gj. injection Gj as <-. exact (move_back i x y a b Va Vb Hab).
    + intros t Ht. rewrite B2; [apply B, Ht|]. rewrite Ef. exact Ht.
  - exfalso. revert E2. apply neighbor_defined. rewrite Ef. intros d Hd. apply in_map_iff in Hd. destruct Hd as ([d' x] & <- & Hx). cbn [fst].
    destruct (A d' x Hx) as (i & _ & Hr & G). exists (vadd i x). split; [exact G|]. apply runtime_vadd, Hr.
Qed.

(** ** Traversals of the inner part *)

Definition span_layers (l : list (dim * (val * val))) : proto := map (fun x => LView (VSpan (fst x) (fst (snd x)) (snd (snd x)))) l.

Section Down.
  Variable u : struct.
  Hypothesis Hx : forall v t, u <> View v t.
  Let Hu v t : same_type u (View v t) = false.
  Proof. destruct u; try reflexivity. exfalso. eapply Hx. reflexivity. Qed.

  Lemma spans_down l : forall a sg p, NoDup (map fst l) -> over documented u (apply (span_layers l) u) nolens ->
    uswf (apply (span_layers l) u) = true -> lenok (apply (span_layers l) u) nolens -> pvalid (apply (span_layers l) u) nolens a sg p ->
    exists c s0 p', pvalid u nolens c s0 p' /\
      (forall a2 st r, (forall x, In x (map fst p) -> a2 x = a x) -> agree st nolens a2 -> state_at u (apply (span_layers l) u) st = Some r ->
         exists c2 st', agree st' nolens c2 /\ state_at u u st' = Some r /\ forall x, In x (map fst p') -> c2 x = c x) /\
      (forall d b e, In (d, (b, e)) l -> In d (map fst p') -> vzd b <= c d < vzd e) /\
      (forall d, ~ In d (map fst l) -> c d = a d) /\ map fst p' = map fst p.
  Proof.
    induction l as [|[d [b e]] l IH] using rev_ind; intros a sg p Hn Ho Hw Hlk V.
    - exists a, sg, p. split; [exact V|]. split; [intros a2 st r H Ha E; exists a2, st; auto|]. split; [intros d b e []|]. auto.
    - unfold span_layers in *. rewrite map_app in *. rewrite apply_app in *.
      set (t := apply (map (fun x => LView (VSpan (fst x) (fst (snd x)) (snd (snd x)))) l) u) in *. cbn [map apply fold_left apply_layer fst snd] in Ho, Hw, Hlk, V |- *.
      cbn [map fst] in Hn. apply NoDup_remove in Hn. rewrite app_nil_r in Hn. destruct Hn as [Hn Hd].
      assert (Hov : documented (VSpan d b e) t nolens /\ over documented u t nolens).
      { clearbody t. inversion Ho as [? H0 H1|? ? ? H1 H2]; [exfalso; exact (Hx _ _ H1)|split; assumption]. }
      destruct Hov as [[Hnb Hdoc] Ho'].
      pose proof V as (Es & Ep & Fp). destruct (pvalid_view _ _ _ _ _ _ Hw lrange_nolens (Hdoc _) V) as (s0 & p' & Ev & R & Hsn & Hnd & V').
      destruct (uswf_view _ _ Hw) as [Hvw Ht]. pose proof V' as (E0 & Ep' & Fp').
      pose proof (vfacts_ok (VSpan d b e) t s0 sg nolens a p' p (uswf_loc _ Ht) Hvw Ht E0 Ev Ep' R Hnd lrange_nolens (Hdoc _) Fp) as Hf.
      cbn [view_lenv] in V', Hlk. destruct (IH _ _ _ Hn Ho' Ht (proj2 Hlk) V') as (c & s1 & p1 & V1 & S1 & B1 & C1 & M1).
      assert (Epp : map fst p' = map fst p).
      { cbn [prel] in R. subst p. clear. induction p' as [|[x k] p' IHp]; [reflexivity|]. cbn [pm flat_map fst snd]. unfold pm in *. cbn [flat_map fst snd].
        destruct (Z.eqb_spec x d) as [->|]; cbn [app map fst]; f_equal; exact IHp. }
      exists c, s1, p1. split; [exact V1|]. split; [|split; [|split]].
      + intros a2 st r H Ha E. rewrite state_at_view in E by apply Hu. destruct (sub_state (VSpan d b e) t st) as [st1|] eqn:E1; [|discriminate]. cbn [obind] in E.
        apply (S1 (view_asg (VSpan d b e) (ilen t) nolens a2) st1 r); [| |exact E].
        * eapply view_local; eauto. exact lrange_nolens.
        * exact (sub_state_refines (VSpan d b e) t st nolens a2 st1 ltac:(congruence) Hlk Ha E1).
      + intros x b0 e0 Hin Hxi. apply in_app_or in Hin. destruct Hin as [Hin|[Hin|[]]]; [eauto|]. injection Hin as -> -> ->.
        rewrite (C1 x Hd). rewrite M1 in Hxi. destruct (fst_in _ _ Hxi) as [k Hk]. cbn [vfacts] in Hf. destruct (Hf k Hk) as (Ha & H0 & H1 & _). lia.
      + intros x Hn'. rewrite map_app in Hn'. cbn [map fst] in Hn'. rewrite C1 by (intros X; apply Hn', in_or_app; left; exact X).
        cbn [view_asg]. rewrite fupd_neq; [reflexivity|]. intros ->. apply Hn', in_or_app. right. left. reflexivity.
      + congruence.
  Qed.
End Down.

Theorem symmetric_span_margins ds s st off : p_symmetric_span ds s st off = p_symmetric_spans (map (fun d => (d, off)) ds) s st.
Proof.
  unfold p_symmetric_span, p_symmetric_spans. destruct ds as [|d ds]; [reflexivity|]. cbn [map]. change ((d, off) :: map (fun d => (d, off)) ds) with (map (fun d => (d, off)) (d :: ds)).
  generalize (d :: ds). clear d ds. intros ds. induction ds as [|d ds IH]; [reflexivity|]. cbn [map omap fst snd]. rewrite IH. unfold p_symmetric_span at 2. cbn [omap].
  destruct (length_ s d st) as [n|]; [|reflexivity]. cbn [obind]. destruct (omap _ (map _ ds)); reflexivity.
Qed.

Lemma symmetric_layers m s p : p_symmetric_spans m s [] = Some p ->
  exists l, p = span_layers l /\ map fst l = map fst m /\
    (forall d b, In (d, b) m -> exists e, In (d, (b, e)) l) /\ forall d b e, In (d, (b, e)) l -> exists n, length_ s d [] = Some n /\ e = dyn2 Z.sub n b.
Proof.
  unfold p_symmetric_spans. destruct m as [|x m]; [discriminate|]. generalize (x :: m). clear x m. intros m. revert p. induction m as [|[d b] m IH]; intros p E.
  - injection E as <-. exists []. split; [reflexivity|]. split; [reflexivity|]. split; [intros ? ? []|intros ? ? ? []].
  - cbn [omap fst snd] in E. unfold p_symmetric_span in E at 1. cbn [omap] in E. destruct (length_ s d []) as [n|] eqn:En; [|discriminate]. cbn [obind] in E.
    destruct (omap _ m) as [r|] eqn:Er; [|discriminate]. cbn [obind concat app] in E. injection E as <-.
    destruct (IH _ eq_refl) as (l & El & Ef & H1 & H2). exists ((d, (b, dyn2 Z.sub n b)) :: l). split; [cbn [span_layers map fst snd]; f_equal; exact El|].
    split; [cbn [map fst]; f_equal; exact Ef|]. split.
    + intros x c [Hx|Hx]; [injection Hx as <- <-; eexists; left; reflexivity|]. destruct (H1 x c Hx) as (e & He). exists e. right. exact He.
    + intros x c e [Hin|Hin]; [|eauto]. injection Hin as <- <- <-. eauto.
Qed.

Lemma asg_at st d i x : get (Idx d) st = Some i -> vz i = Some x -> asg_of st d = x.
Proof. intros G V. unfold asg_of. rewrite G. apply vzd_vz, V. Qed.

Section Stencil.
  Variables (ss : list struct) (s : struct) (m : list (dim * val)) (p q : proto) (l0 ls l : list state).
  Let u := Union ss.
  Let t1 := order (traverser ss) p.
  Let t := order t1 q.
  Hypothesis Hs : In s ss.
  Hypothesis Hnt : no_tuples ss.
  Hypothesis Hcs : consistent ss.
  Hypothesis Hp : p_symmetric_spans m s [] = Some p.
  Hypothesis Hnd : NoDup (map fst m).
  Hypothesis Hfix : fixed_lengths s (map fst m).
  Hypothesis Hw : uswf (top_struct t) = true.
  Hypothesis Hlk : lenok (top_struct t) nolens.
  Hypothesis Hws : swf s = true.
  Hypothesis Ho1 : over documented u (top_struct t1) nolens.
  Hypothesis Ho : over documented (top_struct t1) (top_struct t) nolens.
  Hypothesis E0 : for_each (traverser ss) [] = Done l0.
  Hypothesis Es : for_each (traverser [s]) [] = Done ls.
  Hypothesis E : for_each t [] = Done l.
  Hypothesis Hc : forall st, In st l -> complete u st.

  Lemma stencil_valid st : In st l -> exists sgs ps c, signature s = Some sgs /\ pvalid s nolens c sgs ps /\ plain sgs = true /\ lenok s nolens /\
    agree st nolens (asg_of st) /\
    (forall d, In d (map fst ps) -> (exists i x, get (Idx d) st = Some i /\ vz i = Some x) /\ asg_of st d = c d) /\
    forall d off, In (d, off) m -> In d (map fst ps) -> exists n, length_ s d [] = Some n /\ vz n <> None /\ vz off <> None /\ vzd off <= c d < u64 (vzd n - vzd off).
  Proof.
    intros Hin. assert (Hx : forall v w, u <> View v w) by (intros; discriminate).
    assert (Hu : forall v w, same_type u (View v w) = false) by reflexivity.
    destruct (symmetric_layers m s p Hp) as (lay & Ep & Elay & Hin1 & Hlay).
    assert (Et1 : top_struct t1 = apply (span_layers lay) u) by (unfold t1; rewrite top_order, Ep; reflexivity).
    pose proof (over_uswf _ _ _ _ Ho Hw) as Hw1. pose proof (over_lenok _ _ _ _ Ho Hlk) as Hlk1.
    pose proof (over_uswf _ _ _ _ Ho1 Hw1) as Hwu. pose proof (over_lenok _ _ _ _ Ho1 Hlk1) as Hlku.
    destruct (run_of t l E Hx Hw) as (sg & sts & Esg & R & _ & F).
    destruct (Forall2_In_r _ _ _ _ F Hin) as (e & He & x & Ex & Hg).
    pose proof (uswf_snodup _ _ Hw Esg) as Hsn.
    destruct (run_valid _ sg sts Esg Hsn Hlk R e He) as (pe & De & Ve).
    destruct (chain_down u (top_struct t1) Hu (top_struct t) nolens Ho _ _ _ Hw Hlk lrange_nolens Ve) as (c1 & s1 & p1 & _ & V1 & S1).
    destruct (S1 _ e x (fun _ _ => eq_refl) (run_agree _ sg sts Esg Hsn R e He) Ex) as (c2 & st1 & A1 & X1 & H1).
    rewrite Et1 in V1, X1, Hw1, Hlk1. pose proof Ho1 as Ho1'. rewrite Et1 in Ho1'.
    assert (Hnd' : NoDup (map fst lay)) by (rewrite Elay; exact Hnd).
    destruct (spans_down u Hx lay c1 s1 p1 Hnd' Ho1' Hw1 Hlk1 V1) as (c & su & pu & V & S & B & _ & _).
    destruct (S c2 st1 x H1 A1 X1) as (c3 & st2 & A2 & X2 & H2).
    pose proof (state_at_same u Hx x st2 st X2 Hg _ A2) as Ast.
    destruct (index_of2 u st c c3 su pu V H2 Ast (Hc _ Hin)) as [Dst Ist].
    (* the same element of the plain traversal *)
    destruct (run_of (traverser ss) l0 E0 Hx Hwu) as (sg0 & sts0 & Esg0 & R0 & _ & F0). change (top_struct (traverser ss)) with u in *. change (tr_struct (traverser ss)) with u in *.
    pose proof V as (Esu & Epu & _). assert (sg0 = su) by congruence. subst sg0.
    pose proof (uswf_snodup _ _ Hwu Esu) as Hsnu.
    destruct (run_reaches u su sts0 Esu Hsnu Hlku R0 c pu V) as (e0 & He0 & _ & D0 & I0).
    destruct (Forall2_in1 _ _ _ _ F0 He0) as (r & Hr & x0 & Ex0 & Hg0). apply state_at_self in Ex0; [subst x0|exact Hx].
    assert (Hdu : distinct_dims u) by (apply uswf_distinct; [exact Hwu|congruence]).
    destruct (union_names ss l0 r s Hdu Hlku Hnt Hcs E0 Hr Hs) as (ps & Nps).
    destruct (no_tuples_path ss su Hnt Esu) as [Hpl Hall]. destruct (Hall s Hs) as (sgs & Ess & Hps & Hi).
    assert (Hlks : lenok s nolens). { cbn in Hlku. apply lenok_all in Hlku. rewrite Forall_forall in Hlku. apply Hlku, Hs. }
    assert (Hnl : forall d, get (Len d) r = None).
    { intros d. rewrite <- (proj2 (Hg0 d)). exact (run_nolen _ _ _ Esu Hsnu R0 e0 He0 d). }
    destruct (names_valid s sgs Ess Hlks r ps Nps Hnl) as [Pr Fr].
    assert (Eps : map fst ps = sdims sgs). { rewrite (plain_path sgs _ Hps) in Pr. injection Pr as <-. rewrite map_map, map_id. reflexivity. }
    assert (Epu' : map fst pu = sdims su). { rewrite (plain_path su _ Hpl) in Epu. injection Epu as <-. rewrite map_map, map_id. reflexivity. }
    assert (Hincl : forall d, In d (map fst ps) -> In d (map fst pu)) by (intros d; rewrite Eps, Epu'; apply Hi).
    exists sgs, ps, (asg_of r). split; [exact Ess|]. split; [split; [exact Ess|split; [exact Pr|exact Fr]]|]. split; [exact Hps|]. split; [exact Hlks|].
    assert (Hr_c : forall d, In d (map fst pu) -> asg_of r d = c d). { intros d Hd. rewrite <- (asg_same_get e0 r Hg0). apply I0, Hd. }
    split.
    { destruct (agree_of st) as [L1 L2]. split; [|exact L2]. intros d. exact (ag_len _ _ _ Ast d). }
    split.
    - intros d Hd. split.
      + destruct (Hc _ Hin) as (pc & Dc & Hcc). rewrite Dst in Dc. injection Dc as <-. apply Hcc, Hincl, Hd.
      + rewrite (Ist d (Hincl d Hd)), (Hr_c d (Hincl d Hd)). reflexivity.
    - intros d off Hd Hdp. destruct (Hin1 d off Hd) as (en & Hl). destruct (Hlay d off en Hl) as (n & En & ->). exists n. split; [exact En|].
      pose proof (B d off (dyn2 Z.sub n off) Hl (Hincl d Hdp)) as Hb. rewrite (Hr_c d (Hincl d Hdp)).
      assert (Hvd : vz off <> None /\ vz (dyn2 Z.sub n off) <> None).
      { clear -Hw1 Hl. revert Hw1 Hl. generalize lay. clear lay. intros lay. induction lay as [|[y [b e]] lay IH] using rev_ind; intros Hw1 Hl; [destruct Hl|].
        unfold span_layers in *. rewrite map_app, apply_app in Hw1. cbn [map apply fold_left apply_layer fst snd] in Hw1. destruct (uswf_view _ _ Hw1) as [Hv Ht].
        apply in_app_or in Hl. destruct Hl as [Hl|[Hl|[]]]; [apply IH; auto|]. injection Hl as -> -> ->. unfold view_swf in Hv. destruct (signature _); [|discriminate].
        destruct (vz off), (vz (dyn2 Z.sub n off)); try discriminate; split; discriminate. }
      destruct Hvd as [Hvo Hve]. assert (Hsub : vz (dyn2 Z.sub n off) = match vz n, vz off with Some x, Some y => Some (u64 (x - y)) | _, _ => None end) by (unfold dyn2; destruct (vz n), (vz off); try reflexivity; cbn [vz]; f_equal; unfold u64; apply Zmod_mod).
      rewrite Hsub in Hve. unfold vzd in Hb |- *. rewrite Hsub in Hb.
      destruct (vz n) as [zn|]; [|contradiction]. destruct (vz off) as [zo|]; [|contradiction]. split; [discriminate|]. split; [discriminate|]. exact Hb.
  Qed.

  Lemma stencil_moved st diffs st' : In st l -> within m diffs -> neighbor diffs st = Some st' ->
    exists sgs ps, signature s = Some sgs /\ pvalid s nolens (asg_of st') sgs ps /\ lenok s nolens /\ (forall d, get (Len d) st' = None) /\
      map fst ps = sdims sgs /\ forall d, In d (map fst ps) -> exists i x, get (Idx d) st' = Some i /\ vz i = Some x.
  Proof.
    intros Hin [Hndd Hwi] En. destruct (stencil_valid st Hin) as (sgs & ps & c & Ess & V & Hps & Hlks & Ag & Hidx & Hb).
    destruct (neighbor_moves diffs st st' Hndd En) as [Hm Hk]. pose proof V as (_ & Ep & Fr). rewrite (plain_path sgs _ Hps) in Ep. injection Ep as <-.
    set (ps := map (fun d => (d, None)) (sdims sgs)) in *.
    assert (Hfst : map fst ps = sdims sgs) by (unfold ps; rewrite map_map, map_id; reflexivity).
    assert (Hws' : loc s) by (apply uswf_loc, swf_uswf, Hws).
    assert (Hmv : forall d, In d (map fst ps) -> (exists i x, get (Idx d) st' = Some i /\ vz i = Some x) /\
      (asg_of st' d = c d \/ exists off z, In (d, off) m /\ asg_of st' d = u64 (c d + z) /\ Z.abs z <= vzd off)).
    { intros d Hd. destruct (Hidx d Hd) as [(i & x & Gi & Vi) Hc1]. destruct (in_dec Z.eq_dec d (map fst diffs)) as [Hdi|Hdi].
      - apply in_map_iff in Hdi. destruct Hdi as ([d' y] & <- & Hy). cbn [fst] in *. destruct (Hm d' y Hy) as (i' & Gi' & _ & Gm). assert (i' = i) by congruence. subst i'.
        destruct (Hwi d' y Hy) as (off & z & Hds & Vy & Hz). assert (Vm : vz (vadd i y) = Some (u64 (c d' + z))).
        { rewrite vz_vadd, Vi, Vy. f_equal. rewrite <- Hc1, (asg_at st d' i x Gi Vi). unfold u64. apply Zplus_mod_idemp_r. }
        split; [eauto|]. right. exists off, z. split; [exact Hds|]. split; [exact (asg_at _ _ _ _ Gm Vm)|exact Hz].
      - assert (Hg : get (Idx d) st' = get (Idx d) st) by (apply Hk; intros y Hy X; injection X as X; subst y; contradiction).
        split; [rewrite Hg; eauto|]. left. rewrite <- Hc1. unfold asg_of. rewrite Hg. reflexivity. }
    assert (Hil : forall d, In (d, None) ps -> ilen s nolens (asg_of st') d = ilen s nolens c d).
    { intros d Hd. apply (Hws' nolens sgs c (asg_of st') ps d Ess); [apply plain_path, Hps|exact Hd|]. intros x Hx Hxp.
      destruct (Hmv x Hxp) as [_ [Hcx|(off & z & Hds & _)]]; [exact Hcx|]. exfalso. exact (Hfix x d (in_fst _ _ _ Hds) Hx). }
    exists sgs, ps. split; [exact Ess|]. split; [|split; [exact Hlks|split; [|split; [exact Hfst|]]]].
    - split; [exact Ess|]. split; [apply plain_path, Hps|]. rewrite Forall_forall in *. intros [d k] Hd. specialize (Fr _ Hd).
      assert (k = None) by (unfold ps in Hd; apply in_map_iff in Hd; destruct Hd as (? & X & _); congruence). subst k. unfold in_range in *. cbn [fst snd] in *.
      rewrite (Hil d Hd). assert (Hdp : In d (map fst ps)) by (eapply in_fst; eauto). destruct (Hmv d Hdp) as [_ [->|(off & z & Hds & -> & Hz)]]; [exact Fr|].
      destruct (Hb d off Hds Hdp) as (n & El & Hn & Ho' & Hbd).
      assert (Ha : agree [] nolens c) by (split; [intros ?; exact I|intros ? ? X; discriminate]).
      pose proof (length_agree s ltac:(congruence) [] nolens c d n Hlks Ha El) as Hva. unfold vagree in Hva.
      destruct (vz n) as [zn|] eqn:Evn; [|contradiction]. rewrite (vzd_vz _ _ Evn) in Hbd. rewrite Hva in *. clear -Hbd Hz Fr Evn Hva.
      rewrite <- Hva in *. clear Hva. pose proof (vz_range _ _ Evn) as Hr. assert (Ho : 0 <= vzd off < W) by apply vzd_range.
      unfold u64 in *. assert (Hle : vzd off <= zn) by lia. rewrite (Z.mod_small (zn - vzd off)) in Hbd by lia. rewrite Z.mod_small by lia. lia.
    - intros d. rewrite Hk by (intros; discriminate). pose proof (ag_len _ _ _ Ag d) as X. unfold oagree, nolens in X. destruct (get (Len d) st); [destruct X|reflexivity].
    - intros d Hd. apply Hmv, Hd.
  Qed.

  Theorem stencil_inside st diffs st' : In st l -> within m diffs -> neighbor diffs st = Some st' -> visited s ls st'.
  Proof.
    intros Hin Hwi En. destruct (stencil_moved st diffs st' Hin Hwi En) as (sgs & ps & Ess & V & Hlks & Hnl & Hfst & Hi).
    destruct (visited_reach s ls sgs (asg_of st') ps Hws Hlks Ess Es V) as (e & He & [Ne _] & _ & Ie). exists e. split; [exact He|].
    assert (Dst : dims_of s st' = Some ps) by (unfold dims_of; rewrite Ess; exact (proj1 (proj2 V))).
    split; [rewrite Dst; symmetry; exact Ne|]. split.
    - rewrite (index_list_at s st' (asg_of st') ps Dst (fun _ _ => eq_refl)). symmetry. apply index_list_at; [exact Ne|]. exact Ie.
    - intros d Hd. apply Hi. rewrite Hfst. unfold has_dim in Hd. rewrite Ess in Hd. apply accept_sdims, Hd.
  Qed.

  Theorem stencil_memory st diffs st' o n : In st l -> within m diffs -> neighbor diffs st = Some st' ->
    good s nolens (asg_of st') -> isize s nolens < W -> offset s st' = Some o -> get_size s st' = Some n ->
    exists ov nv c, vz o = Some ov /\ vz n = Some nv /\ scalar_t s st' = Some c /\ ov + ct_size c <= nv.
  Proof.
    intros Hin Hwi En Hg Hf Eo Ez. destruct (stencil_moved st diffs st' Hin Hwi En) as (sgs & ps & Ess & V & Hlks & Hnl & Hfst & Hi).
    assert (Ag : agree st' nolens (asg_of st')). { destruct (agree_of st') as [_ L2]. split; [|exact L2]. intros d. rewrite Hnl. exact I. }
    assert (Hld : lendef st') by (intros d w Hd; rewrite Hnl in Hd; discriminate).
    assert (Hpd : pdef ps st'). { intros d w Hd Gw. destruct (Hi d Hd) as (i & x & Gi & Vi). assert (w = i) by congruence. subst w. unfold dz. congruence. }
    unfold offset in Eo. destruct (scalar_t s st') as [c|] eqn:Ec; [|discriminate]. cbn [obind] in Eo.
    destruct (offset_spec s Hws st' _ _ sgs ps c (Sta 0) 0 o V Hlks lrange_nolens Hg Ag Hld Hpd eq_refl Eo) as [H1 H2].
    destruct (int_in_bounds s _ _ sgs ps Hws lrange_nolens Hg V) as (c' & El' & B1 & B2 & B3). rewrite H1 in El'. injection El' as <-.
    pose proof (size_spec s Hws ltac:(congruence) st' _ _ n Hlks Ag Hld Ez) as Hz. rewrite u64_small in Hz, H2 by lia.
    exists (0 + ioff s nolens (asg_of st')), (isize s nolens), c. repeat split; auto.
  Qed.
End Stencil.
