(** * Orders rearrange or select the visited elements *)

From Coq Require Import Sorted Permutation.
From Verif Require Export TravDef SpecOrder.

Lemma over_mono (P Q : view -> struct -> lenv -> Prop) u s l : (forall v t l, P v t l -> Q v t l) -> over P u s l -> over Q u s l.
Proof. intros H. induction 1; constructor; auto. Qed.

Lemma over_trans P u b s l : over P b s l -> (forall l, (forall d, l d = None) -> over P u b l) -> over P u s l.
Proof. intros H Hb. induction H; [auto|constructor; auto]. Qed.

Lemma pvalid_ext s l l' a sg p : eqf l l' -> pvalid s l a sg p -> pvalid s l' a sg p.
Proof.
  intros H (H1 & H2 & H3). split; [exact H1|]. split; [exact H2|]. eapply Forall_impl; [|exact H3].
  intros [d k]. unfold in_range. cbn [fst snd]. destruct k; [auto|]. rewrite (ilen_ext s l l' a a d); auto using eqf_refl.
Qed.

Lemma agree_ext st l l' a : eqf l l' -> agree st l a -> agree st l' a.
Proof. intros H [H1 H2]. split; [|exact H2]. intros d. rewrite <- H. apply H1. Qed.

Lemma agree_on st l a d v x : agree st l a -> get (Idx d) st = Some v -> vz v = Some x -> asg_of st d = a d.
Proof.
  intros Ha Hg Hv. pose proof (ag_idx _ _ _ Ha _ _ Hg) as H. unfold vagree in H. rewrite Hv in H.
  unfold asg_of. rewrite Hg, (vzd_vz _ _ Hv). exact H.
Qed.

(** The assignment below depends only on the indices on the path. *)
Lemma view_local v t l a a2 s0 p' sg p : uswf (View v t) = true -> lrange l ->
  (forall c, view_good v (plen t (view_lenv v l) c) l) ->
  pvalid (View v t) l a sg p -> signature t = Some s0 -> spath s0 (view_asg v (ilen t) l a) = Some p' ->
  (forall x, In x (map fst p) -> a2 x = a x) ->
  forall y, In y (map fst p') -> view_asg v (ilen t) l a2 y = view_asg v (ilen t) l a y.
Proof.
  intros Hw Hr Hd V E0 Ep' H y Hy. destruct (pvalid_view _ _ _ _ _ _ Hw Hr (Hd _) V) as (s1 & q & Ev & R & Hsn & Hnd & (E1 & Eq & _)).
  rewrite E0 in E1. injection E1 as <-. rewrite Ep' in Eq. injection Eq as <-.
  destruct (uswf_view _ _ Hw) as [Hvw Ht].
  eapply (adep_ok v t s0 sg l a p' p); eauto. apply uswf_loc, Ht.
Qed.

Section Two.
  Variables (u b : struct).
  Hypothesis Hu : forall v t, same_type u (View v t) = false.

  (** Valid assignments above give valid assignments below, different ones give different ones. *)
  Lemma chain_down s l : over documented b s l -> forall a sg p, uswf s = true -> lenok s l -> lrange l ->
    pvalid s l a sg p ->
    exists c s0 p', uswf b = true /\ pvalid b nolens c s0 p' /\
      (forall a2 st r, (forall x, In x (map fst p) -> a2 x = a x) -> agree st l a2 -> state_at u s st = Some r ->
         exists c2 st', agree st' nolens c2 /\ state_at u b st' = Some r /\ forall x, In x (map fst p') -> c2 x = c x).
  Proof.
    induction 1 as [l Hl|v t l [Hnb Hd] Ho IH]; intros a sg p Hw Hlk Hr Hv.
    - exists a, sg, p. split; [exact Hw|]. split; [exact (pvalid_ext _ l nolens _ _ _ Hl Hv)|]. intros a2 st r H Ha E. exists a2, st.
      split; [exact (agree_ext _ l nolens _ Hl Ha)|auto].
    - pose proof Hv as (Es & _ & _). destruct (pvalid_view _ _ _ _ _ _ Hw Hr (Hd _) Hv) as (s0 & p' & _ & _ & _ & _ & Hv').
      destruct (uswf_view _ _ Hw) as [_ Ht].
      destruct (IH _ _ _ Ht (proj2 Hlk) (view_lrange v l Hr) Hv') as (c & s1 & p1 & Hw1 & Hv1 & Hst).
      exists c, s1, p1. split; [exact Hw1|]. split; [exact Hv1|]. intros a2 st r H Ha E. rewrite state_at_view in E by apply Hu.
      destruct (sub_state v t st) as [st1|] eqn:E1; [|discriminate]. simpl in E. apply (Hst (view_asg v (ilen t) l a2) st1 r); [| |exact E].
      + destruct Hv' as (E0 & Ep' & _). eapply view_local; eauto.
      + eapply sub_state_refines; eauto. congruence.
  Qed.

  Lemma chain_two s l : over documented b s l -> forall a1 a2 sg p1 p2, uswf s = true -> lenok s l -> lrange l ->
    pvalid s l a1 sg p1 -> pvalid s l a2 sg p2 ->
    exists c1 c2 s0 q1 q2, pvalid b nolens c1 s0 q1 /\ pvalid b nolens c2 s0 q2 /\
      (forall st r, agree st l a1 -> state_at u s st = Some r -> exists st', agree st' nolens c1 /\ state_at u b st' = Some r) /\
      (forall st r, agree st l a2 -> state_at u s st = Some r -> exists st', agree st' nolens c2 /\ state_at u b st' = Some r) /\
      (q1 = q2 -> (forall x, In x (map fst q1) -> c1 x = c2 x) -> p1 = p2 /\ forall x, In x (map fst p1) -> a1 x = a2 x).
  Proof.
    induction 1 as [l Hl|v t l [Hnb Hd] Ho IH]; intros a1 a2 sg p1 p2 Hw Hlk Hr V1 V2.
    - exists a1, a2, sg, p1, p2. split; [exact (pvalid_ext _ l nolens _ _ _ Hl V1)|]. split; [exact (pvalid_ext _ l nolens _ _ _ Hl V2)|].
      split; [|split].
      + intros st r Ha E. exists st. split; [exact (agree_ext _ l nolens _ Hl Ha)|exact E].
      + intros st r Ha E. exists st. split; [exact (agree_ext _ l nolens _ Hl Ha)|exact E].
      + auto.
    - pose proof V1 as (Es & Ep1 & R1). pose proof V2 as (_ & Ep2 & R2).
      destruct (pvalid_view _ _ _ _ _ _ Hw Hr (Hd _) V1) as (s0 & q1 & Ev & Ra & Hsn & Hnd & V1').
      destruct (pvalid_view _ _ _ _ _ _ Hw Hr (Hd _) V2) as (s0' & q2 & Ev' & Rb & Hsn' & Hnd' & V2').
      assert (s0' = s0) by (destruct V1' as (A & _), V2' as (B & _); congruence). subst s0'.
      destruct (uswf_view _ _ Hw) as [Hvw Ht].
      destruct (IH _ _ _ _ _ Ht (proj2 Hlk) (view_lrange v l Hr) V1' V2') as (c1 & c2 & s1 & r1 & r2 & W1 & W2 & S1 & S2 & Hinj).
      exists c1, c2, s1, r1, r2. split; [exact W1|]. split; [exact W2|]. split; [|split].
      + intros st r Ha E. rewrite state_at_view in E by apply Hu. destruct (sub_state v t st) as [st1|] eqn:E1; [|discriminate].
        simpl in E. apply (S1 st1 r); [|exact E]. eapply sub_state_refines; eauto. congruence.
      + intros st r Ha E. rewrite state_at_view in E by apply Hu. destruct (sub_state v t st) as [st1|] eqn:E1; [|discriminate].
        simpl in E. apply (S2 st1 r); [|exact E]. eapply sub_state_refines; eauto. congruence.
      + intros Eq Hc. destruct (Hinj Eq Hc) as [<- H]. destruct V1' as (E0 & Epa & Fa), V2' as (_ & Epb & Fb).
        destruct (plen_same _ (view_lenv v l) _ _ _ _ Ht E0 Epa Hnd H) as [_ HL].
        assert (Hx : forall x, In x (map fst p1) -> a1 x = a2 x).
        { eapply (view_same v t s0 sg l a1 a2 q1 p1 (Lof v t l a1) (Lof v t l a2)); eauto.
          - intros x Hx. unfold Lof. rewrite HL; auto.
          - eapply (vfacts_ok v t s0 sg l a1 q1 p1); eauto. apply uswf_loc, Ht.
          - eapply (vfacts_ok v t s0 sg l a2 q1 p2); eauto. apply uswf_loc, Ht. }
        split; [|exact Hx]. assert (spath sg a2 = Some p1); [|congruence]. eapply spath_ext; [exact Ep1|].
        intros x n Hn. symmetry. apply Hx. eapply in_fst; eauto.
  Qed.
End Two.

(** ** Everything is reached by views that rearrange *)

Lemma rearranges_documented v t l : rearranges v t l -> documented v t l.
Proof. intros [H _]. exact H. Qed.

Lemma rearranges_cover v t l c s0 p' : rearranges v t l -> signature t = Some s0 -> pvalid t (view_lenv v l) c s0 p' ->
  NoDup (map fst p') -> lrange l -> cover v (Lc v t l c) l c p'.
Proof.
  intros [[Hnb Hd] Hv] E0 (_ & Ep & R) Hnd Hr. rewrite Forall_forall in R.
  destruct v as [d|d i|d n|d st|d st len|d st en|d st sr|d|d M m|d M m pd|d b M m ml|M m d|sl gl d ds|ds|d|ps|xa xb d];
    cbn [cover]; try exact I; try contradiction.
  - intros Hin. destruct (fst_in _ _ Hin) as [k Hk].
    pose proof (plen_in t s0 (view_lenv (VBlocks d M m) l) c p' d k E0 Ep Hnd Hk) as Hpl.
    destruct Hv as (y & Hy & Hdiv). specialize (Hdiv c). rewrite Hpl in Hdiv. cbn [on_len] in Hdiv.
    assert (HL : Lc (VBlocks d M m) t l c d = match k with Some k => k | None => ilen t (view_lenv (VBlocks d M m) l) c d end)
      by (unfold Lc; rewrite Hpl; reflexivity).
    rewrite HL. specialize (R _ Hk). unfold in_range in R. cbn [fst snd] in R.
    specialize (Hd c). cbn [view_good] in Hd.
    assert (Hc : c d < match k with Some k => k | None => ilen t (view_lenv (VBlocks d M m) l) c d end) by (destruct k; lia).
    assert (Hy0 : y <> 0) by (destruct Hy as [[E1 E2]|[E1 E2]]; rewrite E1, E2 in Hd; exact Hd).
    pose proof (proj2 (Z.div_exact _ y Hy0) Hdiv) as He. destruct Hy as [[-> ->]|[-> ->]]; lia.
  - intros _. destruct (l M), (l m); auto; destruct Hv as [[H1 H2]|[H1 H2]]; congruence.
Qed.

Section Onto.
  Variable u b : struct.
  Hypothesis Hu : forall v t, same_type u (View v t) = false.

  Lemma view_onto_valid v t l c s0 p' : uswf (View v t) = true -> signature (View v t) <> None -> lrange l ->
    (forall c, view_good v (plen t (view_lenv v l) c) l) ->
    pvalid t (view_lenv v l) c s0 p' -> cover v (Lc v t l c) l c p' ->
    exists a sg p, pvalid (View v t) l a sg p /\ forall y, In y (map fst p') -> view_asg v (ilen t) l a y = c y.
  Proof.
    intros Hw Hs Hr Hd (E0 & Ep & R) Hc. destruct (uswf_view _ _ Hw) as [Hvw Ht].
    destruct (signature_view _ _ Hs) as (s1 & Es1 & Hs1). rewrite E0 in Es1. injection Es1 as <-.
    destruct (signature (View v t)) as [sg|] eqn:Es; [|congruence].
    assert (Ev : view_sig v s0 = Some sg) by (cbn [signature] in Es; rewrite E0 in Es; exact Es).
    pose proof (uswf_snodup _ _ Ht E0) as Hsn.
    destruct (view_onto v t s0 sg l c p') as (a & p & A & B & C); auto.
    - apply uswf_loc, Ht.
    - eapply spath_nodup; eauto.
    - exists a, sg, p. split; [split; [exact Es|auto]|exact C].
  Qed.

  Lemma pvalid_local s l a a2 sg p : uswf s = true -> pvalid s l a sg p -> (forall x, In x (map fst p) -> a2 x = a x) ->
    pvalid s l a2 sg p.
  Proof.
    intros Hw (Es & Ep & R) H. split; [exact Es|]. assert (Ep2 : spath sg a2 = Some p) by (eapply spath_local; eauto).
    split; [exact Ep2|]. rewrite Forall_forall in *. intros [d k] Hin. specialize (R _ Hin). unfold in_range in *. cbn [fst snd] in *.
    destruct k; [rewrite H by (eapply in_fst; eauto); exact R|].
    rewrite (uswf_loc s Hw l sg a a2 p d Es Ep Hin) by (intros x _ Hx; apply H, Hx). rewrite H by (eapply in_fst; eauto). exact R.
  Qed.

  Lemma chain_onto s l : over rearranges b s l -> forall c s0 p', uswf s = true -> signature s <> None -> lenok s l -> lrange l ->
    pvalid b nolens c s0 p' ->
    exists a sg p, pvalid s l a sg p /\
      (forall a2 st r, (forall x, In x (map fst p) -> a2 x = a x) -> agree st l a2 -> state_at u s st = Some r ->
         exists c' st', agree st' nolens c' /\ state_at u b st' = Some r /\ forall x, In x (map fst p') -> c' x = c x).
  Proof.
    induction 1 as [l Hl|v t l Hv Ho IH]; intros c s0 p' Hw Hs Hlk Hr Hc.
    - exists c, s0, p'. split; [apply (pvalid_ext _ nolens l); [intros d; symmetry; apply Hl|exact Hc]|].
      intros a2 st r H Ha E. exists a2, st. split; [exact (agree_ext _ l nolens _ Hl Ha)|]. auto.
    - destruct (uswf_view _ _ Hw) as [Hvw Ht]. destruct (signature_view _ _ Hs) as (s1 & Es1 & _).
      destruct (IH c s0 p' Ht ltac:(congruence) (proj2 Hlk) (view_lrange v l Hr) Hc) as (a1 & sg1 & p1 & V1 & S1).
      assert (sg1 = s1) by (destruct V1 as (A & _); congruence). subst sg1.
      pose proof (proj2 (rearranges_documented _ _ _ Hv)) as Hd.
      assert (Hnd1 : NoDup (map fst p1)) by (eapply spath_nodup; [eapply uswf_snodup; eauto|apply V1]).
      destruct (view_onto_valid v t l a1 s1 p1 Hw Hs Hr Hd V1 (rearranges_cover _ _ _ _ _ _ Hv Es1 V1 Hnd1 Hr))
        as (a & sg & p & V & Hav).
      exists a, sg, p. split; [exact V|]. intros a2 st r H Ha E. rewrite state_at_view in E by apply Hu.
      destruct (sub_state v t st) as [st1|] eqn:E1; [|discriminate]. simpl in E.
      apply (S1 (view_asg v (ilen t) l a2) st1 r); [|eapply sub_state_refines; eauto|exact E].
      intros x Hx. rewrite <- Hav by exact Hx.
      eapply (view_local v t l a a2 s1 p1); eauto. destruct V1 as (_ & Ep1 & _).
      eapply spath_local; [|exact Ep1]. exact Hav.
  Qed.
End Onto.

(** ** Index lists *)

Lemma path_of_index s a b : forall p q, spath s a = Some p -> spath s b = Some q ->
  map (fun e => a (fst e)) p = map (fun e => b (fst e)) q -> p = q /\ forall d, In d (map fst p) -> a d = b d.
Proof.
  induction s as [c| |d al r IH|d rs IH] using sig_ind'; intros p q Ep Eq H; try discriminate.
  - inv Ep. inv Eq. split; [reflexivity|intros d []].
  - inv Ep. inv Eq. split; [reflexivity|intros d []].
  - simpl in Ep, Eq. destruct (spath r a) as [p'|]; [|discriminate]. destruct (spath r b) as [q'|]; [|discriminate].
    injection Ep as <-. injection Eq as <-. cbn [map fst] in H. injection H as H1 H2. destruct (IH _ _ eq_refl eq_refl H2) as [-> H].
    split; [reflexivity|]. cbn [map fst]. intros x [<-|Hx]; auto.
  - rewrite spath_dep in Ep, Eq. destruct (nthz rs (a d)) as [ra|] eqn:Ea; [|discriminate]. destruct (nthz rs (b d)) as [rb|] eqn:Eb; [|discriminate].
    destruct (spath ra a) as [p'|] eqn:Epa; [|discriminate]. destruct (spath rb b) as [q'|] eqn:Eqb; [|discriminate].
    injection Ep as <-. injection Eq as <-. cbn [map fst] in H. injection H as H1 H2. rewrite <- H1, Ea in Eb. injection Eb as <-.
    eapply Forall_nthz in IH; [|exact Ea]. destruct (IH _ _ Epa Eqb H2) as [-> H].
    split; [reflexivity|]. cbn [map fst]. intros x [<-|Hx]; auto.
Qed.

Lemma agree_same_get st st' l a : same_get st st' -> agree st l a -> agree st' l a.
Proof.
  intros H [H1 H2]. split.
  - intros d. rewrite <- (proj2 (H d)). apply H1.
  - intros d v Hv. apply H2. rewrite (proj1 (H d)). exact Hv.
Qed.

Lemma index_of u st c s0 p : pvalid u nolens c s0 p -> agree st nolens c -> complete u st ->
  dims_of u st = Some p /\ forall x, In x (map fst p) -> asg_of st x = c x.
Proof.
  intros (Es & Ep & _) Ha (q & Eq & Hq).
  assert (H : forall x, In x (map fst q) -> asg_of st x = c x).
  { intros x Hx. destruct (Hq x Hx) as (i & n & Hi & Hn). eapply agree_on; eauto. }
  assert (E : q = p); [|subst q; auto]. unfold dims_of in Eq. rewrite Es in Eq. simpl in Eq.
  apply spath_local with (b := c) in Eq; [congruence|]. intros d Hd. symmetry. auto.
Qed.

Lemma index_of2 u st c c2 s0 p : pvalid u nolens c s0 p -> (forall x, In x (map fst p) -> c2 x = c x) ->
  agree st nolens c2 -> complete u st ->
  dims_of u st = Some p /\ forall x, In x (map fst p) -> asg_of st x = c x.
Proof.
  intros (Es & Ep & _) Hcc Ha (q & Eq & Hq).
  assert (H : forall x, In x (map fst q) -> asg_of st x = c2 x).
  { intros x Hx. destruct (Hq x Hx) as (i & n & Hi & Hn). eapply agree_on; eauto. }
  assert (E : q = p).
  { unfold dims_of in Eq. rewrite Es in Eq. simpl in Eq. apply spath_local with (b := c2) in Eq; [|intros d Hd; symmetry; auto].
    apply spath_local with (b := c2) in Ep; [congruence|exact Hcc]. }
  subst q. split; [exact Eq|]. intros x Hx. rewrite H by exact Hx. auto.
Qed.

Lemma index_list_at u st c p : dims_of u st = Some p -> (forall x, In x (map fst p) -> asg_of st x = c x) ->
  index_list u st = map (fun e => c (fst e)) p.
Proof.
  intros Hd H. unfold index_list. rewrite Hd. apply map_ext_in. intros [x k] Hx. apply H. eapply in_fst; eauto.
Qed.

Lemma Forall2_nodup {A B C D} (R : A -> B -> Prop) (f : B -> C) (g : A -> D) l l' : Forall2 R l l' ->
  (forall x x' y y', In x l -> In x' l -> R x y -> R x' y' -> f y = f y' -> g x = g x') ->
  NoDup (map g l) -> NoDup (map f l').
Proof.
  induction 1 as [|x y l l' Hr F IH]; intros H Hn; [constructor|]. cbn [map] in *. apply NoDup_cons_iff in Hn. destruct Hn as [Hx Hn].
  constructor.
  - intros Hin. apply in_map_iff in Hin. destruct Hin as (y' & E & Hy'). destruct (Forall2_In_r _ _ _ _ F Hy') as (x' & Hx' & Hr').
    apply Hx. rewrite (H x x' y y'); auto; [apply in_map, Hx'|left; reflexivity|right; exact Hx'].
  - apply IH; [|exact Hn]. intros; eapply H; eauto; right; assumption.
Qed.

(** ** The states produced by an ordered traverser *)

Section Core.
  Variables (u s : struct) (sg : sig) (sts l2 : list state).
  Hypothesis Hx : forall v t, u <> View v t.
  Hypothesis Ho : over documented u s nolens.
  Hypothesis Hw : uswf s = true.
  Hypothesis Hlk : lenok s nolens.
  Hypothesis Hs : signature s = Some sg.
  Hypothesis E : fe_run s sg (sig_dim_tree sg) [] = Done sts.
  Hypothesis F : Forall2 (fun st r => exists s', state_at u s st = Some s' /\ same_get s' r) sts l2.
  Hypothesis Hc : forall r, In r l2 -> complete u r.

  Let Hu v t : same_type u (View v t) = false.
  Proof. destruct u; try reflexivity. exfalso. eapply Hx. reflexivity. Qed.

  Lemma lrange_nolens : lrange nolens.
  Proof. intros d x H. discriminate. Qed.

  Lemma state_at_same x st r : state_at u u st = Some x -> same_get x r -> forall c, agree st nolens c -> agree r nolens c.
  Proof. intros Ex Hg c Ha. apply state_at_self in Ex; [subst x|exact Hx]. eapply agree_same_get; eauto. Qed.

  Let Hn : snodup sg = true.
  Proof. eapply uswf_snodup; eauto. Qed.

  Lemma core_two st1 st2 r1 r2 x1 x2 : In st1 sts -> In st2 sts -> In r1 l2 -> In r2 l2 ->
    state_at u s st1 = Some x1 -> same_get x1 r1 -> state_at u s st2 = Some x2 -> same_get x2 r2 ->
    index_list u r1 = index_list u r2 -> index_list s st1 = index_list s st2.
  Proof.
    intros I1 I2 J1 J2 E1 G1 E2 G2 H.
    destruct (run_valid s sg sts Hs Hn Hlk E st1 I1) as (p1 & D1 & V1). destruct (run_valid s sg sts Hs Hn Hlk E st2 I2) as (p2 & D2 & V2).
    destruct (chain_two u u Hu s nolens Ho _ _ _ _ _ Hw Hlk lrange_nolens V1 V2) as (c1 & c2 & s0 & q1 & q2 & W1 & W2 & S1 & S2 & Hinj).
    destruct (S1 st1 x1 (run_agree s sg sts Hs Hn E st1 I1) E1) as (st1' & A1 & T1).
    destruct (S2 st2 x2 (run_agree s sg sts Hs Hn E st2 I2) E2) as (st2' & A2 & T2).
    destruct (index_of u r1 c1 s0 q1 W1 (state_at_same _ _ _ T1 G1 _ A1) (Hc _ J1)) as [Q1 C1].
    destruct (index_of u r2 c2 s0 q2 W2 (state_at_same _ _ _ T2 G2 _ A2) (Hc _ J2)) as [Q2 C2].
    rewrite (index_list_at _ _ _ _ Q1 C1), (index_list_at _ _ _ _ Q2 C2) in H.
    destruct W1 as (_ & K1 & _), W2 as (_ & K2 & _). destruct (path_of_index _ _ _ _ _ K1 K2 H) as [Eq He].
    destruct (Hinj Eq He) as [-> Ha]. rewrite (index_list_at s st1 (asg_of st1) p2 D1), (index_list_at s st2 (asg_of st1) p2 D2); auto.
    intros x Hx'. symmetry. auto.
  Qed.

  Lemma core_nodup : NoDup (map (index_list u) l2).
  Proof.
    pose proof (ssorted_nodup _ (run_ordered s sg sts Hs Hn E)) as Hnd.
    assert (F' : Forall2 (fun st r => In r l2 /\ exists s', state_at u s st = Some s' /\ same_get s' r) sts l2).
    { clear -F. induction F as [|x y l l' H1 F1 IH]; constructor; [split; [left; reflexivity|exact H1]|].
      eapply Forall2_impl'; [|exact (IH F1)]. intros st r [Hr H]. split; [right; exact Hr|exact H]. }
    apply (Forall2_nodup _ _ (index_list s) _ _ F'); [|exact Hnd].
    intros st1 st2 r1 r2 I1 I2 (J1 & x1 & E1 & G1) (J2 & x2 & E2 & G2) H.
    exact (core_two st1 st2 r1 r2 x1 x2 I1 I2 J1 J2 E1 G1 E2 G2 H).
  Qed.

  Lemma core_sound r : In r l2 -> exists c s0 p, pvalid u nolens c s0 p /\ dims_of u r = Some p /\
    forall x, In x (map fst p) -> asg_of r x = c x.
  Proof.
    intros Hr. destruct (Forall2_In_r _ _ _ _ F Hr) as (st & Hst & x & Ex & Hg).
    destruct (run_valid s sg sts Hs Hn Hlk E st Hst) as (p & D & V).
    destruct (chain_down u u Hu s nolens Ho _ _ _ Hw Hlk lrange_nolens V) as (c & s0 & q & _ & W & S).
    destruct (S _ st x (fun _ _ => eq_refl) (run_agree s sg sts Hs Hn E st Hst) Ex) as (c2 & st' & A & T & Hcc).
    destruct (index_of2 u r c c2 s0 q W Hcc (state_at_same _ _ _ T Hg _ A) (Hc _ Hr)) as [H1 H2]. exists c, s0, q. auto.
  Qed.

  Lemma core_reach a p : pvalid s nolens a sg p -> exists e r x, In e sts /\ In r l2 /\ agree e nolens a /\
    state_at u s e = Some x /\ same_get x r.
  Proof.
    intros V. destruct (run_reaches s sg sts Hs Hn Hlk E a p V) as (e & He & Ha & _ & _).
    destruct (Forall2_in1 _ _ _ _ F He) as (r & Hr & x & Ex & Hg). exists e, r, x. auto.
  Qed.
End Core.

Lemma uswf_distinct s : uswf s = true -> signature s <> None -> distinct_dims s.
Proof. intros Hw Hs. unfold distinct_dims. destruct (signature s) as [sg|] eqn:E; [eapply uswf_snodup; eauto|congruence]. Qed.

Lemma for_each_signature t l : for_each t [] = Done l -> signature (top_struct t) <> None.
Proof.
  unfold for_each, for_sections_with, for_tree. destruct (signature (top_struct t)); [discriminate|]. discriminate.
Qed.

Lemma over_signature P u s l : over P u s l -> signature s <> None -> signature u <> None.
Proof.
  induction 1 as [l Hl|v t l H Ho IH]; intros Hs; [exact Hs|]. refine (IH _). destruct (signature_view _ _ Hs) as (? & E & _). congruence.
Qed.

Lemma over_uswf P u s l : over P u s l -> uswf s = true -> uswf u = true.
Proof. induction 1; intros Hw; [exact Hw|]. apply IHover. apply uswf_view in Hw. apply Hw. Qed.

Lemma over_lenok P u s l : over P u s l -> lenok s l -> lenok u nolens.
Proof.
  induction 1 as [l Hl|v t l H Ho IH]; intros Hk; [eapply lenok_ext; [|exact Hk]; exact Hl|]. apply IH, Hk.
Qed.

(** ** Orders that rearrange, and selections *)

Lemma Forall2_combine {A B} (R : A -> B -> Prop) l l' : Forall2 R l l' -> forall x y, In (x, y) (combine l l') -> R x y.
Proof. induction 1 as [|a b l l' H F IH]; intros x y Hin; simpl in Hin; [destruct Hin|]. destruct Hin as [E|Hin]; [congruence|auto]. Qed.

Lemma Forall2_combine_ex {A B} (R : A -> B -> Prop) l l' x : Forall2 R l l' -> In x l -> exists y, In (x, y) (combine l l').
Proof.
  induction 1 as [|a b l l' H F IH]; intros Hin; [destruct Hin|]. destruct Hin as [->|Hin]; [exists b; left; reflexivity|].
  destruct (IH Hin) as [y Hy]. exists y. right. exact Hy.
Qed.

Lemma snd_combine {A B} (R : A -> B -> Prop) l l' : Forall2 R l l' -> map snd (combine l l') = l'.
Proof. induction 1; simpl; congruence. Qed.

Lemma NoDup_map_filter {A B} (f : A -> B) (g : A -> bool) l : NoDup (map f l) -> NoDup (map f (filter g l)).
Proof.
  induction l as [|x l IH]; [auto|]. cbn [map filter]. intros H. apply NoDup_cons_iff in H. destruct H as [H1 H2].
  destruct (g x); [|auto]. cbn [map]. constructor; [|auto]. intros Hin. apply H1. apply in_map_iff in Hin. destruct Hin as (y & E & Hy).
  apply filter_In in Hy. rewrite <- E. apply in_map, Hy.
Qed.

Definition leads (u s : struct) (st r : state) : Prop := exists s', state_at u s st = Some s' /\ same_get s' r.

Section Main.
  Variables (u s1 s2 : struct) (sg1 sg2 : sig) (sts1 sts2 l1 l2 : list state).
  Hypothesis Hx : forall v t, u <> View v t.
  Hypothesis Hw1 : uswf s1 = true.
  Hypothesis Hw2 : uswf s2 = true.
  Hypothesis Hlk1 : lenok s1 nolens.
  Hypothesis Hlk2 : lenok s2 nolens.
  Hypothesis Hs1 : signature s1 = Some sg1.
  Hypothesis Hs2 : signature s2 = Some sg2.
  Hypothesis E1 : fe_run s1 sg1 (sig_dim_tree sg1) [] = Done sts1.
  Hypothesis E2 : fe_run s2 sg2 (sig_dim_tree sg2) [] = Done sts2.
  Hypothesis F1 : Forall2 (leads u s1) sts1 l1.
  Hypothesis F2 : Forall2 (leads u s2) sts2 l2.
  Hypothesis Ho1 : over documented u s1 nolens.
  Hypothesis Ho2 : over documented u s2 nolens.
  Hypothesis Hc1 : forall st, In st l1 -> complete u st.
  Hypothesis Hc2 : forall st, In st l2 -> complete u st.

  Let Hu v t : same_type u (View v t) = false.
  Proof. destruct u; try reflexivity. exfalso. eapply Hx. reflexivity. Qed.
  Let Hn1 : snodup sg1 = true.
  Proof. exact (uswf_snodup _ _ Hw1 Hs1). Qed.
  Let Hn2 : snodup sg2 = true.
  Proof. exact (uswf_snodup _ _ Hw2 Hs2). Qed.

  Variable sel : state -> bool.
  Let picked := map snd (filter (fun e => sel (fst e)) (combine sts1 l1)).

  Lemma gen_perm :
    (forall e r, In e sts2 -> In r l2 -> leads u s2 e r ->
       exists e1 r1, In (e1, r1) (combine sts1 l1) /\ sel e1 = true /\ index_list u r1 = index_list u r) ->
    (forall e1 r1, In e1 sts1 -> In r1 l1 -> leads u s1 e1 r1 -> sel e1 = true -> exists r, In r l2 /\ index_list u r = index_list u r1) ->
    Permutation (map (index_list u) l2) (map (index_list u) picked).
  Proof.
    intros Ha Hb. apply NoDup_Permutation.
    - eapply (core_nodup u s2 sg2 sts2 l2); eauto.
    - unfold picked. rewrite map_map. apply NoDup_map_filter.
      rewrite <- (map_map snd (index_list u)), (snd_combine _ _ _ F1). eapply (core_nodup u s1 sg1 sts1 l1); eauto.
    - intros x. rewrite !in_map_iff. split.
      + intros (r & <- & Hr). destruct (Forall2_In_r _ _ _ _ F2 Hr) as (e & He & Hl). destruct (Ha e r He Hr Hl) as (e1 & r1 & Hin & Hs & E).
        exists r1. split; [exact E|]. apply in_map_iff. exists (e1, r1). split; [reflexivity|]. apply filter_In. auto.
      + intros (r1 & <- & Hr). apply in_map_iff in Hr. destruct Hr as ([e1 r1'] & <- & Hin). apply filter_In in Hin. destruct Hin as [Hin Hs].
        cbn [fst snd] in *. destruct (Hb e1 r1') as (r & Hr & E); eauto using in_combine_l, in_combine_r.
        eapply Forall2_combine; eauto.
  Qed.

  (** States that agree with the same valid assignment of [s1] have the same indices below. *)
  Lemma same_below a p a2 a3 st2 st3 x2 x3 r2 r3 : pvalid s1 nolens a sg1 p ->
    (forall x, In x (map fst p) -> a2 x = a x) -> (forall x, In x (map fst p) -> a3 x = a x) ->
    agree st2 nolens a2 -> agree st3 nolens a3 -> state_at u s1 st2 = Some x2 -> state_at u s1 st3 = Some x3 ->
    same_get x2 r2 -> same_get x3 r3 -> complete u r2 -> complete u r3 -> index_list u r2 = index_list u r3.
  Proof.
    intros V H2 H3 A2 A3 S2 S3 G2 G3 C2 C3.
    destruct (chain_down u u Hu s1 nolens Ho1 _ _ _ Hw1 Hlk1 lrange_nolens V) as (c & s0 & q & _ & W & S).
    destruct (S _ _ _ H2 A2 S2) as (c2 & st2' & B2 & T2 & D2). destruct (S _ _ _ H3 A3 S3) as (c3 & st3' & B3 & T3 & D3).
    destruct (index_of2 u r2 c c2 s0 q W D2 (state_at_same u Hx _ _ _ T2 G2 _ B2) C2) as [P2 Q2].
    destruct (index_of2 u r3 c c3 s0 q W D3 (state_at_same u Hx _ _ _ T3 G3 _ B3) C3) as [P3 Q3].
    rewrite (index_list_at _ _ _ _ P2 Q2), (index_list_at _ _ _ _ P3 Q3). reflexivity.
  Qed.

  Section Rearranged.
    Hypothesis Hb : over rearranges s1 s2 nolens.
    Hypothesis Hsel : forall e, In e sts1 -> sel e = true.

    Lemma rearranged_perm : Permutation (map (index_list u) l2) (map (index_list u) picked).
    Proof.
      apply gen_perm.
      - intros e r He Hr (x & Ex & Gx). destruct (run_valid s2 sg2 sts2 Hs2 Hn2 Hlk2 E2 e He) as (p & D & V).
        destruct (chain_down u s1 Hu s2 nolens (over_mono _ _ _ _ _ rearranges_documented Hb) _ _ _ Hw2 Hlk2 lrange_nolens V)
          as (a & s0 & p1 & _ & V1 & S).
        destruct (S _ e x (fun _ _ => eq_refl) (run_agree s2 sg2 sts2 Hs2 Hn2 E2 e He) Ex) as (a' & st1 & A1 & T1 & Ha).
        assert (s0 = sg1) by (destruct V1 as (B & _); congruence). subst s0.
        destruct (run_reaches s1 sg1 sts1 Hs1 Hn1 Hlk1 E1 a p1 V1) as (e1 & He1 & Ae1 & De1 & Hae).
        destruct (Forall2_combine_ex _ _ _ _ F1 He1) as (r1 & Hin). exists e1, r1. split; [exact Hin|]. split; [auto|].
        destruct (Forall2_combine _ _ _ F1 _ _ Hin) as (x1 & Ex1 & Gx1).
        exact (same_below a p1 a a' e1 st1 x1 x r1 r V1 (fun _ _ => eq_refl) Ha Ae1 A1 Ex1 T1 Gx1 Gx (Hc1 _ (in_combine_r _ _ _ _ Hin)) (Hc2 _ Hr)).
      - intros e1 r1 He1 Hr1 (x1 & Ex1 & Gx1) _. destruct (run_valid s1 sg1 sts1 Hs1 Hn1 Hlk1 E1 e1 He1) as (p1 & D1 & V1).
        destruct (chain_onto u s1 Hu s2 nolens Hb _ _ _ Hw2 ltac:(congruence) Hlk2 lrange_nolens V1) as (a & sg & p & V & S).
        assert (sg = sg2) by (destruct V as (B & _); congruence). subst sg.
        destruct (core_reach u s2 sg2 sts2 l2 Hw2 Hlk2 Hs2 E2 F2 a p V) as (e & r & x & He & Hr & Ae & Ex & Gx).
        exists r. split; [exact Hr|]. destruct (S a e x (fun _ _ => eq_refl) Ae Ex) as (c' & st' & A' & T' & Hc').
        refine (same_below (asg_of e1) p1 c' (asg_of e1) st' e1 x x1 r r1 V1 Hc' (fun _ _ => eq_refl) A' _ T' Ex1 Gx Gx1 (Hc2 _ Hr) (Hc1 _ Hr1)).
        exact (run_agree s1 sg1 sts1 Hs1 Hn1 E1 e1 He1).
    Qed.
  End Rearranged.

  Section Selected.
    Variable v : view.
    Hypothesis Hv : selecting v = true.
    Hypothesis Hd : documented v s1 nolens.
    Hypothesis Hb : over rearranges (View v s1) s2 nolens.
    Hypothesis Hwv : uswf (View v s1) = true.
    Hypothesis Hsel : forall e, In e sts1 -> sel e = selects v s1 e.

    Let Hlv : eqf (view_lenv v nolens) nolens.
    Proof.
      intros q. destruct v; try discriminate; cbn [view_lenv]; unfold fupd, nolens; try match goal with |- context [if ?c then _ else _] => destruct c end; reflexivity.
    Qed.

    Lemma select_cover e p : dims_of s1 e = Some p -> selects v s1 e = true -> forall L, cover v L nolens (asg_of e) p.
    Proof.
      intros D Hs L. destruct v; try discriminate; cbn [selects cover] in *; unfold on_dim in Hs; rewrite D in Hs; intros Hin;
        rewrite (proj2 (mem_In _ _) Hin) in Hs; unfold nolens; lia.
    Qed.

    Lemma facts_select e p a a' L : vfacts v L nolens a a' p -> view_swf v s1 = true -> dims_of s1 e = Some p ->
      (forall x, In x (map fst p) -> asg_of e x = a' x) -> selects v s1 e = true.
    Proof.
      intros Hf Hvw D H. destruct v; try discriminate; cbn [selects vfacts view_swf] in *; unfold on_dim; rewrite D;
        match goal with |- (if mem ?d _ then _ else _) = _ => destruct (mem d (map fst p)) eqn:Em; [|reflexivity]; apply mem_In in Em;
          rewrite (H _ Em); destruct (fst_in _ _ Em) as [k Hk]; specialize (Hf _ Hk) end; try lia.
      unfold view_swf in Hvw. rewrite Hs1 in Hvw. apply andb_true_iff in Hvw. destruct Hvw as [Hr _].
      destruct (vz start) as [zs|] eqn:Ez; [|discriminate]. destruct (vz stride) as [n|] eqn:En; [|discriminate].
      rewrite (vzd_vz _ _ En) in *. replace (a' d - vzd start) with (a d * n) by lia. rewrite Z.mod_mul by lia.
      pose proof (vz_range _ _ En). nia.
    Qed.

    Lemma selected_perm : Permutation (map (index_list u) l2) (map (index_list u) picked).
    Proof.
      assert (Hsv : signature (View v s1) <> None).
      { eapply over_signature; [exact Hb|congruence]. }
      destruct (signature (View v s1)) as [sv|] eqn:Esv; [clear Hsv|congruence].
      apply gen_perm.
      - intros e r He Hr (x & Ex & Gx). destruct (run_valid s2 sg2 sts2 Hs2 Hn2 Hlk2 E2 e He) as (p & D & V).
        destruct (chain_down u (View v s1) Hu s2 nolens (over_mono _ _ _ _ _ rearranges_documented Hb) _ _ _ Hw2 Hlk2 lrange_nolens V)
          as (b & s0 & pb & _ & Vb & S).
        destruct (S _ e x (fun _ _ => eq_refl) (run_agree s2 sg2 sts2 Hs2 Hn2 E2 e He) Ex) as (b' & stb & Ab & Tb & Hbb).
        pose proof Vb as (Evb & _ & _). rewrite Esv in Evb. injection Evb as <-.
        destruct (pvalid_view _ _ _ _ _ _ Hwv lrange_nolens (proj2 Hd _) Vb) as (s0 & p1 & Ev & R & Hsn & Hnd & V1).
        assert (s0 = sg1) by (destruct V1 as (B & _); congruence). subst s0.
        rewrite state_at_view in Tb by apply Hu. destruct (sub_state v s1 stb) as [st1|] eqn:Est1; [|discriminate]. simpl in Tb.
        assert (A1 : agree st1 (view_lenv v nolens) (view_asg v (ilen s1) nolens b')).
        { eapply sub_state_refines; eauto; [congruence|]. exact (over_lenok _ _ _ _ Hb Hlk2). }
        apply (agree_ext _ _ _ _ Hlv) in A1. apply (pvalid_ext _ _ _ _ _ _ Hlv) in V1.
        destruct (run_reaches s1 sg1 sts1 Hs1 Hn1 Hlk1 E1 _ p1 V1) as (e1 & He1 & Ae1 & De1 & Hae).
        destruct (Forall2_combine_ex _ _ _ _ F1 He1) as (r1 & Hin). exists e1, r1. split; [exact Hin|].
        destruct (uswf_view _ _ Hwv) as [Hvw Ht]. split.
        + rewrite Hsel by exact He1. destruct Vb as (_ & Epb & Fb), V1 as (_ & Ep1 & _).
          pose proof (vfacts_ok v s1 sg1 sv nolens b p1 pb (uswf_loc _ Ht) Hvw Ht Hs1 Ev Ep1 R Hnd lrange_nolens (proj2 Hd _) Fb) as Hf.
          eapply facts_select; eauto.
        + destruct (Forall2_combine _ _ _ F1 _ _ Hin) as (x1 & Ex1 & Gx1).
          refine (same_below _ p1 _ _ e1 st1 x1 x r1 r V1 (fun _ _ => eq_refl) _ Ae1 A1 Ex1 Tb Gx1 Gx (Hc1 _ (in_combine_r _ _ _ _ Hin)) (Hc2 _ Hr)).
          destruct V1 as (_ & Ep1 & _). eapply (view_local v s1 nolens b b' sg1 p1 sv pb); eauto using lrange_nolens. apply Hd.
      - intros e1 r1 He1 Hr1 (x1 & Ex1 & Gx1) Hs. rewrite Hsel in Hs by exact He1.
        destruct (run_valid s1 sg1 sts1 Hs1 Hn1 Hlk1 E1 e1 He1) as (p1 & D1 & V1).
        destruct (view_onto_valid v s1 nolens (asg_of e1) sg1 p1 Hwv ltac:(congruence) lrange_nolens (proj2 Hd)) as (b & sb & pb & Vb & Hb1).
        { apply (pvalid_ext _ nolens); [intros q; symmetry; apply Hlv|exact V1]. }
        { apply select_cover; auto. }
        assert (sb = sv) by (destruct Vb as (B & _); congruence). subst sb.
        destruct (chain_onto u (View v s1) Hu s2 nolens Hb _ _ _ Hw2 ltac:(congruence) Hlk2 lrange_nolens Vb) as (a & sg & p & V & S).
        assert (sg = sg2) by (destruct V as (B & _); congruence). subst sg.
        destruct (core_reach u s2 sg2 sts2 l2 Hw2 Hlk2 Hs2 E2 F2 a p V) as (e & r & x & He & Hr & Ae & Ex & Gx).
        exists r. split; [exact Hr|]. destruct (S a e x (fun _ _ => eq_refl) Ae Ex) as (c' & st' & A' & T' & Hc').
        rewrite state_at_view in T' by apply Hu. destruct (sub_state v s1 st') as [st1|] eqn:Est1; [|discriminate]. simpl in T'.
        assert (A1 : agree st1 (view_lenv v nolens) (view_asg v (ilen s1) nolens c')).
        { eapply sub_state_refines; eauto; [congruence|]. exact (over_lenok _ _ _ _ Hb Hlk2). }
        apply (agree_ext _ _ _ _ Hlv) in A1.
        refine (same_below (asg_of e1) p1 _ (asg_of e1) st1 e1 x x1 r r1 V1 _ (fun _ _ => eq_refl) A1 (run_agree s1 sg1 sts1 Hs1 Hn1 E1 e1 He1)
          T' Ex1 Gx Gx1 (Hc2 _ Hr) (Hc1 _ Hr1)).
        intros y Hy. rewrite <- Hb1 by exact Hy. eapply (view_local v s1 nolens b c' sg1 p1 sv pb); eauto using lrange_nolens; [apply Hd|].
        destruct V1 as (_ & Ep1 & _). eapply spath_local; [exact Hb1|exact Ep1].
    Qed.
  End Selected.
End Main.

(** ** Traversers *)

Lemma names_complete s st p : names_element s st p -> complete s st.
Proof.
  intros [Hd H]. exists p. split; [exact Hd|]. intros d Hin. destruct (fst_in _ _ Hin) as [k Hk]. specialize (H d k Hk). destruct k.
  - destruct H as (i & x & H1 & H2). eauto.
  - destruct H as (ds & len & n & i & x & _ & _ & _ & H1 & H2 & _). eauto.
Qed.

Lemma plain_complete ss l st : distinct_dims (Union ss) -> lenok (Union ss) nolens -> for_each (traverser ss) [] = Done l ->
  In st l -> complete (Union ss) st.
Proof. intros Hd Hlk E Hin. destruct (en_sound _ _ (for_each_enumerates ss l Hd Hlk E) st Hin) as [p Hp]. eapply names_complete; eauto. Qed.

Lemma top_order t p : top_struct (order t p) = apply p (top_struct t).
Proof. unfold top_struct, order. cbn [tr_order tr_struct]. apply apply_app. Qed.

Lemma over_ext u s l l' : eqf l l' -> over documented u s l -> over documented u s l'.
Proof.
  intros He Ho. revert l' He. induction Ho as [l H|v t l [H1 H2] Ho IH]; intros l' He.
  - constructor. intros d. rewrite <- He. apply H.
  - constructor; [|apply IH, view_lenv_ext, He]. split; [exact H1|]. intros c. eapply view_good_ext; [|exact He|apply (H2 c)].
    intros d. apply plen_ext; [apply view_lenv_ext, He|apply eqf_refl].
Qed.

Lemma over_append u s1 s2 : over documented u s1 nolens -> over rearranges s1 s2 nolens -> over documented u s2 nolens.
Proof.
  intros H1 H2. eapply over_trans; [eapply over_mono; [apply rearranges_documented|exact H2]|]. intros l Hl.
  apply (over_ext u s1 nolens l); [intros d; rewrite Hl; reflexivity|exact H1].
Qed.

Lemma run_of t l : for_each t [] = Done l -> (forall v u, tr_struct t <> View v u) -> uswf (top_struct t) = true ->
  exists sg sts, signature (top_struct t) = Some sg /\ fe_run (top_struct t) sg (sig_dim_tree sg) [] = Done sts /\
    for_sections t [] = Done (map (fun st => order t (p_fix st)) sts) /\ Forall2 (leads (tr_struct t) (top_struct t)) sts l.
Proof.
  intros E Hx Hw. apply each_run; auto. apply uswf_distinct; [exact Hw|]. eapply for_each_signature; eauto.
Qed.

Lemma filter_true_all {A} (f : A -> bool) l : (forall x, In x l -> f x = true) -> filter f l = l.
Proof.
  induction l as [|x l IH]; intros H; [reflexivity|]. simpl. rewrite (H x) by (left; reflexivity). f_equal. apply IH. intros y Hy. apply H. right. exact Hy.
Qed.

Theorem rearrange_perm ss p1 p2 l1 l2 :
  let u := Union ss in let t1 := order (traverser ss) p1 in let t2 := order t1 p2 in
  uswf (top_struct t2) = true -> lenok (top_struct t2) nolens ->
  over documented u (top_struct t1) nolens -> over rearranges (top_struct t1) (top_struct t2) nolens ->
  for_each t1 [] = Done l1 -> for_each t2 [] = Done l2 ->
  (forall st, In st l1 -> complete u st) -> (forall st, In st l2 -> complete u st) ->
  Permutation (map (index_list u) l1) (map (index_list u) l2).
Proof.
  intros u t1 t2 Hw Hlk Ho1 Ho2 E1 E2 C1 C2.
  assert (Hx : forall v w, u <> View v w) by (intros; discriminate).
  pose proof (over_uswf _ _ _ _ Ho2 Hw) as Hw1. pose proof (over_lenok _ _ _ _ Ho2 Hlk) as Hlk1.
  destruct (run_of t1 l1 E1 Hx Hw1) as (sg1 & sts1 & Hs1 & R1 & _ & F1).
  destruct (run_of t2 l2 E2 Hx Hw) as (sg2 & sts2 & Hs2 & R2 & _ & F2).
  symmetry.
  pose proof (rearranged_perm u (top_struct t1) (top_struct t2) sg1 sg2 sts1 sts2 l1 l2 Hx Hw1 Hw Hlk1 Hlk Hs1 Hs2 R1 R2 F1 F2 Ho1
    (over_append _ _ _ Ho1 Ho2) C1 C2 (fun _ => true) Ho2 (fun _ _ => eq_refl)) as H.
  rewrite filter_true_all in H by reflexivity. rewrite (snd_combine _ _ _ F1) in H. exact H.
Qed.

Theorem order_perm ss p l1 l2 :
  let u := Union ss in let t := order (traverser ss) p in
  uswf (top_struct t) = true -> lenok (top_struct t) nolens -> over rearranges u (top_struct t) nolens ->
  for_each (traverser ss) [] = Done l1 -> for_each t [] = Done l2 -> (forall st, In st l2 -> complete u st) ->
  Permutation (map (index_list u) l1) (map (index_list u) l2).
Proof.
  intros u t Hw Hlk Ho E1 E2 C2. apply (rearrange_perm ss [] p l1 l2); auto.
  - constructor. reflexivity.
  - intros st Hin. eapply plain_complete; eauto; [|eapply over_lenok; eauto].
    apply uswf_distinct; [eapply over_uswf; eauto|]. exact (for_each_signature (traverser ss) l1 E1).
Qed.

Lemma select_leads ss p1 v p2 l1 l2 :
  let u := Union ss in let t1 := order (traverser ss) p1 in let tv := order t1 [LView v] in let t2 := order tv p2 in
  selecting v = true -> documented v (top_struct t1) nolens ->
  uswf (top_struct t2) = true -> lenok (top_struct t2) nolens ->
  over documented u (top_struct t1) nolens -> over rearranges (top_struct tv) (top_struct t2) nolens ->
  for_each t1 [] = Done l1 -> for_each t2 [] = Done l2 ->
  (forall st, In st l1 -> complete u st) -> (forall st, In st l2 -> complete u st) ->
  exists sts, enumerates (top_struct t1) sts /\ for_sections t1 [] = Done (map (fun st => order t1 (p_fix st)) sts) /\
    Forall2 (leads u (top_struct t1)) sts l1 /\
    Permutation (map (index_list u) l2)
      (map (index_list u) (map snd (filter (fun e => selects v (top_struct t1) (fst e)) (combine sts l1)))).
Proof.
  intros u t1 tv t2 Hv Hd Hw Hlk Ho1 Ho2 E1 E2 C1 C2.
  assert (Hx : forall v w, u <> View v w) by (intros; discriminate).
  assert (Etv : top_struct tv = View v (top_struct t1)) by (unfold tv; rewrite top_order; reflexivity).
  rewrite Etv in Ho2. pose proof (over_uswf _ _ _ _ Ho2 Hw) as Hwv. pose proof (over_lenok _ _ _ _ Ho2 Hlk) as Hlkv.
  destruct (uswf_view _ _ Hwv) as [_ Hw1].
  assert (Hlv : eqf (view_lenv v nolens) nolens).
  { intros q. destruct v; try discriminate; cbn [view_lenv]; unfold fupd, nolens; try match goal with |- context [if ?c then _ else _] => destruct c end; reflexivity. }
  assert (Hlk1 : lenok (top_struct t1) nolens) by (eapply lenok_ext; [exact Hlv|exact (proj2 Hlkv)]).
  destruct (run_of t1 l1 E1 Hx Hw1) as (sg1 & sts1 & Hs1 & R1 & S1 & F1).
  destruct (run_of t2 l2 E2 Hx Hw) as (sg2 & sts2 & Hs2 & R2 & _ & F2).
  assert (Ho : over documented u (top_struct t2) nolens).
  { eapply over_append; [|exact Ho2]. constructor; [exact Hd|]. eapply over_ext; [|exact Ho1]. intros d. symmetry. apply Hlv. }
  exists sts1. split; [exact (run_enumerates _ _ _ Hs1 (uswf_snodup _ _ Hw1 Hs1) Hlk1 R1)|]. split; [exact S1|].
  split; [exact F1|].
  exact (selected_perm u (top_struct t1) (top_struct t2) sg1 sg2 sts1 sts2 l1 l2 Hx Hw1 Hw Hlk1 Hlk Hs1 Hs2 R1 R2 F1 F2 Ho1
    Ho C1 C2 (selects v (top_struct t1)) v Hv Hd Ho2 Hwv (fun _ _ => eq_refl)).
Qed.

Theorem select_perm ss p1 v p2 l1 l2 :
  let u := Union ss in let t1 := order (traverser ss) p1 in let tv := order t1 [LView v] in let t2 := order tv p2 in
  selecting v = true -> documented v (top_struct t1) nolens ->
  uswf (top_struct t2) = true -> lenok (top_struct t2) nolens ->
  over documented u (top_struct t1) nolens -> over rearranges (top_struct tv) (top_struct t2) nolens ->
  for_each t1 [] = Done l1 -> for_each t2 [] = Done l2 ->
  (forall st, In st l1 -> complete u st) -> (forall st, In st l2 -> complete u st) ->
  exists sts, enumerates (top_struct t1) sts /\ for_sections t1 [] = Done (map (fun st => order t1 (p_fix st)) sts) /\
    List.length sts = List.length l1 /\
    Permutation (map (index_list u) l2)
      (map (index_list u) (map snd (filter (fun e => selects v (top_struct t1) (fst e)) (combine sts l1)))).
Proof.
  intros u t1 tv t2 Hv Hd Hw Hlk Ho1 Ho2 E1 E2 C1 C2.
  destruct (select_leads ss p1 v p2 l1 l2 Hv Hd Hw Hlk Ho1 Ho2 E1 E2 C1 C2) as (sts & A & B & F & P).
  exists sts. split; [exact A|]. split; [exact B|]. split; [exact (Forall2_len _ _ _ F)|exact P].
Qed.

Lemma selects_same v u st r : same_get st r -> selects v u st = selects v u r.
Proof.
  intros H. assert (E : forall d f, on_dim u st d f = on_dim u r d f).
  { intros d f. unfold on_dim. rewrite (dims_same_get u st r H), (asg_same_get st r H). reflexivity. }
  destruct v; cbn [selects]; auto.
Qed.

(** The plain traverser: the selected elements are those of its own states. *)
Theorem select_plain ss v p2 l1 l2 :
  let u := Union ss in let tv := order (traverser ss) [LView v] in let t2 := order tv p2 in
  selecting v = true -> documented v u nolens ->
  uswf (top_struct t2) = true -> lenok (top_struct t2) nolens -> over rearranges (top_struct tv) (top_struct t2) nolens ->
  for_each (traverser ss) [] = Done l1 -> for_each t2 [] = Done l2 -> (forall st, In st l2 -> complete u st) ->
  Permutation (map (index_list u) l2) (map (index_list u) (filter (selects v u) l1)).
Proof.
  intros u tv t2 Hv Hd Hw Hlk Ho2 E1 E2 C2.
  assert (Hx : forall v w, u <> View v w) by (intros; discriminate).
  assert (Etv : top_struct tv = View v u) by reflexivity.
  assert (Hwv : uswf (View v u) = true) by (rewrite <- Etv; eapply over_uswf; eauto).
  destruct (uswf_view _ _ Hwv) as [_ Hw1]. change (top_struct tv) with (View v u) in Ho2.
  assert (Hlv : eqf (view_lenv v nolens) nolens).
  { intros q. destruct v; try discriminate; cbn [view_lenv]; unfold fupd, nolens; try match goal with |- context [if ?c then _ else _] => destruct c end; reflexivity. }
  assert (Hlk1 : lenok u nolens) by (eapply lenok_ext; [exact Hlv|exact (proj2 (over_lenok _ _ _ _ Ho2 Hlk))]).
  assert (C1 : forall st, In st l1 -> complete u st).
  { intros st Hin. eapply plain_complete; eauto. apply uswf_distinct; [exact Hw1|exact (for_each_signature (traverser ss) l1 E1)]. }
  destruct (select_leads ss [] v p2 l1 l2) as (sts & _ & _ & F & H); auto; [constructor; reflexivity|].
  replace (filter (selects v u) l1) with (map snd (filter (fun e => selects v u (fst e)) (combine sts l1))); [exact H|].
  cbn in F. fold u in F. clear -F Hx. induction F as [|st r sts l (x & Ex & Hg) F IH]; [reflexivity|].
  apply state_at_self in Ex; [subst x|exact Hx]. cbn [combine filter fst]. rewrite (selects_same v u st r Hg).
  destruct (selects v u r); cbn [map snd]; rewrite IH; reflexivity.
Qed.
