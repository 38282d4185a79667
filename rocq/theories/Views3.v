(** * Proofs about single views: fix, set_length, bcast, join, reverse *)

From Coq Require Import Permutation.
From Verif Require Export Views2.

(** ** fix and set_length *)

Lemma fix_follows d i t st st' : signature (View (VFix d i) t) <> None ->
  edited st [(Idx d, Some i); (Len d, None)] st' ->
  works_as (View (VFix d i) t) st t st' /\
  (forall q, q <> d -> get (Idx q) st = None -> length_as (View (VFix d i) t) q st t q st') /\
  has_length (View (VFix d i) t) d st = Some false.
Proof.
  intros Hs He. destruct (follows_view (VFix d i) t st _ st' eq_refl eq_refl eq_refl Hs eq_refl) as [A B]; [by_edit|].
  refine (conj A (conj _ _)).
  - intros q Hq Hi. apply B; [simpl; intuition|exact Hi].
  - rewrite has_length_View. cbn [view_has_length]. rewrite Z.eqb_refl. reflexivity.
Qed.

Lemma set_length_follows d n t st st' : signature (View (VSetLength d n) t) <> None ->
  edited st [(Len d, Some n)] st' ->
  works_as (View (VSetLength d n) t) st t st' /\
  (forall q, get (Idx q) st = None -> length_as (View (VSetLength d n) t) q st t q st').
Proof.
  intros Hs He. destruct (follows_view (VSetLength d n) t st _ st' eq_refl eq_refl eq_refl Hs eq_refl) as [A B]; [by_edit|].
  refine (conj A _). intros q Hi. apply B; [simpl; intuition|exact Hi].
Qed.

(** What [fix] and [set_length] do to the state. *)

Lemma setter_follows v d t st st' : setter v d -> signature (View v t) <> None -> sub_state v t st = Some st' ->
  works_as (View v t) st t st' /\
  (forall q, q <> d -> get (Idx q) st = None -> length_as (View v t) q st t q st') /\
  (forall q, q <> d -> get (Idx q) st' = get (Idx q) st).
Proof.
  intros H Hs E. assert (Hp : plain_lengths v = true /\ view_complete v t = true /\ present v st = true /\ incl (own v) [d]).
  { destruct H as [[i ->]|[n ->]]; repeat split; intros x; simpl; intuition. }
  destruct Hp as (P1 & P2 & P3 & P4). destruct (follows_view v t st st' st' P1 P2 P3 Hs E (same_get_refl _)) as [A B].
  refine (conj A (conj _ _)).
  - intros q Hq Hi. apply B; [|exact Hi]. intros Hin. apply P4 in Hin. simpl in Hin. intuition.
  - intros q Hq. destruct H as [[i ->]|[n ->]]; unfold sub_state in E; cbn [view_sub_state] in E; injection E as <-; tags.
Qed.

Lemma setters_commute v w d e t st : setter v d -> setter w e -> d <> e ->
  signature (View v (View w t)) <> None -> signature (View w (View v t)) <> None ->
  works_as (View v (View w t)) st (View w (View v t)) st /\
  (forall q, q <> d -> q <> e -> get (Idx q) st = None -> length_as (View v (View w t)) q st (View w (View v t)) q st).
Proof.
  intros Hv Hw Hde Hs1 Hs2. pose proof (signature_sub _ _ Hs1) as Hs3. pose proof (signature_sub _ _ Hs2) as Hs4.
  pose proof (signature_sub _ _ Hs3) as Hs5.
  assert (Hsub : forall v d, setter v d -> forall st, exists f, forall t, sub_state v t st = Some f).
  { clear. intros v d [[i ->]|[n ->]] st; eexists; intros t; reflexivity. }
  destruct (Hsub _ _ Hv st) as [a Ea]. destruct (Hsub _ _ Hw a) as [b Eb].
  destruct (Hsub _ _ Hw st) as [a' Ea']. destruct (Hsub _ _ Hv a') as [b' Eb'].
  assert (Hg : same_get b b').
  { specialize (Ea t). specialize (Eb t). specialize (Ea' t). specialize (Eb' t). unfold sub_state in *.
    destruct Hv as [[i ->]|[n ->]], Hw as [[j ->]|[m ->]]; cbn [view_sub_state] in *; injection Ea as <-; injection Eb as <-; injection Ea' as <-; injection Eb' as <-;
      intros q; rewrite ?get_with, ?get_remove; cbn [get map fst tag_mem existsb orb]; rewrite ?get_with, ?get_remove; cbn [get map fst tag_mem existsb orb];
      rewrite ?get_remove; cbn [tag_mem existsb];
      split; repeat (match goal with |- context [tag_eqb ?a ?b] => destruct (tag_eqb_spec a b); subst; cbn [orb] end); try congruence; auto. }
  destruct (setter_follows v d (View w t) st a Hv Hs1 (Ea _)) as (A1 & A2 & A3).
  destruct (setter_follows w e t a b Hw Hs3 (Eb _)) as (B1 & B2 & B3).
  destruct (setter_follows w e (View v t) st a' Hw Hs2 (Ea' _)) as (C1 & C2 & C3).
  destruct (setter_follows v d t a' b' Hv Hs4 (Eb' _)) as (D1 & D2 & D3).
  split.
  - eapply works_comp; [exact A1|]. eapply works_comp; [exact B1|]. eapply works_comp; [apply works_same; [exact Hs5|exact Hg]|].
    apply works_sym. eapply works_comp; [exact C1|exact D1].
  - intros q Hd He Hi. assert (length_as (View v (View w t)) q st t q b') as [X1 X2].
    { eapply length_trans; [apply A2; auto|]. eapply length_trans; [apply B2; [auto|rewrite A3; auto]|]. apply length_same; auto. }
    assert (length_as (View w (View v t)) q st t q b') as [Y1 Y2].
    { eapply length_trans; [apply C2; auto|]. apply D2; [auto|rewrite C3; auto]. }
    split; congruence.
Qed.

(** ** bcast *)

Lemma bcast_follows d t st st' : signature (View (VBcast d) t) <> None -> edited st (dropped [d]) st' ->
  works_as (View (VBcast d) t) st t st' /\
  (forall q, q <> d -> get (Idx q) st = None -> length_as (View (VBcast d) t) q st t q st') /\
  (get (Idx d) st = None -> length_ (View (VBcast d) t) d st = get (Len d) st).
Proof.
  intros Hs He. destruct (follows_view (VBcast d) t st _ st' eq_refl eq_refl eq_refl Hs eq_refl) as [A B].
  { unfold dropped in He. cbn [flat_map app] in He. by_edit. }
  refine (conj A (conj _ _)).
  - intros q Hq Hi. apply B; [simpl; intuition|exact Hi].
  - intros Hi. rewrite length_View, has_length_View. cbn [view_has_length view_length]. rewrite Z.eqb_refl. unfold has. rewrite Hi, andb_true_r.
    destruct (get (Len d) st); reflexivity.
Qed.

Lemma bcast_independent d t st st' : signature (View (VBcast d) t) <> None ->
  (forall q, q <> d -> get (Idx q) st = get (Idx q) st' /\ get (Len q) st = get (Len q) st') ->
  works_as (View (VBcast d) t) st (View (VBcast d) t) st'.
Proof.
  intros Hs H. eapply works_comp; [eapply works_view; [exact Hs|reflexivity|reflexivity|reflexivity|apply same_get_refl]|].
  apply works_sym. eapply works_view; [exact Hs|reflexivity|reflexivity|reflexivity|].
  intros q. rewrite !get_remove. cbn [tag_mem existsb orb]. cbn [tag_eqb]. rewrite !orb_false_r.
  destruct (Z.eqb_spec q d) as [->|Hq]; [auto|]. destruct (H q Hq). auto.
Qed.

(** ** join *)

Lemma join_follows a b d t st cs h i st' : signature (View (VJoin a b d) t) <> None ->
  edited st (dropped [d; a; b]) cs -> has_length t a cs = Some h -> has_length t b cs = Some h ->
  get (Idx d) st = Some i -> (get (Len d) st = None \/ h = false) ->
  edited st ([(Idx a, Some i); (Idx b, Some i); (Len a, get (Len d) st); (Len b, get (Len d) st)] ++ dropped [d]) st' ->
  works_as (View (VJoin a b d) t) st t st' /\
  (forall q, get (Idx q) st = None -> length_as (View (VJoin a b d) t) q st t q st').
Proof.
  intros Hs Hcs Ha Hb Ei Hl He.
  assert (Hg : same_get (clean_join a b d st) cs).
  { unfold clean_join. unfold dropped in Hcs. cbn [flat_map app] in Hcs. by_edit. }
  destruct (length_same t a _ _ (signature_sub _ _ Hs) Hg) as [Ea _]. destruct (length_same t b _ _ (signature_sub _ _ Hs) Hg) as [Eb _].
  assert (E : exists st0, sub_state (VJoin a b d) t st = Some st0 /\ same_get st0 st').
  { unfold sub_state. cbn [view_sub_state]. rewrite Ea, Eb, Ha, Hb, Ei. cbn [obind]. rewrite xorb_nilpotent, orb_diag.
    unfold dropped in He. cbn [flat_map app] in He.
    destruct (get (Len d) st) as [l|] eqn:El.
    - destruct Hl as [Hl|Hl]; [discriminate|subst h]. eexists. split; [reflexivity|]. unfold clean_join. by_edit.
    - eexists. split; [reflexivity|]. unfold clean_join. by_edit. }
  destruct E as (st0 & E & Hg'). destruct (follows_view (VJoin a b d) t st st0 st' eq_refl eq_refl eq_refl Hs E Hg') as [A B].
  split; [exact A|]. intros q Hi. apply B; [intros []|exact Hi].
Qed.

(** ** reverse *)

Lemma reverse_follows d t st cs i l st' : signature (View (VReverse d) t) <> None ->
  get (Idx d) st = Some i -> edited st [(Idx d, None)] cs -> length_ t d cs = Some l ->
  edited st [(Idx d, Some (vsub (vsub l (Sta 1)) i))] st' ->
  works_as (View (VReverse d) t) st t st'.
Proof.
  intros Hs Ei Hcs El He.
  assert (Hg : same_get (remove [Idx d] st) cs) by by_edit.
  destruct (length_same t d _ _ (signature_sub _ _ Hs) Hg) as [Eh Ell].
  assert (Hh : has_length t d cs = Some true).
  { rewrite <- guard_len in El. destruct (has_length t d cs) as [[|]|]; try discriminate. reflexivity. }
  eapply works_view; [exact Hs|reflexivity|reflexivity| |].
  - unfold sub_state. cbn [view_sub_state]. rewrite Ei, Eh, Hh. cbn [obind]. rewrite Ell, El. reflexivity.
  - by_edit.
Qed.

Lemma reverse_none d t st : signature (View (VReverse d) t) <> None -> get (Idx d) st = None ->
  works_as (View (VReverse d) t) st t st /\ forall q, length_as (View (VReverse d) t) q st t q st.
Proof.
  intros Hs Ei. split.
  - eapply works_view; [exact Hs|reflexivity|reflexivity| |apply same_get_refl]. unfold sub_state. cbn [view_sub_state]. rewrite Ei. reflexivity.
  - intros q. unfold length_as. rewrite length_View, has_length_View. cbn [view_has_length view_length view_sub_state]. rewrite Ei. cbn [obind].
    split; [reflexivity|]. apply guard_len.
Qed.

Lemma reverse_index i l x n : vz i = Some x -> vz l = Some n -> x < n -> vz (vsub (vsub l (Sta 1)) i) = Some (n - 1 - x).
Proof.
  intros Ei El H. pose proof (vz_range _ _ Ei). pose proof (vz_range _ _ El). rewrite !vz_vsub, Ei, El.
  change (vz (Sta 1)) with (Some (u64 1)). rewrite (u64_small 1) by (rewrite W_eq; lia). rewrite u64_sub_l, u64_small by lia. reflexivity.
Qed.

Lemma vsub_dyn a A x : vz a = Some A -> vsub a (Dyn x) = Dyn (u64 (A - x)).
Proof.
  intros Ea. assert (E : vz (vsub a (Dyn x)) = Some (u64 (A - x))).
  { rewrite vz_vsub, Ea. simpl. rewrite u64_sub_r. reflexivity. }
  assert (Hd : exists w, vsub a (Dyn x) = Dyn (u64 w)).
  { unfold vsub, dyn2. rewrite Ea. cbn [vz]. destruct a as [z|z|]; try discriminate; cbn [is_sta]; [destruct (u64 z =? 0)|]; eauto. }
  destruct Hd as [w Hd]. rewrite Hd in *. simpl in E. rewrite u64_u64 in E. congruence.
Qed.

Lemma vsub_twice l i : is_size l -> is_size i -> ((exists x, i = Dyn x) \/ (exists x y, i = Sta x /\ l = Sta y)) ->
  vsub (vsub l (Sta 1)) (vsub (vsub l (Sta 1)) i) = i.
Proof.
  intros Hl Hi H.
  destruct H as [[x ->]|(x & y & -> & ->)]; simpl in Hi.
  - assert (El : exists A, vz (vsub l (Sta 1)) = Some A).
    { rewrite vz_vsub. destruct l; try contradiction; simpl; eauto. }
    destruct El as [A El]. rewrite (vsub_dyn _ A x El), (vsub_dyn _ A _ El), u64_sub_r. replace (A - (A - x)) with x by lia.
    rewrite u64_small by assumption. reflexivity.
  - simpl. f_equal. rewrite u64_sub_r. replace (u64 (y - 1) - (u64 (y - 1) - x)) with x by lia. apply u64_small, Hi.
Qed.

Lemma reverse_twice d t st cs i l : signature (View (VReverse d) (View (VReverse d) t)) <> None ->
  get (Idx d) st = Some i -> edited st [(Idx d, None)] cs -> length_ t d cs = Some l ->
  is_size l -> is_size i -> ((exists x, i = Dyn x) \/ (exists x y, i = Sta x /\ l = Sta y)) ->
  works_as (View (VReverse d) (View (VReverse d) t)) st t st.
Proof.
  intros Hs Ei Hcs El Zl Zi Hf. pose proof (signature_sub _ _ Hs) as Hs'.
  set (i1 := vsub (vsub l (Sta 1)) i). set (st1 := with_ [(Idx d, i1)] st).
  assert (Hc : get (Idx d) cs = None) by (rewrite (Hcs (Idx d)); tags).
  eapply works_comp.
  - eapply (reverse_follows d _ st cs i l st1 Hs Ei Hcs).
    + destruct (reverse_none d t cs Hs' Hc) as [_ H]. destruct (H d) as [_ ->]. exact El.
    + intros u. unfold st1. tags.
  - eapply (reverse_follows d t st1 cs i1 l st Hs'); auto.
    + unfold st1. tags.
    + intros u. rewrite (Hcs u). unfold st1. tags.
    + intros u. unfold st1, i1. rewrite vsub_twice by assumption. tags.
Qed.
