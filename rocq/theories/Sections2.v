(** * Sections in another order of the dimensions, and the theorems about sections (C28) *)

From Coq Require Import Permutation Sorted.
From Verif Require Export Sections.

(** ** Nodes of a dimension tree *)

Lemma omap_fwd {A B} (f : A -> option B) l ls x : omap f l = Some ls -> In x l -> exists y, In y ls /\ f x = Some y.
Proof. intros E Hx. apply omap_Some_Forall2 in E. induction E as [|a b l ls H E IH]; [destruct Hx|]. destruct Hx as [->|Hx]; [exists b; split; [left; reflexivity|exact H]|]. destruct (IH Hx) as (y & Hy & Ey). exists y. split; [right; exact Hy|exact Ey]. Qed.

Lemma omap_each {A B} (f : A -> option B) l ls : omap f l = Some ls -> forall x, In x l -> exists y, f x = Some y.
Proof. intros E x Hx. destruct (omap_fwd f l ls x E Hx) as (y & _ & Ey). eauto. Qed.

Lemma Forall2_map_l {A B C} (R : B -> C -> Prop) (f : A -> B) l m : Forall2 R (map f l) m -> Forall2 (fun x y => R (f x) y) l m.
Proof.
  revert m. induction l as [|x l IH]; intros m F; inversion F; subst; constructor; auto.
Qed.

Inductive occ (d : dim) (n : nat) : dtree -> Prop :=
| occ_here bs : List.length bs = n -> occ d n (DNode d bs)
| occ_in d' bs b : In b bs -> occ d n b -> occ d n (DNode d' bs).

Fixpoint tfull (t : dtree) : bool :=
  match t with DLeaf => true | DNode _ bs => negb (Nat.eqb (List.length bs) 0) && forallb tfull bs end.

Lemma occ_contains d n t : occ d n t -> dtree_contains d t = true.
Proof.
  induction 1 as [bs Hn|d' bs b Hb Ho IH]; simpl; [rewrite Z.eqb_refl; reflexivity|]. apply orb_true_iff. right. apply existsb_exists. eauto.
Qed.

Lemma contains_occ d t : dtree_contains d t = true -> exists n, occ d n t.
Proof.
  induction t as [|d' bs IH] using dtree_ind'; simpl; [discriminate|]. intros H. apply orb_true_iff in H. destruct H as [H|H].
  - apply Z.eqb_eq in H. subst. exists (List.length bs). constructor. reflexivity.
  - apply existsb_exists in H. destruct H as (b & Hb & H). rewrite Forall_forall in IH. destruct (IH b Hb H) as [n Hn]. exists n. eapply occ_in; eauto.
Qed.

Lemma tsmall_occ t : tsmall t = true <-> forall d n, occ d n t -> Z.of_nat n < W.
Proof.
  induction t as [|d bs IH] using dtree_ind'; simpl.
  - split; [|reflexivity]. intros _ d n H. inversion H.
  - rewrite Forall_forall in IH. rewrite andb_true_iff, forallb_forall, Z.ltb_lt. split.
    + intros [H1 H2] d0 n H. inversion H as [? E|? ? b Hb Ho]; subst; [exact H1|]. eapply IH; eauto.
    + intros H. split; [apply (H d); constructor; reflexivity|]. intros b Hb. apply IH; [exact Hb|]. intros d0 n Ho. apply (H d0). eapply occ_in; eauto.
Qed.

Lemma fix_contains q k t : forall t' r, dtree_fix q k t = Some t' -> dtree_contains r t' = true -> dtree_contains r t = true.
Proof.
  induction t as [|d bs IH] using dtree_ind'; intros t' r E H; simpl in E; [inv E; exact H|]. rewrite Forall_forall in IH.
  destruct (Z.eqb_spec d q) as [->|Hne].
  - simpl. apply orb_true_iff. right. apply existsb_exists. exists t'. split; [eapply nth_error_In; eauto|exact H].
  - destruct (omap (dtree_fix q k) bs) as [bs'|] eqn:Eb; [|discriminate]. inv E. simpl in *. apply orb_true_iff in H. apply orb_true_iff.
    destruct H as [H|H]; [left; exact H|right]. apply existsb_exists in H. destruct H as (b' & Hb' & H).
    destruct (omap_In_back _ _ _ _ Eb Hb') as (b & Hb & Eb'). apply existsb_exists. exists b. split; [exact Hb|]. eapply IH; eauto.
Qed.

Lemma fix_gone q k t : forall t', tnodup t = true -> dtree_fix q k t = Some t' -> dtree_contains q t' = false.
Proof.
  induction t as [|d bs IH] using dtree_ind'; intros t' Hn E; simpl in E; [inv E; reflexivity|]. rewrite Forall_forall in IH.
  simpl in Hn. apply andb_true_iff in Hn. destruct Hn as [H1 H2]. rewrite forallb_forall in H1, H2.
  destruct (Z.eqb_spec d q) as [->|Hne].
  - apply negb_true_iff. apply H1. eapply nth_error_In; eauto.
  - destruct (omap (dtree_fix q k) bs) as [bs'|] eqn:Eb; [|discriminate]. inv E. simpl. apply orb_false_iff. split; [apply Z.eqb_neq; exact Hne|].
    apply Bool.not_true_is_false. intros H. apply existsb_exists in H. destruct H as (b' & Hb' & H).
    destruct (omap_In_back _ _ _ _ Eb Hb') as (b & Hb & Eb'). rewrite (IH b Hb b' (H2 _ Hb) Eb') in H. discriminate.
Qed.

Lemma fix_tnodup q k t : forall t', tnodup t = true -> dtree_fix q k t = Some t' -> tnodup t' = true.
Proof.
  induction t as [|d bs IH] using dtree_ind'; intros t' Hn E; simpl in E; [inv E; reflexivity|]. rewrite Forall_forall in IH.
  simpl in Hn. apply andb_true_iff in Hn. destruct Hn as [H1 H2]. rewrite forallb_forall in H1, H2.
  destruct (Z.eqb_spec d q) as [->|Hne]; [apply H2; eapply nth_error_In; eauto|].
  destruct (omap (dtree_fix q k) bs) as [bs'|] eqn:Eb; [|discriminate]. inv E. simpl. apply andb_true_iff. split; apply forallb_forall; intros b' Hb';
    destruct (omap_In_back _ _ _ _ Eb Hb') as (b & Hb & Eb').
  - apply negb_true_iff. apply Bool.not_true_is_false. intros H. pose proof (fix_contains _ _ _ _ _ Eb' H) as Hc.
    specialize (H1 _ Hb). rewrite Hc in H1. discriminate.
  - eapply IH; eauto.
Qed.

Lemma fix_tfull q k t : forall t', tfull t = true -> dtree_fix q k t = Some t' -> tfull t' = true.
Proof.
  induction t as [|d bs IH] using dtree_ind'; intros t' Hn E; simpl in E; [inv E; reflexivity|]. rewrite Forall_forall in IH.
  simpl in Hn. apply andb_true_iff in Hn. destruct Hn as [H1 H2]. rewrite forallb_forall in H2.
  destruct (Z.eqb_spec d q) as [->|Hne]; [apply H2; eapply nth_error_In; eauto|].
  destruct (omap (dtree_fix q k) bs) as [bs'|] eqn:Eb; [|discriminate]. inv E. simpl. rewrite (omap_length _ _ _ Eb). apply andb_true_iff. split; [exact H1|].
  apply forallb_forall; intros b' Hb'. destruct (omap_In_back _ _ _ _ Eb Hb') as (b & Hb & Eb'). eapply IH; eauto.
Qed.

Lemma fix_occ q k r n t : forall t', dtree_fix q k t = Some t' -> occ r n t' -> occ r n t.
Proof.
  induction t as [|d bs IH] using dtree_ind'; intros t' E H; simpl in E; [inv E; exact H|]. rewrite Forall_forall in IH.
  destruct (Z.eqb_spec d q) as [->|Hne]; [eapply occ_in; [eapply nth_error_In; eauto|exact H]|].
  destruct (omap (dtree_fix q k) bs) as [bs'|] eqn:Eb; [|discriminate]. inv E. inversion H as [? E|? ? b' Hb' Ho]; subst.
  - constructor. symmetry. exact (omap_length _ _ _ Eb).
  - destruct (omap_In_back _ _ _ _ Eb Hb') as (b & Hb & Eb'). eapply occ_in; [exact Hb|]. eapply IH; eauto.
Qed.

Lemma max_in l x : In x l -> (x <= fold_right Nat.max 0 l)%nat.
Proof. induction l as [|y l IH]; simpl; [tauto|]. intros [->|H]; [lia|]. specialize (IH H). lia. Qed.

Lemma branches_occ q n t : tnodup t = true -> occ q n t -> (n <= dtree_branches q t)%nat.
Proof.
  induction t as [|d bs IH] using dtree_ind'; intros Hn H; [inversion H|]. rewrite Forall_forall in IH.
  simpl in Hn. apply andb_true_iff in Hn. destruct Hn as [H1 H2]. rewrite forallb_forall in H1, H2. cbn [dtree_branches].
  inversion H as [? E|? ? b Hb Ho]; subst.
  - rewrite Z.eqb_refl. lia.
  - destruct (Z.eqb_spec d q) as [->|Hne].
    + specialize (H1 _ Hb). rewrite (occ_contains _ _ _ Ho) in H1. discriminate.
    + specialize (IH b Hb (H2 _ Hb) Ho). pose proof (max_in (map (dtree_branches q) bs) (dtree_branches q b) (in_map _ _ _ Hb)). lia.
Qed.

(** Every [k] that can be fixed is a branch of every node. *)
Lemma fix_branch q k n t : tnodup t = true -> dtree_fix q k t <> None -> occ q n t -> (k < n)%nat.
Proof.
  induction t as [|d bs IH] using dtree_ind'; intros Hn E H; [inversion H|]. rewrite Forall_forall in IH.
  simpl in Hn. apply andb_true_iff in Hn. destruct Hn as [H1 H2]. rewrite forallb_forall in H1, H2. simpl in E.
  inversion H as [? El|? ? b Hb Ho]; subst.
  - rewrite Z.eqb_refl in E. apply nth_error_Some. exact E.
  - destruct (Z.eqb_spec d q) as [->|Hne].
    + specialize (H1 _ Hb). rewrite (occ_contains _ _ _ Ho) in H1. discriminate.
    + apply (IH b Hb (H2 _ Hb)); [|exact Ho]. destruct (omap (dtree_fix q k) bs) as [bs'|] eqn:Eb; [|congruence].
      destruct (omap_each _ _ _ Eb b Hb) as [y ->]. discriminate.
Qed.

(** Every node other than [q] survives in some branch. *)
Lemma fix_keeps q r n t m : (1 <= m)%nat -> (forall k, (k < m)%nat -> dtree_fix q k t <> None) -> (dtree_branches q t <= m)%nat ->
  r <> q -> occ r n t -> exists k t', (k < m)%nat /\ dtree_fix q k t = Some t' /\ occ r n t'.
Proof.
  intros Hm. induction t as [|d bs IH] using dtree_ind'; intros Hk Hb Hr H; [inversion H|]. rewrite Forall_forall in IH.
  inversion H as [? El|? ? b Hin Ho]; subst.
  - specialize (Hk 0%nat Hm). exists 0%nat. simpl in *. destruct (Z.eqb_spec d q) as [E|_]; [congruence|].
    destruct (omap (dtree_fix q 0) bs) as [bs'|] eqn:Eb; [|congruence]. exists (DNode d bs'). split; [lia|]. split; [reflexivity|].
    constructor. exact (omap_length _ _ _ Eb).
  - cbn [dtree_branches dtree_fix] in *. destruct (Z.eqb_spec d q) as [->|Hne].
    + apply In_nth_error in Hin. destruct Hin as [k Ek]. exists k, b. split; [|split; assumption].
      assert (nth_error bs k <> None) by congruence. apply nth_error_Some in H0. lia.
    + assert (Hkb : forall k, (k < m)%nat -> exists bs', omap (dtree_fix q k) bs = Some bs').
      { intros k Hkm. specialize (Hk k Hkm). destruct (omap (dtree_fix q k) bs); [eauto|congruence]. }
      destruct (IH b Hin) as (k & b' & Hkm & Eb' & Ho'); auto.
      * intros k Hkm. destruct (Hkb k Hkm) as [bs' Eb]. destruct (omap_each _ _ _ Eb b Hin) as [y ->]. discriminate.
      * pose proof (max_in (map (dtree_branches q) bs) (dtree_branches q b) (in_map _ _ _ Hin)). lia.
      * destruct (Hkb k Hkm) as [bs' Eb]. exists k, (DNode d bs'). split; [exact Hkm|]. rewrite Eb. split; [reflexivity|].
        destruct (omap_fwd _ _ _ _ Eb Hin) as (y & Hy & Ey). rewrite Eb' in Ey. injection Ey as <-. eapply occ_in; eauto.
Qed.

Lemma occ_pos d n t : tfull t = true -> occ d n t -> (1 <= n)%nat.
Proof.
  intros Hf H. induction H as [bs Hn|d' bs b Hb Ho IH]; simpl in Hf; apply andb_true_iff in Hf; destruct Hf as [H1 H2].
  - apply negb_true_iff, Nat.eqb_neq in H1. lia.
  - rewrite forallb_forall in H2. auto.
Qed.

Lemma hoist_tree q t t' : tnodup t = true -> tfull t = true -> dtree_contains q t = true -> dtree_hoist q t = Some t' ->
  tnodup t' = true /\ tfull t' = true /\ (forall r n, occ r n t' <-> occ r n t) /\ (forall n n', occ q n t -> occ q n' t -> n = n').
Proof.
  intros Hn Hf Hc E. unfold dtree_hoist in E. set (m := dtree_branches q t) in *.
  destruct (omap (fun k => dtree_fix q k t) (seq 0 m)) as [bs|] eqn:Eb; [|discriminate]. injection E as <-.
  assert (Hk : forall k, (k < m)%nat -> dtree_fix q k t <> None).
  { intros k Hkm. destruct (omap_each _ _ _ Eb k) as [y ->]; [apply in_seq; lia|discriminate]. }
  assert (Hu : forall n, occ q n t -> n = m).
  { intros n Ho. pose proof (branches_occ q n t Hn Ho) as H1. fold m in H1. pose proof (occ_pos _ _ _ Hf Ho).
    destruct (Nat.eq_dec n m); [assumption|]. assert (Hlt : (n < m)%nat) by lia. pose proof (fix_branch q n n t Hn (Hk n Hlt) Ho). lia. }
  destruct (contains_occ _ _ Hc) as [n0 Ho0]. pose proof (occ_pos _ _ _ Hf Ho0) as Hp. pose proof (Hu _ Ho0) as ->.
  assert (Hlen : List.length bs = m) by (rewrite (omap_length _ _ _ Eb), seq_length; reflexivity).
  assert (Hin : forall b, In b bs -> exists k, (k < m)%nat /\ dtree_fix q k t = Some b).
  { intros b Hb. destruct (omap_In_back _ _ _ _ Eb Hb) as (k & Hkin & E). apply in_seq in Hkin. exists k. split; [lia|exact E]. }
  split; [|split; [|split]].
  - simpl. apply andb_true_iff. split; apply forallb_forall; intros b Hb; destruct (Hin b Hb) as (k & _ & Ek).
    + apply negb_true_iff. eapply fix_gone; eauto.
    + eapply fix_tnodup; eauto.
  - simpl. apply andb_true_iff. split; [rewrite Hlen; apply negb_true_iff, Nat.eqb_neq; lia|].
    apply forallb_forall; intros b Hb; destruct (Hin b Hb) as (k & _ & Ek). eapply fix_tfull; eauto.
  - intros r n. split; intros H.
    + inversion H as [? El|? ? b Hb Ho]; subst; [rewrite Hlen; exact Ho0|]. destruct (Hin b Hb) as (k & _ & Ek). eapply fix_occ; eauto.
    + destruct (Z.eq_dec r q) as [->|Hne]; [rewrite (Hu n H); constructor; exact Hlen|].
      destruct (fix_keeps q r n t m Hp Hk (Nat.le_refl _) Hne H) as (k & b & Hkm & Ek & Ho).
      eapply occ_in; [|exact Ho]. destruct (omap_fwd _ _ _ k Eb) as (y & Hy & Ey); [apply in_seq; lia|].
      rewrite Ek in Ey. injection Ey as <-. exact Hy.
  - intros n n' A B. rewrite (Hu n A), (Hu n' B). reflexivity.
Qed.

Lemma reorder_tree t ds : forall t', tnodup t = true -> tfull t = true -> (forall d, In d ds -> dtree_contains d t = true) -> dtree_reorder t ds = Some t' ->
  tnodup t' = true /\ tfull t' = true /\ (forall r n, occ r n t' <-> occ r n t) /\ (forall q, In q ds -> forall n n', occ q n t -> occ q n' t -> n = n').
Proof.
  induction ds as [|d ds IH]; intros t' Hn Hf Hc E; simpl in E.
  - injection E as <-. split; [exact Hn|]. split; [exact Hf|]. split; [tauto|intros q []].
  - destruct (dtree_reorder t ds) as [t1|] eqn:E1; [|discriminate].
    destruct (IH t1 Hn Hf ltac:(intros; apply Hc; right; assumption) eq_refl) as (Hn1 & Hf1 & Ho1 & Hu1).
    assert (Hc1 : dtree_contains d t1 = true).
    { destruct (contains_occ d t (Hc d (or_introl eq_refl))) as [n Ho]. apply (occ_contains d n). apply Ho1, Ho. }
    destruct (hoist_tree d t1 t' Hn1 Hf1 Hc1 E) as (Hn2 & Hf2 & Ho2 & Hu2).
    split; [exact Hn2|]. split; [exact Hf2|]. split; [intros r n; rewrite Ho2; apply Ho1|].
    intros q [<-|Hq] n n' A B; [|eapply Hu1; eauto]. apply Hu2; apply Ho1; assumption.
Qed.

(** ** Trees of a signature *)

Lemma filled_tfull sg : filled sg = true -> tfull (sig_dim_tree sg) = true.
Proof.
  induction sg as [c| |d al r IH|d rs IH] using sig_ind'; simpl; auto.
  - intros H. rewrite IH by exact H. reflexivity.
  - intros H. rewrite Forall_forall in IH. rewrite map_length. destruct rs as [|r rs]; [discriminate|]. rewrite forallb_forall in H.
    apply andb_true_iff. split; [reflexivity|]. apply forallb_forall. intros b Hb. apply in_map_iff in Hb. destruct Hb as (x & <- & Hx). auto.
Qed.

Lemma filter_tfull P t : forall t', dtree_filter P t = Some t' -> tfull t = true -> tfull t' = true.
Proof.
  induction t as [|d bs IH] using dtree_ind'; intros t' E H; simpl in E; [inv E; reflexivity|].
  rewrite Forall_forall in IH. simpl in H. apply andb_true_iff in H. destruct H as [H1 H2]. rewrite forallb_forall in H2. destruct (P d) eqn:Ed.
  - destruct (omap (dtree_filter P) bs) as [bs'|] eqn:Eb; [|discriminate]. inv E. simpl. rewrite (omap_length _ _ _ Eb). apply andb_true_iff. split; [exact H1|].
    apply forallb_forall. intros b' Hb'. destruct (omap_In_back _ _ _ _ Eb Hb') as (b & Hb & Eb'). eapply IH; eauto.
  - destruct bs as [|b [|]]; try discriminate. apply (IH b); simpl; auto. apply H2. left. reflexivity.
Qed.

Lemma filter_occ P t d n : forall t', dtree_filter P t = Some t' -> (occ d n t' <-> occ d n t /\ P d = true).
Proof.
  induction t as [|d' bs IH] using dtree_ind'; intros t' E; simpl in E.
  - inv E. split; [intros H; inversion H|intros [H _]; exact H].
  - rewrite Forall_forall in IH. destruct (P d') eqn:Ed.
    + destruct (omap (dtree_filter P) bs) as [bs'|] eqn:Eb; [|discriminate]. inv E. split.
      * intros H. inversion H as [? El|? ? b' Hb' Ho]; subst.
        -- split; [|exact Ed]. constructor. symmetry. exact (omap_length _ _ _ Eb).
        -- destruct (omap_In_back _ _ _ _ Eb Hb') as (b & Hb & Eb'). apply (IH b Hb b' Eb') in Ho. split; [eapply occ_in; [exact Hb|]; apply Ho|apply Ho].
      * intros [H HP]. inversion H as [? El|? ? b Hb Ho]; subst; [constructor; exact (omap_length _ _ _ Eb)|].
        destruct (omap_fwd _ _ _ _ Eb Hb) as (b' & Hb' & Eb'). eapply occ_in; [exact Hb'|]. apply (IH b Hb b' Eb'). auto.
    + destruct bs as [|b [|]]; try discriminate. rewrite (IH b (or_introl eq_refl) t' E). split; intros [H HP]; split; auto.
      * eapply occ_in; [left; reflexivity|exact H].
      * inversion H as [? El|? ? b0 Hb Ho]; subst; [congruence|]. destruct Hb as [<-|[]]. exact Ho.
Qed.

Lemma find_occ d st sg d' rs : sig_find_dim d st sg = Some (SDep d' rs) -> occ d (List.length rs) (sig_dim_tree sg).
Proof.
  induction sg as [c| |d0 al r IH|d0 rs0 IH] using sig_ind'; simpl; try discriminate.
  - destruct (d0 =? d); [discriminate|]. intros H. eapply occ_in; [left; reflexivity|auto].
  - rewrite Forall_forall in IH. destruct (Z.eqb_spec d0 d) as [->|_]; [intros H; inv H; constructor; apply map_length|].
    destruct (get (Idx d0) st) as [v|]; [|discriminate]. destruct (vstatic v) as [k|]; [|discriminate].
    rewrite nthz_map. destruct (nthz rs0 k) as [x|] eqn:Ex; [|discriminate]. simpl. intros H. apply nthz_In in Ex.
    eapply occ_in; [apply in_map; exact Ex|auto].
Qed.

Lemma full_occ sg t : (forall d n n', occ d n t -> occ d n' (sig_dim_tree sg) -> n = n') -> forall st, full sg t st.
Proof.
  induction t as [|d bs IH] using dtree_ind'; intros H st; [exact I|]. rewrite Forall_forall in IH. simpl.
  destruct (sig_find_dim d st sg) as [[c| |d' al r|d' rs]|] eqn:E; auto.
  - destruct bs as [|b [|]]; auto. intros i. apply IH; [left; reflexivity|]. intros d1 n n' A B. eapply H; eauto. eapply occ_in; [left; reflexivity|exact A].
  - split; [apply (H d); [constructor; reflexivity|eapply find_occ; eauto]|].
    assert (Hb : forall b, In b bs -> forall st, full sg b st).
    { intros b Hb st'. apply IH; [exact Hb|]. intros d1 n n' A B. eapply H; eauto. eapply occ_in; eauto. }
    clear -Hb. generalize 0. induction bs as [|b bs IHb]; intros k; [exact I|]. split; [apply Hb; left; reflexivity|]. apply IHb. intros; apply Hb. right. assumption.
Qed.

(** ** The theorems *)

Lemma for_tree_run t ok tree l : for_tree t ok tree = Done l -> exists sg tr sts, signature (top_struct t) = Some sg /\ tree = Some tr /\
  fe_run (top_struct t) sg tr [] = Done sts /\ l = map (inner t) sts.
Proof.
  unfold for_tree. destruct (signature (top_struct t)) as [sg|]; [|discriminate]. destruct tree as [tr|]; [|discriminate].
  destruct (fe_ok _ _ _ _ _); [|discriminate]. destruct (fe_run _ _ _ _) as [| |sts] eqn:E; try discriminate.
  intros H. inv H. exists sg, tr, sts. auto.
Qed.

Lemma tree_parts t tr ok us sg : distinct_dims (top_struct t) -> lenok (top_struct t) nolens ->
  signature (top_struct t) = Some sg -> tnodup tr = true -> tsmall tr = true -> full sg tr [] ->
  for_tree t ok (Some tr) = Done us -> exists sts, us = map (inner t) sts /\ parts t sg sts /\ (forall e d v, In e sts -> In (Idx d, v) e -> any_accept d sg = true).
Proof.
  intros Hd Hlk Es Hn Hs Hf Eu. destruct (for_tree_run _ _ _ _ Eu) as (sg' & tr' & sts & Es' & Et & Er & ->).
  rewrite Es in Es'. injection Es' as <-. injection Et as <-. exists sts. split; [reflexivity|]. split.
  - exact (loops_parts t sg tr sts Es (distinct_snodup _ _ Hd Es) Hlk Hn Hs Hf Er).
  - intros e d v. exact (loops_accept t sg tr sts Hn Er e d v).
Qed.

Lemma for_sections_parts ss p ds us : let t := order (traverser ss) p in
  distinct_dims (top_struct t) -> lenok (top_struct t) nolens ->
  for_sections t ds = Done us -> exists sg sts, us = map (inner t) sts /\ parts t sg sts /\ (forall e d v, In e sts -> In (Idx d, v) e -> any_accept d sg = true).
Proof.
  intros t Hd Hlk Eu. unfold for_sections, for_sections_with in Eu. destruct (for_tree_run _ _ _ _ Eu) as (sg & tr & sts & Es & Et & _).
  rewrite Et in Eu. rewrite Es in Et. cbn [obind] in Et. pose proof (distinct_snodup _ _ Hd Es) as Hn.
  assert (Hfil : exists P, dtree_filter P (sig_dim_tree sg) = Some tr).
  { unfold sections_tree in Et. destruct ds as [|d ds]; [injection Et as <-; exists (fun _ => true); apply filter_true|].
    destruct (dtree_filter _ _) as [tr'|] eqn:Ef; [|discriminate]. cbn [obind] in Et. destruct (forallb _ _); [|discriminate]. injection Et as ->. eauto. }
  destruct Hfil as [P Ef].
  exists sg. refine (tree_parts t tr _ us sg Hd Hlk Es _ _ _ Eu).
  - eapply filter_tnodup; eauto. apply tree_tnodup, Hn.
  - eapply filter_tsmall; eauto. apply tree_tsmall, Hn.
  - apply (full_filter sg P sg); auto; [intros ? ?; reflexivity|]. intros q st' _ _. left. reflexivity.
Qed.

Lemma for_dims_parts ss p ds us : let t := order (traverser ss) p in
  distinct_dims (top_struct t) -> lenok (top_struct t) nolens -> no_empty_tuple (top_struct t) ->
  for_dims t ds = Done us -> exists sg sts, us = map (inner t) sts /\ parts t sg sts /\ (forall e d v, In e sts -> In (Idx d, v) e -> any_accept d sg = true).
Proof.
  intros t Hd Hlk He Eu. unfold for_dims in Eu. destruct (for_tree_run _ _ _ _ Eu) as (sg & tr & sts & Es & Et & _).
  rewrite Et in Eu. rewrite Es in Et. cbn [obind] in Et. pose proof (distinct_snodup _ _ Hd Es) as Hn.
  unfold no_empty_tuple in He. rewrite Es in He.
  unfold dims_tree in Et. destruct (dtree_filter _ _) as [tr0|] eqn:Ef; [|discriminate]. cbn [obind] in Et.
  destruct (forallb _ ds) eqn:Ec; [|discriminate]. rewrite forallb_forall in Ec.
  pose proof (filter_tnodup _ _ _ Ef (tree_tnodup _ Hn)) as Hn0. pose proof (filter_tsmall _ _ _ Ef (tree_tsmall _ Hn)) as Hs0.
  destruct (reorder_tree tr0 ds tr Hn0 (filter_tfull _ _ _ Ef (filled_tfull _ He)) Ec Et) as (Hn1 & _ & Ho & Hu).
  exists sg. refine (tree_parts t tr _ us sg Hd Hlk Es Hn1 _ _ Eu).
  - apply tsmall_occ. intros d n Hoc. apply (proj1 (tsmall_occ tr0) Hs0 d n). apply Ho, Hoc.
  - apply full_occ. intros d n n' A B. apply Ho in A. pose proof (proj1 (filter_occ _ _ d n tr0 Ef) A) as [_ HP].
    pose proof (proj2 (filter_occ _ _ d n' tr0 Ef) (conj B HP)) as B'. apply (Hu d); [apply mem_In; exact HP|exact A|exact B'].
Qed.

Theorem for_sections_perm ss p ds l us ls : let t := order (traverser ss) p in
  distinct_dims (top_struct t) -> lenok (top_struct t) nolens ->
  for_each t [] = Done l -> for_sections t ds = Done us -> Forall2 (fun x lx => for_each x [] = Done lx) us ls ->
  exists l', Permutation l' (concat ls) /\ Forall2 same_get l l'.
Proof.
  intros t Hd Hlk El Eu F. destruct (for_sections_parts ss p ds us Hd Hlk Eu) as (sg & sts & -> & Hp & _). apply Forall2_map_l in F.
  exact (perm_of_parts t sg sts l ls ltac:(discriminate) Hlk Hp El F).
Qed.

Theorem for_dims_perm ss p ds l us ls : let t := order (traverser ss) p in
  distinct_dims (top_struct t) -> lenok (top_struct t) nolens -> no_empty_tuple (top_struct t) ->
  for_each t [] = Done l -> for_dims t ds = Done us -> Forall2 (fun x lx => for_each x [] = Done lx) us ls ->
  exists l', Permutation l' (concat ls) /\ Forall2 same_get l l'.
Proof.
  intros t Hd Hlk He El Eu F. destruct (for_dims_parts ss p ds us Hd Hlk He Eu) as (sg & sts & -> & Hp & _). apply Forall2_map_l in F.
  exact (perm_of_parts t sg sts l ls ltac:(discriminate) Hlk Hp El F).
Qed.
