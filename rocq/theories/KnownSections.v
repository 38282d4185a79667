(** * Structures whose lengths are known: sections of traversals *)

From Verif Require Import Traits AgnosticAccept.
From Verif Require Export KnownThms.
From Verif Require Import SpecAgnostic SpecKnown.

(** ** Trees without branches *)

Lemma tree_seq sg : plain sg = true -> sig_dim_tree sg = dtree_of_seq (sdims sg).
Proof. induction sg as [c| |d al r IH|d rs IH] using sig_ind'; intros Hp; try reflexivity; [|discriminate]. rewrite plain_fun in Hp. cbn. rewrite IH by exact Hp. reflexivity. Qed.

Lemma contains_seq q l : dtree_contains q (dtree_of_seq l) = mem q l.
Proof. induction l as [|d l IH]; [reflexivity|]. cbn [dtree_of_seq dtree_contains existsb mem]. rewrite IH, orb_false_r, Z.eqb_sym. reflexivity. Qed.

Lemma filter_seq P l : dtree_filter P (dtree_of_seq l) = Some (dtree_of_seq (filter P l)).
Proof. induction l as [|d l IH]; [reflexivity|]. cbn [dtree_of_seq dtree_filter filter omap]. rewrite IH. destruct (P d); reflexivity. Qed.

Lemma hoist_seq q l : NoDup l -> In q l -> exists l', dtree_hoist q (dtree_of_seq l) = Some (dtree_of_seq l') /\ NoDup l' /\ forall d, In d l' <-> In d l.
Proof.
  intros Hn Hq.
  assert (Hf : exists r, dtree_fix q 0 (dtree_of_seq l) = Some (dtree_of_seq r) /\ NoDup r /\ ~ In q r /\ forall d, In d l <-> d = q \/ In d r).
  { clear -Hn Hq. induction Hn as [|d l Hd Hn IH]; [destruct Hq|]. cbn [dtree_of_seq dtree_fix]. destruct (Z.eqb_spec d q) as [->|Hne].
    - exists l. cbn [nth_error]. repeat split; auto; cbn; intuition congruence.
    - destruct Hq as [->|Hq]; [congruence|]. destruct (IH Hq) as (r & E & Hr & Hnr & Hi). exists (d :: r). cbn [omap]. rewrite E. split; [reflexivity|]. split; [|split].
      + constructor; [|exact Hr]. intros H. apply Hd, Hi. right. exact H.
      + intros [H|H]; [congruence|auto].
      + intros x. cbn [In]. rewrite (Hi x). intuition congruence. }
  assert (Hb : dtree_branches q (dtree_of_seq l) = 1%nat).
  { clear -Hq. induction l as [|d l IH]; [destruct Hq|]. cbn [dtree_of_seq dtree_branches]. destruct (Z.eqb_spec d q) as [->|Hne]; [reflexivity|].
    destruct Hq as [->|Hq]; [congruence|]. cbn [map fold_right]. rewrite (IH Hq). reflexivity. }
  destruct Hf as (r & E & Hr & Hnr & Hi). exists (q :: r). unfold dtree_hoist. rewrite Hb. cbn [seq omap]. rewrite E. split; [reflexivity|]. split; [constructor; assumption|].
  intros d. rewrite (Hi d). cbn [In]. intuition congruence.
Qed.

Lemma reorder_seq ds l : NoDup l -> (forall d, In d ds -> In d l) -> exists l', dtree_reorder (dtree_of_seq l) ds = Some (dtree_of_seq l') /\ NoDup l' /\ forall d, In d l' <-> In d l.
Proof.
  intros Hn. induction ds as [|d ds IH]; intros Hd; cbn [dtree_reorder]; [exists l; split; [reflexivity|split; [exact Hn|tauto]]|].
  destruct IH as (l1 & E1 & Hn1 & Hi1); [intros x Hx; apply Hd; right; exact Hx|]. rewrite E1.
  destruct (hoist_seq d l1 Hn1) as (l2 & E2 & Hn2 & Hi2); [apply Hi1, Hd; left; reflexivity|]. exists l2. split; [exact E2|]. split; [exact Hn2|]. intros x. rewrite Hi2. apply Hi1.
Qed.

(** ** Loops *)

Section Trav.
  Variables (ts : list struct) (p : proto).
  Hypothesis Hp : Forall view_layer p.
  Let t := {| tr_struct := Union ts; tr_order := p |}.
  Let top := apply p (Union ts).
  Hypothesis Hk : lengths_known top.

  Section Loops.
    Variable sg : sig.
    Hypothesis Esg : signature top = Some sg.

    Lemma ok_seq ok l : (forall st, dyn_state st -> ok st = true) -> NoDup l -> (forall q, In q l -> any_accept q sg = true) ->
      forall st, dyn_state st -> (forall q, In q l -> get (Idx q) st = None) -> fe_ok top sg ok (dtree_of_seq l) st = true.
    Proof using Hk Esg.
      intros Hok Hn. induction Hn as [|d l Hd Hn IH]; intros Hin st Hst Hi; cbn [dtree_of_seq fe_ok]; auto.
      destruct (found ts p Hk sg Esg d st (Hin d (or_introl eq_refl))) as (al & r & ->).
      destruct (len_here ts p Hk sg Esg d st Hst (Hin d (or_introl eq_refl)) (Hi d (or_introl eq_refl))) as [n En]. fold top in En. rewrite En.
      apply IH; [intros q H; apply Hin; right; exact H|apply dyn_with, Hst|]. intros q H. rewrite get_with. teq. destruct (Z.eqb_spec q d) as [->|]; [contradiction|]. apply Hi. right. exact H.
    Qed.

    Lemma run_seq l : NoDup l -> (forall q, In q l -> any_accept q sg = true) ->
      forall st, dyn_state st -> (forall q, In q l -> get (Idx q) st = None) -> match fe_run top sg (dtree_of_seq l) st with Rejected => False | Undefined => True | Done es => Forall dyn_state es end.
    Proof using Hk Esg.
      intros Hn. induction Hn as [|d l Hd Hn IH]; intros Hin st Hst Hi; cbn [dtree_of_seq fe_run]; [repeat constructor; auto|].
      destruct (found ts p Hk sg Esg d st (Hin d (or_introl eq_refl))) as (al & r & ->).
      destruct (len_here ts p Hk sg Esg d st Hst (Hin d (or_introl eq_refl)) (Hi d (or_introl eq_refl))) as [n En]. fold top in En. rewrite En.
      destruct (vz n); [|exact I]. apply cat_known, Forall_forall. intros o Ho. apply in_map_iff in Ho. destruct Ho as (i & <- & _).
      apply IH; [intros q H; apply Hin; right; exact H|apply dyn_with, Hst|]. intros q H. rewrite get_with. teq. destruct (Z.eqb_spec q d) as [->|]; [contradiction|]. apply Hi. right. exact H.
    Qed.

    (** The trees of sections and of chosen dimensions. *)
    Lemma trees ds : (forall d, In d ds -> any_accept d sg = true) ->
      (exists l, sections_tree sg ds = Some (dtree_of_seq l) /\ NoDup l /\ forall q, In q l -> any_accept q sg = true) /\
      (exists l, dims_tree sg ds = Some (dtree_of_seq l) /\ NoDup l /\ forall q, In q l -> any_accept q sg = true).
    Proof using Hk Esg.
      intros Hd. assert (Hpl : plain sg = true) by exact (known_plain _ _ _ (proj2 (proj2 Hk)) Esg). assert (Hn : snodup sg = true) by exact (uswf_snodup _ _ (proj1 Hk) Esg).
      assert (Hnd : NoDup (sdims sg)) by (pose proof (spath_nodup sg (fun _ => 0) _ Hn (plain_path sg (fun _ => 0) Hpl)) as H; rewrite map_map, map_id in H; exact H).
      set (l := filter (fun d => mem d ds) (sdims sg)).
      assert (Hnl : NoDup l) by (apply NoDup_filter, Hnd).
      assert (Hl : forall q, In q l -> any_accept q sg = true) by (intros q Hq; apply filter_In in Hq; apply accept_sdims, Hq).
      assert (Hc : forall d, In d ds -> In d l) by (intros d H; apply filter_In; split; [apply accept_sdims, Hd, H|apply mem_In, H]).
      assert (Hf : forallb (fun d => dtree_contains d (dtree_of_seq l)) ds = true) by (apply forallb_forall; intros d H; rewrite contains_seq; apply mem_In, Hc, H).
      split.
      - unfold sections_tree. rewrite (tree_seq sg Hpl). destruct ds as [|d0 ds0]; [exists (sdims sg); split; [reflexivity|split; [exact Hnd|intros q; apply accept_sdims]]|].
        rewrite filter_seq. cbn [obind]. fold l. rewrite Hf. eauto.
      - unfold dims_tree. rewrite (tree_seq sg Hpl), filter_seq. cbn [obind]. fold l. rewrite Hf. destruct (reorder_seq ds l Hnl Hc) as (l' & E & Hn' & Hi). exists l'. split; [exact E|]. split; [exact Hn'|]. intros q Hq. apply Hl, Hi, Hq.
    Qed.

    Lemma for_tree_known ok l : (forall st, dyn_state st -> ok st = true) -> NoDup l -> (forall q, In q l -> any_accept q sg = true) ->
      match for_tree t ok (Some (dtree_of_seq l)) with Rejected => False | Undefined => True | Done r => exists es, Forall dyn_state es /\ r = map (inner t) es end.
    Proof using Hp Hk Esg.
      intros Hok Hn Hl. unfold for_tree. change (top_struct t) with top. rewrite Esg.
      rewrite (ok_seq (fun st => inner_ok t st && ok st) l); auto; [|intros st Hst; destruct (inner_known ts p Hp Hk st Hst) as (H & _); fold t in H; rewrite H; apply Hok, Hst|constructor].
      pose proof (run_seq l Hn Hl [] (Forall_nil _) (fun _ _ => eq_refl)) as H. destruct (fe_run top sg (dtree_of_seq l) []) as [| |es]; cbn [out_map]; auto. eauto.
    Qed.
  End Loops.

  Lemma section_known st : dyn_state st -> by_views (inner t st) /\ lengths_known (top_struct (inner t st)).
  Proof using Hp Hk.
    intros Hst. split.
    - split; [exists ts; reflexivity|]. cbn. apply Forall_app. split; [exact Hp|]. unfold p_fix. apply Forall_forall. intros l Hl. apply in_flat_map in Hl. destruct Hl as (e & _ & Hl). destruct (fst e); try destruct Hl as [<-|[]]; try destruct Hl; exact I.
    - rewrite top_inner. apply fixes_known; [exact Hst|exact Hk].
  Qed.

  Theorem sections_known ds : (forall d, In d ds -> has_dim top d) ->
    for_each t ds <> Rejected /\
    (for_sections t ds <> Rejected /\ forall l t', for_sections t ds = Done l -> In t' l -> by_views t' /\ lengths_known (top_struct t')) /\
    (for_dims t ds <> Rejected /\ forall l t', for_dims t ds = Done l -> In t' l -> by_views t' /\ lengths_known (top_struct t')).
  Proof using Hp Hk.
    intros Hd. unfold has_dim in Hd. destruct (signature top) as [sg|] eqn:Esg; [|destruct Hk as (_ & H & _); congruence].
    destruct (trees sg Esg ds Hd) as [(l1 & E1 & Hn1 & Hl1) (l2 & E2 & Hn2 & Hl2)].
    unfold for_each, for_sections, for_sections_with, for_dims. change (top_struct t) with top. rewrite Esg. cbn [obind]. rewrite E1, E2. split; [|split].
    - pose proof (for_tree_known sg Esg (state_ok t) l1 (fun st Hst => proj1 (proj2 (inner_known ts p Hp Hk st Hst))) Hn1 Hl1) as H.
      destruct (for_tree t (state_ok t) _) as [| |r]; cbn [out_bind]; [contradiction|discriminate|]. destruct H as (es & Hes & ->).
      assert (E : exists x, omap tr_state (map (inner t) es) = Some x); [|destruct E as [x ->]; discriminate].
      clear - Hes Hk Hp. induction Hes as [|st l Hst _ [x IH]]; [exists []; reflexivity|]. cbn [map omap]. destruct (inner_known ts p Hp Hk st Hst) as (_ & _ & y & Ey). fold t in Ey. rewrite Ey, IH. cbn. eauto.
    - pose proof (for_tree_known sg Esg (fun _ => true) l1 (fun _ _ => eq_refl) Hn1 Hl1) as H. destruct (for_tree t _ _) as [| |r]; [contradiction|split; [discriminate|discriminate]|].
      split; [discriminate|]. intros l t' E Ht'. injection E as <-. destruct H as (es & Hes & ->). apply in_map_iff in Ht'. destruct Ht' as (st & <- & Hst). apply section_known. rewrite Forall_forall in Hes. apply Hes, Hst.
    - pose proof (for_tree_known sg Esg (fun _ => true) l2 (fun _ _ => eq_refl) Hn2 Hl2) as H. destruct (for_tree t _ _) as [| |r]; [contradiction|split; [discriminate|discriminate]|].
      split; [discriminate|]. intros l t' E Ht'. injection E as <-. destruct H as (es & Hes & ->). apply in_map_iff in Ht'. destruct Ht' as (st & <- & Hst). apply section_known. rewrite Forall_forall in Hes. apply Hes, Hst.
  Qed.
End Trav.

Theorem known_sections t ds : by_views t -> lengths_known (top_struct t) -> (forall d, In d ds -> has_dim (top_struct t) d) ->
  for_each t ds <> Rejected /\
  (for_sections t ds <> Rejected /\ forall l t', for_sections t ds = Done l -> In t' l -> by_views t' /\ lengths_known (top_struct t')) /\
  (for_dims t ds <> Rejected /\ forall l t', for_dims t ds = Done l -> In t' l -> by_views t' /\ lengths_known (top_struct t')).
Proof. destruct t as [u p]. intros [[ss E] Hp]. cbn [tr_struct tr_order] in *. subst u. intros Hk. apply sections_known; [exact Hp|exact Hk]. Qed.
