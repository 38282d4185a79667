(** * Structures whose lengths are known: accesses and traversals *)

From Verif Require Import PropsLayout AgnosticAccept.
From Verif Require Export KnownFacts.
From Verif Require Import SpecAgnostic SpecKnown.

Lemma sees_none st : only_indices st -> sees st (fun _ => false).
Proof. intros H q. unfold has. rewrite H. reflexivity. Qed.

Lemma known_sizable s : forall h, known_with s h = true -> swf s = true -> sizable s = true.
Proof.
  induction s as [c|d ts IH|d t IH|v t IH|ts IH] using struct_ind'; intros h Hk Hw; cbn [known_with] in Hk; try discriminate; try reflexivity; apply andb_prop in Hk; destruct Hk as [_ Hk]; cbn [sizable].
  - eapply IH; eauto.
  - eapply IH; [exact Hk|]. apply (swf_view _ _ Hw).
Qed.

Theorem known_length s q st : lengths_known s -> only_indices st -> has_dim s q -> get (Idx q) st = None -> has_length s q st = Some true /\ exists n, length_ s q st = Some n.
Proof.
  intros (Hw & Hs & Hk) Ho Hd Hi. unfold has_dim in Hd. destruct (signature s) as [sg|] eqn:E; [|contradiction]. apply (known_usable s _ sg Hw E Hk st (sees_none st Ho)); assumption.
Qed.

Theorem known_size s st : lengths_known s -> swf s = true -> only_indices st -> has_size s st = Some true /\ exists n, size_ s st = Some n.
Proof.
  intros (Hw & Hs & Hk) Hsw Ho. destruct (signature s) as [sg|] eqn:E; [|contradiction]. destruct (proj2 (known_usable s _ sg Hw E Hk st (sees_none st Ho)) Hsw) as [B _]. split; [exact B|].
  assert (H : size_ s st <> None) by (apply has_size_exact; auto; [eapply known_sizable; eauto|congruence]). destruct (size_ s st); [eauto|congruence].
Qed.

Theorem known_offset s st : lengths_known s -> swf s = true -> only_indices st -> (forall d, has_dim s d -> get (Idx d) st <> None) ->
  exists c o, scalar_t s st = Some c /\ elem_ty s = Some c /\ offset s st = Some o.
Proof.
  intros (Hw & Hs & Hk) Hsw Ho Hi. destruct (known_scalar s _ st Hsw Hs Hk) as [Ec Hn]. unfold has_dim in Hi. destruct (signature s) as [sg|] eqn:E; [|contradiction].
  destruct (proj2 (known_usable s _ sg Hw E Hk st (sees_none st Ho)) Hsw) as [B C]. destruct (elem_ty s) as [c|] eqn:Ee; [|congruence].
  assert (Hof : has_offset_of (Scalar c) s st = Some true) by (apply C; [reflexivity|]; intros q Hq; unfold has; specialize (Hi q Hq); destruct (get (Idx q) st); [reflexivity|congruence]).
  assert (H : offset_of (Scalar c) s st (Sta 0) <> None) by (apply has_offset_exact; auto; [eapply known_sizable; eauto|congruence]).
  unfold offset. rewrite Ec. cbn [obind]. destruct (offset_of _ _ _ _) as [o|] eqn:Eo; [|congruence]. exists c, o. auto.
Qed.

Theorem known_ref b st : lengths_known (bg_struct b) -> swf (bg_struct b) = true -> only_indices st -> (forall d, has_dim (bg_struct b) d -> get (Idx d) st <> None) -> bag_ref b st <> Rejected.
Proof.
  intros H1 H2 H3 H4. destruct (known_offset _ _ H1 H2 H3 H4) as (c & o & E1 & _ & E2). unfold bag_ref. rewrite E1, E2. destruct (vz o); [|discriminate]. destruct (_ <=? _); discriminate.
Qed.

(** ** Traversals *)

Lemma known_ext s : forall h h', (forall q, h q = h' q) -> known_with s h = known_with s h'.
Proof.
  induction s as [c|d ts IH|d t IH|v t IH|ts IH] using struct_ind'; intros h h' E; cbn [known_with]; try reflexivity.
  - rewrite E. f_equal. apply IH. intros q. unfold off. rewrite E. reflexivity.
  - f_equal; [|apply IH]; [unfold view_known; destruct (signature t); [|reflexivity]; destruct v; rewrite ?E; reflexivity|].
    intros q. destruct v; cbn [given_below]; unfold off; rewrite ?E; reflexivity.
  - induction IH as [|t ts Ht _ IHs]; [reflexivity|]. cbn [forallb]. rewrite (Ht h h' E), IHs. reflexivity.
Qed.

(** Run-time indices only. *)
Definition dyn_idx (e : tag * val) : Prop := match e with (Idx _, Dyn _) => True | _ => False end.
Definition dyn_state (st : state) : Prop := Forall dyn_idx st.

Lemma dyn_only st : dyn_state st -> only_indices st.
Proof.
  intros H d. induction H as [|[tg v] st He _ IH]; [reflexivity|]. destruct tg; try destruct He. cbn [get]. exact IH.
Qed.

Lemma dyn_with st d i : dyn_state st -> dyn_state (with_ [(Idx d, Dyn i)] st).
Proof.
  intros H. unfold with_, remove. apply Forall_app. split; [|repeat constructor]. apply Forall_forall. intros e He. apply filter_In in He. destruct He as [He _]. unfold dyn_state in H. rewrite Forall_forall in H. auto.
Qed.

(** Fixing the indices. *)
Lemma fix_known s d i : lengths_known s -> lengths_known (View (VFix d (Dyn i)) s).
Proof.
  intros (Hw & Hs & Hk). destruct (signature s) as [sg|] eqn:E; [|congruence]. pose proof (known_plain s _ sg Hk E) as Hp. split; [|split].
  - cbn [uswf]. rewrite Hw, andb_true_r. unfold view_swf. rewrite E. reflexivity.
  - cbn [signature]. rewrite E. cbn [view_sig]. clear - Hp. induction sg as [c| |x al r IH|x rs IH] using sig_ind'; cbn [sreplace]; try discriminate.
    rewrite plain_fun in Hp. destruct (mem x [d]); [discriminate|]. specialize (IH Hp). destruct (sreplace _ _ r); [discriminate|congruence].
  - cbn [known_with]. unfold view_known. rewrite E. cbn [andb given_below]. rewrite <- Hk. apply known_ext. intros q. reflexivity.
Qed.

Lemma fixes_known st : dyn_state st -> forall s, lengths_known s -> lengths_known (apply (p_fix st) s).
Proof.
  intros H. induction H as [|[tg v] st He _ IH]; intros s Hs; [exact Hs|]. destruct tg, v; try destruct He. unfold p_fix. cbn [flat_map fst snd]. rewrite apply_app. apply IH. apply fix_known, Hs.
Qed.

Definition view_layer (l : layer) : Prop := match l with LView _ => True | _ => False end.

Lemma state_known ts p : Forall view_layer p -> forall h st, uswf (apply p (Union ts)) = true -> signature (apply p (Union ts)) <> None -> known_with (apply p (Union ts)) h = true -> sees st h ->
  exists x, state_at (Union ts) (apply p (Union ts)) st = Some x.
Proof.
  induction p as [|l p IH] using rev_ind; intros Hp h st Hw Hs Hk Hh.
  - exists st. cbn [apply fold_left state_at has_state_at]. rewrite same_type_refl. reflexivity.
  - apply Forall_app in Hp. destruct Hp as [Hp Hl]. inversion Hl as [|? ? Hl' _]; subst. destruct l as [d|v]; [destruct Hl'|]. rewrite apply_app in *. unfold apply in Hw, Hs, Hk |- * at 1. cbn [fold_left apply_layer] in *. fold (apply p (Union ts)) in *.
    destruct (signature (View v (apply p (Union ts)))) as [sg|] eqn:E; [|congruence]. destruct (signature_View_inv _ _ _ E) as (s0 & E0 & Ev). cbn [known_with] in Hk. apply andb_prop in Hk. destruct Hk as [Hv Hk].
    destruct (uswf_view _ _ Hw) as [_ Hwt]. assert (IH1 : forall st q, sees st (given_below v h) -> any_accept q s0 = true -> get (Idx q) st = None -> gives_length (apply p (Union ts)) q st) by (intros st1 q Hh1; apply (known_usable _ _ _ Hwt E0 Hk st1 Hh1)).
    destruct (sub_known v _ s0 sg h E0 Ev Hv IH1 st Hh) as (st' & Est & Hh'). rewrite state_at_view by reflexivity. rewrite Est. cbn [obind]. apply (IH Hp (given_below v h) st' Hwt ltac:(congruence) Hk Hh').
Qed.

Section Trav.
  Variables (ts : list struct) (p : proto).
  Hypothesis Hp : Forall view_layer p.
  Let t := {| tr_struct := Union ts; tr_order := p |}.
  Let top := apply p (Union ts).
  Hypothesis Hk : lengths_known top.

  Lemma inner_known st : dyn_state st -> inner_ok t st = true /\ state_ok t st = true /\ exists x, tr_state (inner t st) = Some x.
  Proof.
    intros Hd. pose proof (fixes_known st Hd top Hk) as (Hw & Hs & Hk'). unfold inner_ok, state_ok. rewrite top_inner. change (top_struct t) with top.
    destruct (state_known ts (p ++ p_fix st)) with (h := fun _ : dim => false) (st := @nil (tag * val)) as [x Ex]; rewrite ?apply_app; auto.
    - apply Forall_app. split; [exact Hp|]. unfold p_fix. apply Forall_forall. intros l Hl. apply in_flat_map in Hl. destruct Hl as (e & _ & Hl). destruct (fst e); try destruct Hl as [<-|[]]; try destruct Hl; exact I.
    - apply sees_none. intros d. reflexivity.
    - assert (E : tr_state (inner t st) = Some x). { unfold tr_state. rewrite top_inner. change (top_struct t) with top. change (tr_struct (inner t st)) with (Union ts). rewrite apply_app in Ex. exact Ex. }
      rewrite E. destruct (signature (apply (p_fix st) top)); [|congruence]. eauto.
  Qed.

  Section Loops.
    Variable sg : sig.
    Hypothesis Esg : signature top = Some sg.
    Let Hpl : plain sg = true. Proof. exact (known_plain _ _ _ (proj2 (proj2 Hk)) Esg). Qed.

    Lemma found q st : any_accept q sg = true -> exists al r, sig_find_dim q st sg = Some (SFun q al r).
    Proof.
      clear Esg. revert Hpl. induction sg as [c| |d al r IH|d rs IH] using sig_ind'; cbn [any_accept sig_find_dim]; intros H Hq; try discriminate. destruct (Z.eqb_spec d q) as [->|]; [eauto|]. apply IH; [exact H|exact Hq].
    Qed.

    Lemma len_here q st : dyn_state st -> any_accept q sg = true -> get (Idx q) st = None -> exists n, length_ top q st = Some n.
    Proof. intros Hd Hq Hi. apply (known_length top q st Hk (dyn_only st Hd)); [unfold has_dim; rewrite Esg; exact Hq|exact Hi]. Qed.

    Lemma ok_known ok s : (forall st, dyn_state st -> ok st = true) -> plain s = true -> snodup s = true -> (forall q, any_accept q s = true -> any_accept q sg = true) ->
      forall st, dyn_state st -> (forall q, any_accept q s = true -> get (Idx q) st = None) -> fe_ok top sg ok (sig_dim_tree s) st = true.
    Proof.
      intros Hok. induction s as [c| |d al r IH|d rs IH] using sig_ind'; intros Hps Hn Hin st Hd Hi; cbn [sig_dim_tree fe_ok]; auto; [|discriminate].
      assert (Hq : any_accept d (SFun d al r) = true) by (cbn; rewrite Z.eqb_refl; reflexivity). destruct (found d st (Hin d Hq)) as (al' & r' & ->). destruct (len_here d st Hd (Hin d Hq) (Hi d Hq)) as [n ->].
      cbn [snodup] in Hn. apply andb_prop in Hn. destruct Hn as [Hnd Hn]. apply negb_true_iff in Hnd. apply IH; auto.
      - intros q H. apply Hin. cbn. rewrite H. apply orb_true_r.
      - apply dyn_with, Hd.
      - intros q H. rewrite get_with. teq. destruct (Z.eqb_spec q d) as [->|]; [congruence|]. apply Hi. cbn. rewrite H. apply orb_true_r.
    Qed.

    Lemma cat_known {A} (P : A -> Prop) l : Forall (fun o => match o with Rejected => False | Undefined => True | Done x => Forall P x end) l -> match out_cat l with Rejected => False | Undefined => True | Done x => Forall P x end.
    Proof.
      induction 1 as [|o l Ho _ IH]; cbn [out_cat]; [constructor|]. destruct o; cbn [out_bind]; auto. destruct (out_cat l); cbn [out_map]; auto. apply Forall_app. auto.
    Qed.

    Lemma run_known s : plain s = true -> snodup s = true -> (forall q, any_accept q s = true -> any_accept q sg = true) ->
      forall st, dyn_state st -> (forall q, any_accept q s = true -> get (Idx q) st = None) -> match fe_run top sg (sig_dim_tree s) st with Rejected => False | Undefined => True | Done l => Forall dyn_state l end.
    Proof.
      induction s as [c| |d al r IH|d rs IH] using sig_ind'; intros Hps Hn Hin st Hd Hi; cbn [sig_dim_tree fe_run]; [repeat constructor; auto|repeat constructor; auto| |discriminate].
      assert (Hq : any_accept d (SFun d al r) = true) by (cbn; rewrite Z.eqb_refl; reflexivity). destruct (found d st (Hin d Hq)) as (al' & r' & ->). destruct (len_here d st Hd (Hin d Hq) (Hi d Hq)) as [n ->].
      cbn [snodup] in Hn. apply andb_prop in Hn. destruct Hn as [Hnd Hn]. apply negb_true_iff in Hnd. destruct (vz n); [|exact I]. apply cat_known, Forall_forall. intros o Ho. apply in_map_iff in Ho. destruct Ho as (i & <- & _). apply IH; auto.
      - intros q H. apply Hin. cbn. rewrite H. apply orb_true_r.
      - apply dyn_with, Hd.
      - intros q H. rewrite get_with. teq. destruct (Z.eqb_spec q d) as [->|]; [congruence|]. apply Hi. cbn. rewrite H. apply orb_true_r.
    Qed.
  End Loops.

  Theorem known_each : for_each t [] <> Rejected.
  Proof.
    destruct (signature top) as [sg|] eqn:Esg; [|destruct Hk as (_ & H & _); congruence].
    assert (Hpl : plain sg = true) by exact (known_plain _ _ _ (proj2 (proj2 Hk)) Esg). assert (Hn : snodup sg = true) by exact (uswf_snodup _ _ (proj1 Hk) Esg).
    unfold for_each, for_sections_with, for_tree. change (top_struct t) with top. rewrite Esg. cbn [obind sections_tree].
    rewrite (ok_known sg Esg) with (s := sg); auto; [| |constructor].
    - pose proof (run_known sg Esg sg Hpl Hn (fun q H => H) [] (Forall_nil _) (fun q _ => eq_refl)) as H. destruct (fe_run top sg (sig_dim_tree sg) []) as [| |l]; cbn [out_map out_bind]; [contradiction|discriminate|].
      assert (E : exists x, omap tr_state (map (inner t) l) = Some x); [|destruct E as [x ->]; discriminate].
      clear - H Hk Hp. induction H as [|st l Hst _ [x IH]]; [exists []; reflexivity|]. cbn [map omap]. destruct (inner_known st Hst) as (_ & _ & y & ->). rewrite IH. cbn. eauto.
    - intros st Hst. destruct (inner_known st Hst) as (-> & -> & _). reflexivity.
  Qed.
End Trav.

Theorem known_traversal t : by_views t -> lengths_known (top_struct t) -> for_each t [] <> Rejected.
Proof. destruct t as [u p]. intros [[ss E] Hp]. cbn [tr_struct tr_order] in *. subst u. intros Hk. apply known_each; [exact Hp|exact Hk]. Qed.

(** ** Orders stated by a program *)

Lemma union_some ss : forall s0, Forall (fun s => plain s = true) ss -> exists s, sig_union s0 ss = Some s.
Proof.
  induction ss as [|x ss IH]; intros s0 H; [eexists; reflexivity|]. inversion H as [|? ? Hx Hr]; subst. cbn [sig_union].
  assert (E : exists s1, sig_union2 s0 x = Some s1).
  { clear - Hx. induction x as [c| |d al r IHx|d rs IHx] using sig_ind'; cbn [sig_union2]; eauto; [|discriminate]. rewrite plain_fun in Hx. destruct (IHx Hx) as [r' ->]. eauto. }
  destruct E as [s1 ->]. apply IH, Hr.
Qed.

Lemma union_known ss : ss <> [] -> (forall s, In s ss -> lengths_known s) -> lengths_known (Union ss).
Proof.
  intros Hn H. assert (Hp : forall s sg, In s ss -> signature s = Some sg -> plain sg = true) by (intros s sg Hs E; destruct (H s Hs) as (_ & _ & Hk); exact (known_plain s _ sg Hk E)).
  split; [|split].
  - cbn [uswf]. apply andb_true_iff. split; [apply forallb_forall; intros s Hs; apply (H s Hs)|]. assert (Hd : forallb nodep ss = true); [|destruct ss as [|? [|]]; auto].
    apply forallb_forall. intros s Hs. unfold nodep. destruct (signature s) as [sg|] eqn:E; [|destruct (H s Hs) as (_ & H' & _); congruence]. exact (Hp s sg Hs E).
  - cbn [signature]. assert (E : exists l, omap signature ss = Some l /\ length l = length ss).
    { apply omap_ln. intros s Hs. destruct (signature s) as [sg|] eqn:E; [eauto|]. destruct (H s Hs) as (_ & H' & _). congruence. }
    destruct E as (l & E & Hl). rewrite E. destruct l as [|s0 l]; [destruct ss; [congruence|discriminate]|].
    assert (Hpl : Forall (fun s => plain s = true) (s0 :: l)).
    { apply omap_Some_Forall2 in E. apply Forall_forall. intros x Hx. destruct (Forall2_In_r _ _ _ _ E Hx) as (s & Hs & Es). exact (Hp s x Hs Es). }
    inversion Hpl as [|? ? _ Hl']; subst. destruct (union_some l s0 Hl') as [s ->]. discriminate.
  - cbn [known_with]. apply forallb_forall. intros s Hs. apply (H s Hs).
Qed.

Lemma find_plain_some q st s : plain s = true -> any_accept q s = true -> exists al r, sig_find_dim q st s = Some (SFun q al r).
Proof.
  induction s as [c| |d al r IH|d rs IH] using sig_ind'; cbn [any_accept sig_find_dim]; intros H Hq; try discriminate. destruct (Z.eqb_spec d q) as [->|]; [eauto|]. apply IH; [exact H|exact Hq].
Qed.

(** Hoisting a dimension that exists. *)
Lemma hoist_sig d s : plain s = true -> any_accept d s = true -> exists s', view_sig (VHoist d) s = Some s' /\ forall q, any_accept q s = true -> any_accept q s' = true.
Proof.
  intros Hp Hd. cbn [view_sig]. destruct (find_plain_some d [] s Hp Hd) as (al & r & ->).
  assert (E : exists s1, sreplace [d] (fun o => match o with SFun _ _ r => Some r | _ => None end) s = Some s1 /\ forall q, any_accept q s = true -> q = d \/ any_accept q s1 = true).
  { clear - Hp. induction s as [c| |x a r IH|x rs IH] using sig_ind'; cbn [sreplace]; try (eexists; split; [reflexivity|discriminate]); [|discriminate].
    rewrite plain_fun in Hp. destruct (IH Hp) as (r' & Er & Hr). cbn [mem existsb]. destruct (Z.eqb_spec d x) as [->|Hne].
    - cbn. rewrite Z.eqb_refl. cbn. exists r. split; [reflexivity|]. intros q Hq. destruct (Z.eqb_spec x q); [left; congruence|right; exact Hq].
    - replace (x =? d) with false by (symmetry; apply Z.eqb_neq; congruence). cbn [orb]. rewrite Er. eexists. split; [reflexivity|]. intros q Hq. cbn [any_accept] in *. destruct (x =? q); [right; reflexivity|]. apply Hr, Hq. }
  destruct E as (s1 & -> & H). eexists. split; [reflexivity|]. intros q Hq. cbn [any_accept]. destruct (H q Hq) as [->| ->]; [rewrite Z.eqb_refl; reflexivity|apply orb_true_r].
Qed.

Lemma quiet_known v t : (match v with VHoist _ | VReorder _ => True | _ => False end) -> lengths_known t -> signature (View v t) <> None -> view_swf v t = true -> lengths_known (View v t).
Proof.
  intros Hq (Hw & Hs & Hk) Hsv Hv. split; [|split].
  - cbn [uswf]. rewrite Hv, Hw. reflexivity.
  - exact Hsv.
  - cbn [known_with]. unfold view_known. destruct (signature t); [|congruence]. destruct v; try destruct Hq; cbn [given_below andb]; exact Hk.
Qed.

Lemma hoists_known t ds : lengths_known t -> (forall d, In d ds -> has_dim t d) -> lengths_known (apply (p_hoist ds) t) /\ forall q, has_dim t q -> has_dim (apply (p_hoist ds) t) q.
Proof.
  intros Ht. induction ds as [|d ds IH]; intros Hd; [auto|]. destruct IH as [Hk Hq]; [intros x Hx; apply Hd; right; exact Hx|]. rewrite apply_hoist. set (u := apply (p_hoist ds) t) in *.
  pose proof Hk as (Hw & Hs & Hkn). destruct (signature u) as [su|] eqn:Eu; [|congruence]. assert (Hdu : any_accept d su = true) by (specialize (Hq d (Hd d (or_introl eq_refl))); unfold has_dim in Hq; rewrite Eu in Hq; exact Hq).
  destruct (hoist_sig d su (known_plain u _ su Hkn Eu) Hdu) as (s' & Es & Ha). assert (E : signature (View (VHoist d) u) = Some s') by (cbn [signature]; rewrite Eu; exact Es).
  split; [apply quiet_known; [exact I|exact Hk|congruence|unfold view_swf; rewrite Eu; reflexivity]|]. intros q Hqt. unfold has_dim. rewrite E. apply Ha. specialize (Hq q Hqt). unfold has_dim in Hq. rewrite Eu in Hq. exact Hq.
Qed.

Lemma reorder_known t ds : lengths_known t -> NoDup ds -> (forall d, In d ds <-> has_dim t d) -> lengths_known (View (VReorder ds) t).
Proof.
  intros Hk Hn Hd. pose proof Hk as (Hw & Hs & Hkn). unfold has_dim in Hd. destruct (signature t) as [su|] eqn:Eu; [|congruence]. pose proof (known_plain t _ su Hkn Eu) as Hp.
  assert (E : forall l st, NoDup l -> (forall d, In d l -> any_accept d su = true) -> exists s', reassemble_build su st l = Some s').
  { induction l as [|d l IH]; intros st Hnl Hl; cbn [reassemble_build].
    - clear - Hp. revert Hp. generalize su. induction su0 as [c| |x al r IHs|x rs IHs] using sig_ind'; intros Hp; cbn [reassemble_scalar]; eauto; [|discriminate]. destruct (has _ _); eauto.
    - inversion Hnl as [|? ? Hni Hnl']; subst. replace (mem d l) with false by (symmetry; apply mem_false; exact Hni). destruct (find_plain_some d st su Hp (Hl d (or_introl eq_refl))) as (al & r & ->).
      destruct (IH (with_ [(Idx d, Dyn 0)] st) Hnl') as [s' ->]; [intros x Hx; apply Hl; right; exact Hx|]. eauto. }
  destruct (E ds [] Hn) as [s' Es]; [intros d; apply Hd|]. assert (Ev : signature (View (VReorder ds) t) = Some s') by (cbn [signature]; rewrite Eu; exact Es).
  apply quiet_known; [exact I|exact Hk|congruence|]. unfold view_swf. rewrite Eu.
  assert (Hc : view_complete (VReorder ds) t = true) by (apply (reorder_complete ds t su Eu (uswf_ends t su Hw Eu)); [congruence|intros q; apply Hd]).
  cbn [view_complete] in Hc. rewrite Ev in Hc. cbn [view_sig]. rewrite Es. exact Hc.
Qed.

Lemma stated_known w ss lens : ss <> [] -> (forall s, In s ss -> lengths_known s) -> cubes ss lens -> for_each (order (traverser ss) (stated w (map fst lens))) [] <> Rejected.
Proof.
  intros Hn H Hc. pose proof (union_known ss Hn H) as Hu. pose proof Hu as (Hw & Hs & _). destruct (signature (Union ss)) as [su|] eqn:Eu; [|congruence].
  assert (Hd : forall d, In d (map fst lens) <-> has_dim (Union ss) d).
  { intros d. unfold has_dim. rewrite Eu. rewrite accept_sdims. symmetry. apply (proj2 (cubes_dims ss lens Hc su Eu) d). }
  apply known_traversal.
  - split; [exists ss; reflexivity|]. cbn [order traverser tr_order app]. apply Forall_forall. intros l Hl. destruct w; cbn [stated] in Hl; [destruct Hl as [<-|[]]; exact I|]. unfold p_hoist in Hl. apply in_map_iff in Hl. destruct Hl as (d & <- & _). exact I.
  - change (top_struct _) with (apply (stated w (map fst lens)) (Union ss)). destruct w; cbn [stated].
    + apply reorder_known; [exact Hu|apply Hc|exact Hd].
    + apply hoists_known; [exact Hu|]. intros d. apply Hd.
Qed.

(** ** Programs *)

Definition good_for (b : bag) (a : array) : Prop := holds_array b a /\ usable b a.

Lemma indices_given ls st is d : indices ls st = Some is -> In d (map fst ls) -> get (Idx d) st <> None.
Proof.
  unfold indices. destruct (forallb _ st); [|discriminate]. revert is. induction ls as [|e ls IH]; intros is E Hd; [destruct Hd|]. cbn [omap] in E. unfold obind in E.
  destruct (index_below st e) as [x|] eqn:Ex; [|discriminate]. destruct (omap (index_below st) ls) as [r|] eqn:Er; [|discriminate]. destruct Hd as [<-|Hd]; [|exact (IH _ eq_refl Hd)].
  unfold index_below in Ex. destruct (get (Idx (fst e)) st); [discriminate|congruence].
Qed.

Lemma ref_known b a st is : good_for b a -> indices (ar_dims a) st = Some is -> bag_ref b st <> Rejected.
Proof.
  intros [(Hn & Hg & _) [Hk _]] Ei. apply known_ref; [exact Hk|apply Hg| |].
  - intros d. unfold indices in Ei. destruct (forallb _ st) eqn:Ef; [|discriminate]. exact (no_lengths st d Ef).
  - intros d Hd. eapply indices_given; [exact Ei|]. apply Hg, Hd.
Qed.

Theorem program_runs {A} (p : program A) : forall bags0 bags xs r xs', Forall2 good_for bags xs -> map kind bags = map kind bags0 -> sized p bags0 xs -> meaning p xs = Some (r, xs') ->
  exists bags', exec p bags = Done (r, bags') /\ Forall2 good_for bags' xs' /\ map kind bags' = map kind bags0.
Proof.
  induction p as [r0|b st k IH|b st v k IH|b d k IH|bs w ds k IH]; intros bags0 bags xs r xs' Hh Hk Hc E; cbn [meaning] in E; cbn [exec]; cbn [sized] in Hc.
  - injection E as <- <-. exists bags. auto.
  - destruct (nth_error xs b) as [a|] eqn:En; [|discriminate]. cbn [obind] in E. destruct (indices (ar_dims a) st) as [is|] eqn:Ei; [|discriminate]. cbn [obind] in E.
    destruct (hold_nth _ _ _ _ _ Hh En) as (x & Ex & Hx). unfold with_bag. rewrite Ex. destruct (read_array x a st is (proj1 Hx) Ei) as [E1| ->].
    + exfalso. apply (ref_known x a st is Hx Ei). unfold bag_read in E1. destruct (bag_ref x st); [reflexivity|discriminate|discriminate].
    + cbn [out_bind]. eapply IH; eauto.
  - destruct (nth_error xs b) as [a|] eqn:En; [|discriminate]. cbn [obind] in E. destruct (indices (ar_dims a) st) as [is|] eqn:Ei; [|discriminate]. cbn [obind] in E. destruct (ar_writable a) eqn:Ew; [|discriminate].
    destruct Hc as [Hv Hc]. destruct (hold_nth _ _ _ _ _ Hh En) as (x & Ex & Hx). unfold with_bag. rewrite Ex. destruct (write_array x a st is (proj1 Hx) Ei v Ew) as [E1|(x' & E1 & Hst & Hx')].
    + exfalso. pose proof (ref_known x a st is Hx Ei) as Hr. destruct Hx as [(_ & Hg & _) [Hkn Hp]]. specialize (Hp Ew).
      assert (E' : out_bind (bag_ref x st) (fun r => if Z.of_nat (length v) =? snd r then Done {| bg_struct := bg_struct x; bg_policy := bg_policy x; bg_data := patch (bg_data x) (fst r) v |} else Rejected) = Rejected)
        by (unfold bag_write in E1; destruct (bg_policy x); [exact E1|exact E1|contradiction]).
      destruct (bag_ref x st) as [| |[o n]] eqn:Er; [contradiction|discriminate|]. cbn [out_bind snd] in E'.
      assert (Hsw : swf (bg_struct x) = true) by apply Hg. destruct (known_scalar (bg_struct x) _ st Hsw (proj1 (proj2 Hkn)) (proj2 (proj2 Hkn))) as [S1 S2]. destruct (known_scalar (bg_struct x) _ [] Hsw (proj1 (proj2 Hkn)) (proj2 (proj2 Hkn))) as [S3 _].
      destruct (elem_ty (bg_struct x)) as [c|] eqn:Ec; [|congruence]. unfold bag_ref in Er. rewrite S1 in Er. destruct (offset _ st) as [q|]; [|discriminate]. destruct (vz q); [|discriminate]. destruct (_ <=? _); [|discriminate]. injection Er as _ <-.
      symmetry in Hk. destruct (kind_nth _ _ _ _ Hk Ex) as (y & Ey & Hky). pose proof (f_equal fst Hky) as Hs. cbn in Hs. specialize (Hv y c Ey). rewrite Hs in Hv. rewrite (Hv S3), Z.eqb_refl in E'. discriminate.
    + rewrite E1. cbn [out_bind]. pose proof (bag_write_kind _ _ _ _ E1) as Hk'. assert (Hg : good_for x' (update a is v)).
      { split; [exact Hx'|]. destruct Hx as [_ [U1 U2]]. pose proof (f_equal fst Hk') as K1. pose proof (f_equal snd Hk') as K2. cbn in K1, K2. split; [rewrite K1; exact U1|]. cbn [update ar_writable]. rewrite K2. exact U2. }
      apply (IH bags0 (put b x' bags) (put b (update a is v) xs)); [exact (hold_put _ _ _ b x' _ Hh Hg)| |exact (Hc a is eq_refl Ei)|exact E]. rewrite <- Hk. eapply put_map; eauto.
  - destruct (nth_error xs b) as [a|] eqn:En; [|discriminate]. cbn [obind] in E. destruct (length_in d a) as [n|] eqn:El; [|discriminate]. cbn [obind] in E.
    destruct (hold_nth _ _ _ _ _ Hh En) as (x & Ex & Hx). unfold with_bag. rewrite Ex, (length_array x a d n (proj1 Hx) El). cbn [out_bind]. eapply IH; eauto.
  - destruct (omap (nth_error xs) bs) as [ys|] eqn:En; [|discriminate]. cbn [obind] in E. destruct (common ds ys) as [ls|] eqn:El; [|discriminate]. cbn [obind] in E. destruct Hc as [Hne Hc].
    destruct (hold_all _ _ _ _ Hh _ En) as (zs & Ez & Hz). rewrite Ez. assert (Hz1 : Forall2 holds_array zs ys) by (clear - Hz; induction Hz as [|z y zs ys H _ IH]; constructor; [apply H|exact IH]).
    destruct (calls_array w ds zs ys ls Hz1 El) as [E1|(sts & -> & Es)]; [exfalso|cbn [out_bind]; rewrite Es; eapply IH; eauto].
    destruct (common_cubes ds zs ys ls Hz1 El) as [Hcu <-]. revert E1. apply (stated_known w (map bg_struct zs) ls); [| |exact Hcu].
    + destruct bs as [|b0 bs]; [congruence|]. cbn [omap] in Ez. unfold obind in Ez. destruct (nth_error bags b0); [|discriminate]. destruct (omap (nth_error bags) bs); [|discriminate]. injection Ez as <-. discriminate.
    + intros s Hs. apply in_map_iff in Hs. destruct Hs as (z & <- & Hzi). destruct (Forall2_in1 _ _ _ _ Hz Hzi) as (y & _ & Hy). apply Hy.
Qed.

Theorem program_known {A} (p : program A) bags xs r xs' : hold bags xs -> Forall2 usable bags xs -> sized p bags xs -> meaning p xs = Some (r, xs') -> exists bags', exec p bags = Done (r, bags') /\ hold bags' xs'.
Proof.
  intros H1 H2 Hs E. assert (Hg : Forall2 good_for bags xs) by (clear - H1 H2; induction H1 as [|b a bs xs H _ IH]; inversion H2; subst; constructor; [split; assumption|auto]).
  destruct (program_runs p bags bags xs r xs' Hg eq_refl Hs E) as (bags' & E1 & Hg' & _). exists bags'. split; [exact E1|]. clear - Hg'. induction Hg' as [|b a bs xs H _ IH]; constructor; [apply H|exact IH].
Qed.
