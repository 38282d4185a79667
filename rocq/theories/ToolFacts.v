(** * Helpers for working with states: proofs *)

From Verif Require Import Views Views4 Views5 Contig UnionTrav.
From Verif Require Export SpecTools StateTools.

(** ** [fix] and [set_length] of a whole state *)

Lemma edited_ex st upd : exists st', edited st upd st'.
Proof.
  exists (edit st upd). intros u. induction upd as [|[t [v|]] r IH]; [reflexivity| |]; cbn [edit edit_look].
  - rewrite get_with. cbn [get]. destruct (tag_eqb u t); [reflexivity|exact IH].
  - rewrite get_remove. unfold tag_mem. cbn [existsb]. rewrite orb_false_r. destruct (tag_eqb u t) eqn:E; [reflexivity|exact IH].
Qed.

Lemma edited_get st upd st' st2 : edited st upd st' -> edited st upd st2 -> same_get st' st2.
Proof. intros A B d. rewrite (A (Idx d)), (B (Idx d)), (A (Len d)), (B (Len d)). split; reflexivity. Qed.

Lemma edited_trans st u1 st1 u2 st2 : edited st u1 st1 -> edited st1 u2 st2 -> edited st (u2 ++ u1) st2.
Proof. intros A B u. rewrite (B u), edit_look_app. destruct (edit_look u u2); [reflexivity|]. apply A. Qed.

Lemma apply_signature p t : signature (apply p t) <> None -> signature t <> None.
Proof.
  revert t. induction p as [|x p IH]; intros t H; [exact H|]. cbn [apply fold_left] in H. apply IH in H. destruct x as [d|v]; cbn [apply_layer signature] in H.
  - destruct (signature t); [discriminate|contradiction].
  - destruct (signature t); [discriminate|contradiction].
Qed.

Lemma length_comp s q st t q' st' u q'' st'' : length_as s q st t q' st' -> length_as t q' st' u q'' st'' -> length_as s q st u q'' st''.
Proof. intros [A B] [C D]. split; congruence. Qed.

Lemma edited_split st upd1 upd2 st1 st' : edited st upd2 st1 -> edited st (upd1 ++ upd2) st' -> edited st1 upd1 st'.
Proof. intros A B u. rewrite (B u), edit_look_app. destruct (edit_look u upd1); [reflexivity|]. symmetry. apply A. Qed.

Theorem fix_state_works st0 : forall t st st', signature (apply (p_fix st0) t) <> None -> edited st (fixes st0) st' ->
  works_as (apply (p_fix st0) t) st t st' /\
  (forall q, get (Idx q) st0 = None -> get (Idx q) st = None -> length_as (apply (p_fix st0) t) q st t q st').
Proof.
  induction st0 as [|[tg v] st0 IH] using rev_ind; intros t st st' Hs He.
  - assert (Hg : same_get st st') by (intros d; rewrite !He; split; reflexivity). cbn [p_fix flat_map apply fold_left] in *. split; [apply works_same; assumption|].
    intros q _ _. apply length_same; assumption.
  - unfold p_fix, fixes in *. rewrite flat_map_app in *. rewrite apply_app in *. cbn [flat_map fst snd] in *. rewrite app_nil_r in *.
    set (t1 := apply _ t) in *. destruct tg as [d|d|d]; cbn [apply fold_left apply_layer] in *.
    2,3: rewrite app_nil_r in He; destruct (IH t st st' Hs He) as [A B]; split; [exact A|]; intros q Hq; apply B; rewrite get_app in Hq; destruct (get (Idx q) st0); [discriminate|reflexivity].
    destruct (edited_ex st [(Idx d, Some v); (Len d, None)]) as (st1 & H1). destruct (fix_follows d v t1 st st1 Hs H1) as (A & B & _).
    assert (Hs1 : signature t1 <> None) by (apply (apply_signature [LView (VFix d v)]); exact Hs).
    destruct (IH t st1 st' Hs1 (edited_split _ _ _ _ _ H1 He)) as [A1 B1]. split; [exact (works_comp _ _ _ _ _ _ A A1)|].
    intros q Hq Hi. rewrite get_app in Hq. destruct (get (Idx q) st0) eqn:E0; [discriminate|]. cbn [get] in Hq. destruct (tag_eqb_spec (Idx q) (Idx d)) as [E|E]; [discriminate|].
    assert (Hqd : q <> d) by congruence. eapply length_comp; [apply B; assumption|]. apply B1; [exact E0|]. rewrite (H1 (Idx q)). cbn [edit_look].
    destruct (tag_eqb_spec (Idx q) (Idx d)); [contradiction|]. exact Hi.
Qed.

Theorem set_length_state_works st0 : forall t st st', signature (apply (p_set_length st0) t) <> None -> edited st (sets st0) st' ->
  works_as (apply (p_set_length st0) t) st t st' /\
  (forall q, get (Idx q) st = None -> length_as (apply (p_set_length st0) t) q st t q st').
Proof.
  induction st0 as [|[tg v] st0 IH] using rev_ind; intros t st st' Hs He.
  - assert (Hg : same_get st st') by (intros d; rewrite !He; split; reflexivity). cbn [p_set_length flat_map apply fold_left] in *. split; [apply works_same; assumption|].
    intros q _. apply length_same; assumption.
  - unfold p_set_length, sets in *. rewrite flat_map_app in *. rewrite apply_app in *. cbn [flat_map fst snd] in *. rewrite app_nil_r in *.
    set (t1 := apply _ t) in *. destruct tg as [d|d|d]; cbn [apply fold_left apply_layer] in *.
    1,3: rewrite app_nil_r in He; destruct (IH t st st' Hs He) as [A B]; split; [exact A|exact B].
    destruct (edited_ex st [(Len d, Some v)]) as (st1 & H1). destruct (set_length_follows d v t1 st st1 Hs H1) as (A & B).
    assert (Hs1 : signature t1 <> None) by (apply (apply_signature [LView (VSetLength d v)]); exact Hs).
    destruct (IH t st1 st' Hs1 (edited_split _ _ _ _ _ H1 He)) as [A1 B1]. split; [exact (works_comp _ _ _ _ _ _ A A1)|].
    intros q Hi. eapply length_comp; [apply B; assumption|]. apply B1. rewrite (H1 (Idx q)). exact Hi.
Qed.

Lemma fixes_look st0 d : edit_look (Idx d) (fixes st0) = option_map Some (get (Idx d) st0) /\
  edit_look (Len d) (fixes st0) = match get (Idx d) st0 with Some _ => Some None | None => None end.
Proof.
  induction st0 as [|[t v] st0 [A B]]; [split; reflexivity|]. unfold fixes in *. cbn [flat_map fst snd get]. rewrite !edit_look_app. destruct t as [x|x|x]; cbn [edit_look tag_eqb]; [|split; assumption..].
  destruct (d =? x); split; try reflexivity; assumption.
Qed.
Lemma sets_look st0 d : edit_look (Len d) (sets st0) = option_map Some (get (Len d) st0) /\ edit_look (Idx d) (sets st0) = None.
Proof.
  induction st0 as [|[t v] st0 [A B]]; [split; reflexivity|]. unfold sets in *. cbn [flat_map fst snd get]. rewrite !edit_look_app. destruct t as [x|x|x]; cbn [edit_look tag_eqb]; [split; assumption| |split; assumption].
  destruct (d =? x); split; try reflexivity; assumption.
Qed.

Theorem fix_state st0 t st st' : signature (apply (p_fix st0) t) <> None -> with_indices st0 st st' ->
  works_as (apply (p_fix st0) t) st t st' /\
  (forall q, get (Idx q) st0 = None -> get (Idx q) st = None -> length_as (apply (p_fix st0) t) q st t q st').
Proof.
  intros Hs Hw. destruct (edited_ex st (fixes st0)) as (st1 & H1). destruct (fix_state_works st0 t st st1 Hs H1) as [A B].
  assert (Hg : same_get st1 st').
  { intros d. destruct (Hw d) as [Wi Wl]. destruct (fixes_look st0 d) as [Fi Fl]. rewrite (H1 (Idx d)), (H1 (Len d)), Fi, Fl, Wi, Wl. destruct (get (Idx d) st0); split; reflexivity. }
  pose proof (apply_signature _ _ Hs) as Ht. split; [exact (works_comp _ _ _ _ _ _ A (works_same _ _ _ Ht Hg))|].
  intros q Hq Hi. exact (length_comp _ _ _ _ _ _ _ _ _ (B q Hq Hi) (length_same _ q _ _ Ht Hg)).
Qed.

Theorem set_length_state st0 t st st' : signature (apply (p_set_length st0) t) <> None -> with_lengths st0 st st' ->
  works_as (apply (p_set_length st0) t) st t st' /\
  (forall q, get (Idx q) st = None -> length_as (apply (p_set_length st0) t) q st t q st').
Proof.
  intros Hs Hw. destruct (edited_ex st (sets st0)) as (st1 & H1). destruct (set_length_state_works st0 t st st1 Hs H1) as [A B].
  assert (Hg : same_get st1 st').
  { intros d. destruct (Hw d) as [Wi Wl]. destruct (sets_look st0 d) as [Fl Fi]. rewrite (H1 (Idx d)), (H1 (Len d)), Fi, Fl, Wi, Wl. destruct (get (Len d) st0); split; reflexivity. }
  pose proof (apply_signature _ _ Hs) as Ht. split; [exact (works_comp _ _ _ _ _ _ A (works_same _ _ _ Ht Hg))|].
  intros q Hi. exact (length_comp _ _ _ _ _ _ _ _ _ (B q Hi) (length_same _ q _ _ Ht Hg)).
Qed.

Lemma lengths_like_state ds s st p : p_lengths_like ds s st = Some p ->
  exists vs, Forall2 (fun d n => length_ s d st = Some n) ds vs /\ p = p_set_length (combine (map Len ds) vs).
Proof.
  unfold p_lengths_like. intros E. assert (E' : exists ps, omap (fun d => p_length_like d s st) ds = Some ps /\ p = concat ps).
  { destruct ds; [discriminate|]. destruct (omap _ _) as [ps|]; [|discriminate]. injection E as <-. eauto. }
  clear E. destruct E' as (ps & E & ->). revert ps E. unfold p_length_like. induction ds as [|d ds IH]; intros ps E; [injection E as <-; exists []; split; [constructor|reflexivity]|].
  cbn [omap] in E. destruct (length_ s d st) as [n|] eqn:En; [|discriminate]. cbn [obind] in E. destruct (omap _ ds) as [r|] eqn:Er; [|discriminate]. injection E as <-.
  destruct (IH r eq_refl) as (vs & F & G). exists (n :: vs). split; [constructor; assumption|]. cbn [concat map combine]. rewrite G. reflexivity.
Qed.

Theorem fix_dims_state ds st p : p_fix_dims ds st = Some p ->
  exists vs, get_indices ds st = Some vs /\ p = p_fix (idx (combine ds vs)).
Proof.
  unfold p_fix_dims, get_indices, get_index. revert p. induction ds as [|d ds IH]; intros p E; [injection E as <-; exists []; split; reflexivity|].
  cbn [omap] in *. destruct (get (Idx d) st) as [i|]; [|discriminate]. cbn [obind] in E. destruct (omap _ ds) as [r|] eqn:Er; [|discriminate]. injection E as <-.
  destruct (IH r eq_refl) as (vs & Ev & ->). rewrite Ev. exists (i :: vs). split; reflexivity.
Qed.

Theorem set_length_dims_state ds st p : p_set_length_dims ds st = Some p ->
  exists vs, get_lengths_in ds st = Some vs /\ p = p_set_length (combine (map Len ds) vs).
Proof.
  unfold p_set_length_dims, get_lengths_in, get_length_in. revert p. induction ds as [|d ds IH]; intros p E; [injection E as <-; exists []; split; reflexivity|].
  cbn [omap] in *. destruct (get (Len d) st) as [i|]; [|discriminate]. cbn [obind] in E. destruct (omap _ ds) as [r|] eqn:Er; [|discriminate]. injection E as <-.
  destruct (IH r eq_refl) as (vs & Ev & ->). rewrite Ev. exists (i :: vs). split; reflexivity.
Qed.

(** ** Reading and changing states *)

Theorem get_indices_nth ds st vs : get_indices ds st = Some vs <-> Forall2 (fun d v => get (Idx d) st = Some v) ds vs.
Proof.
  unfold get_indices. split.
  - revert vs. induction ds as [|d ds IH]; intros vs E; [injection E as <-; constructor|]. cbn [omap] in E. destruct (get (Idx d) st) eqn:Ed; [|discriminate].
    destruct (omap _ ds) eqn:Er; [|discriminate]. injection E as <-. constructor; auto.
  - induction 1 as [|d v ds vs Hd H IH]; [reflexivity|]. cbn [omap]. rewrite Hd, IH. reflexivity.
Qed.
Theorem get_lengths_nth ds st vs : get_lengths_in ds st = Some vs <-> Forall2 (fun d v => get (Len d) st = Some v) ds vs.
Proof.
  unfold get_lengths_in. split.
  - revert vs. induction ds as [|d ds IH]; intros vs E; [injection E as <-; constructor|]. cbn [omap] in E. destruct (get (Len d) st) eqn:Ed; [|discriminate].
    destruct (omap _ ds) eqn:Er; [|discriminate]. injection E as <-. constructor; auto.
  - induction 1 as [|d v ds vs Hd H IH]; [reflexivity|]. cbn [omap]. rewrite Hd, IH. reflexivity.
Qed.

Lemma mem_map_Idx d ds : tag_mem (Idx d) (map Idx ds) = mem d ds.
Proof. unfold tag_mem, mem. induction ds as [|x ds IH]; [reflexivity|]. cbn [map existsb tag_eqb]. rewrite IH. try rewrite (Z.eqb_sym d x). reflexivity. Qed.
Lemma mem_map_Len d ds : tag_mem (Len d) (map Len ds) = mem d ds.
Proof. unfold tag_mem, mem. induction ds as [|x ds IH]; [reflexivity|]. cbn [map existsb tag_eqb]. rewrite IH. try rewrite (Z.eqb_sym d x). reflexivity. Qed.
Lemma mem_map_other t ds (f : dim -> tag) : (forall d, t <> f d) -> tag_mem t (map f ds) = false.
Proof. intros H. apply tag_mem_false. intros X. apply in_map_iff in X. destruct X as (x & X & _). exact (H x (eq_sym X)). Qed.

Theorem filter_indices_get ds st : (forall d, get (Idx d) (filter_indices ds st) = if mem d ds then get (Idx d) st else None) /\
  forall t, (forall d, t <> Idx d) -> get t (filter_indices ds st) = None.
Proof.
  unfold filter_indices. split; intros; rewrite get_filter_tags; [rewrite mem_map_Idx; reflexivity|]. rewrite mem_map_other; auto.
Qed.
Theorem filter_lengths_get ds st : (forall d, get (Len d) (filter_lengths ds st) = if mem d ds then get (Len d) st else None) /\
  forall t, (forall d, t <> Len d) -> get t (filter_lengths ds st) = None.
Proof.
  unfold filter_lengths. split; intros; rewrite get_filter_tags; [rewrite mem_map_Len; reflexivity|]. rewrite mem_map_other; auto.
Qed.

Theorem update_index_get d f st : 
  (get (Idx d) st = None -> update_index d f st = None) /\
  forall i, get (Idx d) st = Some i -> exists st', update_index d f st = Some st' /\ get (Idx d) st' = Some (f i) /\ forall t, t <> Idx d -> get t st' = get t st.
Proof.
  unfold update_index. split; [intros ->; reflexivity|]. intros i ->. cbn [obind]. eexists. split; [reflexivity|]. split.
  - rewrite get_with. cbn [get tag_eqb]. rewrite Z.eqb_refl. reflexivity.
  - intros t Ht. rewrite get_with. cbn [get]. destruct (tag_eqb_spec t (Idx d)); [contradiction|reflexivity].
Qed.

(** ** [fix_zeros] *)

Lemma fix_zeros_keeps : forall t st st', fix_zeros t st = Some st' ->
  (forall d i, get (Idx d) st = Some i -> vz i = Some 0 -> exists j, get (Idx d) st' = Some j /\ vz j = Some 0) /\
  (forall tg, (forall d, tg <> Idx d) -> get tg st' = get tg st).
Proof.
  fix IH 1. intros t st st' E. destruct t as [|d bs]; cbn [fix_zeros] in E; [injection E as <-; split; [eauto|auto]|]. destruct bs as [|b bs]; [discriminate|].
  destruct (IH b _ _ E) as [A B]. split.
  - intros q i G V. destruct (Z.eq_dec q d) as [->|Hn].
    + apply (A d (Sta 0)); [|reflexivity]. rewrite get_with. cbn [get tag_eqb]. rewrite Z.eqb_refl. reflexivity.
    + apply (A q i); [|exact V]. rewrite get_with. cbn [get tag_eqb]. rewrite (proj2 (Z.eqb_neq q d)) by exact Hn. exact G.
  - intros tg Ht. rewrite (B tg Ht), get_with. cbn [get]. destruct (tag_eqb_spec tg (Idx d)) as [X|_]; [exfalso; exact (Ht _ X)|reflexivity].
Qed.

Lemma fix_zeros_path s : forall st st', fix_zeros (sig_dim_tree s) st = Some st' ->
  exists p, spath s (asg_of st') = Some p /\ forall d, In d (map fst p) -> exists i, get (Idx d) st' = Some i /\ vz i = Some 0.
Proof.
  induction s as [c| |d al r IH|d rs IH] using sig_ind'; intros st st' E.
  1,2: exists []; split; [reflexivity|intros d []].
  - cbn [sig_dim_tree fix_zeros spath] in *. destruct (IH _ _ E) as (p & Ep & Hp). rewrite Ep. cbn. eexists. split; [reflexivity|]. intros x [<-|Hx]; [|auto]. cbn [fst].
    destruct (fix_zeros_keeps _ _ _ E) as [A _]. apply (A d (Sta 0)); [|reflexivity]. rewrite get_with. cbn [get tag_eqb]. rewrite Z.eqb_refl. reflexivity.
  - destruct rs as [|r rs]; [discriminate|]. cbn [sig_dim_tree map fix_zeros] in E. inversion IH as [|? ? IHr _]; subst. destruct (IHr _ _ E) as (p & Ep & Hp).
    assert (Hz : exists j, get (Idx d) st' = Some j /\ vz j = Some 0).
    { destruct (fix_zeros_keeps _ _ _ E) as [A _]. apply (A d (Sta 0)); [|reflexivity]. rewrite get_with. cbn [get tag_eqb]. rewrite Z.eqb_refl. reflexivity. }
    assert (Ha : asg_of st' d = 0) by (destruct Hz as (j & Hj & Vj); unfold asg_of; rewrite Hj; exact (vzd_vz _ _ Vj)).
    rewrite spath_dep, Ha. change (nthz (r :: rs) 0) with (Some r). cbn [obind]. rewrite Ep. eexists. split; [reflexivity|]. intros x [<-|Hx]; [exact Hz|auto].
Qed.

Theorem fix_zeros_zero s sg z : signature s = Some sg -> fix_zeros (sig_dim_tree sg) [] = Some z ->
  (exists p, dims_of s z = Some p /\ forall d, In d (map fst p) -> exists i, get (Idx d) z = Some i /\ vz i = Some 0) /\ forall d, get (Len d) z = None.
Proof.
  intros Es E. destruct (fix_zeros_path _ _ _ E) as (p & Ep & Hp). split.
  - exists p. split; [|exact Hp]. unfold dims_of. rewrite Es. exact Ep.
  - intros d. destruct (fix_zeros_keeps _ _ _ E) as [_ B]. rewrite B; [reflexivity|discriminate].
Qed.

Lemma lexlt_zero a b : Forall (fun x => 0 <= x) a -> Forall (fun x => x = 0) b -> ~ lexlt a b.
Proof.
  revert b. induction a as [|x a IH]; intros [|y b] Ha Hb; cbn [lexlt]; auto. inversion Ha; inversion Hb; subst. intros [H|[_ H]]; [lia|]. eapply IH; eauto.
Qed.

Theorem fix_zeros_first s sg z p l : signature s = Some sg -> fix_zeros (sig_dim_tree sg) [] = Some z ->
  distinct_dims s -> lenok s nolens -> names_element s z p -> for_each (traverser [s]) [] = Done l ->
  exists st0 l', l = st0 :: l' /\ dims_of s st0 = dims_of s z /\ index_list s st0 = index_list s z.
Proof.
  intros Es Ez Hd Hl Hn Hf. destruct (for_each_one _ _ Hd Hl Hf) as [_ C S]. destruct (fix_zeros_zero _ _ _ Es Ez) as [(p' & Ep & Hp) Hlen].
  destruct (C z p Hn Hlen) as (st' & Hin & Hdim & Hidx). destruct l as [|st0 l']; [destruct Hin|]. exists st0, l'. split; [reflexivity|].
  destruct Hin as [->|Hin]; [split; assumption|]. exfalso. cbn [map] in S. inversion S as [|? ? _ Hall]; subst.
  rewrite Forall_forall in Hall. specialize (Hall _ (in_map (index_list s) _ _ Hin)). rewrite Hidx in Hall. revert Hall. apply lexlt_zero.
  - unfold index_list. destruct (dims_of s st0); [|constructor]. apply Forall_map, Forall_forall. intros e _. unfold asg_of. destruct (get _ st0); [|lia]. pose proof (vzd_range v). lia.
  - unfold index_list. rewrite Ep. apply Forall_map, Forall_forall. intros [d k] Hin'. cbn [fst]. destruct (Hp d) as (i & Gi & Vi); [eapply in_fst; eauto|]. unfold asg_of. rewrite Gi. exact (vzd_vz _ _ Vi).
Qed.

(** ** The forms with a list of dimensions *)

Lemma combine_get (f : dim -> tag) (g : dim -> option val) ds vs : (forall a b, tag_eqb (f a) (f b) = (a =? b)) -> Forall2 (fun d v => g d = Some v) ds vs ->
  forall d, get (f d) (combine (map f ds) vs) = if mem d ds then g d else None.
Proof.
  intros Hf. induction 1 as [|x v ds vs Hx H IH]; intros d; [reflexivity|]. cbn [map combine get]. unfold mem in *. cbn [existsb]. rewrite Hf.
  destruct (d =? x) eqn:E; [|exact (IH d)]. apply Z.eqb_eq in E as ->. exact (eq_sym Hx).
Qed.

Lemma idx_combine ds vs : length ds = length vs -> idx (combine ds vs) = combine (map Idx ds) vs.
Proof. revert vs. induction ds as [|d ds IH]; intros [|v vs] E; try reflexivity; try discriminate. unfold idx in *. cbn [combine map fst snd]. rewrite IH by (simpl in E; lia). reflexivity. Qed.

Lemma Forall2_len {A B} (R : A -> B -> Prop) l l' : Forall2 R l l' -> length l = length l'.
Proof. induction 1; simpl; congruence. Qed.

Theorem fix_dims ds st0 p t st st' : p_fix_dims ds st0 = Some p -> signature (apply p t) <> None -> with_indices (filter_indices ds st0) st st' ->
  works_as (apply p t) st t st' /\ forall q, ~ In q ds -> get (Idx q) st = None -> length_as (apply p t) q st t q st'.
Proof.
  intros E Hs Hw. destruct (fix_dims_state _ _ _ E) as (vs & Ev & ->). apply get_indices_nth in Ev. rewrite (idx_combine _ _ (Forall2_len _ _ _ Ev)) in *.
  pose proof (combine_get Idx (fun d => get (Idx d) st0) ds vs (fun a b => eq_refl) Ev) as G. destruct (filter_indices_get ds st0) as [F _].
  destruct (fix_state (combine (map Idx ds) vs) t st st' Hs) as [A B]; [intros d; rewrite G, <- F; exact (Hw d)|]. split; [exact A|].
  intros q Hq. apply B. rewrite G. destruct (mem q ds) eqn:Em; [|reflexivity]. apply mem_In in Em. contradiction.
Qed.

Theorem set_length_dims ds st0 p t st st' : p_set_length_dims ds st0 = Some p -> signature (apply p t) <> None -> with_lengths (filter_lengths ds st0) st st' ->
  works_as (apply p t) st t st' /\ forall q, get (Idx q) st = None -> length_as (apply p t) q st t q st'.
Proof.
  intros E Hs Hw. destruct (set_length_dims_state _ _ _ E) as (vs & Ev & ->). apply get_lengths_nth in Ev.
  pose proof (combine_get Len (fun d => get (Len d) st0) ds vs (fun a b => eq_refl) Ev) as G. destruct (filter_lengths_get ds st0) as [F _].
  apply set_length_state; [exact Hs|]. intros d. rewrite G, <- F. exact (Hw d).
Qed.

Theorem lengths_like_dims ds s st0 p t lens st st' : p_lengths_like ds s st0 = Some p -> signature (apply p t) <> None ->
  (forall d, get (Len d) lens = if mem d ds then length_ s d st0 else None) -> with_lengths lens st st' ->
  works_as (apply p t) st t st' /\ forall q, get (Idx q) st = None -> length_as (apply p t) q st t q st'.
Proof.
  intros E Hs Hl Hw. destruct (lengths_like_state _ _ _ _ E) as (vs & Ev & ->).
  pose proof (combine_get Len (fun d => length_ s d st0) ds vs (fun a b => eq_refl) Ev) as G.
  apply set_length_state; [exact Hs|]. intros d. rewrite G, <- Hl. exact (Hw d).
Qed.
