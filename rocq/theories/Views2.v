(** * Proofs about single views, continued *)

From Coq Require Import Permutation.
From Verif Require Export Views Protos.

(** ** hoist and reorder *)

Lemma same_get_refl st : same_get st st.
Proof. intros d. auto. Qed.

Lemma hoist_follows d t st : signature (View (VHoist d) t) <> None ->
  works_as (View (VHoist d) t) st t st /\
  forall q, get (Idx q) st = None -> length_as (View (VHoist d) t) q st t q st.
Proof.
  intros Hs. destruct (follows_view (VHoist d) t st st st eq_refl eq_refl eq_refl Hs eq_refl (same_get_refl st)) as [A B].
  split; [exact A|]. intros q Hi. apply B; [intros []|exact Hi].
Qed.

Lemma reorder_follows ds t st : signature (View (VReorder ds) t) <> None -> view_complete (VReorder ds) t = true ->
  works_as (View (VReorder ds) t) st t st /\
  forall q, get (Idx q) st = None -> length_as (View (VReorder ds) t) q st t q st.
Proof.
  intros Hs Hc. destruct (follows_view (VReorder ds) t st st st eq_refl Hc eq_refl Hs eq_refl (same_get_refl st)) as [A B].
  split; [exact A|]. intros q Hi. apply B; [intros []|exact Hi].
Qed.

Lemma find_dim_sub d q st s o : sig_find_dim d st s = Some o -> any_accept q o = true -> any_accept q s = true.
Proof.
  induction s as [c| |x al r IH|x rs IH] using sig_ind'; simpl; try discriminate.
  - destruct (x =? d); [intros E; inv E; auto|]. intros E H. rewrite (IH E H), orb_true_r. reflexivity.
  - destruct (x =? d); [intros E; inv E; auto|]. destruct (get (Idx x) st) as [v|]; [|discriminate]. destruct (vstatic v) as [k|]; [|discriminate].
    rewrite nthz_map. destruct (nthz rs k) as [r|] eqn:Er; [|discriminate]. simpl. intros E H.
    eapply Forall_nthz in IH; [|exact Er]. apply orb_true_iff. right. apply existsb_exists. exists r. split; [eapply nthz_In, Er|]. auto.
Qed.

Lemma reassemble_scalar_complete s : forall st s', sig_complete s = true -> (forall q, any_accept q s = true -> has (Idx q) st = true) ->
  reassemble_scalar s st = Some s' -> sig_complete s' = true.
Proof.
  induction s as [c| |x al r IH|x rs IH] using sig_ind'; intros st s' Hc Hq E; simpl in *.
  - inv E. reflexivity.
  - discriminate.
  - rewrite (Hq x) in E by (rewrite Z.eqb_refl; reflexivity). eapply IH; eauto. intros q H. apply Hq. rewrite H, orb_true_r. reflexivity.
  - assert (Hx : has (Idx x) st = true) by (apply Hq; rewrite Z.eqb_refl; reflexivity). unfold has in Hx.
    destruct (get (Idx x) st) as [v|]; [|discriminate]. destruct (vstatic v) as [k|]; [|discriminate].
    rewrite nthz_map in E. destruct (nthz rs k) as [r|] eqn:Er; [|discriminate]. simpl in E.
    pose proof (nthz_In _ _ _ Er) as Hin. eapply Forall_nthz in IH; [|exact Er]. eapply IH; [| |exact E].
    + rewrite forallb_forall in Hc. apply Hc, Hin.
    + intros q H. apply Hq. apply orb_true_iff. right. apply existsb_exists. eauto.
Qed.

Lemma build_complete top : sig_complete top = true -> forall ds st s',
  (forall q, any_accept q top = true -> has (Idx q) st = true \/ In q ds) ->
  reassemble_build top st ds = Some s' -> sig_complete s' = true.
Proof.
  intros Hc. induction ds as [|d ds IH]; intros st s' Hq E; simpl in E.
  - eapply reassemble_scalar_complete; eauto. intros q H. destruct (Hq q H) as [H'|[]]. exact H'.
  - assert (Hw : forall v q, any_accept q top = true -> has (Idx q) (with_ [(Idx d, v)] st) = true \/ In q ds).
    { intros v q H. rewrite has_with_idx. destruct (Z.eqb_spec q d); [left; reflexivity|]. destruct (Hq q H) as [H'|[H'|H']]; [left; simpl; auto|congruence|right; auto]. }
    destruct (mem d ds); [discriminate|]. destruct (sig_find_dim d st top) as [[| |x al r|x rs]|]; try discriminate.
    + destruct (reassemble_build top (with_ [(Idx d, Dyn 0)] st) ds) as [s0|] eqn:Eb; [|discriminate]. inv E. simpl. eapply IH; eauto.
    + destruct (omap _ (zseq (Z.of_nat (List.length rs)))) as [ss|] eqn:Eb in E; [|discriminate]. inv E. simpl.
      apply forallb_forall. intros s0 Hin. apply (omap_Some_In _ _ _ Eb) in Hin. destruct Hin as (k & _ & E). eapply IH; [|exact E]. apply Hw.
Qed.

(** A reorder that names every dimension is complete. *)
Lemma reorder_complete ds t sg : signature t = Some sg -> sig_complete sg = true -> signature (View (VReorder ds) t) <> None ->
  (forall q, any_accept q sg = true -> In q ds) -> view_complete (VReorder ds) t = true.
Proof.
  intros Es Hc Hs Hq. cbn [view_complete]. destruct (signature (View (VReorder ds) t)) as [s'|] eqn:E; [|congruence].
  simpl in E. rewrite Es in E. eapply build_complete; eauto.
Qed.

Lemma hoist_path d t st p' : distinct_dims t -> signature (View (VHoist d) t) <> None -> dims_of t st = Some p' ->
  exists p, dims_of (View (VHoist d) t) st = Some ((d, None) :: p) /\ Permutation ((d, None) :: p) p' /\ p = pm (fun _ => []) d p'.
Proof.
  unfold distinct_dims, dims_of. intros Hd Hs E. simpl in Hs |- *. destruct (signature t) as [s|] eqn:Es; [|contradiction].
  cbn [obind] in E |- *. destruct (view_sig (VHoist d) s) as [s'|] eqn:Ev; [|simpl in Ev; congruence].
  destruct (view_path_back (VHoist d) s s' (ilen t) nolens (asg_of st) p' Hd Ev E I) as (p & Ep & Hin & ->).
  exists (pm (fun _ => []) d p'). simpl in Ev. rewrite Ev. cbn [obind]. split; [exact Ep|]. split; [|reflexivity].
  pose proof (spath_nodup _ _ _ Hd E) as Hn. clear -Hin Hn. induction p' as [|[x k] p' IH]; [destruct Hin|].
  inv Hn. destruct Hin as [Hin|Hin].
  - injection Hin as -> ->. rewrite pm_cons_hit by assumption. reflexivity.
  - assert (x <> d). { intros ->. apply H1. apply (in_map fst) in Hin. exact Hin. }
    cbn [pm flat_map fst snd]. replace (x =? d) with false by lia. cbn [app]. rewrite perm_swap. constructor. apply IH; assumption.
Qed.

Lemma apply_hoist d ds t : apply (p_hoist (d :: ds)) t = View (VHoist d) (apply (p_hoist ds) t).
Proof. unfold apply, p_hoist. simpl rev. rewrite map_app, fold_left_app. reflexivity. Qed.

Lemma hoist_distinct d t : distinct_dims t -> signature (View (VHoist d) t) <> None -> distinct_dims (View (VHoist d) t).
Proof.
  unfold distinct_dims. intros Hd Hs. simpl in Hs |- *. destruct (signature t) as [s|]; [|contradiction].
  destruct (view_sig (VHoist d) s) as [s'|] eqn:Ev; simpl in Ev; rewrite Ev in *; [|congruence].
  eapply (view_snodup (VHoist d)); [exact Hd|exact Ev|exact I].
Qed.

Lemma pm_head ds d rest : ~ In d ds ->
  pm (fun _ => []) d (map (fun x => (x, None)) ds ++ rest) = map (fun x => (x, None)) ds ++ pm (fun _ => []) d rest.
Proof.
  intros H. unfold pm. rewrite flat_map_app. f_equal. apply (pm_id (fun _ => []) d). rewrite map_map. simpl. rewrite map_id. exact H.
Qed.

Lemma hoists ds t st p' : NoDup ds -> distinct_dims t -> signature (apply (p_hoist ds) t) <> None -> dims_of t st = Some p' ->
  works_as (apply (p_hoist ds) t) st t st /\
  (forall q, get (Idx q) st = None -> length_as (apply (p_hoist ds) t) q st t q st) /\
  exists rest, dims_of (apply (p_hoist ds) t) st = Some (map (fun x => (x, None)) ds ++ rest) /\
    Permutation (map (fun x => (x, None)) ds ++ rest) p'.
Proof.
  intros Hn Hd Hs E.
  assert (H : distinct_dims (apply (p_hoist ds) t) /\ works_as (apply (p_hoist ds) t) st t st /\
    (forall q, get (Idx q) st = None -> length_as (apply (p_hoist ds) t) q st t q st) /\
    exists rest, dims_of (apply (p_hoist ds) t) st = Some (map (fun x => (x, None)) ds ++ rest) /\
    Permutation (map (fun x => (x, None)) ds ++ rest) p'); [|tauto].
  induction ds as [|d ds IH].
  - split; [exact Hd|]. split; [apply works_refl|]. split; [intros q _; split; reflexivity|]. exists p'. split; [exact E|reflexivity].
  - rewrite apply_hoist in *. inv Hn. pose proof (signature_sub _ _ Hs) as Hs'.
    destruct (IH H2 Hs') as (A & B & C & rest & D & P). destruct (hoist_follows d (apply (p_hoist ds) t) st Hs) as [F G].
    destruct (hoist_path d _ st _ A Hs D) as (p & Ep & Pp & ->). rewrite pm_head in * by assumption.
    split; [apply hoist_distinct; assumption|]. split; [eapply works_comp; eassumption|].
    split; [intros q Hq; eapply length_trans; [apply G, Hq|apply C, Hq]|].
    exists (pm (fun _ => []) d rest). split; [exact Ep|]. etransitivity; [exact Pp|exact P].
Qed.

Lemma reorder_path ds t st p : distinct_dims t -> view_complete (VReorder ds) t = true ->
  dims_of (View (VReorder ds) t) st = Some p ->
  map fst p = ds /\ exists p', dims_of t st = Some p' /\ Permutation p p'.
Proof.
  unfold distinct_dims, dims_of. cbn [view_complete signature]. intros Hd Hc. destruct (signature t) as [s|] eqn:Es; [|contradiction].
  cbn [obind]. destruct (view_sig (VReorder ds) s) as [s'|] eqn:Ev; [|discriminate]. cbn [obind]. intros E.
  destruct (view_path (VReorder ds) s s' (ilen t) nolens (asg_of st) p Hd Ev E) as (p' & Ep' & P); [exact Hc|].
  split; [|exists p'; split; [exact Ep'|exact P]].
  simpl in Ev. apply (build_path s (asg_of st) Hd ds [] s' p Ev Hc); [|exact E]. intros q v k H. discriminate.
Qed.

(** ** rename *)

Lemma rename_conds ps t : signature (View (VRename ps) t) <> None -> NoDup (map fst ps) /\ NoDup (map snd ps).
Proof.
  simpl. destruct (signature t); [|congruence]. destruct (nodupb (map fst ps)) eqn:A; [|intros H; exfalso; apply H; reflexivity].
  destruct (nodupb (map snd ps)) eqn:B; [|intros H; exfalso; apply H; reflexivity].
  intros _. split; apply nodupb_NoDup; assumption.
Qed.

Lemma rename_none ps d : mem d (map fst ps) = false -> rename_dim ps d = d.
Proof.
  induction ps as [|[f e] ps IH]; simpl; [reflexivity|]. intros H. apply orb_false_iff in H. destruct H as [H1 H2]. rewrite H1. auto.
Qed.

Lemma ext_name_alt ps d : ext_name ps d = if mem d (map snd ps) && negb (mem d (map fst ps)) then None else Some (rename_dim ps d).
Proof.
  unfold ext_name. destruct (mem d (map fst ps)) eqn:A, (mem d (map snd ps)) eqn:B; cbn [andb negb]; try reflexivity.
  rewrite rename_none; auto.
Qed.

Lemma renamed_same ps st st' : NoDup (map fst ps) -> NoDup (map snd ps) -> renamed ps st st' -> same_get (rename_state ps st) st'.
Proof.
  intros H1 H2 H d. rewrite !get_rename_state, !ext_name_alt by assumption. destruct (H d) as [A B]. rewrite A, B.
  destruct (mem d (map snd ps) && negb (mem d (map fst ps))); auto.
Qed.

Lemma rename_there_back ps d : NoDup (map fst ps) -> NoDup (map snd ps) -> ext_name ps d = Some (rename_dim ps d) ->
  rename_dim (swap_pairs ps) (rename_dim ps d) = d.
Proof.
  intros H1 H2 E. apply ext_name_spec; auto. unfold ext_name in E.
  destruct (mem d (map fst ps)) eqn:A.
  - apply mem_In, rename_dim_in, (in_map snd) in A. simpl in A. apply mem_In in A. rewrite A. reflexivity.
  - rewrite rename_none by assumption. rewrite A. apply orb_true_r.
Qed.

Lemma rename_follows ps t st st' : signature (View (VRename ps) t) <> None -> renamed ps st st' ->
  works_as (View (VRename ps) t) st t st' /\
  forall d, mem d (map snd ps) && negb (mem d (map fst ps)) = false ->
    length_as (View (VRename ps) t) (rename_dim ps d) st t d st'.
Proof.
  intros Hs Hr. destruct (rename_conds _ _ Hs) as [H1 H2]. pose proof (renamed_same _ _ _ H1 H2 Hr) as Hg.
  split; [eapply works_view; [exact Hs|reflexivity|reflexivity|reflexivity|exact Hg]|].
  intros d Hd. unfold length_as. rewrite length_View, has_length_View. cbn [view_has_length view_length view_sub_state obind].
  rewrite rename_there_back by (try assumption; rewrite ext_name_alt, Hd; reflexivity).
  destruct (length_same t d _ _ (signature_sub _ _ Hs) Hg) as [A B]. rewrite A, B. split; [reflexivity|]. apply guard_len.
Qed.

Lemma rename_back ps t st : signature (View (VRename (swap_pairs ps)) (View (VRename ps) t)) <> None ->
  (forall d, In d (map snd ps) -> ~ In d (map fst ps) -> unused d st) ->
  works_as (View (VRename (swap_pairs ps)) (View (VRename ps) t)) st t st /\
  forall d, ~ (In d (map snd ps) /\ ~ In d (map fst ps)) -> length_as (View (VRename (swap_pairs ps)) (View (VRename ps) t)) d st t d st.
Proof.
  intros Hs Hu. pose proof (signature_sub _ _ Hs) as Hs'. destruct (rename_conds _ _ Hs') as [H1 H2].
  assert (H3 : NoDup (map fst (swap_pairs ps))) by (rewrite swap_fst; exact H2).
  assert (H4 : NoDup (map snd (swap_pairs ps))) by (rewrite swap_snd; exact H1).
  set (st1 := rename_state (swap_pairs ps) st).
  assert (Hm : forall ps, NoDup (map fst ps) -> NoDup (map snd ps) -> forall st, renamed ps st (rename_state ps st)).
  { clear. intros ps H1 H2 st d. rewrite !get_rename_state, !ext_name_alt by assumption.
    destruct (mem d (map snd ps) && negb (mem d (map fst ps))); cbv zeta; auto. }
  assert (Hst : renamed ps st1 st).
  { intros d. destruct (mem d (map fst ps)) eqn:A, (mem d (map snd ps)) eqn:B; cbn [andb negb]; cbv zeta.
    - unfold st1. rewrite !get_rename_state by assumption.
      assert (E : ext_name (swap_pairs ps) (rename_dim ps d) = Some d).
      { rewrite ext_name_alt, swap_fst, swap_snd, rename_there_back by (auto; unfold ext_name; rewrite A; reflexivity).
        apply mem_In, rename_dim_in, (in_map snd) in A. simpl in A. apply mem_In in A. rewrite A, andb_false_r. reflexivity. }
      rewrite E. auto.
    - unfold st1. rewrite !get_rename_state by assumption.
      assert (E : ext_name (swap_pairs ps) (rename_dim ps d) = Some d).
      { rewrite ext_name_alt, swap_fst, swap_snd, rename_there_back by (auto; unfold ext_name; rewrite A; reflexivity).
        apply mem_In, rename_dim_in, (in_map snd) in A. simpl in A. apply mem_In in A. rewrite A, andb_false_r. reflexivity. }
      rewrite E. auto.
    - apply Hu; [apply mem_In, B|]. rewrite <- mem_In. congruence.
    - rewrite rename_none by assumption. unfold st1. rewrite !get_rename_state by assumption.
      rewrite ext_name_alt, swap_fst, swap_snd, A, B. cbn [andb]. rewrite rename_none by (rewrite swap_fst; exact B). auto. }
  destruct (rename_follows ps t st1 st Hs' Hst) as [A B].
  destruct (rename_follows (swap_pairs ps) (View (VRename ps) t) st st1 Hs (Hm _ H3 H4 st)) as [C D].
  split; [eapply works_comp; eassumption|].
  intros d Hd. assert (Hh : mem d (map snd ps) && negb (mem d (map fst ps)) = false).
  { destruct (mem d (map snd ps)) eqn:E1, (mem d (map fst ps)) eqn:E2; try reflexivity. exfalso. apply Hd. split; [apply mem_In, E1|rewrite <- mem_In; congruence]. }
  specialize (B d Hh). specialize (D (rename_dim ps d)). rewrite swap_snd, swap_fst, rename_there_back in D by (auto; rewrite ext_name_alt, Hh; reflexivity).
  eapply length_trans; [apply D|exact B].
  destruct (mem (rename_dim ps d) (map snd ps)) eqn:E; [rewrite andb_false_r; reflexivity|]. rewrite andb_true_r.
  destruct (mem (rename_dim ps d) (map fst ps)) eqn:E2; [|reflexivity]. exfalso.
  destruct (mem d (map fst ps)) eqn:E3.
  - apply mem_In, rename_dim_in, (in_map snd) in E3. simpl in E3. apply mem_In in E3. congruence.
  - rewrite rename_none in E2 by assumption. congruence.
Qed.
