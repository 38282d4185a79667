(** * Calls of different threads *)

From Verif Require Import PropsLayout.
From Verif Require Export ReduceFacts SpecRace.

(** What a view does to the index of [d]. *)
Definition moved_by (d : dim) (v : view) (i : val) : val :=
  match v with
  | VShift e s | VSlice e s _ | VSpan e s _ => if e =? d then vadd i s else i
  | _ => i end.

Lemma get_other d ts st : ~ In (Idx d) ts -> get (Idx d) (remove ts st) = get (Idx d) st.
Proof. intros H. rewrite get_remove. destruct (tag_mem (Idx d) ts) eqn:E; [|reflexivity]. apply tag_mem_In in E. contradiction. Qed.
Lemma with_others d items st : ~ In (Idx d) (map fst items) -> get (Idx d) (with_ items st) = get (Idx d) st.
Proof.
  intros H. rewrite get_with. destruct (get (Idx d) items) as [v|] eqn:E; [|reflexivity]. exfalso. apply H. clear H.
  induction items as [|[t w] items IH]; [discriminate|]. cbn [get] in E. destruct (tag_eqb (Idx d) t) eqn:Et; [|right; auto].
  left. destruct t; simpl in Et; try discriminate. apply Z.eqb_eq in Et. subst. reflexivity.
Qed.

Lemma rename_other ps d st : ~ In d (map fst ps ++ map snd ps) -> get (Idx d) (rename_state ps st) = get (Idx d) st.
Proof.
  intros H. assert (Hf : ~ In d (map fst ps)) by (intros X; apply H, in_or_app; auto). assert (Hs : ~ In d (map snd ps)) by (intros X; apply H, in_or_app; auto).
  assert (Hr : forall x, rename_dim (swap_pairs ps) x = d -> mem x (map snd ps) || negb (mem x (map fst ps)) = true -> x = d).
  { intros x E _. destruct (Z.eq_dec x d) as [|Hx]; [assumption|exfalso]. clear -E Hf Hx. unfold swap_pairs in E.
    induction ps as [|[a b] ps IH]; cbn [map rename_dim fst snd] in *; [congruence|]. destruct (x =? b); [apply Hf; left; exact E|].
    apply IH; auto. intros X. apply Hf. right. exact X. }
  assert (Hd : rename_dim (swap_pairs ps) d = d).
  { clear -Hs. unfold swap_pairs. induction ps as [|[a b] ps IH]; cbn [map rename_dim fst snd] in *; [reflexivity|].
    destruct (Z.eqb_spec d b) as [E|]; [exfalso; apply Hs; left; symmetry; exact E|]. apply IH. intros X. apply Hs. right. exact X. }
  unfold rename_state. induction st as [|[t v] st IH]; [reflexivity|]. cbn [List.filter fst]. destruct (rename_keeps ps t) eqn:Ek.
  - cbn [map get fst snd]. destruct t as [x|x|x]; cbn [rename_tag tag_eqb].
    + destruct (Z.eqb_spec d (rename_dim (swap_pairs ps) x)) as [E|E].
      * symmetry in E. rewrite (Hr x E Ek), Z.eqb_refl. reflexivity.
      * destruct (Z.eqb_spec d x) as [E2|_]; [exfalso; apply E; rewrite <- E2; symmetry; exact Hd|]. exact IH.
    + exact IH.
    + exact IH.
  - cbn [get]. destruct t as [x|x|x]; cbn [tag_eqb]; try exact IH. destruct (Z.eqb_spec d x) as [E|_]; [|exact IH]. exfalso.
    cbn [rename_keeps] in Ek. apply orb_false_iff in Ek. destruct Ek as [_ Ek]. apply negb_false_iff, mem_In in Ek. subst x. contradiction.
Qed.

Ltac others := first [apply get_other | apply with_others]; simpl; intros X; repeat (destruct X as [X|X]; [try discriminate X; injection X as X; subst; tauto|]); exact X.

Lemma sub_keeps d v t st st' : keeps_index d v = true -> sub_state v t st = Some st' ->
  get (Idx d) st' = option_map (moved_by d v) (get (Idx d) st).
Proof.
  intros Hk E. unfold sub_state in E.
  assert (Hid : get (Idx d) st' = get (Idx d) st -> (forall i, moved_by d v i = i) -> get (Idx d) st' = option_map (moved_by d v) (get (Idx d) st)).
  { intros -> H. destruct (get (Idx d) st) as [i|]; simpl; [rewrite H|]; reflexivity. }
  destruct v as [e|e i|e n|e s|e s n|e s n|e s n|e|e M m|e M m p|e b M m ml|M m e|sl gl e ds|ds|e|ps|a b e]; cbn [keeps_index view_sub_state] in *.
  - apply Hid; [|reflexivity]. injection E as <-. apply negb_true_iff, Z.eqb_neq in Hk. others.
  - apply Hid; [|reflexivity]. injection E as <-. apply negb_true_iff, Z.eqb_neq in Hk. rewrite with_others; [others|]. simpl. intros [X|[]]. congruence.
  - apply Hid; [|reflexivity]. injection E as <-. others.
  - injection E as <-. unfold moved_by. destruct (Z.eqb_spec e d) as [->|Hn].
    + destruct (get (Idx d) st) as [i|] eqn:Ei; destruct (get (Len d) st); rewrite ?get_with, ?get_remove; unfold tag_mem; cbn [get tag_eqb existsb]; rewrite ?Z.eqb_refl; try reflexivity.
    + assert (Hc : get (Idx d) (remove [Idx e; Len e] st) = get (Idx d) st) by others. transitivity (get (Idx d) st); [|destruct (get (Idx d) st); reflexivity].
      rewrite <- Hc. destruct (get (Idx e) st); destruct (get (Len e) st); try reflexivity; others.
  - injection E as <-. unfold moved_by. destruct (Z.eqb_spec e d) as [->|Hn].
    + destruct (get (Idx d) st) as [i|] eqn:Ei; [rewrite get_with; cbn [get tag_eqb]; rewrite Z.eqb_refl; reflexivity|exact Ei].
    + destruct (get (Idx e) st); rewrite ?with_others by (simpl; intros [X|[]]; congruence); destruct (get (Idx d) st); reflexivity.
  - injection E as <-. unfold moved_by. destruct (Z.eqb_spec e d) as [->|Hn].
    + destruct (get (Idx d) st) as [i|] eqn:Ei; [rewrite get_with; cbn [get tag_eqb]; rewrite Z.eqb_refl; reflexivity|exact Ei].
    + destruct (get (Idx e) st); rewrite ?with_others by (simpl; intros [X|[]]; congruence); destruct (get (Idx d) st); reflexivity.
  - apply Hid; [|reflexivity]. injection E as <-. apply negb_true_iff, Z.eqb_neq in Hk. destruct (get (Idx e) st); [|reflexivity]. others.
  - apply Hid; [|reflexivity]. apply negb_true_iff, Z.eqb_neq in Hk. destruct (get (Idx e) st); [|injection E as <-; reflexivity].
    destruct (has_length t e _) as [[|]|]; try discriminate; cbn [obind] in E.
    + destruct (length_ t e _); [|discriminate]. injection E as <-. rewrite with_others by (simpl; intros [X|[]]; congruence). others.
    + injection E as <-. others.
  - apply Hid; [|reflexivity]. apply negb_true_iff, mem_false in Hk. simpl in Hk.
    assert (Hc : get (Idx d) (clean_blocks e M m st) = get (Idx d) st) by (unfold clean_blocks; others).
    destruct (get (Len M) st), (get (Len m) st).
    + injection E as <-. rewrite <- Hc. destruct (get (Idx M) st), (get (Idx m) st); others.
    + destruct (has_length t e _) as [[|]|]; try discriminate; cbn [obind negb] in E; [|injection E as <-; exact Hc].
      destruct (get (Idx M) st), (get (Idx m) st); try (injection E as <-; exact Hc). destruct (length_ t e _); [|discriminate]. injection E as <-. rewrite <- Hc. others.
    + injection E as <-. rewrite <- Hc. destruct (get (Idx M) st), (get (Idx m) st); try reflexivity; others.
    + destruct (has_length t e _) as [[|]|]; try discriminate; cbn [obind negb] in E; injection E as <-; exact Hc.
  - apply Hid; [|reflexivity]. apply negb_true_iff, mem_false in Hk. simpl in Hk. unfold clean_blocks_dyn in E. destruct (has (Len p) st); [discriminate|]. cbn [obind] in E.
    set (cs := remove _ st) in E. assert (Hc : get (Idx d) cs = get (Idx d) st) by (unfold cs; others). rewrite <- Hc. clearbody cs.
    destruct (get (Len M) st), (get (Len m) st), (get (Idx M) st), (get (Idx m) st); try (injection E as <-; try reflexivity; others).
    destruct (length_ t e _); [|discriminate]. injection E as <-. others.
  - apply Hid; [|reflexivity]. apply negb_true_iff, mem_false in Hk. simpl in Hk. unfold clean_blocks_sta in E.
    assert (Hc : get (Idx d) (remove [Idx e; Len e; Idx b; Idx M; Idx m] st) = get (Idx d) st) by others. rewrite <- Hc.
    destruct (is_body b st) as [[|]|], (has (Len b) st || has (Len M) st || has (Len m) st), (get (Idx b) st), (get (Idx M) st), (get (Idx m) st); cbn [obind] in E; try discriminate;
      try (injection E as <-; try reflexivity; others).
    destruct (length_ t e _); [|discriminate]. injection E as <-. others.
  - apply Hid; [|reflexivity]. apply negb_true_iff, mem_false in Hk. simpl in Hk.
    assert (Hc : get (Idx d) (clean_merge M m e st) = get (Idx d) st) by (unfold clean_merge; others). rewrite <- Hc. set (cs := clean_merge M m e st) in *. clearbody cs.
    destruct (has_length t m cs) as [[|]|]; try discriminate; cbn [obind] in E; destruct (has_length t M cs) as [[|]|]; try discriminate; cbn [obind andb] in E.
    + destruct (get (Idx e) st); [destruct (length_ t m cs); [|discriminate]; injection E as <-; others|injection E as <-; reflexivity].
    + destruct (length_ t m cs); [|discriminate]. cbn [obind] in E. destruct (get (Len e) st), (get (Idx e) st); injection E as <-; try reflexivity; others.
    + destruct (length_ t M cs); [|discriminate]. cbn [obind] in E. destruct (get (Len e) st), (get (Idx e) st); injection E as <-; try reflexivity; others.
    + injection E as <-; reflexivity.
  - apply Hid; [|reflexivity]. apply negb_true_iff, mem_false in Hk.
    assert (Hc : get (Idx d) (clean_zcurve e ds st) = get (Idx d) st).
    { unfold clean_zcurve. apply get_other. simpl. intros [X|X]; [injection X as X; apply Hk; left; exact X|]. apply in_app_or in X. destruct X as [X|X]; apply in_map_iff in X;
        destruct X as (x & X & Hx); [|discriminate]. injection X as X. apply Hk. right. rewrite <- X. exact Hx. }
    rewrite <- Hc. set (cs := clean_zcurve e ds st) in *. clearbody cs. destruct (get (Idx e) st); [|injection E as <-; reflexivity].
    destruct (omap _ ds) as [lens|]; [|discriminate]. cbn [obind] in E. injection E as <-. apply with_others. intros X. apply in_map_iff in X. destruct X as ([t0 x] & X & Hx).
    apply in_combine_l in Hx. cbn [fst] in X. subst t0. apply in_map_iff in Hx. destruct Hx as (y & X & Hy). injection X as X. apply Hk. right. rewrite <- X. exact Hy.
  - injection E as <-. apply Hid; reflexivity.
  - injection E as <-. apply Hid; reflexivity.
  - apply Hid; [|reflexivity]. injection E as <-. apply negb_true_iff, mem_false in Hk. apply rename_other, Hk.
  - apply Hid; [|reflexivity]. apply negb_true_iff, mem_false in Hk. simpl in Hk.
    assert (Hc : get (Idx d) (clean_join a b e st) = get (Idx d) st) by (unfold clean_join; others). rewrite <- Hc. set (cs := clean_join a b e st) in *. clearbody cs.
    destruct (has_length t a cs) as [ha|]; [|discriminate]. cbn [obind] in E. destruct (has_length t b cs) as [hb|]; [|discriminate]. cbn [obind] in E.
    destruct (xorb ha hb); [discriminate|]. destruct (get (Idx e) st), (get (Len e) st); try (destruct (ha || hb); [discriminate|]); injection E as <-; try reflexivity; others.
Qed.

Lemma moved_word d v i j x y : vz (moved_by d v i) = Some x -> vz (moved_by d v j) = Some y ->
  exists x0 y0, vz i = Some x0 /\ vz j = Some y0 /\ (x = y -> x0 = y0).
Proof.
  assert (Ha : forall s, vz (vadd i s) = Some x -> vz (vadd j s) = Some y -> exists x0 y0, vz i = Some x0 /\ vz j = Some y0 /\ (x = y -> x0 = y0)).
  { intros s. rewrite !vz_vadd. destruct (vz i) as [a|] eqn:Ei; [|discriminate]. destruct (vz j) as [b|] eqn:Ej; [|discriminate]. destruct (vz s) as [c|]; [|discriminate].
    intros H1 H2. exists a, b. repeat (split; [reflexivity|]). intros E. injection H1 as <-. injection H2 as <-.
    apply vz_range in Ei, Ej. unfold u64 in E. pose proof W_pos as HW.
    assert (Hab : (a - b) mod W = 0). { replace (a - b) with ((a + c) - (b + c)) by lia. rewrite Zminus_mod, E, Z.sub_diag. apply Zmod_0_l. }
    apply Z.mod_divide in Hab; [|lia]. destruct Hab as [k Hk]. assert (k = 0) by nia. subst k. lia. }
  assert (Hi : vz i = Some x -> vz j = Some y -> exists x0 y0, vz i = Some x0 /\ vz j = Some y0 /\ (x = y -> x0 = y0)).
  { intros H1 H2. exists x, y. auto. }
  destruct v; cbn [moved_by]; auto; destruct (_ =? d); auto; apply Ha.
Qed.

Lemma at_keeps u d (Hu : forall v t, u <> View v t) p : order_keeps d p = true -> forall e1 e2 s1 s2 w1 w2 y1 y2,
  state_at u (apply p u) e1 = Some s1 -> state_at u (apply p u) e2 = Some s2 ->
  get (Idx d) s1 = Some w1 -> get (Idx d) s2 = Some w2 -> vz w1 = Some y1 -> vz w2 = Some y2 ->
  exists v1 v2 x1 x2, get (Idx d) e1 = Some v1 /\ get (Idx d) e2 = Some v2 /\ vz v1 = Some x1 /\ vz v2 = Some x2 /\ (y1 = y2 -> x1 = x2).
Proof.
  induction p as [|x p IH] using rev_ind; intros Hk e1 e2 s1 s2 w1 w2 y1 y2 E1 E2 G1 G2 V1 V2.
  - cbn [apply fold_left] in *. apply state_at_self in E1; [|exact Hu]. apply state_at_self in E2; [|exact Hu]. subst.
    exists w1, w2, y1, y2. auto.
  - unfold order_keeps in Hk. rewrite forallb_app in Hk. apply andb_true_iff in Hk. destruct Hk as [Hp Hv]. cbn [forallb] in Hv. rewrite andb_true_r in Hv.
    destruct x as [e|v]; [discriminate|]. rewrite apply_app in E1, E2. cbn [apply fold_left apply_layer] in E1, E2.
    assert (Hst : same_type u (View v (apply p u)) = false) by (destruct u; try reflexivity; exfalso; eapply Hu; reflexivity).
    rewrite state_at_view in E1, E2 by exact Hst.
    destruct (sub_state v (apply p u) e1) as [f1|] eqn:F1; [|discriminate]. destruct (sub_state v (apply p u) e2) as [f2|] eqn:F2; [|discriminate]. cbn [obind] in E1, E2.
    destruct (IH Hp f1 f2 s1 s2 w1 w2 y1 y2 E1 E2 G1 G2 V1 V2) as (v1 & v2 & x1 & x2 & A1 & A2 & B1 & B2 & C).
    rewrite (sub_keeps d v _ _ _ Hv F1) in A1. rewrite (sub_keeps d v _ _ _ Hv F2) in A2.
    destruct (get (Idx d) e1) as [i1|]; [|discriminate]. destruct (get (Idx d) e2) as [i2|]; [|discriminate]. cbn [option_map] in A1, A2. injection A1 as <-. injection A2 as <-.
    destruct (moved_word d v i1 i2 x1 x2 B1 B2) as (z1 & z2 & Z1 & Z2 & Z3). exists i1, i2, z1, z2. auto 10.
Qed.

(** The loops inside leave the index of [d] alone. *)
Lemma run_leaves top sg d t : forall st l e, dtree_contains d t = false -> fe_run top sg t st = Done l -> In e l -> get (Idx d) e = get (Idx d) st.
Proof.
  induction t as [|x bs IH] using dtree_ind'; intros st l e Hd H He.
  - injection H as <-. destruct He as [<-|[]]. reflexivity.
  - cbn [dtree_contains] in Hd. apply orb_false_iff in Hd. destruct Hd as [Hx Hbs]. apply Z.eqb_neq in Hx. cbn [fe_run] in H.
    assert (Hw : forall v, get (Idx d) (with_ [(Idx x, v)] st) = get (Idx d) st) by (intros v; apply with_others; simpl; intros [X|[]]; congruence).
    assert (Hin : forall b, In b bs -> dtree_contains d b = false).
    { intros b Hb. destruct (dtree_contains d b) eqn:E; [|reflexivity]. assert (existsb (dtree_contains d) bs = true) by (apply existsb_exists; eauto). congruence. }
    rewrite Forall_forall in IH. destruct (sig_find_dim x st sg) as [[c| |d' al r|d' rs]|]; try discriminate.
    + destruct (length_ top x st) as [len|]; [|discriminate]. destruct bs as [|b [|]]; try discriminate. destruct (vz len) as [n|]; [|discriminate].
      destruct (proj1 (out_cat_map_In _ _ _ e H) He) as (i & y & Hi & Hy & Hey). rewrite (IH b (or_introl eq_refl) _ _ _ (Hin b (or_introl eq_refl)) Hy Hey). apply Hw.
    + rewrite go_numbered in H. destruct (proj1 (out_cat_map_In _ _ _ e H) He) as ([k b] & y & Hk & Hy & Hey). cbn [fst snd] in Hy. apply numbered_In in Hk. destruct Hk as [_ Hk].
      assert (Hb : In b bs) by (eapply nthz_In; eauto). rewrite (IH b Hb _ _ _ (Hin b Hb) Hy Hey). apply Hw.
Qed.

Lemma piece_index t r b e w st : (forall v u, tr_struct t <> View v u) -> distinct_dims (top_struct t) -> range_of t = Done r ->
  0 <= b <= e -> e <= rg_end r -> rg_for_each (rg_set r b e) = Done w -> In st w ->
  exists e0 k, matches t e0 st /\ get (Idx (rg_dim r)) e0 = Some (Dyn k) /\ b <= k < e.
Proof.
  intros Hx Hd Hr Hb He Hw Hin. destruct (range_inv t r Hd Hr) as (al & sgr & len & n & Hs & Hn & Hlen & Hvz & Hn0 & Er).
  assert (Ee : rg_end r = n) by (rewrite Er; reflexivity). assert (Et : rg_trav r = t) by (rewrite Er; reflexivity).
  assert (Hres : restricts t (rg_dim r) al sgr (slice_of (rg_set r b e)) (interval b e)).
  { assert (Hne : length_ (top_struct t) (rg_dim r) [] <> None) by congruence. apply restrict_slice; auto. cbn [rg_size rg_end rg_begin rg_set]. apply u64_range. }
  unfold rg_for_each, as_traverser in Hw. cbn [rg_set rg_trav] in Hw. rewrite Et in Hw.
  destruct (restrict_each t _ al sgr Hx Hs Hn _ _ w Hres Hw) as (sts & Hp & Hm). apply In_nth_error in Hin. destruct Hin as [i Hi].
  assert (H : exists e0, In e0 sts /\ matches t e0 st).
  { clear -Hm Hi. revert i Hi. induction Hm as [|e0 s sts l H0 _ IH]; intros [|i] Hi; try discriminate.
    - injection Hi as <-. exists e0. split; [left; reflexivity|exact H0].
    - destruct (IH i Hi) as (e1 & A & B). exists e1. split; [right; exact A|exact B]. }
  destruct H as (e0 & Hin0 & Hm0). exists e0. unfold part in Hp. destruct (proj1 (out_cat_map_In _ _ _ e0 Hp) Hin0) as (k & y & Hk & Hy & Hey).
  exists k. split; [exact Hm0|]. split.
  - rewrite (run_leaves _ _ (rg_dim r) _ _ _ _ ltac:(rewrite tree_contains; exact (d_fresh (rg_dim r) al sgr Hn)) Hy Hey). cbn [get tag_eqb]. rewrite Z.eqb_refl. reflexivity.
  - rewrite interval_zseq in Hk by lia. apply in_map_iff in Hk. destruct Hk as (j & <- & Hj). apply TravFacts.zseq_In in Hj. lia.
Qed.

Lemma follows_bounds rs : forall b e x, follows b rs e -> In x rs -> b <= rg_begin x /\ rg_begin x <= rg_end x /\ rg_end x <= e.
Proof.
  induction rs as [|y rs IH]; intros b e x H Hin; [destruct Hin|]. destruct H as (A & B & C). pose proof (follows_le _ _ _ C). destruct Hin as [->|Hin]; [lia|].
  specialize (IH _ _ x C Hin). lia.
Qed.
Lemma follows_apart rs : forall b e i j x y, follows b rs e -> nth_error rs i = Some x -> nth_error rs j = Some y -> (i < j)%nat -> rg_end x <= rg_begin y.
Proof.
  induction rs as [|z rs IH]; intros b e i j x y H Hi Hj Hij; [destruct i; discriminate|]. destruct H as (A & B & C). destruct j as [|j]; [lia|]. destruct i as [|i].
  - injection Hi as ->. cbn [nth_error] in Hj. apply nth_error_In in Hj. apply (follows_bounds _ _ _ _ C Hj).
  - apply (IH _ _ i j x y C Hi Hj). lia.
Qed.

Lemma accept_path s a p d : all_accept d s = true -> spath s a = Some p -> In d (map fst p).
Proof.
  revert p. induction s as [c| |x al r IH|x rs IH] using sig_ind'; intros p Ha E; try discriminate; cbn [all_accept spath] in *.
  - destruct (spath r a) as [q|]; [|discriminate]. injection E as <-. simpl. destruct (Z.eqb_spec x d) as [->|]; [left; reflexivity|]. right. auto.
  - destruct (nthz (map _ rs) (a x)) as [o|] eqn:En; [|discriminate]. cbn [ojoin] in E. destruct o as [q|]; [|discriminate]. injection E as <-. simpl.
    destruct (Z.eqb_spec x d) as [->|]; [left; reflexivity|]. right. rewrite nthz_map in En. destruct (nthz rs (a x)) as [r|] eqn:Er; [|discriminate]. injection En as En.
    apply nthz_In in Er. rewrite Forall_forall in IH. apply (IH r Er); [|exact En]. simpl in Ha. rewrite forallb_forall in Ha. auto.
Qed.

(** Calls on different pieces have different indices. *)
Lemma pieces_differ ss p r tr works i j w1 w2 st1 st2 v1 v2 x1 x2 : let t := order (traverser ss) p in
  distinct_dims (top_struct t) -> range_of t = Done r -> order_keeps (rg_dim r) p = true ->
  Forall2 (fun piece w => rg_for_each piece = Done w) (pieces tr r) works ->
  nth_error works i = Some w1 -> nth_error works j = Some w2 -> i <> j -> In st1 w1 -> In st2 w2 ->
  get (Idx (rg_dim r)) st1 = Some v1 -> get (Idx (rg_dim r)) st2 = Some v2 -> vz v1 = Some x1 -> vz v2 = Some x2 -> x1 <> x2.
Proof.
  intros t Hd Hr Hk Hw Hi Hj Hij Hin1 Hin2 G1 G2 V1 V2 Ex. pose proof (order_not_view ss p) as Hx. fold t in Hx.
  destruct (range_inv t r Hd Hr) as (_ & _ & _ & n & _ & _ & _ & _ & Hn & Er). assert (Hb : rg_begin r = 0) by (rewrite Er; reflexivity). assert (He : rg_end r = n) by (rewrite Er; reflexivity).
  destruct (split_follows tr r) as [F G]; try lia. rewrite Hb in F.
  assert (Hnth : forall k w, nth_error works k = Some w -> exists x, nth_error (pieces tr r) k = Some x /\ rg_for_each x = Done w).
  { clear -Hw. induction Hw as [|x w xs ws H _ IH]; intros [|k] w' E; try discriminate; [injection E as <-; exists x; auto|]. exact (IH k w' E). }
  destruct (Hnth i w1 Hi) as (p1 & P1 & W1). destruct (Hnth j w2 Hj) as (p2 & P2 & W2).
  pose proof (G p1 (nth_error_In _ _ P1)) as E1. pose proof (G p2 (nth_error_In _ _ P2)) as E2.
  pose proof (follows_bounds _ _ _ _ F (nth_error_In _ _ P1)) as B1. pose proof (follows_bounds _ _ _ _ F (nth_error_In _ _ P2)) as B2.
  rewrite E1 in W1. rewrite E2 in W2.
  destruct (piece_index t r (rg_begin p1) (rg_end p1) w1 st1 Hx Hd Hr ltac:(lia) ltac:(lia) W1 Hin1) as (e1 & k1 & (s1 & S1 & Q1) & K1 & R1).
  destruct (piece_index t r (rg_begin p2) (rg_end p2) w2 st2 Hx Hd Hr ltac:(lia) ltac:(lia) W2 Hin2) as (e2 & k2 & (s2 & S2 & Q2) & K2 & R2).
  destruct (Q1 (rg_dim r)) as [Q1' _]. destruct (Q2 (rg_dim r)) as [Q2' _]. rewrite G1 in Q1'. rewrite G2 in Q2'.
  destruct (at_keeps (tr_struct t) (rg_dim r) Hx p Hk e1 e2 s1 s2 v1 v2 x1 x2 S1 S2 Q1' Q2' V1 V2) as (u1 & u2 & y1 & y2 & A1 & A2 & C1 & C2 & C).
  specialize (C Ex). rewrite K1 in A1. rewrite K2 in A2. injection A1 as <-. injection A2 as <-. cbn [vz] in C1, C2. rewrite u64_small in C1, C2 by lia.
  injection C1 as <-. injection C2 as <-. subst k2.
  destruct (Nat.lt_total i j) as [H|[H|H]]; [|contradiction|].
  - pose proof (follows_apart _ _ _ _ _ _ _ F P1 P2 H). lia.
  - pose proof (follows_apart _ _ _ _ _ _ _ F P2 P1 H). lia.
Qed.

(** If the indices of the outermost dimension differ, so do the elements of the output. *)
Lemma race_core t out r st1 st2 u1 u2 p1 p2 o1 o2 : 
  distinct_dims (top_struct t) -> range_of t = Done r -> shares t out = Some true -> nobcast out = true ->
  (forall v1 v2 x1 x2, get (Idx (rg_dim r)) st1 = Some v1 -> get (Idx (rg_dim r)) st2 = Some v2 -> vz v1 = Some x1 -> vz v2 = Some x2 -> x1 <> x2) ->
  get (Idx (rg_dim r)) u1 = get (Idx (rg_dim r)) st1 -> get (Idx (rg_dim r)) u2 = get (Idx (rg_dim r)) st2 -> same_lengths u1 u2 ->
  used_correctly out u1 -> used_correctly out u2 -> fits out u1 -> names_element out u1 p1 -> names_element out u2 p2 ->
  offset out u1 = Some o1 -> offset out u2 = Some o2 -> apart out u1 u2.
Proof.
  intros Hd Hr Hsh Hnb Hdiff G1 G2 Hl U1 U2 Hf N1 N2 O1 O2.
  destruct (access_no_alias out u1 u2 p1 p2 o1 o2 Hnb Hl U1 U2 Hf N1 N2 O1 O2) as [[Ep Ea]|(c1 & c2 & x1 & x2 & A1 & A2 & B1 & B2 & C)].
  2: { exists o1, o2, c1, c2, x1, x2. auto 10. }
  exfalso. unfold shares in Hsh.
  destruct (range_inv t r Hd Hr) as (al & sgr & len & n & Hs & _). unfold top_dim in Hsh. rewrite Hs in Hsh. destruct (signature out) as [sg|] eqn:Es; [|discriminate]. injection Hsh as Hsh.
  destruct N1 as [D1 N1]. destruct N2 as [D2 N2]. unfold dims_of in D1, D2. rewrite Es in D1, D2. cbn [obind] in D1, D2.
  pose proof (accept_path sg _ p1 _ Hsh D1) as Hin. assert (Hv : forall u, (exists k, In (rg_dim r, k) p1 /\ match k with Some _ => exists i x, get (Idx (rg_dim r)) u = Some i /\ vz i = Some x | None => index_below_length out u (rg_dim r) end) ->
    exists v x, get (Idx (rg_dim r)) u = Some v /\ vz v = Some x /\ asg_of u (rg_dim r) = x).
  { intros u (k & _ & H). assert (H' : exists i x, get (Idx (rg_dim r)) u = Some i /\ vz i = Some x).
    { destruct k; [exact H|]. destruct H as (ds & l0 & n0 & i0 & x0 & _ & _ & _ & A & B & _). eauto. }
    destruct H' as (i0 & x0 & A & B). exists i0, x0. repeat (split; [assumption|]). unfold asg_of. rewrite A. apply vzd_vz, B. }
  pose proof Hin as Hin'. apply in_map_iff in Hin'. destruct Hin' as ([d' k] & Ed & Hdk). cbn [fst] in Ed. subst d'.
  destruct (Hv u1) as (v1 & x1 & A1 & B1 & C1); [exists k; split; [exact Hdk|apply (N1 _ _ Hdk)]|].
  destruct (Hv u2) as (v2 & x2 & A2 & B2 & C2); [exists k; split; [exact Hdk|]; rewrite Ep in Hdk; apply (N2 _ _ Hdk)|].
  rewrite G1 in A1. rewrite G2 in A2.
  apply (Hdiff v1 v2 x1 x2 A1 A2 B1 B2). rewrite <- C1, <- C2. apply Ea, Hin.
Qed.

Theorem race_free ss p out r tr works i j w1 w2 st1 st2 u1 u2 p1 p2 o1 o2 : let t := order (traverser ss) p in
  distinct_dims (top_struct t) -> range_of t = Done r -> order_keeps (rg_dim r) p = true -> shares t out = Some true -> nobcast out = true ->
  Forall2 (fun piece w => rg_for_each piece = Done w) (pieces tr r) works ->
  nth_error works i = Some w1 -> nth_error works j = Some w2 -> i <> j -> In st1 w1 -> In st2 w2 ->
  get (Idx (rg_dim r)) u1 = get (Idx (rg_dim r)) st1 -> get (Idx (rg_dim r)) u2 = get (Idx (rg_dim r)) st2 -> same_lengths u1 u2 ->
  used_correctly out u1 -> used_correctly out u2 -> fits out u1 -> names_element out u1 p1 -> names_element out u2 p2 ->
  offset out u1 = Some o1 -> offset out u2 = Some o2 -> apart out u1 u2.
Proof.
  intros t Hd Hr Hk Hsh Hnb Hw Hi Hj Hij Hin1 Hin2. apply (race_core t out r st1 st2); auto. intros v1 v2 x1 x2.
  apply (pieces_differ ss p r tr works i j w1 w2 st1 st2 v1 v2 x1 x2 Hd Hr Hk Hw Hi Hj Hij Hin1 Hin2).
Qed.
