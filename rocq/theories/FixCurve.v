(** * Fixing an index of a Z-curve (C74) *)

From Verif Require Import Contig Views Views2 Views3 Views4 Views5 ViewFacts Foreign.
From Verif Require Import Selects ToolFacts.
From Verif Require Export FixLengths.
From Verif Require Import Tiles.

Lemma idx_combine ds is : idx (combine ds is) = combine (map Idx ds) is.
Proof. revert is. induction ds as [|q ds IH]; intros [|x is]; cbn; [reflexivity..|]. f_equal. apply IH. Qed.

Lemma curve_get q ds : forall is, List.length is = List.length ds ->
  if mem q ds then get (Idx q) (combine (map Idx ds) is) <> None else get (Idx q) (combine (map Idx ds) is) = None.
Proof.
  induction ds as [|e ds IH]; intros [|x is] Hl; try discriminate; [reflexivity|]. cbn [mem existsb map combine get tag_eqb].
  destruct (q =? e); [discriminate|]. apply IH. injection Hl. auto.
Qed.

Lemma curve_get_len q ds is : get (Len q) (combine (map Idx ds) is) = None.
Proof. revert is. induction ds as [|e ds IH]; intros [|x is]; cbn; auto. Qed.

Lemma curve_get_other n ds is : get (Other n) (combine (map Idx ds) is) = None.
Proof. revert is. induction ds as [|e ds IH]; intros [|x is]; cbn; auto. Qed.

Lemma look_drop_idx q ds : edit_look (Idx q) (dropped ds) = if mem q ds then Some None else None.
Proof. induction ds as [|e ds IH]; [reflexivity|]. unfold dropped in *. cbn [flat_map app edit_look tag_eqb mem existsb]. destruct (q =? e); [reflexivity|exact IH]. Qed.
Lemma look_drop_len q ds : edit_look (Len q) (dropped ds) = if mem q ds then Some None else None.
Proof. induction ds as [|e ds IH]; [reflexivity|]. unfold dropped in *. cbn [flat_map app edit_look tag_eqb mem existsb]. destruct (q =? e); [reflexivity|exact IH]. Qed.
Lemma look_drop_other n ds : edit_look (Other n) (dropped ds) = None.
Proof. induction ds as [|e ds IH]; [reflexivity|exact IH]. Qed.
Lemma fixes_other n st0 : edit_look (Other n) (fixes st0) = None.
Proof. induction st0 as [|[[x|x|x] v] st0 IH]; [reflexivity|exact IH..]. Qed.

Lemma fix_zcurve sl gl d ds i t st st2 cs ls : let s := View (VFix d i) (View (VZCurve sl gl d ds) t) in
  let u := apply (p_fix (idx (combine ds (zc_indices sl gl i ls)))) t in
  signature s <> None -> signature u <> None ->
  edited st (dropped (d :: ds)) cs -> omap (fun q => length_ t q cs) ds = Some ls -> edited st (dropped [d]) st2 ->
  works_as s st u st2 /\
  (forall q, ~ In q (d :: ds) -> get (Idx q) st = None -> length_as s q st u q st2).
Proof.
  intros s u Hs Hu Hc El H2. subst s u. rewrite idx_combine in *. set (is := zc_indices sl gl i ls) in *.
  assert (Hl : List.length is = List.length ds) by (unfold is; rewrite zc_indices_length; exact (omap_length _ _ _ El)).
  destruct (edited_ex st [(Idx d, Some i); (Len d, None)]) as (st1 & H1). destruct (edited_ex st2 (fixes (combine (map Idx ds) is))) as (st' & H').
  destruct (fix_state_works _ _ _ _ Hu H') as [W L].
  assert (Ei : get (Idx d) st1 = Some i) by (rewrite (H1 (Idx d)); looks).
  assert (Hc1 : edited st1 ((Idx d, None) :: dropped ds) cs).
  { intros v. rewrite (Hc v), (H1 v). change (dropped (d :: ds)) with ((Idx d, None) :: (Len d, None) :: dropped ds). cbn [edit_look].
    destruct v as [q|q|q]; cbn [tag_eqb]; rewrite ?look_drop_idx, ?look_drop_len, ?look_drop_other; try reflexivity; destruct (q =? d), (mem q ds); reflexivity. }
  assert (He : edited st1 (combine (map Idx ds) (map Some is) ++ (Idx d, None) :: dropped ds) st').
  { intros v. rewrite (H' v), (H1 v), (H2 v). rewrite edit_look_app, edit_look_set. cbn [edit_look].
    destruct v as [q|q|q].
    - rewrite (proj1 (fixes_look _ q)). pose proof (curve_get q ds is Hl) as G. destruct (get (Idx q) (combine (map Idx ds) is)) as [x|]; cbn [option_map]; [reflexivity|].
      cbn [tag_eqb]. rewrite !look_drop_idx. change (mem q [d]) with ((q =? d) || false). destruct (mem q ds); [congruence|]. destruct (q =? d); reflexivity.
    - rewrite (proj2 (fixes_look _ q)), curve_get_len. cbn [option_map tag_eqb]. rewrite !look_drop_len. change (mem q [d]) with ((q =? d) || false). pose proof (curve_get q ds is Hl) as G.
      destruct (mem q ds); [destruct (get (Idx q) (combine (map Idx ds) is)); [reflexivity|congruence]|]. rewrite G. destruct (q =? d); reflexivity.
    - rewrite fixes_other, curve_get_other. cbn [option_map tag_eqb]. rewrite !look_drop_other. reflexivity. }
  destruct (zcurve_follows sl gl d ds t st1 cs st' ls i (signature_sub _ _ Hs) Hc1 El Ei He) as [F1 F2]. split.
  - eapply works_comp; [exact (proj1 (fix_follows _ _ _ _ _ Hs H1))|]. eapply works_comp; [exact F1|]. apply works_sym. exact W.
  - intros q Hq Hi. assert (Nd : q <> d) by (intros ->; apply Hq; simpl; auto).
    eapply length_comp; [exact (proj1 (proj2 (fix_follows _ _ _ _ _ Hs H1)) q Nd Hi)|].
    eapply length_comp; [apply (F2 q Nd); rewrite (H1 (Idx q)); looks|]. apply length_sym. apply L.
    + pose proof (curve_get q ds is Hl) as G. destruct (mem q ds) eqn:E; [|exact G]. exfalso. apply Hq. right. apply existsb_exists in E. destruct E as (e & A & B). apply Z.eqb_eq in B. subst. exact A.
    + rewrite (H2 (Idx q)). looks.
Qed.
