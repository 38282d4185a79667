(** * Views in the order of a traverser that is rejected: proofs (C68) *)

From Verif Require Import RangeFacts Views3 Parts Sections StateProofs AgnosticSig WrapFacts.
From Verif Require Import SpecWrap.

(** States made by the same loops: the indices have the same types. *)
Definition like_types (a b : state) : Prop := Forall2 (fun x y => fst x = fst y /\ same_vtype (snd x) (snd y)) a b.

Lemma like_remove ts a b : like_types a b -> like_types (remove ts a) (remove ts b).
Proof.
  induction 1 as [|x y a b [Hf Hv] _ IH]; [constructor|]. unfold remove in *. cbn [filter]. rewrite Hf. destruct (negb _); [constructor; auto|exact IH].
Qed.
Lemma like_with d i j a b : like_types a b -> like_types (with_ [(Idx d, Dyn i)] a) (with_ [(Idx d, Dyn j)] b).
Proof. intros H. unfold with_. apply Forall2_app; [apply like_remove, H|]. constructor; [split; reflexivity|constructor]. Qed.

Lemma like_fix a b : like_types a b -> forall s, struct_rel same_vtype (apply (p_fix a) s) (apply (p_fix b) s).
Proof.
  assert (G : like_types a b -> forall s s', struct_rel same_vtype s s' -> struct_rel same_vtype (apply (p_fix a) s) (apply (p_fix b) s')).
  { induction 1 as [|[u v] [u' v'] a b [Hf Hv] _ IH]; intros s s' Hs; [exact Hs|]. cbn [fst snd] in *. subst u'. unfold p_fix. cbn [flat_map fst snd].
    fold (p_fix a) (p_fix b). destruct u; cbn [app]; auto. apply (IH (View (VFix d v) s) (View (VFix d v') s')). constructor; [constructor; exact Hv|exact Hs]. }
  intros H s. apply G; [exact H|]. apply struct_rel_refl. intros x. reflexivity.
Qed.

Section Loops.
  Variables (top : struct) (sg : sig).
  Hypothesis Hp : GoodFacts.plain sg = true.

  (** The compiler sees one state, and the states of the run are like it. *)
  Lemma loops_like ok0 tr : forall st0, fe_ok top sg ok0 tr st0 = true ->
    exists e0, (forall ok top', (forall d st, length_ top d st = length_ top' d st) -> fe_ok top' sg ok tr st0 = ok e0) /\
      forall st l, like_types st0 st -> fe_run top sg tr st = Done l -> Forall (like_types e0) l.
  Proof using Hp.
    induction tr as [|d bs IH] using dtree_ind'; intros st0 Hok.
    - exists st0. split; [reflexivity|]. intros st l Hl E. cbn [fe_run] in E. injection E as <-. constructor; [exact Hl|constructor].
    - cbn [fe_ok] in Hok. destruct (sig_find_dim d st0 sg) as [[c| |d' al r|d' rs]|] eqn:Ef; try discriminate.
      2: { apply (find_plain _ _ _ _ Hp) in Ef. discriminate Ef. }
      destruct (length_ top d st0) as [n0|] eqn:En; [|discriminate]. destruct bs as [|b [|]]; try discriminate.
      inversion IH as [|? ? IHb _]; subst. destruct (IHb _ Hok) as (e0 & H0 & H1). exists e0. split.
      + intros ok top' Ht. cbn [fe_ok]. rewrite Ef, <- Ht, En. apply H0, Ht.
      + intros st l Hl E. destruct (sig_find_dim d st sg) as [[c| |d2 al2 r2|d2 rs2]|] eqn:Ef2; cbn [fe_run] in E; rewrite Ef2 in E; try discriminate.
        2: { apply (find_plain _ _ _ _ Hp) in Ef2. discriminate Ef2. }
        destruct (length_ top d st) as [len|]; [|discriminate]. destruct (vz len) as [n|]; [|discriminate].
        revert l E. induction (zseq n) as [|i is IHi]; intros l E; cbn [map out_cat] in E; [injection E as <-; constructor|].
        destruct (fe_run top sg b (with_ [(Idx d, Dyn i)] st)) as [| |x] eqn:Ex; try discriminate. cbn [out_bind] in E.
        destruct (out_cat _) as [| |y] eqn:Ey; try discriminate. cbn [out_map] in E. injection E as <-.
        apply Forall_app. split; [|apply IHi; reflexivity]. apply (H1 _ _ (like_with d 0 i st0 st Hl) Ex).
  Qed.
End Loops.

(** What cannot be passed down cannot be accessed. *)
Lemma down_none p : forall s st' x start, down p s st' = None -> suits p s -> (forall v u, x <> View v u) -> offset_of x (apply p s) st' start = None.
Proof.
  induction p as [|[d|v] p IH]; intros s st' x start Hd Hs Hx; cbn [down suits] in *; [discriminate|destruct Hs|]. destruct Hs as [_ Hs].
  change (apply (LView v :: p) s) with (apply p (View v s)). destruct (down p (View v s) st') as [st1|] eqn:E1; [|apply IH; assumption]. cbn [obind] in Hd.
  destruct (offset_of x (apply p (View v s)) st' start) as [o|] eqn:E; [|reflexivity].
  apply (down_offset p _ _ _ _ _ _ E1 Hx) in E. cbn [offset_of] in E. unfold guard in E.
  assert (Hn : same_type x (View v s) = false) by (destruct x; try reflexivity; exfalso; eapply Hx; reflexivity).
  rewrite Hn, Hd in E. destruct (has_offset_of x (View v s) st1) as [[|]|]; discriminate.
Qed.

Section Reject.
  Variables (s : struct) (p q : proto).
  Hypothesis Hsuits : suits (p ++ q) s.
  Let A := order (traverser [s]) (p ++ q).
  Let B := order (traverser [apply p s]) q.

  Lemma like_state e e' : like_types e e' -> inner_ok A e = true -> state_ok A e = state_ok A e'.
  Proof using.
    intros Hl Hi. assert (Hr : struct_rel same_vtype (top_struct (inner A e)) (top_struct (inner A e'))) by (rewrite !top_inner; apply like_fix, Hl).
    unfold inner_ok in Hi. destruct (signature (top_struct (inner A e))) as [sg|] eqn:Es; [|discriminate]. unfold state_ok, tr_state.
    change (tr_struct (inner A e)) with (tr_struct A). change (tr_struct (inner A e')) with (tr_struct A). eapply orel_same.
    apply (state_at_rel same_vtype congruence_same_vtype (fun _ => True) _ _ _ Hr); [congruence|intros _ _; exact I|intros d _; split; exact I].
  Qed.

  Theorem wrap_rejected ds l' : nodep (apply (p ++ q) s) = true -> for_each A ds = Rejected -> for_each B ds = Done l' ->
    forall st' x start, In st' l' -> (forall v u, x <> View v u) -> offset_of x (apply p s) st' start = None.
  Proof using Hsuits.
    intros Hnd EA EB st' x start Hin Hx. assert (Hp : suits p s) by (apply suits_app in Hsuits; exact (proj1 Hsuits)).
    unfold for_each, for_sections_with, for_tree in EA, EB. pose proof (wrap_top s p q Hsuits) as Ht. fold A B in Ht. rewrite <- (proj1 Ht) in EB.
    destruct (signature (top_struct A)) as [sg|] eqn:Es; [|discriminate EB]. cbn [obind] in EA, EB. destruct (sections_tree sg ds) as [tr|]; [|discriminate EB].
    rewrite <- (run_answers _ _ sg Ht Es) in EB.
    assert (Hpl : GoodFacts.plain sg = true).
    { assert (E : signature (top_struct A) = signature (apply (p ++ q) s)) by (apply apply_answers; [apply answers_one|]; exact (suits_answers _ _ _ (answers_sym _ _ (answers_one s)) Hsuits)).
      unfold nodep in Hnd. rewrite <- E, Es in Hnd. exact Hnd. }
    destruct (fe_ok (top_struct B) sg _ tr []) eqn:EokB; [|discriminate EB].
    assert (EokB' : fe_ok (top_struct A) sg (fun st => inner_ok B st && state_ok B st) tr [] = true).
    { revert EokB. apply ok_answers; [apply answers_sym, Ht|rewrite <- (proj1 Ht); exact Es|auto]. }
    destruct (loops_like _ sg Hpl _ tr [] EokB') as (e0 & H0 & H1).
    pose proof (H0 (fun st => inner_ok B st && state_ok B st) _ (fun _ _ => eq_refl)) as HB0. rewrite EokB' in HB0. symmetry in HB0. apply andb_true_iff in HB0. destruct HB0 as [HiB _].
    pose proof (wrap_inner_ok s p q Hsuits e0) as HiA. fold A B in HiA. rewrite HiB in HiA.
    rewrite (H0 _ _ (fun _ _ => eq_refl)) in EA. rewrite HiA in EA. cbn [andb] in EA.
    destruct (fe_run (top_struct A) sg tr []) as [| |es] eqn:Er; try discriminate EB. specialize (H1 [] es (Forall2_nil _) Er).
    cbn [out_map out_bind] in EA, EB. destruct (omap tr_state (map (inner B) es)) as [l2|] eqn:EmB; [|discriminate EB]. injection EB as ->.
    assert (HA0 : state_ok A e0 = false).
    { destruct (state_ok A e0) eqn:E0; [|reflexivity]. exfalso. cbn [out_map out_bind] in EA.
      assert (Hall : exists y, omap tr_state (map (inner A) es) = Some y).
      { clear - H1 HiA E0 B. induction H1 as [|e es He _ [y IH]]; [exists []; reflexivity|]. cbn [map omap]. rewrite (like_state _ _ He HiA) in E0.
        assert (E1 := E0). unfold state_ok in E1. destruct (tr_state (inner A e)); [|discriminate]. rewrite IH. cbn. eauto. }
      destruct Hall as [y Hy]. rewrite Hy in EA. discriminate EA. }
    clear - H1 HiA HA0 EmB Hin Hx Hp Hsuits. revert l' EmB Hin. induction H1 as [|e es He _ IH]; intros l' Em Hin; cbn [map omap] in Em.
    - injection Em as <-. destruct Hin.
    - destruct (tr_state (inner B e)) as [y|] eqn:Ey; [|discriminate]. destruct (omap tr_state (map (inner B) es)) as [r|] eqn:Er; [|discriminate]. cbn in Em. injection Em as <-.
      destruct Hin as [<-|Hin]; [|apply (IH r); auto]. apply down_none; auto.
      rewrite (like_state _ _ He HiA) in HA0. unfold state_ok in HA0. pose proof (wrap_state s p q Hsuits e) as Hw. fold A B in Hw. rewrite Ey in Hw. cbn [obind] in Hw. rewrite Hw in HA0.
      destruct (down p s y); [discriminate|reflexivity].
  Qed.
End Reject.
