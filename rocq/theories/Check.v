(** * Deciding the preconditions on concrete structures

    Boolean versions of the preconditions, used to show that the theorems are not vacuous. *)

From Verif Require Export Ext Spec.

Definition on_lenb (o : option Z) (P : Z -> bool) : bool := match o with Some L => P L | None => true end.

Fixpoint splits (a : list Z) (l : list Z) : list (list Z) :=
  match l with [] => [] | x :: r => (a ++ r) :: splits (a ++ [x]) r end.

Definition zc_goodb (sl gl : nat) (ls : list Z) : bool :=
  forallb (fun x => (x mod 2 ^ Z.of_nat sl =? 0) && (x <=? 2 ^ Z.of_nat gl)) ls &&
  (prodl ls <? W) &&
  forallb (fun r => prodl (map (fun y => y / 2 ^ Z.of_nat sl) r) * 2 ^ (Z.of_nat (gl - sl) - 1) <? W) (splits [] ls).

Definition view_goodb (v : view) (L : dim -> option Z) (l : lenv) : bool :=
  match v with
  | VFix d i => on_lenb (L d) (fun n => vzd i <? n)
  | VShift d s => on_lenb (L d) (fun n => match l d with Some x => x + vzd s <=? n | None => vzd s <=? n end)
  | VSlice d s k => on_lenb (L d) (fun n => vzd s + vzd k <=? n)
  | VSpan d s e => on_lenb (L d) (fun n => (vzd s <=? vzd e) && (vzd e <=? n))
  | VStep d s r => on_lenb (L d) (fun n => (vzd s <? n + vzd r) && (n + vzd r <=? W))
  | VBlocks d M m =>
      match l M, l m with
      | Some x, Some y => on_lenb (L d) (fun n => x * y <=? n)
      | Some x, None => negb (x =? 0)
      | None, Some y => negb (y =? 0)
      | None, None => true end
  | VBlocksDyn d M m _ =>
      match l M, l m with
      | Some x, Some y => on_lenb (L d) (fun n => x * y <=? n)
      | Some x, None => negb (x =? 0) && on_lenb (L d) (fun n => n + x <=? W)
      | None, Some y => negb (y =? 0) && on_lenb (L d) (fun n => n + y <=? W)
      | None, None => true end
  | VMerge M m _ => match L M, L m with Some x, Some y => x * y <? W | _, _ => true end
  | VZCurve sl gl d ds => match omap L ds with Some ls => zc_goodb sl gl ls | None => true end
  | _ => true
  end.

Fixpoint goodb (s : struct) (l : lenv) (a : asg) : bool :=
  match s with
  | Scalar _ => true
  | Tuple d ts => match nthz (map (fun t => goodb t l a) ts) (a d) with Some P => P | None => true end
  | Vector d t => goodb t (fupd l d None) a
  | View v t =>
      let l' := view_lenv v l in
      let a' := view_asg v (ilen t) l a in
      view_goodb v (plen t l' a') l && goodb t l' a' &&
      match v with VReverse _ => goodb t l' a | _ => true end
  | Union _ => false
  end.

Fixpoint lenokb (s : struct) (l : lenv) : bool :=
  match s with
  | Scalar _ => true
  | Tuple _ ts => forallb (fun t => lenokb t l) ts
  | Vector d t => lenokb t (fupd l d None)
  | View v t => (match v with VMerge _ _ d => match l d with None => true | _ => false end | _ => true end)
                && lenokb t (view_lenv v l)
  | Union ts => forallb (fun t => lenokb t l) ts
  end.

Definition len_definedb (st : state) : bool :=
  forallb (fun p => match fst p with Len _ => match vz (snd p) with Some _ => true | None => false end | _ => true end) st.

Definition used_correctlyb (s : struct) (st : state) : bool :=
  swf s && lenokb s (lenv_of st) && goodb s (lenv_of st) (asg_of st) && len_definedb st.

Definition index_below_lengthb (s : struct) (st : state) (q : dim) : bool :=
  match length_ s q (remove [Idx q] st), get (Idx q) st with
  | Some len, Some i => match vz len, vz i with Some n, Some x => x <? n | _, _ => false end
  | _, _ => false end.

Definition names_elementb (s : struct) (st : state) : bool :=
  match dims_of s st with
  | Some p => forallb (fun e => match snd e with
                | Some _ => match get (Idx (fst e)) st with Some i => match vz i with Some _ => true | _ => false end | None => false end
                | None => index_below_lengthb s st (fst e) end) p
  | None => false end.

Lemma on_lenb_sound o (P : Z -> bool) (Q : Z -> Prop) : (forall x, P x = true -> Q x) -> on_lenb o P = true -> on_len o Q.
Proof. destruct o; simpl; auto. Qed.

Lemma splits_spec l : forall a b x c, l = b ++ x :: c -> In (a ++ b ++ c) (splits a l).
Proof.
  induction l as [|y l IH]; intros a b x c E; [destruct b; discriminate|]. destruct b as [|z b]; simpl in E; inv E.
  - left. reflexivity.
  - right. specialize (IH (a ++ [z]) b x c eq_refl). rewrite <- app_assoc in IH. exact IH.
Qed.

Lemma zc_goodb_sound sl gl ls : zc_goodb sl gl ls = true -> zc_good sl gl ls.
Proof.
  unfold zc_goodb. rewrite !andb_true_iff. intros [[H1 H2] H3]. split; [|split].
  - apply Forall_forall. intros x Hx. pose proof (proj1 (forallb_forall _ _) H1 x Hx) as H. simpl in H. lia.
  - lia.
  - intros a x b E. pose proof (splits_spec ls [] a x b E) as Hi. simpl in Hi.
    pose proof (proj1 (forallb_forall _ _) H3 _ Hi) as H. simpl in H. lia.
Qed.

Lemma view_goodb_sound v L l : view_goodb v L l = true -> view_good v L l.
Proof.
  destruct v; simpl; auto.
  - apply on_lenb_sound. intros; lia.
  - apply on_lenb_sound. intros x. destruct (l d); lia.
  - apply on_lenb_sound. intros; lia.
  - apply on_lenb_sound. intros; lia.
  - apply on_lenb_sound. intros; lia.
  - destruct (l M), (l m); auto; try (intros; lia). apply on_lenb_sound. intros; lia.
  - destruct (l M), (l m); auto.
    + apply on_lenb_sound. intros; lia.
    + rewrite andb_true_iff. intros [H1 H2]. split; [lia|]. revert H2. apply on_lenb_sound. intros; lia.
    + rewrite andb_true_iff. intros [H1 H2]. split; [lia|]. revert H2. apply on_lenb_sound. intros; lia.
  - destruct (L M), (L m); auto. lia.
  - destruct (omap L ds); auto. apply zc_goodb_sound.
Qed.

Lemma goodb_sound s : forall l a, goodb s l a = true -> good s l a.
Proof.
  induction s as [c|d ts IH|d t IH|v t IH|ts IH] using struct_ind'; intros l a.
  - reflexivity.
  - cbn [goodb good]. rewrite !nthz_map. destruct (nthz ts (a d)) as [t|] eqn:E; simpl; [|auto].
    rewrite Forall_forall in IH. apply IH. eapply nthz_In; eauto.
  - apply IH.
  - cbn [goodb good]. cbv zeta. rewrite !andb_true_iff. intros [[H1 H2] H3].
    split; [apply view_goodb_sound; auto|]. split; [auto|]. destruct v; auto.
  - discriminate.
Qed.

Lemma fold_and {A} (f : A -> Prop) (g : A -> bool) ts : (forall x, In x ts -> g x = true -> f x) ->
  forallb g ts = true -> fold_right and True (map f ts).
Proof.
  intros H. induction ts as [|x ts IH]; simpl; [auto|]. rewrite andb_true_iff. intros [H1 H2].
  split; [apply H; simpl; auto|]. apply IH; [|exact H2]. intros y Hy. apply H. simpl; auto.
Qed.

Lemma lenokb_sound s : forall l, lenokb s l = true -> lenok s l.
Proof.
  induction s as [c|d ts IH|d t IH|v t IH|ts IH] using struct_ind'; intros l.
  - constructor.
  - cbn [lenokb lenok]. rewrite Forall_forall in IH. apply fold_and. intros; apply IH; auto.
  - apply IH.
  - cbn [lenokb lenok]. rewrite andb_true_iff. intros [H1 H2]. split; [|auto]. destruct v; auto. destruct (l d); congruence.
  - cbn [lenokb lenok]. rewrite Forall_forall in IH. apply fold_and. intros; apply IH; auto.
Qed.

Lemma used_correctly_check s st : used_correctlyb s st = true -> used_correctly s st.
Proof.
  unfold used_correctlyb. rewrite !andb_true_iff. intros [[[H1 H2] H3] H4].
  split; [exact H1|]. split; [apply lenokb_sound; exact H2|]. split; [apply goodb_sound; exact H3|].
  intros d v E. apply get_Some_In in E. pose proof (proj1 (forallb_forall _ _) H4 _ E) as H. simpl in H.
  destruct (vz v); congruence.
Qed.

Lemma names_element_check s st p : dims_of s st = Some p -> names_elementb s st = true -> names_element s st p.
Proof.
  intros E. unfold names_elementb. rewrite E. intros H. split; [exact E|]. intros d k Hd.
  pose proof (proj1 (forallb_forall _ _) H _ Hd) as H'. simpl in H'. destruct k as [n|].
  - destruct (get (Idx d) st) as [i|]; [|discriminate]. destruct (vz i) as [x|] eqn:Ex; [|discriminate]. eauto.
  - unfold index_below_lengthb in H'. destruct (length_ s d (remove [Idx d] st)) as [len|] eqn:El; [|discriminate].
    destruct (get (Idx d) st) as [i|] eqn:Ei; [|discriminate]. destruct (vz len) as [y|] eqn:Ey; [|discriminate].
    destruct (vz i) as [x|] eqn:Ex; [|discriminate].
    exists [d], len, y, i, x. simpl. repeat split; auto. lia.
Qed.

Lemma fits_check s st : (isize s (lenv_of st) <? W) = true -> fits s st.
Proof. unfold fits. lia. Qed.
