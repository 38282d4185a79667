(** * Views do not change the amount of memory: proofs *)

From Verif Require Export Shortcuts Access.

(** Views other than [set_length]. *)
Definition keeps_lengths (p : layer) : bool :=
  match p with LView (VSetLength _ _) | LVector _ => false | LView _ => true end.

(** No length is given through the state. *)
Definition no_lengths (st : state) : Prop := forall d, get (Len d) st = None.

Lemma fupd_none (l : lenv) d o : eqf l (fun _ => None) -> o = None -> eqf (fupd l d o) (fun _ => None).
Proof. intros Hl -> q. unfold fupd. destruct (_ =? _); auto. Qed.

Lemma fupds_none (l : lenv) xs : eqf l (fun _ => None) -> Forall (fun x => snd x = None) xs -> eqf (fupds l xs) (fun _ => None).
Proof.
  intros Hl H. induction H as [|[d o] xs Ho _ IH]; cbn [fupds]; [exact Hl|]. apply fupd_none; [exact IH|exact Ho].
Qed.

Lemma view_lenv_none v l : keeps_lengths (LView v) = true -> eqf l (fun _ => None) -> eqf (view_lenv v l) (fun _ => None).
Proof.
  intros Hk Hl. destruct v as [d|d i|d n|d st|d st len|d st en|d st sr|d|d M m|d M m pd|d b M m ml|M m d|sl gl d ds|ds|d|ps|xa xb d];
    cbn [view_lenv]; try discriminate; auto.
  - apply fupd_none; auto.
  - apply fupd_none; auto.
  - apply fupd_none; auto. rewrite Hl. reflexivity.
  - apply fupd_none; [apply fupds_none; auto|]. rewrite Hl. reflexivity.
  - apply fupd_none; [apply fupds_none; auto|]. rewrite Hl. reflexivity.
  - apply fupd_none; auto.
  - apply fupds_none; auto.
  - apply fupds_none; auto. apply Forall_forall. intros x Hx. apply in_map_iff in Hx. destruct Hx as (y & <- & _). reflexivity.
  - intros q. destruct (mem _ _); [apply Hl|]. destruct (mem _ _); [reflexivity|apply Hl].
  - apply fupds_none; auto. repeat constructor; simpl; auto.
Qed.

Lemma apply_isize p : forallb keeps_lengths p = true -> forall t l, eqf l (fun _ => None) -> isize (apply p t) l = isize t l.
Proof.
  induction p as [|x p IH]; intros Hp t l Hl; [reflexivity|]. cbn [forallb] in Hp. apply andb_true_iff in Hp. destruct Hp as [Hx Hp].
  unfold apply in *. cbn [fold_left]. rewrite (IH Hp _ _ Hl). destruct x as [d|v]; [discriminate|]. cbn [apply_layer isize].
  apply isize_ext. intros q. rewrite (view_lenv_none v l Hx Hl q). symmetry. apply Hl.
Qed.

Lemma no_lengths_lenv st : no_lengths st -> eqf (lenv_of st) (fun _ => None).
Proof. intros H q. unfold lenv_of. rewrite H. reflexivity. Qed.

Lemma apply_down p : forallb keeps_lengths p = true -> forall t l, eqf l (fun _ => None) ->
  swf (apply p t) = true -> signature (apply p t) <> None -> lenok (apply p t) l -> swf t = true /\ signature t <> None /\ lenok t l.
Proof.
  induction p as [|x p IH]; intros Hp t l Hl Hw Hs Hk; [auto|]. cbn [forallb] in Hp. apply andb_true_iff in Hp. destruct Hp as [Hx Hp].
  unfold apply in *. cbn [fold_left] in *. destruct (IH Hp _ _ Hl Hw Hs Hk) as (A & B & C). destruct x as [d|v]; [discriminate|].
  cbn [apply_layer] in *. cbn [swf] in A. apply andb_true_iff in A. cbn [lenok] in C. split; [tauto|]. split.
  - cbn [signature] in B. destruct (signature t); congruence.
  - destruct C as [_ C]. eapply lenok_ext; [|exact C]. intros q. rewrite (view_lenv_none v l Hx Hl q). symmetry. apply Hl.
Qed.

Theorem views_keep_size p t st st' n n' : forallb keeps_lengths p = true ->
  swf (apply p t) = true -> signature (apply p t) <> None -> lenok (apply p t) (lenv_of st') ->
  no_lengths st -> no_lengths st' -> get_size t st = Some n -> get_size (apply p t) st' = Some n' ->
  exists x, vz n = Some x /\ vz n' = Some x.
Proof.
  intros Hp Hw Hs Hk Hl Hl' E E'. pose proof (no_lengths_lenv _ Hl) as Z. pose proof (no_lengths_lenv _ Hl') as Z'.
  destruct (apply_down p Hp t _ Z' Hw Hs Hk) as (Hw0 & Hs0 & Hk0).
  assert (Hd : forall s, no_lengths s -> lendef s) by (intros s H d w; rewrite H; discriminate).
  pose proof (size_spec _ Hw Hs st' _ _ n' Hk (agree_of st') (Hd _ Hl') E') as A.
  assert (Hk1 : lenok t (lenv_of st)) by (eapply lenok_ext; [|exact Hk0]; intros q; rewrite Z, Z'; reflexivity).
  pose proof (size_spec _ Hw0 Hs0 st _ _ n Hk1 (agree_of st) (Hd _ Hl) E) as B.
  rewrite (apply_isize p Hp _ _ Z') in A. rewrite (isize_ext t (lenv_of st') (lenv_of st)) in A by (intros q; rewrite Z, Z'; reflexivity).
  eauto.
Qed.
