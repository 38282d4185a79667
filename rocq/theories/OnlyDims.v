(** * States of a traversal have indices and lengths only *)

From Verif Require Export Traverser Refine Defined.

Definition dim_tag (t : tag) : Prop := match t with Other _ => False | _ => True end.
Definition only_dims (st : state) : Prop := Forall (fun e => dim_tag (fst e)) st.

Lemma only_get st n : only_dims st -> get (Other n) st = None.
Proof.
  induction st as [|[t v] st IH]; intros H; [reflexivity|]. inv H. cbn [get]. destruct t; cbn [dim_tag fst] in *; try contradiction; cbn [tag_eqb]; auto.
Qed.
Lemma only_remove ts st : only_dims st -> only_dims (remove ts st).
Proof. unfold only_dims, remove. rewrite !Forall_forall. intros H e He. apply filter_In in He. apply H, He. Qed.
Lemma only_with items st : only_dims items -> only_dims st -> only_dims (with_ items st).
Proof. intros H1 H2. unfold with_, only_dims. apply Forall_app. split; [apply only_remove, H2|exact H1]. Qed.

Lemma only_combine ds : forall vs, only_dims (combine (map Idx ds) vs).
Proof. induction ds as [|d ds IH]; intros [|v vs]; try constructor; [exact I|apply IH]. Qed.

Lemma only_rename ps st : only_dims st -> only_dims (rename_state ps st).
Proof.
  unfold only_dims, rename_state. rewrite !Forall_forall. intros H e He. apply in_map_iff in He. destruct He as (x & <- & Hx). apply filter_In in Hx. destruct Hx as [Hx _].
  specialize (H x Hx). destruct x as [[d|d|n] v]; cbn in *; auto.
Qed.

Local Ltac items := repeat first [apply Forall_nil | apply Forall_cons; [exact I|]].
Local Ltac go1 :=
  match goal with
  | |- only_dims (with_ _ _) => apply only_with; [first [solve [items]|apply only_combine]|]
  | |- only_dims (remove _ _) => apply only_remove
  | |- only_dims (rename_state _ _) => apply only_rename
  | H : only_dims ?st |- only_dims ?st => exact H
  | H : Some _ = Some ?x |- _ => injection H as <-
  | H : None = Some _ |- _ => discriminate H
  | H : context [match ?o with _ => _ end] |- _ => destruct o eqn:?
  | |- context [match ?o with _ => _ end] => destruct o eqn:?
  end.

Lemma only_sub v t st st' : only_dims st -> sub_state v t st = Some st' -> only_dims st'.
Proof.
  intros H E. unfold sub_state in E. destruct v; cbn [view_sub_state obind] in E; unfold obind, clean_blocks, clean_blocks_dyn, clean_blocks_sta, clean_merge, clean_zcurve, clean_join, guard in *; repeat go1.
Qed.

Lemma only_at x s : forall st st', only_dims st -> state_at x s st = Some st' -> only_dims st'.
Proof.
  induction s as [c|d ts IH|d t IH|v t IH|ts IH] using struct_ind'; intros st st' H E; cbn [state_at] in E; unfold guard in E; destruct (has_state_at _ _ _) as [[|]|]; try discriminate;
    destruct (same_type _ _); try discriminate; try (injection E as <-; exact H).
  destruct (sub_state v t st) as [st1|] eqn:E1; [|discriminate]. cbn [obind] in E. apply (IH st1 st'); [|exact E]. eapply only_sub; eauto.
Qed.

Theorem calls_only t ds calls r : for_each t ds = Done calls -> In r calls -> only_dims r.
Proof.
  unfold for_each. destruct (for_sections_with (state_ok t) t ds) as [| |ts]; try discriminate. cbn [out_bind]. destruct (omap tr_state ts) as [sts|] eqn:Eo; [|discriminate].
  intros E Hr. injection E as <-. destruct (omap_In_back _ _ _ _ Eo Hr) as (t' & _ & Et). unfold tr_state in Et. eapply only_at; [|exact Et]. constructor.
Qed.
