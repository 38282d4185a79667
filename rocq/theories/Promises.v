(** * Proofs about the promises of the introspection queries *)

From Verif Require Import Check Avail IntrospectFacts Introspect LowerBound Striped SpecAvail SpecPromise.

Lemma remove_with_idx d x st : remove [Idx d; Len d] (with_ [(Idx d, x)] st) = remove [Idx d; Len d] st.
Proof.
  unfold with_, remove. rewrite filter_app. cbn [map fst].
  assert (E0 : List.filter (fun p : tag * val => negb (tag_mem (fst p) [Idx d; Len d])) [(Idx d, x)] = []) by (cbn; rewrite Z.eqb_refl; reflexivity).
  rewrite E0.
  rewrite app_nil_r. induction st as [|[u y] st IH]; [reflexivity|]. cbn [List.filter fst].
  destruct (tag_mem u [Idx d]) eqn:E1; cbn [negb].
  - rewrite IH. assert (E2 : tag_mem u [Idx d; Len d] = true). { revert E1. cbn. destruct (tag_eqb u (Idx d)); [reflexivity|discriminate]. } rewrite E2. reflexivity.
  - cbn [List.filter fst]. rewrite IH. reflexivity.
Qed.

Lemma guard_Has {A} b (x : option A) : guard b x <> None -> x <> None.
Proof. destruct b as [[|]|]; cbn; congruence. Qed.

Lemma vector_size d t st : size_ (Vector d t) st <> None -> (exists l, get (Len d) st = Some l) /\ size_ t (remove [Idx d; Len d] st) <> None.
Proof.
  cbn [size_]. intros E. apply guard_Has in E. destruct (get (Len d) st) as [l|]; [|cbn in E; congruence]. cbn [obind] in E. split; [eauto|].
  destruct (size_ t _); [discriminate|cbn in E; congruence].
Qed.

Lemma view_size v t st : size_ (View v t) st <> None -> exists st', sub_state v t st = Some st' /\ size_ t st' <> None.
Proof. cbn [size_]. intros E. apply guard_Has in E. destruct (sub_state v t st) as [st'|]; [|cbn in E; congruence]. eauto. Qed.

Lemma size_acc_all l : forall start, size_acc start l <> None -> Forall (fun o => o <> None) l.
Proof. induction l as [|[[a z]|] l IH]; intros start H; [constructor| |cbn in H; congruence]. constructor; [discriminate|]. exact (IH _ H). Qed.

Lemma tuple_size d ts st : size_ (Tuple d ts) st <> None -> Forall (fun o => o <> None) (comp_sizes ts (remove [Idx d] st)).
Proof. cbn [size_]. intros E. apply guard_Has in E. exact (size_acc_all _ _ E). Qed.

Lemma comp_size ts t st : Forall (fun o => o <> None) (comp_sizes ts st) -> In t ts -> size_ t st <> None.
Proof.
  intros F Hin. rewrite Forall_forall in F. unfold comp_sizes in F.
  specialize (F _ (in_map (fun t => match align_ t st, size_ t st with Some a, Some sz => Some (a, sz) | _, _ => None end) ts t Hin)). cbn beta in F.
  destruct (align_ t st); [|congruence]. destruct (size_ t st); [discriminate|congruence].
Qed.

Lemma vector_child d t st : has_offset_of t (Vector d t) st = Some true -> size_ (Vector d t) st <> None -> offset_of t (Vector d t) st (Sta 0) <> None.
Proof.
  intros H E. destruct (vector_size _ _ _ E) as [[l El] Et]. cbn [offset_of]. rewrite H. cbn [guard]. cbn [has_offset_of] in H.
  rewrite same_type_below in *. unfold has in H. destruct (get (Idx d) st) as [i|]; [|discriminate]. rewrite El. cbn [obind].
  destruct (is_sta 1 l); [rewrite offset_here by apply same_type_refl; discriminate|].
  destruct (size_ t _); [|congruence]. cbn [obind]. rewrite offset_here by apply same_type_refl. discriminate.
Qed.

Lemma tuple_child d ts t k st : has_offset_of t (Tuple d ts) st = Some true -> tuple_index d st = Some k -> nthz ts k = Some t ->
  size_ (Tuple d ts) st <> None -> offset_of t (Tuple d ts) st (Sta 0) <> None.
Proof.
  intros H Ek Et E. apply tuple_size in E. cbn [offset_of]. rewrite H. cbn [guard]. destruct (same_type t (Tuple d ts)); [discriminate|].
  rewrite Ek. cbn [obind].
  assert (Hb : size_acc (Sta 0) (comp_sizes (firstn (Z.to_nat k) ts) (remove [Idx d] st)) <> None).
  { apply size_acc_ok. unfold comp_sizes in *. rewrite firstn_map || rewrite <- firstn_map. rewrite Forall_forall in *. intros o Ho. apply E.
    rewrite <- (firstn_skipn (Z.to_nat k)). apply in_or_app. left. exact Ho. }
  destruct (size_acc _ _) as [b|]; [|congruence]. cbn [obind]. rewrite nthz_map, Et. cbn [option_map ojoin].
  rewrite offset_here by apply same_type_refl. discriminate.
Qed.

Lemma size_with_idx d t x st : size_ (Vector d t) st <> None -> size_ (Vector d t) (with_ [(Idx d, x)] st) <> None.
Proof.
  cbn [size_ has_size]. rewrite remove_with_idx. replace (get (Len d) (with_ [(Idx d, x)] st)) with (get (Len d) st).
  - replace (has (Len d) (with_ [(Idx d, x)] st)) with (has (Len d) st); [exact (fun H => H)|]. rewrite has_with. reflexivity.
  - rewrite get_with. reflexivity.
Qed.

Lemma oand_true a b : oand a b = Some true -> a = Some true /\ b = Some true.
Proof. destruct a as [[|]|], b as [[|]|]; cbn; try discriminate; auto. Qed.

Lemma stride_promise s : signature s <> None -> queries_ok s ->
  forall q st, size_ s st <> None -> has_stride_along s q st = Some true -> stride_along s q st <> None.
Proof.
  induction s as [c|d ts IH|d t IH|v t IH|ts IH] using struct_ind'; intros Hs Hq q st E H; try discriminate.
  - pose proof H as H0. cbn [stride_along]. rewrite H. cbn [guard]. cbn [has_stride_along] in H0. destruct (q =? d).
    + destruct (has (Len d) st && negb (has (Idx d) st)); [|discriminate]. apply oand_true in H0. destruct H0 as [H0 H1].
      pose proof (vector_child d t _ H0 (size_with_idx _ _ _ _ E)) as G0. pose proof (vector_child d t _ H1 (size_with_idx _ _ _ _ E)) as G1.
      destruct (offset_of t (Vector d t) (with_ [(Idx d, Sta 1)] st) (Sta 0)); [|congruence].
      destruct (offset_of t (Vector d t) (with_ [(Idx d, Sta 0)] st) (Sta 0)); [|congruence]. discriminate.
    + apply signature_vector in Hs. destruct (vector_size _ _ _ E) as [_ Et]. apply IH; auto.
  - destruct (view_size _ _ _ E) as (st' & Es & E'). destruct (signature_view _ _ Hs) as (sg & Eg & _).
    assert (Hsg : signature t <> None) by congruence. assert (Hqt : queries_ok t) by (destruct Hq as [_ Hq]; exact Hq).
    pose proof (has_length_exact (View v t) Hq Hs) as HL.
    assert (Hsub : forall q', has_stride_along t q' st' = Some true -> exists x, stride_along t q' st' = Some x).
    { intros q' H'. pose proof (IH Hsg Hqt q' st' E' H') as G. destruct (stride_along t q' st') as [x|]; [eauto|congruence]. }
    clear IH. cbn [stride_along]. rewrite H. cbn [guard]. cbn [has_stride_along] in H.
    destruct v as [d|d i|d l|d s|d s l|d s e|d s r|d|d M m|d M m p|d b M m l|M m d|sl gl d ds|ds|d|ps|a b d]; try discriminate; rewrite ?Es in H |- *; cbn [obind] in H |- *;
      try (destruct (Hsub _ H) as [x ->]; discriminate).
    + destruct (q =? d); [discriminate|]. destruct (Hsub _ H) as [x ->]. discriminate.
    + destruct (q =? m); [destruct (Hsub _ H) as [x ->]; discriminate|]. destruct (q =? M).
      * destruct (has_length (View (VBlocks d M m) t) m st) as [[|]|] eqn:Eh; cbn [obind] in H; try discriminate.
        pose proof (HL m st Eh) as G. destruct (length_ (View (VBlocks d M m) t) m st); [|congruence]. destruct (Hsub _ H) as [x ->]. discriminate.
      * destruct (_ || _); [discriminate|]. destruct (Hsub _ H) as [x ->]. discriminate.
    + destruct (q =? m); [destruct (Hsub _ H) as [x ->]; discriminate|]. destruct (q =? M).
      * destruct (has_length (View (VBlocksDyn d M m p) t) m st) as [[|]|] eqn:Eh; cbn [obind] in H; try discriminate.
        pose proof (HL m st Eh) as G. destruct (length_ (View (VBlocksDyn d M m p) t) m st); [|congruence]. destruct (Hsub _ H) as [x ->]. discriminate.
      * destruct (q =? p); [discriminate|]. destruct (q =? d); [discriminate|]. destruct (Hsub _ H) as [x ->]. discriminate.
    + destruct (q =? m); [destruct (Hsub _ H) as [x ->]; discriminate|]. destruct (q =? M).
      * destruct (has_length (View (VBlocksSta d b M m l) t) m st) as [[|]|] eqn:Eh; cbn [obind] in H; try discriminate.
        pose proof (HL m st Eh) as G. destruct (length_ (View (VBlocksSta d b M m l) t) m st); [|congruence]. destruct (Hsub _ H) as [x ->]. discriminate.
      * destruct (_ || _); [discriminate|]. destruct (Hsub _ H) as [x ->]. discriminate.
    + destruct (rename_hides ps q); [discriminate|]. destruct (Hsub _ H) as [x ->]. discriminate.
    + destruct (q =? d).
      * apply oand_true in H. destruct H as [H1 H2]. destruct (Hsub _ H1) as [x ->]. destruct (Hsub _ H2) as [y ->]. discriminate.
      * destruct (_ || _); [discriminate|]. destruct (Hsub _ H) as [x ->]. discriminate.
Qed.

Lemma offset_promise s : no_blocks s = true ->
  forall q st, size_ s st <> None -> has_offset_along s q st = Some true -> offset_along s q st <> None.
Proof.
  induction s as [c|d ts IH|d t IH|v t IH|ts IH] using struct_ind'; intros Hn q st E H; try discriminate.
  - pose proof H as H0. cbn [offset_along]. rewrite H. cbn [guard]. cbn [has_offset_along] in H0.
    destruct (tuple_index d st) as [k|] eqn:Ek; [|discriminate]. cbn [obind]. destruct (k <? _); [|discriminate]. destruct (q =? d).
    + destruct (nthz ts k) as [t|] eqn:Et; [|discriminate]. cbn [obind] in *. eapply tuple_child; eauto.
    + rewrite nthz_map in H0. rewrite nthz_map. destruct (nthz ts k) as [t|] eqn:Et; [|discriminate]. cbn [option_map ojoin] in H0 |- *. pose proof (nthz_In _ _ _ Et) as Hin.
      simpl in Hn. rewrite Forall_forall in IH. rewrite forallb_forall in Hn. apply (IH t Hin); auto. eapply comp_size; [exact (tuple_size _ _ _ E)|exact Hin].
  - pose proof H as H0. cbn [offset_along]. rewrite H. cbn [guard]. cbn [has_offset_along] in H0.
    destruct (vector_size _ _ _ E) as [[l El] Et]. destruct (q =? d).
    + cbn [has_offset_of] in H0. rewrite same_type_below in H0. unfold has in H0.
      destruct (get (Idx d) st) as [i|]; [|discriminate]. cbn [obind].
      destruct (size_ t _); [|congruence]. discriminate.
    + apply IH; auto.
  - destruct (view_size _ _ _ E) as (st' & Es & E'). simpl in Hn. apply andb_true_iff in Hn. destruct Hn as [Hv Hn].
    assert (Hsub : forall q', has_offset_along t q' st' = Some true -> exists x, offset_along t q' st' = Some x).
    { intros q' H'. pose proof (IH Hn q' st' E' H') as G. destruct (offset_along t q' st') as [x|]; [eauto|congruence]. }
    clear IH. cbn [offset_along]. rewrite H. cbn [guard]. cbn [has_offset_along] in H.
    destruct v as [d|d i|d l|d s|d s l|d s e|d s r|d|d M m|d M m p|d b M m l|M m d|sl gl d ds|ds|d|ps|a b d]; try discriminate; rewrite ?Es in H |- *; cbn [obind] in H |- *;
      try (destruct (Hsub _ H) as [x ->]; discriminate).
    + destruct (q =? d); [discriminate|]. destruct (Hsub _ H) as [x ->]. discriminate.
    + destruct (q =? d).
      * apply oand_true in H. destruct H as [H1 H2]. destruct (Hsub _ H1) as [x ->]. destruct (Hsub _ H2) as [y ->]. discriminate.
      * destruct (_ || _); [discriminate|]. destruct (Hsub _ H) as [x ->]. discriminate.
    + destruct (rename_hides ps q); [discriminate|]. destruct (Hsub _ H) as [x ->]. discriminate.
    + destruct (q =? d).
      * apply oand_true in H. destruct H as [H1 H2]. destruct (Hsub _ H1) as [x ->]. destruct (Hsub _ H2) as [y ->]. discriminate.
      * destruct (_ || _); [discriminate|]. destruct (Hsub _ H) as [x ->]. discriminate.
Qed.

Lemma bound_promise s : no_blocks s = true -> no_slices s = true ->
  forall q st, has_lower_bound s q st = Some true -> lower_bound s q st None <> None.
Proof.
  induction s as [c|d ts IH|d t IH|v t IH|ts IH] using struct_ind'; intros Hn Hl q st H; try discriminate.
  - pose proof H as H0. cbn [lower_bound]. rewrite H. cbn [guard tuple_interval]. cbn [has_lower_bound] in H0.
    destruct (has (Idx d) st); [|discriminate]. destruct (tuple_index d st) as [k|]; [|discriminate]. cbn [obind]. destruct (k <? _); [|discriminate].
    destruct (q =? d); [discriminate|]. rewrite nthz_map in H0. rewrite nthz_map. destruct (nthz ts k) as [t|] eqn:Et; [|discriminate]. cbn [option_map ojoin] in H0 |- *.
    pose proof (nthz_In _ _ _ Et) as Hin. simpl in Hn, Hl. rewrite forallb_forall in *. rewrite Forall_forall in IH. apply (IH t Hin); auto.
  - pose proof H as H0. cbn [lower_bound]. rewrite H. cbn [guard]. cbn [has_lower_bound] in H0. destruct (q =? d); [discriminate|]. apply IH; auto.
  - simpl in Hn, Hl. apply andb_true_iff in Hn, Hl. destruct Hn as [Hv Hn]. destruct Hl as [Hv' Hl].
    assert (Hsub : forall q', (do st' <- sub_state v t st; has_lower_bound t q' st') = Some true -> exists x, (do st' <- sub_state v t st; lower_bound t q' st' None) = Some x).
    { intros q' H'. destruct (sub_state v t st) as [st'|]; [|discriminate]. cbn [obind] in *. pose proof (IH Hn Hl q' st' H') as G. destruct (lower_bound t q' st' None) as [x|]; [eauto|congruence]. }
    clear IH. cbn [lower_bound]. rewrite H. cbn [guard]. cbn [has_lower_bound] in H.
    destruct v as [d|d i|d l|d s|d s l|d s e|d s r|d|d M m|d M m p|d b M m l|M m d|sl gl d ds|ds|d|ps|a b d]; try discriminate;
      try (destruct (Hsub _ H) as [x ->]; discriminate).
    + destruct (q =? d); [discriminate|]. destruct (Hsub _ H) as [x ->]. discriminate.
    + destruct (q =? d).
      * apply oand_true in H. destruct H as [H1 H2]. destruct (Hsub _ H1) as [x ->]. destruct (Hsub _ H2) as [y ->]. discriminate.
      * destruct (_ || _); [discriminate|]. destruct (Hsub _ H) as [x ->]. discriminate.
    + destruct (rename_hides ps q); [discriminate|]. destruct (Hsub _ H) as [x ->]. discriminate.
Qed.

Lemma scalar_striped_is n b bw s p : scalar_striped n b bw s = Some p ->
  sp_num p = n /\ sp_banks p = b /\ sp_width p = bw /\ sp_sub p = s /\ exists c, scalar_t s [] = Some c /\ sp_elem p = Scalar c.
Proof. unfold scalar_striped. destruct (scalar_t s []) as [c|]; [|discriminate]. cbn [obind]. intros H. injection H as <-. repeat split. exists c. auto. Qed.
