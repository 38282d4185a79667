(** * Availability queries and operations (C26) *)

From Verif Require Export Parts SpecAvail.

(** ** Lengths *)

Definition answers (hl : hl_t) (ln : ln_t) : Prop := forall q st, hl q st = Some true -> ln q st <> None.

Lemma answers_get hl ln q st : answers hl ln -> hl q st = Some true -> exists x, ln q st = Some x.
Proof. intros A E. specialize (A q st E). destruct (ln q st); [eauto|congruence]. Qed.

Lemma view_answers v vs hl ln : answers hl ln ->
  (forall d, v <> VReverse d) -> (exists s0, view_sig v s0 <> None) ->
  (forall d s r st, v = VStep d s r -> has (Idx d) st = true -> hl d st <> Some true) ->
  answers (fun q st => view_has_length v vs hl ln q st) (fun q st => guard (view_has_length v vs hl ln q st) (view_length v hl ln q st)).
Proof.
  intros A H2 [s0 Hs0] H5 q st E. rewrite E. cbn [guard].
  assert (Hsub : forall st', (do st1 <- view_sub_state v hl ln st; hl q st1) = Some true -> view_sub_state v hl ln st = Some st' -> ln q st' <> None).
  { intros st' E' Es. rewrite Es in E'. exact (A _ _ E'). }
  assert (Hsub' : (do st1 <- view_sub_state v hl ln st; hl q st1) = Some true -> (do st1 <- view_sub_state v hl ln st; ln q st1) <> None).
  { intros E'. destruct (view_sub_state v hl ln st) as [st'|] eqn:Es; [|discriminate]. exact (Hsub st' E' eq_refl). }
  destruct v as [d|d i|d l|d s|d s l|d s e|d s r|d|d M m|d M m p|d b M m l|M m d|sl gl d ds|ds|d|ps|a b d];
    try (exfalso; eapply H2; reflexivity); unfold view_has_length in E; unfold view_length; cbv zeta in E |- *;
    try (exact (Hsub' E)).
  - destruct (q =? d); [|exact (Hsub' E)]. unfold has in E. destruct (get (Len d) st); discriminate.
  - destruct (q =? d); [discriminate|exact (Hsub' E)].
  - destruct (q =? d) eqn:Eq; cbn [andb] in E; [|exact (Hsub' E)].
    unfold has in E. destruct (get (Len d) st) as [x|]; [discriminate|]. apply Hsub' in E.
    destruct (do st' <- _; ln q st') as [x|]; [discriminate|congruence].
  - destruct (q =? d); [discriminate|exact (Hsub' E)].
  - destruct (q =? d); [discriminate|exact (Hsub' E)].
  - destruct (Z.eqb_spec q d) as [->|]; [|exact (Hsub' E)]. cbn [view_sub_state obind] in E.
    destruct (get (Idx d) st) as [i|] eqn:Ei.
    + exfalso. refine (H5 d s r _ eq_refl _ E). rewrite has_with. unfold has. simpl. rewrite Z.eqb_refl. reflexivity.
    + destruct (answers_get _ _ _ _ A E) as [x ->]. discriminate.
  - (* blocks *) destruct (Z.eqb_spec q m) as [->|].
    { unfold has in E. destruct (get (Idx m) st) as [im|] eqn:Ei; [discriminate|]. destruct (get (Len m) st) as [x|] eqn:El; [discriminate|].
      cbn [view_sub_state] in E. rewrite El in E. destruct (get (Len M) st) as [lM|] eqn:ElM.
      - destruct (hl d (clean_blocks d M m st)) as [[|]|] eqn:Eh; cbn [obind negb] in E; try discriminate.
        + destruct (answers_get _ _ _ _ A Eh) as [x Ex]. cbn [obind]. rewrite Ex. discriminate.
        + rewrite Eh in E. discriminate.
      - destruct (hl d (clean_blocks d M m st)) as [[|]|] eqn:Eh; cbn [obind negb] in E; try discriminate; rewrite Eh in E; discriminate. }
    destruct (Z.eqb_spec q M) as [->|].
    { unfold has in E. destruct (get (Idx M) st) as [iM|] eqn:Ei; [discriminate|]. destruct (get (Len M) st) as [x|] eqn:El; [discriminate|].
      destruct (get (Len m) st) as [lm|] eqn:Elm; [|destruct (do st' <- view_sub_state _ _ _ _; hl d st'); discriminate]. cbn [obind].
      destruct (view_sub_state (VBlocks d M m) hl ln st) as [st'|]; [|discriminate]. cbn [obind] in E |- *.
      destruct (hl d st') as [[|]|] eqn:Eh; try discriminate. destruct (answers_get _ _ _ _ A Eh) as [x ->]. discriminate. }
    destruct (q =? d); [discriminate|exact (Hsub' E)].
  - (* blocks, dynamic *) destruct (Z.eqb_spec q p) as [->|].
    { unfold has in E. destruct (get (Idx M) st) as [iM|] eqn:EiM; [|discriminate]. destruct (get (Idx m) st) as [im|] eqn:Eim; [|discriminate].
      cbn [andb negb obind] in E |- *. destruct (get (Len m) st) as [lm|] eqn:Elm, (get (Len M) st) as [lM|] eqn:ElM; cbn [andb negb] in E; cbv iota beta in E |- *; try discriminate;
      (destruct (clean_blocks_dyn d M m p st) as [cs|]; [|discriminate]; cbn [obind] in E |- *; destruct (answers_get _ _ _ _ A E) as [x ->]; discriminate). }
    destruct (Z.eqb_spec q m) as [->|].
    { unfold has in E. destruct (get (Idx m) st) as [im|] eqn:Ei; [discriminate|]. destruct (get (Len m) st) as [x|] eqn:El; [discriminate|].
      cbn [view_sub_state] in E. rewrite El, Ei in E. destruct (clean_blocks_dyn d M m p st) as [cs|]; [|discriminate]. cbn [obind] in E |- *.
      destruct (get (Len M) st) as [lM|] eqn:ElM.
      - assert (E' : (do h <- hl d cs; Some (true && h)) = Some true) by (destruct (get (Idx M) st); exact E).
        destruct (hl d cs) as [[|]|] eqn:Eh; try discriminate. destruct (answers_get _ _ _ _ A Eh) as [x Ex]. cbn [obind]. rewrite Ex. discriminate.
      - cbn [obind] in E. destruct (hl d cs) as [[|]|]; discriminate. }
    destruct (Z.eqb_spec q M) as [->|].
    { unfold has in E. destruct (get (Idx M) st) as [iM|] eqn:Ei; [discriminate|]. destruct (get (Len M) st) as [x|] eqn:El; [discriminate|].
      destruct (get (Len m) st) as [lm|] eqn:Elm; [|destruct (do st' <- view_sub_state _ _ _ _; hl d st'); discriminate]. cbn [obind].
      destruct (view_sub_state (VBlocksDyn d M m p) hl ln st) as [st'|]; [|discriminate]. cbn [obind] in E |- *.
      destruct (hl d st') as [[|]|] eqn:Eh; try discriminate. destruct (answers_get _ _ _ _ A Eh) as [x ->]. discriminate. }
    destruct (q =? d); [discriminate|exact (Hsub' E)].
  - (* blocks, static *) destruct (has (Idx q) st); [discriminate|].
    assert (Hfull : (do st' <- view_sub_state (VBlocksSta d b M m l) hl ln st; hl d st') = Some true ->
      exists x, (do st' <- view_sub_state (VBlocksSta d b M m l) hl ln st; ln d st') = Some x).
    { intros E'. destruct (view_sub_state _ hl ln st) as [st'|]; [|discriminate]. exact (answers_get _ _ _ _ A E'). }
    assert (HMm : M <> m).
    { intros ->. apply Hs0. unfold view_sig. rewrite Z.eqb_refl, !orb_true_r. reflexivity. }
    destruct (q =? b); [discriminate|]. destruct (Z.eqb_spec q M) as [e1|]; destruct (Z.eqb_spec q m) as [e2|]; try congruence.
    + destruct (is_body b st) as [[|]|]; cbn [obind] in *; try discriminate. destruct (Hfull E) as [x ->]. discriminate.
    + destruct (is_body b st) as [[|]|]; cbn [obind] in *; try discriminate. destruct (Hfull E) as [x ->]. discriminate.
    + destruct (q =? d); [discriminate|exact (Hsub' E)].
  - (* merge *) destruct (has (Idx q) st); [discriminate|]. destruct (q =? d).
    + unfold has in E. destruct (get (Len d) st) as [x|]; [discriminate|]. destruct (view_sub_state _ hl ln st) as [st'|]; [|discriminate]. cbn [obind] in E |- *.
      destruct (hl M st') as [[|]|] eqn:EM; try discriminate; destruct (hl m st') as [[|]|] eqn:Em; try discriminate.
      destruct (answers_get _ _ _ _ A EM) as [x ->], (answers_get _ _ _ _ A Em) as [y ->]. discriminate.
    + destruct ((q =? m) || (q =? M)); [discriminate|exact (Hsub' E)].
  - (* zcurve *) destruct (has (Idx q) st); [discriminate|]. destruct (q =? d); [|exact (Hsub' E)].
    destruct (view_sub_state _ hl ln st) as [st'|]; [|discriminate]. cbn [obind] in E |- *.
    assert (Hds : ds <> []) by (intros ->; apply Hs0; unfold view_sig; cbn; rewrite !andb_false_r; reflexivity).
    assert (Hl : exists ls, omap (fun x => ln x st') ds = Some ls /\ (ls = [] -> ds = [])).
    { clear -E A. induction ds as [|x ds IH]; [exists []; split; reflexivity|]. cbn [map oall] in E.
      destruct (hl x st') as [[|]|] eqn:Ex; cbn [oand] in E; destruct (oall _) as [[|]|]; try discriminate.
      destruct (IH eq_refl) as (ls & El & _). destruct (answers_get _ _ _ _ A Ex) as [y Ey]. exists (y :: ls). cbn [omap]. rewrite Ey.
      simpl. simpl in El. rewrite El. split; [reflexivity|discriminate]. }
    destruct Hl as (ls & -> & Hn). cbn [obind]. destruct ls; [exfalso; auto|discriminate].
  - (* reorder *) destruct vs as [sg|]; [|discriminate]. destruct (do st' <- _; hl q st') as [[|]|] eqn:E'; cbn [oand] in E; try (rewrite andb_false_r in E); try discriminate.
    exact (Hsub' eq_refl).
  - (* rename *) destruct (view_sub_state _ hl ln st) as [st'|]; [|discriminate]. exact (A _ _ E).
Qed.

Theorem has_length_exact s : queries_ok s -> signature s <> None -> answers (has_length s) (length_ s).
Proof.
  unfold has_length, length_. induction s as [c|d ts IH|d t IH|v t IH|ts IH] using struct_ind'; intros Hq Hs.
  - intros q st E. discriminate.
  - pose proof (signature_tuple _ _ Hs) as Hss. intros q st E. cbn [lenops snd fst] in *. rewrite E. cbn [guard].
    destruct (q =? d); [discriminate|]. destruct (has (Idx d) st); [|discriminate].
    destruct (get (Idx d) st) as [v|]; [|discriminate]. destruct (vstatic v) as [k|]; [|discriminate]. rewrite nthz_map in *.
    destruct (nthz ts k) as [t|] eqn:Et; [|discriminate]. cbn [option_map obind] in *. pose proof (nthz_In _ _ _ Et) as Hin.
    rewrite Forall_forall in IH, Hss. apply (IH t Hin); auto. clear -Hq Hin. simpl in Hq. induction ts as [|u ts IHt]; [destruct Hin|].
    destruct Hq as [H1 H2]. destruct Hin as [->|Hin]; auto.
  - apply signature_vector in Hs. specialize (IH Hq Hs). intros q st E. cbn [lenops snd fst] in *. rewrite E. cbn [guard].
    destruct (q =? d); [|exact (IH _ _ E)]. unfold has in E. destruct (get (Len d) st); discriminate.
  - destruct (signature_view _ _ Hs) as (s0 & E0 & Hv). destruct Hq as [Hq1 Hq2]. specialize (IH Hq2 ltac:(congruence)).
    cbn [lenops fst snd]. rewrite E0. apply view_answers; auto.
    + intros d ->. destruct Hq1.
    + exists s0. exact Hv.
    + intros d s r st -> Hi. exact (Hq1 st Hi).
  - intros q st E. cbn [lenops snd fst] in *. rewrite E. cbn [guard].
    assert (Hss : Forall (fun t => signature t <> None) ts).
    { clear -Hs. cbn [signature] in Hs. destruct (omap signature ts) as [ss|] eqn:Es; [|congruence]. apply omap_Some_Forall2 in Es.
      clear -Es. induction Es; constructor; auto. congruence. }
    rewrite Forall_forall in IH. rewrite Forall_forall in Hss.
    assert (Hin : forall o, first_match q (map (fun t => (signature t, lenops t)) ts) = Some (Some o) -> exists t, In t ts /\ o = lenops t).
    { clear. induction ts as [|t ts IHt]; intros o E; simpl in E; [discriminate|]. destruct (signature t) as [sg|]; [|discriminate].
      destruct (any_accept q sg); [injection E as <-; exists t; split; [left|]; reflexivity|].
      destruct (IHt _ E) as (u & Hu & ->). exists u. split; [right; exact Hu|reflexivity]. }
    destruct (first_match q _) as [[o|]|]; try discriminate. destruct (Hin o eq_refl) as (t & Ht & ->). apply (IH t Ht); auto.
    clear -Hq Ht. simpl in Hq. induction ts as [|u ts IHt]; [destruct Ht|]. destruct Hq as [H1 H2]. destruct Ht as [->|Ht]; auto.
Qed.

(** ** Sizes *)

Lemma oall_true l : oall l = Some true -> Forall (fun x => x = Some true) l.
Proof.
  induction l as [|x l IH]; intros E; constructor; cbn [oall] in E; destruct x as [[|]|], (oall l) as [[|]|]; try discriminate; auto.
Qed.

Lemma same_align_ok l z : l <> [] -> Forall (fun o => exists x, o = Some (Sta x) /\ u64 x = z) l -> exists x, same_align l = Some (Sta x) /\ u64 x = z.
Proof.
  intros Hn F. induction F as [|o l (x & -> & Hx) F IH]; [congruence|]. destruct l as [|o2 l]; [exists x; split; [reflexivity|exact Hx]|].
  destruct (IH ltac:(discriminate)) as (y & Ey & Hy). cbn [same_align] in *. rewrite Ey. rewrite Hx, Hy, Z.eqb_refl. eauto.
Qed.

Lemma align_ok s : aligned s = true -> swf s = true -> signature s <> None -> forall st, has_size s st = Some true -> align_ s st <> None.
Proof.
  induction s as [c|d ts IH|d t IH|v t IH|ts IH] using struct_ind'; intros Ha Hw Hs st E; cbn [align_]; rewrite E; cbn [guard]; try discriminate.
  - pose proof (signature_tuple _ _ Hs) as Hss. pose proof (swf_tuple _ _ Hw) as Hws. cbn [has_size] in E. apply oall_true in E.
    simpl in Ha. apply andb_true_iff in Ha. destruct Ha as [Ha Has]. destruct ts as [|t0 ts]; [discriminate|].
    destruct (same_align_ok (map (fun t => align_ t (remove [Idx d] st)) (t0 :: ts)) (ialign t0)) as (x & -> & _); [discriminate| |discriminate].
    rewrite Forall_forall in *. rewrite forallb_forall in *. intros o Ho. apply in_map_iff in Ho. destruct Ho as (t & <- & Ht).
    pose proof (IH t Ht (Has t Ht) (Hws t Ht) (Hss t Ht) (remove [Idx d] st)) as H.
    specialize (H (E (has_size t (remove [Idx d] st)) (in_map (fun t => has_size t (remove [Idx d] st)) _ t Ht))).
    destruct (align_ t (remove [Idx d] st)) as [v|] eqn:Ea; [|congruence].
    destruct (align_spec t (Hws t Ht) (Hss t Ht) _ _ Ea) as (x & -> & Hx). exists x. split; [reflexivity|]. rewrite Hx. apply Z.eqb_eq. exact (Ha t Ht).
  - cbn [has_size] in E. destruct (has (Len d) st); [|discriminate]. apply IH; auto. apply signature_vector in Hs. exact Hs.
  - cbn [has_size] in E. destruct (sub_state v t st) as [st'|]; [|discriminate]. cbn [obind] in *.
    destruct (swf_view _ _ Hw) as [_ Ht]. destruct (signature_view _ _ Hs) as (sg & Eg & _).
    destruct (has_size t st') as [[|]|] eqn:E'; cbn [oand] in E; try (rewrite andb_false_r in E); try discriminate. apply IH; auto. congruence.
Qed.

Lemma size_acc_ok l : Forall (fun o => o <> None) l -> forall start, size_acc start l <> None.
Proof. induction 1 as [|o l Ho F IH]; intros start; [discriminate|]. destruct o as [[a z]|]; [|congruence]. apply IH. Qed.

Lemma has_size_exact s : sizable s = true -> swf s = true -> signature s <> None -> forall st, has_size s st = Some true -> size_ s st <> None.
Proof.
  induction s as [c|d ts IH|d t IH|v t IH|ts IH] using struct_ind'; intros Ha Hw Hs st E; cbn [size_]; rewrite E; cbn [guard]; try discriminate.
  - pose proof (signature_tuple _ _ Hs) as Hss. pose proof (swf_tuple _ _ Hw) as Hws. cbn [has_size] in E. apply oall_true in E.
    simpl in Ha. apply andb_true_iff in Ha. destruct Ha as [Ha Has]. apply size_acc_ok.
    rewrite Forall_forall in *. rewrite forallb_forall in *. intros o Ho. apply in_map_iff in Ho. destruct Ho as (t & <- & Ht).
    assert (Et : has_size t (remove [Idx d] st) = Some true) by (apply E; exact (in_map (fun t => has_size t (remove [Idx d] st)) _ t Ht)).
    pose proof (IH t Ht (Has t Ht) (Hws t Ht) (Hss t Ht) _ Et) as H.
    pose proof (align_ok t (Ha t Ht) (Hws t Ht) (Hss t Ht) _ Et) as H'.
    destruct (align_ t _); [|congruence]. destruct (size_ t _); [|congruence]. discriminate.
  - cbn [has_size] in E. unfold has in E. destruct (get (Len d) st) as [l|]; [|discriminate]. cbn [obind]. apply signature_vector in Hs.
    specialize (IH Ha Hw Hs _ E). destruct (size_ t _); [discriminate|congruence].
  - cbn [has_size] in E. destruct (sub_state v t st) as [st'|]; [|discriminate]. cbn [obind] in *.
    destruct (swf_view _ _ Hw) as [_ Ht]. destruct (signature_view _ _ Hs) as (sg & Eg & _).
    destruct (has_size t st') as [[|]|] eqn:E'; cbn [oand] in E; try (rewrite andb_false_r in E); try discriminate. apply IH; auto. congruence.
Qed.

(** ** Offsets *)

Lemma has_offset_exact x s : sizable s = true -> swf s = true -> signature s <> None -> forall st start,
  has_size s st = Some true -> has_offset_of x s st = Some true -> offset_of x s st start <> None.
Proof.
  induction s as [c|d ts IH|d t IH|v t IH|ts IH] using struct_ind'; intros Ha Hw Hs st start E Eo.
  - cbn [offset_of has_offset_of] in *. destruct (same_type x (Scalar c)); [|discriminate]. discriminate.
  - cbn [offset_of has_offset_of] in *. destruct (same_type x (Tuple d ts)); [discriminate|]. destruct (has (Idx d) st); [|discriminate]. rewrite Eo. cbn [guard].
    destruct (tuple_index d st) as [k|]; [|discriminate]. cbn [obind] in *. rewrite !nthz_map in *. destruct (nthz ts k) as [t|] eqn:Et; [|discriminate].
    cbn [option_map ojoin] in *. pose proof (nthz_In _ _ _ Et) as Hin.
    pose proof (signature_tuple _ _ Hs) as Hss. pose proof (swf_tuple _ _ Hw) as Hws. cbn [has_size] in E. apply oall_true in E.
    simpl in Ha. apply andb_true_iff in Ha. destruct Ha as [Ha Has]. rewrite Forall_forall in *. rewrite forallb_forall in *.
    assert (Hc : forall u, In u ts -> has_size u (remove [Idx d] st) = Some true).
    { intros u Hu. apply E. exact (in_map (fun t => has_size t (remove [Idx d] st)) _ u Hu). }
    assert (Hb : size_acc (Sta 0) (comp_sizes (firstn (Z.to_nat k) ts) (remove [Idx d] st)) <> None).
    { apply size_acc_ok. apply Forall_forall. intros o Ho. apply in_map_iff in Ho. destruct Ho as (u & <- & Hu).
      assert (Hu' : In u ts) by (rewrite <- (firstn_skipn (Z.to_nat k) ts); apply in_or_app; left; exact Hu).
      pose proof (align_ok u (Ha u Hu') (Hws u Hu') (Hss u Hu') _ (Hc u Hu')) as H1. pose proof (has_size_exact u (Has u Hu') (Hws u Hu') (Hss u Hu') _ (Hc u Hu')) as H2.
      destruct (align_ u _); [|congruence]. destruct (size_ u _); [|congruence]. discriminate. }
    destruct (size_acc _ _) as [b|]; [|congruence]. cbn [obind]. rewrite nthz_map, Et. cbn [option_map ojoin]. apply (IH t Hin); auto.
  - destruct (same_type x (Vector d t)) eqn:Ht; [rewrite offset_here by exact Ht; discriminate|]. rewrite offset_down_vector by exact Ht.
    cbn [has_offset_of] in Eo. rewrite Ht in Eo. cbn [has_size] in E. unfold has in E, Eo.
    destruct (get (Idx d) st) as [i|]; [|discriminate]. destruct (get (Len d) st) as [l|]; [|discriminate]. cbn [andb obind] in *. apply signature_vector in Hs.
    destruct (is_sta 1 l); [apply IH; auto|]. pose proof (has_size_exact t Ha Hw Hs _ E) as H. destruct (size_ t _); [|congruence]. cbn [obind]. apply IH; auto.
  - cbn [offset_of]. rewrite Eo. cbn [guard]. destruct (same_type x (View v t)) eqn:Ht; [discriminate|].
    cbn [has_size] in E. destruct (sub_state v t st) as [st'|] eqn:Es; [|discriminate]. cbn [obind] in *.
    destruct (swf_view _ _ Hw) as [_ Hwt]. destruct (signature_view _ _ Hs) as (sg & Eg & _).
    destruct (has_size t st') as [[|]|] eqn:E'; cbn [oand] in E; try (rewrite andb_false_r in E); try discriminate. apply IH; auto; [congruence|].
    cbn [has_offset_of] in Eo. rewrite Ht in Eo.
    destruct v; cbn [view_complete] in Eo; rewrite ?Es in Eo; cbn [obind] in Eo;
      try (destruct (has_offset_of x t st') as [[|]|]; cbn [oand] in Eo; try (rewrite andb_false_r in Eo); try discriminate; reflexivity).
    destruct (has (Idx M) st && has (Idx m) st && has (Idx p) st); [exact Eo|discriminate].
  - discriminate.
Qed.

(** The other direction. *)
Lemma length_has s q st v : length_ s q st = Some v -> has_length s q st = Some true.
Proof.
  unfold length_, has_length. destruct s; cbn [lenops fst snd]; try discriminate;
    match goal with |- guard ?b _ = _ -> _ => destruct b as [[|]|]; try discriminate; reflexivity end.
Qed.
Lemma size_has s st v : size_ s st = Some v -> has_size s st = Some true.
Proof. destruct s; cbn [size_]; unfold guard; destruct (has_size _ st) as [[|]|]; try discriminate; reflexivity. Qed.
Lemma offset_has x s st start v : offset_of x s st start = Some v -> has_offset_of x s st = Some true.
Proof. destruct s; cbn [offset_of]; unfold guard; destruct (has_offset_of _ _ st) as [[|]|]; try discriminate; reflexivity. Qed.
