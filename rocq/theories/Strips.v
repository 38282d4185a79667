(** * Shortcuts that take lengths: proofs *)

From Coq Require Import Permutation Sorted.
From Verif Require Import Contig Views Views2 Views3 Views4 Views5 ViewFacts.
From Verif Require Export SpecTools ToolFacts Select.

(** ** into_blocks and into_blocks_dynamic with a block length *)

Lemma blocks_neq d M m n t : signature (apply (p_into_blocks d M m n) t) <> None -> M <> m.
Proof. cbn [p_into_blocks apply fold_left apply_layer]. intros Hs ->. apply (signature_sub _ _ Hs). simpl. destruct (signature t); [|reflexivity]. rewrite Z.eqb_refl. reflexivity. Qed.
Lemma blocks_dyn_neq d M m p n t : signature (apply (p_into_blocks_dynamic d M m p n) t) <> None -> M <> m /\ M <> p /\ m <> p.
Proof.
  cbn [p_into_blocks_dynamic apply fold_left apply_layer]. intros Hs. destruct (dyn_distinct _ _ _ _ _ (signature_sub _ _ Hs)) as (A & B & C). lia.
Qed.

Theorem into_blocks_works d M m n t st st' iM im : signature (apply (p_into_blocks d M m n) t) <> None ->
  get (Len M) st = None -> get (Idx M) st = Some iM -> get (Idx m) st = Some im ->
  edited st ((Idx d, Some (vadd (vmul iM n) im)) :: dropped [d; M; m]) st' ->
  works_as (apply (p_into_blocks d M m n) t) st t st' /\
  (forall q, q <> d -> q <> M -> q <> m -> get (Idx q) st = None -> length_as (apply (p_into_blocks d M m n) t) q st t q st').
Proof.
  intros Hs EM Ei Ej He. pose proof (blocks_neq _ _ _ _ _ Hs) as Hn. cbn [p_into_blocks apply fold_left apply_layer] in *.
  destruct (edited_ex st [(Len m, Some n)]) as (st1 & H1). destruct (set_length_follows m n _ st st1 Hs H1) as (A & B).
  assert (G1 : get (Len m) st1 = Some n) by (rewrite (H1 (Len m)); cbn [edit_look tag_eqb]; rewrite Z.eqb_refl; reflexivity).
  assert (G2 : get (Len M) st1 = None). { rewrite (H1 (Len M)). cbn [edit_look tag_eqb]. destruct (Z.eqb_spec M m); [contradiction|exact EM]. }
  assert (GI : forall q, get (Idx q) st1 = get (Idx q) st) by (intros q; rewrite (H1 (Idx q)); reflexivity).
  assert (He1 : edited st1 ((Idx d, Some (vadd (vmul iM n) im)) :: dropped [d; M; m]) st').
  { intros u. rewrite (He u). unfold dropped. cbn [flat_map app]. specialize (H1 u). cbn [edit_look] in *. destruct (tag_eqb_spec u (Len m)) as [Eu|Hu]; [rewrite Eu|rewrite H1; reflexivity].
    cbn [tag_eqb]. repeat match goal with |- context [?a =? ?b] => destruct (a =? b) end; reflexivity. }
  destruct (blocks_follows d M m t st1 st' n (signature_sub _ _ Hs) G1 G2 iM im) as (C & D); [rewrite GI; assumption..|exact He1|].
  split; [exact (works_comp _ _ _ _ _ _ A C)|]. intros q Q1 Q2 Q3 Hi. eapply length_comp; [apply B, Hi|]. apply D; auto. rewrite GI. exact Hi.
Qed.

Theorem into_blocks_lengths d M m n t st cs l : signature (apply (p_into_blocks d M m n) t) <> None ->
  get (Len M) st = None -> edited st (dropped [d; M; m]) cs -> length_ t d cs = Some l ->
  (get (Idx m) st = None -> length_ (apply (p_into_blocks d M m n) t) m st = Some n) /\
  (get (Idx M) st = None -> length_ (apply (p_into_blocks d M m n) t) M st = Some (vdiv l n)).
Proof.
  intros Hs EM He El. pose proof (blocks_neq _ _ _ _ _ Hs) as Hn. cbn [p_into_blocks apply fold_left apply_layer] in *.
  destruct (edited_ex st [(Len m, Some n)]) as (st1 & H1). destruct (set_length_follows m n _ st st1 Hs H1) as (A & B).
  assert (G1 : get (Len m) st1 = Some n) by (rewrite (H1 (Len m)); cbn [edit_look tag_eqb]; rewrite Z.eqb_refl; reflexivity).
  assert (G2 : get (Len M) st1 = None). { rewrite (H1 (Len M)). cbn [edit_look tag_eqb]. destruct (Z.eqb_spec M m); [contradiction|exact EM]. }
  assert (GI : forall q, get (Idx q) st1 = get (Idx q) st) by (intros q; rewrite (H1 (Idx q)); reflexivity).
  assert (He1 : edited st1 (dropped [d; M; m]) cs).
  { intros u. rewrite (He u). unfold dropped. cbn [flat_map app]. specialize (H1 u). cbn [edit_look] in *. destruct (tag_eqb_spec u (Len m)) as [Eu|Hu]; [rewrite Eu|rewrite H1; reflexivity].
    cbn [tag_eqb]. repeat match goal with |- context [?a =? ?b] => destruct (a =? b) end; reflexivity. }
  destruct (blocks_lengths d M m t st1 cs n l (signature_sub _ _ Hs) G1 G2 He1 El) as (C & D).
  split; intros Hi; [destruct (B m Hi) as [_ ->]; apply C|destruct (B M Hi) as [_ ->]; apply D]; rewrite GI; exact Hi.
Qed.

Theorem into_blocks_dyn_works d M m p n t st st' iM im ip : signature (apply (p_into_blocks_dynamic d M m p n) t) <> None ->
  get (Len M) st = None -> get (Len p) st = None -> get (Idx M) st = Some iM -> get (Idx m) st = Some im -> get (Idx p) st = Some ip ->
  edited st ((Idx d, Some (vadd (vmul iM n) im)) :: dropped [d; M; m; p]) st' ->
  works_as (apply (p_into_blocks_dynamic d M m p n) t) st t st' /\
  (forall q, q <> d -> q <> M -> q <> m -> q <> p -> get (Idx q) st = None -> length_as (apply (p_into_blocks_dynamic d M m p n) t) q st t q st').
Proof.
  intros Hs EM Ep Ei Ej Ek He. destruct (blocks_dyn_neq _ _ _ _ _ _ Hs) as (N1 & N2 & N3). cbn [p_into_blocks_dynamic apply fold_left apply_layer] in *.
  destruct (edited_ex st [(Len m, Some n)]) as (st1 & H1). destruct (set_length_follows m n _ st st1 Hs H1) as (A & B).
  assert (G1 : get (Len m) st1 = Some n) by (rewrite (H1 (Len m)); cbn [edit_look tag_eqb]; rewrite Z.eqb_refl; reflexivity).
  assert (G2 : get (Len M) st1 = None). { rewrite (H1 (Len M)). cbn [edit_look tag_eqb]. destruct (Z.eqb_spec M m); [contradiction|exact EM]. }
  assert (G3 : get (Len p) st1 = None). { rewrite (H1 (Len p)). cbn [edit_look tag_eqb]. destruct (Z.eqb_spec p m); [congruence|exact Ep]. }
  assert (GI : forall q, get (Idx q) st1 = get (Idx q) st) by (intros q; rewrite (H1 (Idx q)); reflexivity).
  assert (He1 : edited st1 ((Idx d, Some (vadd (vmul iM n) im)) :: dropped [d; M; m; p]) st').
  { intros u. rewrite (He u). unfold dropped. cbn [flat_map app]. specialize (H1 u). cbn [edit_look] in *. destruct (tag_eqb_spec u (Len m)) as [Eu|Hu]; [rewrite Eu|rewrite H1; reflexivity].
    cbn [tag_eqb]. repeat match goal with |- context [?a =? ?b] => destruct (a =? b) end; reflexivity. }
  destruct (blocks_dyn_follows d M m p t st1 st' n (signature_sub _ _ Hs) G3 G1 G2 iM im ip) as (C & D); [rewrite GI; assumption..|exact He1|].
  split; [exact (works_comp _ _ _ _ _ _ A C)|]. intros q Q1 Q2 Q3 Q4 Hi. eapply length_comp; [apply B, Hi|]. apply D; auto. rewrite GI. exact Hi.
Qed.

Theorem into_blocks_dyn_lengths d M m p n t st cs l : signature (apply (p_into_blocks_dynamic d M m p n) t) <> None ->
  get (Len M) st = None -> get (Len p) st = None -> edited st (dropped [d; M; m; p]) cs -> length_ t d cs = Some l ->
  (get (Idx m) st = None -> length_ (apply (p_into_blocks_dynamic d M m p n) t) m st = Some n) /\
  (get (Idx M) st = None -> length_ (apply (p_into_blocks_dynamic d M m p n) t) M st = Some (vdiv (vsub (vadd l n) (Sta 1)) n)) /\
  (forall iM im, get (Idx p) st = None -> get (Idx M) st = Some iM -> get (Idx m) st = Some im ->
     length_ (apply (p_into_blocks_dynamic d M m p n) t) p st = Some (vlt (vadd (vmul iM n) im) l)).
Proof.
  intros Hs EM Ep He El. destruct (blocks_dyn_neq _ _ _ _ _ _ Hs) as (N1 & N2 & N3). cbn [p_into_blocks_dynamic apply fold_left apply_layer] in *.
  destruct (edited_ex st [(Len m, Some n)]) as (st1 & H1). destruct (set_length_follows m n _ st st1 Hs H1) as (A & B).
  assert (G1 : get (Len m) st1 = Some n) by (rewrite (H1 (Len m)); cbn [edit_look tag_eqb]; rewrite Z.eqb_refl; reflexivity).
  assert (G2 : get (Len M) st1 = None). { rewrite (H1 (Len M)). cbn [edit_look tag_eqb]. destruct (Z.eqb_spec M m); [contradiction|exact EM]. }
  assert (G3 : get (Len p) st1 = None). { rewrite (H1 (Len p)). cbn [edit_look tag_eqb]. destruct (Z.eqb_spec p m); [congruence|exact Ep]. }
  assert (GI : forall q, get (Idx q) st1 = get (Idx q) st) by (intros q; rewrite (H1 (Idx q)); reflexivity).
  assert (He1 : edited st1 (dropped [d; M; m; p]) cs).
  { intros u. rewrite (He u). unfold dropped. cbn [flat_map app]. specialize (H1 u). cbn [edit_look] in *. destruct (tag_eqb_spec u (Len m)) as [Eu|Hu]; [rewrite Eu|rewrite H1; reflexivity].
    cbn [tag_eqb]. repeat match goal with |- context [?a =? ?b] => destruct (a =? b) end; reflexivity. }
  destruct (blocks_dyn_lengths d M m p t st1 cs n l (signature_sub _ _ Hs) G3 G1 G2 He1 El) as (C & D & F).
  split; [|split]; [intros Hi; destruct (B m Hi) as [_ ->]; apply C; rewrite GI; exact Hi|intros Hi; destruct (B M Hi) as [_ ->]; apply D; rewrite GI; exact Hi|].
  intros iM im Hi HM Hm. destruct (B p Hi) as [_ ->]. apply F; rewrite GI; assumption.
Qed.

(** ** merge_blocks with the length of the minor dimension *)

Theorem merge_blocks_works M m d n t st cs st' lM i : signature (apply (p_merge_blocks M m d n) t) <> None ->
  edited st ((Len m, Some n) :: dropped [d; M; m]) cs -> length_ t M cs = Some lM -> length_ t m cs = Some n ->
  get (Idx d) st = Some i ->
  edited st ([(Idx M, Some (vdiv i n)); (Idx m, Some (vmod i n)); (Len m, Some n)] ++ dropped [d; M; m]) st' ->
  works_as (apply (p_merge_blocks M m d n) t) st t st' /\
  (forall q, q <> d -> q <> M -> q <> m -> get (Idx q) st = None -> length_as (apply (p_merge_blocks M m d n) t) q st t q st').
Proof.
  intros Hs Hc EM Em Ei He. cbn [p_merge_blocks apply fold_left apply_layer] in *. pose proof (signature_sub _ _ Hs) as Hs1.
  destruct (edited_ex st (dropped [d; M; m])) as (c1 & Hc1).
  destruct (set_length_follows m n t c1 cs Hs1 (edited_split _ [_] _ _ _ Hc1 Hc)) as (_ & B).
  assert (G : forall q, get (Idx q) c1 = if mem q [d; M; m] then None else get (Idx q) st).
  { intros q. rewrite (Hc1 (Idx q)). unfold dropped. cbn [flat_map app edit_look tag_eqb mem existsb]. destruct (q =? d), (q =? M), (q =? m); reflexivity. }
  assert (L1 : length_ (View (VSetLength m n) t) M c1 = Some lM).
  { destruct (B M) as [_ ->]; [|exact EM]. rewrite G. cbn [mem existsb]. rewrite Z.eqb_refl. rewrite orb_true_r. reflexivity. }
  assert (L2 : length_ (View (VSetLength m n) t) m c1 = Some n).
  { destruct (B m) as [_ ->]; [|exact Em]. rewrite G. cbn [mem existsb]. rewrite Z.eqb_refl. rewrite !orb_true_r. reflexivity. }
  destruct (edited_ex st ([(Idx M, Some (vdiv i n)); (Idx m, Some (vmod i n))] ++ dropped [d; M; m])) as (st1 & H1).
  destruct (merge_follows d M m _ st c1 st1 lM n i Hs Hc1 L1 L2 Ei H1) as (C & D).
  assert (He1 : edited st1 [(Len m, Some n)] st').
  { intros u. rewrite (He u), (H1 u). cbn [app edit_look]. destruct (tag_eqb_spec u (Len m)) as [Eu|_]; [rewrite Eu; reflexivity|].
    destruct (tag_eqb u (Idx M)); [reflexivity|]. destruct (tag_eqb u (Idx m)); reflexivity. }
  destruct (set_length_follows m n t st1 st' Hs1 He1) as (E & F). split; [exact (works_comp _ _ _ _ _ _ C E)|].
  intros q Q1 Q2 Q3 Hi. eapply length_comp; [apply D; assumption|]. apply F. rewrite (H1 (Idx q)). unfold dropped. cbn [flat_map app edit_look tag_eqb].
  replace (q =? M) with false by lia. replace (q =? m) with false by lia. replace (q =? d) with false by lia. exact Hi.
Qed.

Theorem merge_blocks_len M m d n t st cs lM : signature (apply (p_merge_blocks M m d n) t) <> None ->
  edited st ((Len m, Some n) :: dropped [d; M; m]) cs -> length_ t M cs = Some lM -> length_ t m cs = Some n ->
  unused d st -> length_ (apply (p_merge_blocks M m d n) t) d st = Some (vmul lM n).
Proof.
  intros Hs Hc EM Em Hu. cbn [p_merge_blocks apply fold_left apply_layer] in *. pose proof (signature_sub _ _ Hs) as Hs1.
  destruct (edited_ex st (dropped [d; M; m])) as (c1 & Hc1).
  destruct (set_length_follows m n t c1 cs Hs1 (edited_split _ [_] _ _ _ Hc1 Hc)) as (_ & B).
  assert (G : forall q, get (Idx q) c1 = if mem q [d; M; m] then None else get (Idx q) st).
  { intros q. rewrite (Hc1 (Idx q)). unfold dropped. cbn [flat_map app edit_look tag_eqb mem existsb]. destruct (q =? d), (q =? M), (q =? m); reflexivity. }
  apply (merge_length d M m _ st c1 lM n Hs Hc1); [| |exact Hu].
  - destruct (B M) as [_ ->]; [|exact EM]. rewrite G. cbn [mem existsb]. rewrite Z.eqb_refl. rewrite orb_true_r. reflexivity.
  - destruct (B m) as [_ ->]; [|exact Em]. rewrite G. cbn [mem existsb]. rewrite Z.eqb_refl. rewrite !orb_true_r. reflexivity.
Qed.

(** ** strip_mine *)

Theorem strip_mine_works d M m n t st : signature (apply (p_strip_mine d M m n) t) <> None ->
  works_as (apply (p_strip_mine d M m n) t) st (apply (p_into_blocks d M m n) t) st /\
  (forall q, get (Idx q) st = None -> length_as (apply (p_strip_mine d M m n) t) q st (apply (p_into_blocks d M m n) t) q st).
Proof. intros Hs. exact (hoist_follows M _ st Hs). Qed.
Theorem strip_mine_dyn_works d M m p n t st : signature (apply (p_strip_mine_dynamic d M m p n) t) <> None ->
  works_as (apply (p_strip_mine_dynamic d M m p n) t) st (apply (p_into_blocks_dynamic d M m p n) t) st /\
  (forall q, get (Idx q) st = None -> length_as (apply (p_strip_mine_dynamic d M m p n) t) q st (apply (p_into_blocks_dynamic d M m p n) t) q st).
Proof. intros Hs. exact (hoist_follows M _ st Hs). Qed.

(** ** bcast with lengths *)

Lemma edit_look_dropped u ds : edit_look u (dropped ds) = if existsb (fun d => tag_eqb u (Idx d) || tag_eqb u (Len d)) ds then Some None else None.
Proof.
  induction ds as [|d ds IH]; [reflexivity|]. unfold dropped in *. cbn [flat_map app edit_look existsb]. destruct (tag_eqb u (Idx d)); [reflexivity|]. destruct (tag_eqb u (Len d)); [reflexivity|]. exact IH.
Qed.

Theorem bcast_works l : forall t st st', signature (apply (p_bcast l) t) <> None -> edited st (dropped (map fst l)) st' ->
  works_as (apply (p_bcast l) t) st t st' /\
  (forall q, ~ In q (map fst l) -> get (Idx q) st = None -> length_as (apply (p_bcast l) t) q st t q st') /\
  (forall d n, NoDup (map fst l) -> In (d, n) l -> get (Idx d) st = None -> length_ (apply (p_bcast l) t) d st = Some n).
Proof.
  induction l as [|[d n] l IH] using rev_ind; intros t st st' Hs He.
  - assert (Hg : same_get st st') by (intros q; rewrite !He; split; reflexivity). cbn [p_bcast flat_map apply fold_left] in *. split; [apply works_same; assumption|].
    split; [intros q _ _; apply length_same; assumption|intros d n _ []].
  - unfold p_bcast in *. rewrite flat_map_app in *. rewrite apply_app in *. cbn [flat_map fst snd app] in *. set (t1 := apply _ t) in *. cbn [apply fold_left apply_layer] in *.
    rewrite map_app in *. cbn [map fst] in *.
    destruct (edited_ex st [(Len d, Some n)]) as (st1 & H1). destruct (set_length_follows d n _ st st1 Hs H1) as (A & B).
    destruct (edited_ex st1 (dropped [d])) as (st2 & H2). destruct (bcast_follows d t1 st1 st2 (signature_sub _ _ Hs) H2) as (C & D & E).
    assert (Hs1 : signature t1 <> None) by (apply (signature_sub (VBcast d)), (signature_sub (VSetLength d n)), Hs).
    assert (H3 : edited st2 (dropped (map fst l)) st').
    { intros u. rewrite (He u), (H2 u), (H1 u), !edit_look_dropped, existsb_app. cbn [existsb edit_look]. destruct (existsb _ (map fst l)); [reflexivity|]. cbn [orb]. rewrite orb_false_r.
      destruct (tag_eqb u (Idx d)); [reflexivity|]. destruct (tag_eqb u (Len d)); reflexivity. }
    destruct (IH t st2 st' Hs1 H3) as (F & G & K).
    assert (I1 : forall q, get (Idx q) st1 = get (Idx q) st) by (intros q; rewrite (H1 (Idx q)); reflexivity).
    assert (I2 : forall q, get (Idx q) st = None -> get (Idx q) st2 = None).
    { intros q Hq. rewrite (H2 (Idx q)), edit_look_dropped. destruct (existsb _ [d]); [reflexivity|]. rewrite I1. exact Hq. }
    split; [exact (works_comp _ _ _ _ _ _ A (works_comp _ _ _ _ _ _ C F))|]. split.
    + intros q Hq Hi. eapply length_comp; [apply B, Hi|]. eapply length_comp; [apply D; [intros ->; apply Hq, in_or_app; right; left; reflexivity|rewrite I1; exact Hi]|].
      apply G; [intros H; apply Hq, in_or_app; left; exact H|apply I2, Hi].
    + intros q k Hn Hin Hi. destruct (B q Hi) as [_ ->]. apply in_app_or in Hin. destruct Hin as [Hin|[Hin|[]]].
      * assert (Hq : q <> d). { intros ->. apply NoDup_remove_2 in Hn. rewrite app_nil_r in Hn. apply Hn. exact (in_map fst _ _ Hin). }
        destruct (D q Hq) as [_ ->]; [rewrite I1; exact Hi|]. apply K; [apply NoDup_remove_1 in Hn; rewrite app_nil_r in Hn; exact Hn|exact Hin|apply I2, Hi].
      * injection Hin as <- <-. rewrite E by (rewrite I1; exact Hi). rewrite (H1 (Len d)). cbn [edit_look tag_eqb]. rewrite Z.eqb_refl. reflexivity.
Qed.

(** ** The traversal of strips *)

(** A path is determined by the indices on the way; the first difference decides, whatever is computed from the indices. *)
Lemma spath_lex D (f f' : asg) s : forall a a' p p', spath s a = Some p -> spath s a' = Some p' ->
  (forall x, In x (map fst p) -> In x (map fst p') -> (a x < a' x -> f x < f' x) /\ (a x = a' x -> f x = f' x)) ->
  (forall x, In x (map fst p) -> In x (map fst p') -> D x = true -> a x = a' x) ->
  lexlt (map (fun z => a (fst z)) p) (map (fun z => a' (fst z)) p') ->
  lexlt (map (fun z => f (fst z)) (filter (fun z => negb (D (fst z))) p)) (map (fun z => f' (fst z)) (filter (fun z => negb (D (fst z))) p')).
Proof.
  induction s as [c| |d al r IH|d rs IH] using sig_ind'; intros a a' p p' E E' Hf HD Hl; cbn [spath] in E, E'.
  - inv E. destruct Hl.
  - inv E. destruct Hl.
  - destruct (spath r a) as [q|] eqn:Eq; [|discriminate]. destruct (spath r a') as [q'|] eqn:Eq'; [|discriminate]. cbn [obind] in E, E'. inv E. inv E'.
    cbn [map fst filter] in *. destruct (Hf d) as [H1 H2]; [left; reflexivity..|]. destruct (D d) eqn:Ed; cbn [negb].
    + specialize (HD d (or_introl eq_refl) (or_introl eq_refl) Ed) as He. destruct Hl as [Hl|[_ Hl]]; [lia|]. eapply (IH a a'); eauto; intros x Hx Hx'; [apply Hf|apply HD]; right; assumption.
    + cbn [map fst lexlt] in *. destruct Hl as [Hl|[He Hl]]; [left; apply H1, Hl|right]. split; [apply H2, He|]. eapply (IH a a'); eauto; intros x Hx Hx'; [apply Hf|apply HD]; right; assumption.
  - rewrite !nthz_map in E, E'. destruct (nthz rs (a d)) as [r|] eqn:Er; [|discriminate]. destruct (nthz rs (a' d)) as [r'|] eqn:Er'; [|discriminate]. cbn [option_map ojoin] in E, E'.
    destruct (spath r a) as [q|] eqn:Eq; [|discriminate]. destruct (spath r' a') as [q'|] eqn:Eq'; [|discriminate]. cbn [option_map] in E, E'. inv E. inv E'.
    eapply Forall_nthz in IH; [|exact Er]. cbn [map fst filter] in *. destruct (Hf d) as [H1 H2]; [left; reflexivity..|]. destruct (D d) eqn:Ed; cbn [negb].
    + specialize (HD d (or_introl eq_refl) (or_introl eq_refl) Ed) as He. destruct Hl as [Hl|[_ Hl]]; [lia|]. rewrite He in Er. rewrite Er in Er'. inv Er'.
      eapply (IH a a'); eauto; intros x Hx Hx'; [apply Hf|apply HD]; right; assumption.
    + cbn [map fst lexlt] in *. destruct Hl as [Hl|[He Hl]]; [left; apply H1, Hl|right]. split; [apply H2, He|]. rewrite He in Er. rewrite Er in Er'. inv Er'.
      eapply (IH a a'); eauto; intros x Hx Hx'; [apply Hf|apply HD]; right; assumption.
Qed.

Lemma sorted_transfer {A B} (R : A -> A -> Prop) (S : B -> B -> Prop) (K : A -> B -> Prop) l l' : Forall2 K l l' -> StronglySorted R l ->
  (forall x x' y y', In x l -> In x' l -> In y l' -> In y' l' -> K x y -> K x' y' -> R x x' -> S y y') -> StronglySorted S l'.
Proof.
  induction 1 as [|x y l l' Hk F IH]; intros Hs H; [constructor|]. inv Hs. constructor.
  - apply IH; [assumption|]. intros. apply (H x0 x'); auto; right; assumption.
  - apply Forall_forall. intros y' Hy. destruct (Forall2_In_r _ _ _ _ F Hy) as (x' & Hx & Hk'). rewrite Forall_forall in H3.
    apply (H x x'); auto; [left; reflexivity|right; assumption|left; reflexivity|right; assumption].
Qed.

Lemma Forall2_image {A B C} (R : A -> B -> Prop) (P : B -> Prop) (g : B -> C) l l' : Forall2 R l l' -> (forall y, In y l' -> P y) ->
  Forall2 (fun x z => exists y, z = g y /\ P y /\ R x y) l (map g l').
Proof.
  induction 1 as [|x y l l' Hk F IH]; intros H; [constructor|]. cbn [map]. constructor; [exists y; split; [reflexivity|]; split; [apply H; left; reflexivity|exact Hk]|].
  apply IH. intros z Hz. apply H. right. exact Hz.
Qed.

Lemma pm_drop d p : pm (fun _ => []) d p = filter (fun z => negb (fst z =? d)) p.
Proof. unfold pm. induction p as [|[x n] p IH]; [reflexivity|]. cbn [flat_map filter fst snd]. destruct (x =? d); cbn [negb app]; rewrite IH; reflexivity. Qed.


Lemma over_view_inv P u v t l : over P u (View v t) l -> u <> View v t -> P v t l /\ over P u t (view_lenv v l).
Proof. intros H Hn. inversion H as [l0 Hl|v0 t0 l0 Hp Ho]; subst; [contradiction|auto]. Qed.

Lemma path_strip (D : dim -> bool) (f c : asg) d M m g p : M <> m -> D M = false -> D m = false ->
  (g = [(M, None); (m, None)] \/ exists q : dim, D q = true /\ g = [(M, @None Z); (m, None); (q, None)]) ->
  (forall z, In z p -> fst z = d \/ (fst z <> M /\ fst z <> m /\ D (fst z) = false)) ->
  (forall z, In z p -> fst z = d -> f m = c d) -> (forall z, In z p -> fst z <> d -> c (fst z) = f (fst z)) ->
  map (fun z => f (fst z)) (filter (fun z => negb (D (fst z))) (pm (fun _ => []) M (pm (fun _ => g) d p))) = map (fun z => c (fst z)) p.
Proof.
  intros HMm HM Hm Hg. induction p as [|[x n] p IH]; intros Hp H1 H2; [reflexivity|].
  rewrite pm_drop in *. change (pm (fun _ => g) d ((x, n) :: p)) with ((if x =? d then g else [(x, n)]) ++ pm (fun _ => g) d p). rewrite !filter_app, map_app.
  cbn [map fst]. change (c x :: map (fun z => c (fst z)) p) with ([c x] ++ map (fun z => c (fst z)) p).
  apply (f_equal2 (@app Z)); [|apply IH; intros z Hz; (apply Hp || apply H1 || apply H2); right; exact Hz]. destruct (Z.eqb_spec x d) as [->|Hx].
  - specialize (H1 (d, n) (or_introl eq_refl) eq_refl). rewrite <- H1. destruct Hg as [->|(q & Hq & ->)]; cbn [filter fst map]; rewrite Z.eqb_refl; cbn [negb filter fst]; replace (m =? M) with false by lia; cbn [negb filter fst];
      rewrite Hm; cbn [negb map fst]; [reflexivity|]. destruct (q =? M); cbn [negb filter fst]; [reflexivity|]. rewrite Hq. reflexivity.
  - destruct (Hp (x, n) (or_introl eq_refl)) as [H|(A & B & C)]; [contradiction|]. cbn [fst] in *. cbn [filter fst]. replace (x =? M) with false by lia. cbn [negb filter fst]. rewrite C. cbn [negb map fst].
    pose proof (H2 (x, n) (or_introl eq_refl) Hx) as H. cbn [fst] in H. rewrite H. reflexivity.
Qed.

Section Strips.
  Variable ss : list struct.
  Notation u := (Union ss).
  Variables (d M m : dim) (k : val) (y : Z) (v : view).
  Variable D : dim -> bool.
  Hypothesis Hv : (v = VBlocks d M m /\ D = (fun _ => false)) \/ exists q, v = VBlocksDyn d M m q /\ D = (fun x => x =? q) /\ q <> M /\ q <> m.
  Hypothesis HMm : M <> m.
  Let t := order (traverser ss) [LView v; LView (VSetLength m k); LView (VHoist M)].
  Hypothesis Ek : vz k = Some y.
  Hypothesis Ho : over documented u (top_struct t) nolens.
  Hypothesis Hw : uswf (top_struct t) = true.
  Hypothesis Hlk : lenok (top_struct t) nolens.

  Definition strip_f (e : state) : asg := fupd (asg_of e) m (asg_of e M * y + asg_of e m).

  Lemma strip_one e x r p sg : pvalid (top_struct t) nolens (asg_of e) sg p -> agree e nolens (asg_of e) ->
    state_at u (top_struct t) e = Some x -> same_get x r -> complete u r ->
    asg_of r d / y = asg_of e M /\ (forall x, In x (map fst p) -> D x = true -> asg_of e x = 0) /\
    map (fun z => strip_f e (fst z)) (filter (fun z => negb (D (fst z))) p) = asg_of e M :: index_list u r.
  Proof using All.
    intros V Ha Ex Hg Hc. pose proof V as (Es & _ & _).
    change (top_struct t) with (View (VHoist M) (View (VSetLength m k) (View v u))) in *.
    destruct (over_view_inv _ _ _ _ _ Ho) as (D1 & Ho1); [discriminate|]. destruct (over_view_inv _ _ _ _ _ Ho1) as (D2 & Ho2); [discriminate|].
    destruct (over_view_inv _ _ _ _ _ Ho2) as (D3 & Ho3); [discriminate|]. change (view_lenv (VSetLength m k) (view_lenv (VHoist M) nolens)) with (fupd nolens m (Some (vzd k))) in *.
    change (view_lenv (VHoist M) nolens) with nolens in *. set (l2 := fupd nolens m (Some (vzd k))) in *.
    assert (Hn : forall q, view_lenv v l2 q = None) by (clear - Ho3; inversion Ho3 as [l Hl|]; exact Hl).
    assert (R2 : lrange l2) by (exact (view_lrange (VSetLength m k) nolens lrange_nolens)).
    destruct (uswf_view _ _ Hw) as [_ Hw1]. destruct (uswf_view _ _ Hw1) as [_ Hw2]. destruct (uswf_view _ _ Hw2) as [Hvw Hwu].
    destruct (pvalid_view _ _ _ _ _ _ Hw lrange_nolens (proj2 D1 _) V) as (s1 & p1 & _ & P1 & _ & _ & V1). cbn [view_asg] in V1. change (view_lenv (VHoist M) nolens) with nolens in *.
    destruct (pvalid_view _ _ _ _ _ _ Hw1 lrange_nolens (proj2 D2 _) V1) as (s2 & p2 & _ & P2 & _ & _ & V2). cbn [view_asg] in V2. change (view_lenv (VSetLength m k) nolens) with l2 in *.
    destruct (pvalid_view _ _ _ _ _ _ Hw2 R2 (proj2 D3 _) V2) as (s3 & p3 & Ev & P3 & _ & Hnd & V3).
    pose proof (proj2 (proj2 Hlk) : lenok (View v u) l2) as Hlk2. pose proof (proj2 Hlk : lenok (View (VSetLength m k) (View v u)) nolens) as Hlk1.
    rewrite state_at_view in Ex by reflexivity. destruct (sub_state (VHoist M) _ e) as [e1|] eqn:X1; [|discriminate]. cbn [obind] in Ex.
    rewrite state_at_view in Ex by reflexivity. destruct (sub_state (VSetLength m k) _ e1) as [e2|] eqn:X2; [|discriminate]. cbn [obind] in Ex.
    rewrite state_at_view in Ex by reflexivity. destruct (sub_state v u e2) as [e3|] eqn:X3; [|discriminate]. cbn [obind] in Ex.
    apply state_at_self in Ex; [subst x|intros; discriminate].
    assert (S1 : signature (View (VSetLength m k) (View v u)) <> None) by (destruct V1 as (E & _); congruence).
    assert (S2 : signature (View v u) <> None) by (destruct V2 as (E & _); congruence).
    assert (S0 : signature (View (VHoist M) (View (VSetLength m k) (View v u))) <> None) by congruence.
    pose proof (sub_state_refines _ _ _ _ _ _ S0 Hlk Ha X1) as A1. pose proof (sub_state_refines _ _ _ _ _ _ S1 Hlk1 A1 X2) as A2.
    pose proof (sub_state_refines _ _ _ _ _ _ S2 Hlk2 A2 X3) as A3. cbn [view_asg] in A3.
    apply (Select.agree_ext _ _ nolens _ Hn) in A3. apply (agree_same_get _ _ _ _ Hg) in A3.
    pose proof V3 as (E3 & Ep3 & _). pose proof V2 as (_ & _ & F2).
    pose proof (vfacts_ok v u s3 s2 l2 (asg_of e) p3 p2 (uswf_loc _ Hwu) Hvw Hwu E3 Ev Ep3 P3 Hnd R2 (proj2 D3 _) F2) as Hf.
    destruct (index_of u r _ s3 p3 (pvalid_ext _ _ nolens _ _ _ Hn V3) A3 Hc) as [Hdr Hr].
    rewrite (index_list_at u r _ p3 Hdr Hr).
    destruct P1 as (I1 & ->). destruct P2 as (-> & _).
    assert (Hy : vzd k = y) by (apply vzd_vz, Ek). assert (Hlm : l2 m = Some y) by (unfold l2; rewrite fupd_eq, Hy; reflexivity).
    assert (HlM : l2 M = None) by (unfold l2; rewrite fupd_neq by exact HMm; reflexivity).
    assert (HDM : D M = false) by (destruct Hv as [(_ & ->)|(q & _ & -> & Q & _)]; [reflexivity|lia]).
    assert (HDm : D m = false) by (destruct Hv as [(_ & ->)|(q & _ & -> & _ & Q)]; [reflexivity|lia]).
    assert (Hac : forall z, In z p3 -> fst z = d \/ (fst z <> M /\ fst z <> m /\ D (fst z) = false)).
    { intros z Hz. pose proof (spath_accept _ _ _ Ep3 _ Hz) as Hac. destruct (Z.eq_dec (fst z) d) as [E|Hzd]; [left; exact E|right].
      destruct Hv as [(-> & ->)|(q & -> & -> & _)]; cbn [view_sig] in Ev.
      - destruct (_ || _) eqn:Eo in Ev; [discriminate|]. rewrite !orb_false_iff in Eo. destruct Eo as ((_ & B1) & B2). split; [|split; [|reflexivity]].
        + intros E. rewrite <- E, Hac in B1. lia.
        + intros E. rewrite <- E, Hac in B2. lia.
      - destruct (_ || _) eqn:Eo in Ev; [discriminate|]. rewrite !orb_false_iff in Eo. destruct Eo as (((_ & B1) & B2) & B3). split; [|split].
        + intros E. rewrite <- E, Hac in B1. lia.
        + intros E. rewrite <- E, Hac in B2. lia.
        + apply Z.eqb_neq. intros E. rewrite <- E, Hac in B3. lia. }
    assert (Hd : exists j, In (d, j) p3).
    { assert (P : exists g, p2 = pm (fun _ => g) d p3) by (destruct Hv as [(-> & _)|(q & -> & _)]; cbn [prel] in P3; destruct P3 as [-> _]; eauto).
      destruct P as (g & ->). apply in_pm in I1. destruct I1 as [[I1 _]|(j & I1 & _)]; [|eauto]. destruct (Hac _ I1) as [E|(E & _)]; [|cbn [fst] in E; congruence].
      cbn [fst] in E. subst d. eauto. }
    destruct Hd as (j & Hd).
    assert (Hcd : view_asg v (ilen u) l2 (asg_of e) d = asg_of e M * y + asg_of e m /\ 0 <= asg_of e m < y /\ forall x, D x = true -> asg_of e x = 0).
    { destruct Hv as [(-> & ->)|(q & -> & -> & _)]; cbn [vfacts] in Hf; specialize (Hf j Hd); cbv zeta in Hf; unfold minor_len, minor_len_up in Hf; rewrite Hlm in Hf; destruct Hf as (-> & H1 & H2 & H3);
        (split; [reflexivity|]); (split; [exact H2|]); intros x0 Hx0; [discriminate|]. apply Z.eqb_eq in Hx0. subst x0. apply H3. }
    destruct Hcd as (Hcd & Hm & HD). split; [|split].
    - rewrite (Hr d) by (eapply in_fst, Hd). rewrite Hcd, Z.div_add_l, (Z.div_small (asg_of e m)) by lia. lia.
    - intros x0 _ Hx0. apply HD, Hx0.
    - cbn [filter fst]. rewrite HDM. cbn [negb map fst]. f_equal; [unfold strip_f; rewrite fupd_neq by congruence; reflexivity|].
      assert (P : exists g, p2 = pm (fun _ => g) d p3 /\ (g = [(M, None); (m, None)] \/ exists q : dim, D q = true /\ g = [(M, @None Z); (m, None); (q, None)])).
      { destruct Hv as [(-> & _)|(q & -> & -> & _)]; cbn [prel] in P3; destruct P3 as [-> _]; eexists; (split; [reflexivity|]); [left; reflexivity|right; exists q; split; [apply Z.eqb_refl|reflexivity]]. }
      destruct P as (g & -> & Hgg). apply (path_strip D (strip_f e) _ d M m); auto.
      + intros z Hz Ez. unfold strip_f. rewrite fupd_eq, Hcd. reflexivity.
      + intros z Hz Hzd. destruct (Hac z Hz) as [E|(B1 & B2 & B3)]; [contradiction|]. unfold strip_f. rewrite (fupd_neq _ m) by congruence.
        destruct Hv as [(-> & _)|(q & -> & _)]; cbn [view_asg]; rewrite fupd_neq by congruence; reflexivity.
  Qed.

  Theorem strips_sorted l : for_each t [] = Done l -> (forall st, In st l -> complete u st) ->
    StronglySorted lexlt (map (fun st => asg_of st d / y :: index_list u st) l).
  Proof using All.
    intros E Hc. destruct (run_of t l E) as (sg & sts & Hs & R & _ & F); [intros; discriminate|exact Hw|].
    pose proof (uswf_snodup _ _ Hw Hs) as Hsn. pose proof (run_enumerates _ sg sts Hs Hsn Hlk R) as [_ _ Hsort].
    assert (K : forall e r, In e sts -> In r l -> leads u (top_struct t) e r -> exists p, spath sg (asg_of e) = Some p /\ dims_of (top_struct t) e = Some p /\
      asg_of r d / y = asg_of e M /\ (forall x, In x (map fst p) -> D x = true -> asg_of e x = 0) /\
      map (fun z => strip_f e (fst z)) (filter (fun z => negb (D (fst z))) p) = asg_of e M :: index_list u r /\ exists q, p = (M, None) :: q).
    { intros e r He Hr (x & Ex & Hg). destruct (run_valid _ sg sts Hs Hsn Hlk R e He) as (p & Dp & V). exists p.
      destruct (strip_one e x r p sg V (run_agree _ sg sts Hs Hsn R e He) Ex Hg (Hc r Hr)) as (A & B & C). pose proof V as (_ & Ep & _).
      assert (Hq : exists q, p = (M, None) :: q).
      { change (top_struct t) with (View (VHoist M) (View (VSetLength m k) (View v u))) in V. destruct (over_view_inv _ _ _ _ _ Ho) as (D1 & _); [discriminate|].
        destruct (pvalid_view _ _ _ _ _ _ Hw lrange_nolens (proj2 D1 _) V) as (s1 & p1 & _ & (_ & ->) & _). eauto. }
      repeat split; auto. }
    apply (sorted_transfer (fun e e' => lexlt (index_list (top_struct t) e) (index_list (top_struct t) e')) _ (fun e lst => exists r, lst = asg_of r d / y :: index_list u r /\ In r l /\ leads u (top_struct t) e r) sts).
    - apply Forall2_image; [exact F|auto].
    - clear -Hsort. induction sts as [|e sts IH]; [constructor|]. cbn [map] in Hsort. inv Hsort. constructor; [apply IH; assumption|]. rewrite Forall_forall in *. intros e' He. apply H2. apply in_map. exact He.
    - intros e e' b b' He He' _ _ (r & -> & Hr & Hle) (r' & -> & Hr' & Hle') Hlt.
      destruct (K e r He Hr Hle) as (p & Ep & Dp & A1 & B1 & C1 & q & ->). destruct (K e' r' He' Hr' Hle') as (p' & Ep' & Dp' & A2 & B2 & C2 & q' & ->).
      unfold index_list in Hlt at 1 2. rewrite Dp, Dp' in Hlt. rewrite A1, A2. destruct (Z.lt_trichotomy (asg_of e M) (asg_of e' M)) as [H|[H|H]]; [left; exact H| |cbn [map fst lexlt] in Hlt; lia].
      rewrite <- C1, <- C2. apply (spath_lex D (strip_f e) (strip_f e') sg (asg_of e) (asg_of e') _ _ Ep Ep'); [| |exact Hlt].
      + intros x _ _. unfold strip_f, fupd. rewrite H. destruct (x =? m) eqn:E1; [|auto]. apply Z.eqb_eq in E1. subst x. lia.
      + intros x Hx Hx' HD. rewrite (B1 x Hx HD), (B2 x Hx' HD). reflexivity.
  Qed.
End Strips.

Lemma rearranges_setlen n k t l : rearranges (VSetLength n k) t l.
Proof. split; [split; [reflexivity|]|exact I]. intros c. exact I. Qed.
Lemma rearranges_hoist d t l : rearranges (VHoist d) t l.
Proof. split; [split; [reflexivity|]|exact I]. intros c. exact I. Qed.

Section Mined.
  Variable ss : list struct.
  Notation u := (Union ss).

  Lemma mined_over d M m k y : let t := order (traverser ss) (p_strip_mine d M m k) in
    vz k = Some y -> 0 < y -> M <> m -> (forall c, on_len (plen u nolens c d) (fun n => n mod y = 0)) -> over rearranges u (top_struct t) nolens.
  Proof.
    intros t Ek Hy HMm Hd. change (top_struct t) with (View (VHoist M) (View (VSetLength m k) (View (VBlocks d M m) u))).
    assert (Ez : vzd k = y) by (unfold vzd; rewrite Ek; reflexivity).
    apply over_view; [apply rearranges_hoist|]. apply over_two; [apply rearranges_setlen| |cbn [view_lenv]; apply blocks_lenv, HMm].
    split; [split; [reflexivity|]|].
    - intros c. cbn [view_good view_lenv]. unfold fupd, nolens. rewrite Z.eqb_refl. destruct (Z.eqb_spec M m); [congruence|]. lia.
    - exists y. split; [left; cbn [view_lenv]; unfold fupd, nolens; rewrite Z.eqb_refl, Ez; destruct (Z.eqb_spec M m); [congruence|auto]|].
      intros c. rewrite (plen_ext _ _ nolens c c); [apply Hd| |apply eqf_refl]. cbn [view_lenv]. intros q. apply blocks_lenv, HMm.
  Qed.

  Theorem strip_mine_traversal d M m k y l1 l2 : let t := order (traverser ss) (p_strip_mine d M m k) in
    vz k = Some y -> 0 < y -> (forall c, on_len (plen u nolens c d) (fun n => n mod y = 0)) ->
    uswf (top_struct t) = true -> lenok (top_struct t) nolens ->
    for_each (traverser ss) [] = Done l1 -> for_each t [] = Done l2 -> (forall st, In st l2 -> complete u st) ->
    Permutation (map (index_list u) l1) (map (index_list u) l2) /\ StronglySorted lexlt (map (fun st => asg_of st d / y :: index_list u st) l2).
  Proof.
    intros t Ek Hy Hd Hw Hlk E1 E2 Hc. pose proof (for_each_signature _ _ E2) as Hs.
    assert (HMm : M <> m) by (apply (blocks_neq d M m k u), (signature_sub (VHoist M)); exact Hs).
    pose proof (mined_over d M m k y Ek Hy HMm Hd) as Ho. split; [apply (order_perm ss (p_strip_mine d M m k) l1 l2 Hw Hlk Ho E1 E2 Hc)|].
    exact (strips_sorted ss d M m k y (VBlocks d M m) (fun _ => false) (or_introl (conj eq_refl eq_refl)) HMm Ek (over_mono _ _ _ _ _ rearranges_documented Ho) Hw Hlk l2 E2 Hc).
  Qed.

  Lemma mined_dyn_over d M m p k y : let t := order (traverser ss) (p_strip_mine_dynamic d M m p k) in
    vz k = Some y -> 0 < y -> M <> m -> (forall c, on_len (plen u nolens c d) (fun n => n + y <= W)) -> over rearranges u (top_struct t) nolens.
  Proof.
    intros t Ek Hy HMm Hd. change (top_struct t) with (View (VHoist M) (View (VSetLength m k) (View (VBlocksDyn d M m p) u))).
    assert (Ez : vzd k = y) by (unfold vzd; rewrite Ek; reflexivity).
    apply over_view; [apply rearranges_hoist|]. apply over_two; [apply rearranges_setlen| |cbn [view_lenv]; apply blocks_lenv, HMm].
    split; [split; [reflexivity|]|].
    - intros c. unfold view_good. rewrite (plen_ext _ _ nolens c c d); [| |apply eqf_refl].
      + cbn [view_lenv]. unfold fupd, nolens. rewrite Z.eqb_refl. destruct (Z.eqb_spec M m); [congruence|]. rewrite Ez. split; [lia|apply Hd].
      + cbn [view_lenv]. intros q. apply blocks_lenv, HMm.
    - left. cbn [view_lenv]. unfold fupd, nolens. rewrite Z.eqb_refl. destruct (Z.eqb_spec M m); [congruence|]. split; [reflexivity|discriminate].
  Qed.

  Theorem strip_mine_dyn_traversal d M m p k y l1 l2 : let t := order (traverser ss) (p_strip_mine_dynamic d M m p k) in
    vz k = Some y -> 0 < y -> (forall c, on_len (plen u nolens c d) (fun n => n + y <= W)) ->
    uswf (top_struct t) = true -> lenok (top_struct t) nolens ->
    for_each (traverser ss) [] = Done l1 -> for_each t [] = Done l2 -> (forall st, In st l2 -> complete u st) ->
    Permutation (map (index_list u) l1) (map (index_list u) l2) /\ StronglySorted lexlt (map (fun st => asg_of st d / y :: index_list u st) l2).
  Proof.
    intros t Ek Hy Hd Hw Hlk E1 E2 Hc. pose proof (for_each_signature _ _ E2) as Hs.
    destruct (blocks_dyn_neq d M m p k u) as (HMm & HMp & Hmp); [apply (signature_sub (VHoist M)); exact Hs|].
    pose proof (mined_dyn_over d M m p k y Ek Hy HMm Hd) as Ho. split; [apply (order_perm ss (p_strip_mine_dynamic d M m p k) l1 l2 Hw Hlk Ho E1 E2 Hc)|].
    exact (strips_sorted ss d M m k y (VBlocksDyn d M m p) (fun x => x =? p) (or_intror (ex_intro _ p (conj eq_refl (conj eq_refl (conj (not_eq_sym HMp) (not_eq_sym Hmp)))))) HMm Ek (over_mono _ _ _ _ _ rearranges_documented Ho) Hw Hlk l2 E2 Hc).
  Qed.
End Mined.
