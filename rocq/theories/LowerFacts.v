(** * [lower_bound_along] and [lower_bound_at]: proofs *)

From Verif Require Export SpecLower IntrospectApi.
From Verif Require Import ViewFacts Defined.
From Verif Require Views2.

Lemma agW_add a b x y : agW a x -> agW b y -> agW (vadd a b) (x + y).
Proof.
  intros Ha Hb z Hz. destruct (vz a) as [xa|] eqn:Ea, (vz b) as [xb|] eqn:Eb.
  - rewrite (vz_vadd' _ _ _ _ Ea Eb) in Hz. injection Hz as <-. rewrite eqW_u64, (Ha _ Ea), (Hb _ Eb). reflexivity.
  - destruct b; try discriminate Eb. unfold vadd, dyn2 in Hz. rewrite Ea in Hz. destruct a; try discriminate Ea; cbn [is_sta vz] in Hz;
      repeat (destruct (_ =? _) in Hz); discriminate Hz.
  - destruct a; try discriminate Ea. unfold vadd, dyn2 in Hz. rewrite Eb in Hz. destruct b; try discriminate Eb; cbn [is_sta vz] in Hz;
      repeat (destruct (_ =? _) in Hz); discriminate Hz.
  - destruct a; try discriminate Ea. destruct b; try discriminate Eb. discriminate Hz.
Qed.

Lemma agW_mul_r a b x y : vz a = Some x -> agW b y -> agW (vmul a b) (x * y).
Proof.
  intros Ha Hb z Hz. destruct (vz b) as [xb|] eqn:Eb.
  - rewrite (vz_vmul' _ _ _ _ Ha Eb) in Hz. injection Hz as <-. rewrite eqW_u64, (Hb _ Eb). reflexivity.
  - destruct b; try discriminate Eb. assert (Hm : vmul a Undef = if is_sta 0 a then Sta 0 else Undef).
    { destruct a as [i|i|]; cbn [vmul is_sta]; reflexivity. }
    rewrite Hm in Hz. destruct (is_sta 0 a) eqn:E0; [|discriminate Hz]. apply is_sta_vz in E0. rewrite Ha in E0. injection E0 as ->.
    injection Hz as <-. rewrite eqW_u64. apply eqW_eq. lia.
Qed.

Lemma agW_self v : agW v (vzd v).
Proof. intros y Hy. apply eqW_eq. unfold vzd. rewrite Hy. reflexivity. Qed.

Lemma agW_Sta x : agW (Sta x) x.
Proof. intros y Hy. injection Hy as <-. apply eqW_u64. Qed.

Lemma agW_eqW v x y : eqW x y -> agW v x -> agW v y.
Proof. intros E H z Hz. rewrite (H z Hz). exact E. Qed.

(** [a q] is the end of the interval where the offset is the lowest: its first index, or its last one if
    the dimension is reversed. *)
Definition chosen (r : bool) (s : struct) (l : lenv) (a : asg) (q : dim) (iv : option (val * val)) : Prop :=
  match iv with
  | None => eqW (a q) (if r then ilen s l a q - 1 else 0)
  | Some (mn, en) => if r then agW en (a q + 1) else agW mn (a q)
  end.

Lemma never_none {A} (P Q : Prop) (x : A) : P -> Some x = None -> Q.
Proof. discriminate. Qed.
Lemma never_false (P Q : Prop) : false = true -> P -> Q.
Proof. discriminate. Qed.

(** The index of [q] stays unknown below a view. *)
Lemma sub_open v t st st' q q' r : sub_state v t st = Some st' -> vnext v q = Some q' -> turns r q (View v t) = true ->
  (forall d i, v = VFix d i -> q <> d) ->
  (forall ps, v = VRename ps -> NoDup (map fst ps) /\ NoDup (map snd ps) /\ rename_dim ps (rename_in ps q) = q) ->
  get (Idx q) st = None -> get (Idx q') st' = None.
Proof.
  intros E Hn Htu Hfix Hren Hq. unfold sub_state in E.
  assert (Hkeep : renames v = false -> q' = q -> ~ In q (touched v) -> ~ In q (fresh v) -> get (Idx q') st' = None).
  { intros H1 -> H2 H3. rewrite (st_kept v _ _ st st' q E H1 H2 H3). exact Hq. }
  destruct v as [d|d i|d n|d s|d s len|d s en|d s rr|d|d M m|d M m pd|d bb M m ml|M m d|sl gl d ds|ds|d|ps|xa xb d];
    cbn [turns vnext touched fresh renames] in *; try discriminate.
  - destruct (Z.eqb_spec q d); [discriminate|]. injection Hn as <-. apply Hkeep; simpl; intuition congruence.
  - injection Hn as <-. pose proof (Hfix d i eq_refl). apply Hkeep; simpl; intuition congruence.
  - injection Hn as <-. apply Hkeep; simpl; intuition congruence.
  - injection Hn as <-. destruct (Z.eq_dec q d) as [->|]; [|apply Hkeep; simpl; intuition congruence].
    cbn [view_sub_state] in E. rewrite Hq in E. injection E as <-. destruct (get (Len d) st); rewrite ?get_with, get_remove; teq; rewrite Z.eqb_refl; reflexivity.
  - injection Hn as <-. destruct (Z.eq_dec q d) as [->|]; [|apply Hkeep; simpl; intuition congruence].
    cbn [view_sub_state] in E. rewrite Hq in E. injection E as <-. exact Hq.
  - injection Hn as <-. destruct (Z.eq_dec q d) as [->|]; [|apply Hkeep; simpl; intuition congruence].
    cbn [view_sub_state] in E. rewrite Hq in E. injection E as <-. exact Hq.
  - injection Hn as <-. destruct (Z.eq_dec q d) as [->|]; [|apply Hkeep; simpl; intuition congruence].
    cbn [view_sub_state] in E. rewrite Hq in E. injection E as <-. exact Hq.
  - injection Hn as <-. destruct (Z.eqb_spec q M) as [HM|HM], (Z.eqb_spec q m) as [Hm|Hm]; cbn [orb].
    4: { destruct (Z.eqb_spec q d); [discriminate|]. apply Hkeep; simpl; intuition congruence. }
    all: assert (Hc : get (Idx d) (clean_blocks d M m st) = None) by (unfold clean_blocks; rewrite get_remove; teq; rewrite Z.eqb_refl; cbn [orb]; rewrite ?orb_true_r; reflexivity).
    all: cbn [view_sub_state] in E; subst q; rewrite ?Hq in E.
    all: destruct (get (Len M) st), (get (Len m) st); try (destruct (has_length t d _) as [[|]|]; cbn [obind negb] in E);
      try destruct (get (Idx M) st); try destruct (get (Idx m) st); cbn [obind] in E.
    all: try discriminate E; try (injection E as <-; rewrite ?get_with; teq; exact Hc).
  - destruct (Z.eqb_spec q pd); [discriminate|]. injection Hn as <-. destruct (clean_blocks_dyn d M m pd st) as [cs|] eqn:Ec; [|cbn [view_sub_state] in E; rewrite Ec in E; discriminate].
    destruct (Z.eqb_spec q M) as [HM|HM], (Z.eqb_spec q m) as [Hm|Hm]; cbn [orb].
    4: { destruct (Z.eqb_spec q d); [discriminate|]. apply Hkeep; simpl; intuition congruence. }
    all: assert (Hc : get (Idx d) cs = None) by (unfold clean_blocks_dyn in Ec; destruct (has _ _) in Ec; [discriminate|]; injection Ec as <-; rewrite get_remove; teq; rewrite Z.eqb_refl; cbn [orb]; rewrite ?orb_true_r; reflexivity).
    all: cbn [view_sub_state] in E; rewrite Ec in E; cbn [obind] in E; subst q; rewrite ?Hq in E.
    all: destruct (get (Len M) st), (get (Len m) st); try destruct (get (Idx M) st); try destruct (get (Idx m) st); cbn [obind] in E.
    all: try discriminate E; try (injection E as <-; rewrite ?get_with; teq; exact Hc).
  - injection Hn as <-.
    destruct (Z.eqb_spec q M) as [HM|HM], (Z.eqb_spec q m) as [Hm|Hm]; cbn [orb].
    4: { apply andb_true_iff in Htu. destruct Htu as [Hd _]. apply negb_true_iff, mem_false in Hd. simpl in Hd. apply Hkeep; simpl; intuition congruence. }
    all: assert (Hc : forall cs, clean_blocks_sta d bb M m st = Some cs -> get (Idx d) cs = None) by (unfold clean_blocks_sta; destruct (_ || _ || _); [discriminate|]; intros cs Ec; injection Ec as <-; rewrite get_remove; teq; rewrite Z.eqb_refl; cbn [orb]; rewrite ?orb_true_r; reflexivity).
    all: cbn [view_sub_state] in E; subst q; rewrite ?Hq in E.
    all: destruct (get (Idx bb) st); try destruct (get (Idx M) st); try destruct (get (Idx m) st); auto.
  - injection Hn as <-. apply andb_true_iff in Htu. destruct Htu as [Hd _]. apply negb_true_iff, mem_false in Hd. simpl in Hd. apply Hkeep; simpl; intuition congruence.
  - injection Hn as <-. apply Hkeep; simpl; intuition congruence.
  - injection Hn as <-. destruct (Hren ps eq_refl) as (H1 & H2 & H3). cbn [view_sub_state] in E. injection E as <-.
    rewrite get_rename_state by assumption. rewrite Views2.ext_name_alt by assumption. destruct (_ && _); [reflexivity|]. rewrite H3. exact Hq.
Qed.

Definition mndef (iv : option (val * val)) : Prop := match iv with None => True | Some (mn, _) => vz mn <> None end.
Definition at_ok (r : bool) (iv : option (val * val)) (w : val) (x : Z) : Prop := agW w x /\ (r = false -> mndef iv -> vz w <> None).

Lemma def_vsub a b : vz a <> None -> vz b <> None -> vz (vsub a b) <> None.
Proof. destruct (vz a) as [x|] eqn:Ea; [|congruence]. destruct (vz b) as [y|] eqn:Eb; [|congruence]. rewrite (vz_vsub' _ _ _ _ Ea Eb). discriminate. Qed.
Lemma def_vadd a b : vz a <> None -> vz b <> None -> vz (vadd a b) <> None.
Proof. destruct (vz a) as [x|] eqn:Ea; [|congruence]. destruct (vz b) as [y|] eqn:Eb; [|congruence]. rewrite (vz_vadd' _ _ _ _ Ea Eb). discriminate. Qed.

Lemma same_return_l x y w : same_return true x y = Some w -> w = x.
Proof. destruct x, y; cbn [same_return]; try discriminate; try (intros E; injection E as <-; reflexivity). destruct (_ =? _); [|discriminate]. intros E. injection E as <-. reflexivity. Qed.

Theorem lower_int s : swf s = true -> forall st l a sg p q r iv w, signature s = Some sg -> spath sg a = Some p -> In (q, None) p ->
  steady q s = true -> turns r q s = true -> (r = true -> iv = None -> unshifted q s = true) ->
  lenok s l -> agree st l a -> lendef st -> get (Idx q) st = None -> chosen r s l a q iv ->
  (unblocked q s = true -> lower_bound s q st iv = Some w -> agW w (iofa s l a q)) /\ (lower_bound_at s q st iv = Some w -> at_ok r iv w (a q)).
Proof.
  induction s as [c|d ts IH|d t IH|v t IH|ts IH] using struct_ind'; intros Hw st l a sg p q r iv w Es Ep Hq Hst Htu Hun Hlk Hag Hld Hop Hch;
    try discriminate.
  - cbn [lower_bound lower_bound_at iofa].
    destruct (signature_Tuple_inv _ _ _ Es) as (ss & F & Hx & ->). pose proof (swf_tuple _ _ Hw) as Hws.
    rewrite spath_dep in Ep. destruct (nthz ss (a d)) as [sr|] eqn:Er; [|discriminate].
    destruct (spath sr a) as [pr|] eqn:Epr; [|discriminate]. injection Ep as <-.
    pose proof (Forall2_nthz _ _ _ (a d) F) as Ht. rewrite Er in Ht. destruct (nthz ts (a d)) as [t|] eqn:Et; [|contradiction].
    destruct Hq as [Hq|Hq]; [discriminate|]. pose proof (nthz_In _ _ _ Et) as Hin.
    assert (Hqd : q <> d).
    { intros ->. rewrite <- not_true_iff_false in Hx. apply Hx, existsb_exists. exists sr. split; [exact (nthz_In _ _ _ Er)|exact (spath_accept' _ _ _ _ _ Epr Hq)]. }
    rewrite Forall_forall in IH. rewrite forallb_forall in Hws. cbn [steady turns] in Hst, Htu. rewrite forallb_forall in Hst, Htu.
    simpl in Hlk. apply lenok_all in Hlk. eapply Forall_nthz in Hlk; [|exact Et].
    destruct (IH t Hin (Hws t Hin) (remove [Idx d] st) l a sr pr q r iv w) as [IH1 IH2]; auto using agree_remove_idx, lendef_remove_idx.
    2: { rewrite get_remove. destruct (tag_mem _ _); [reflexivity|exact Hop]. }
    { intros Hr Hi. specialize (Hun Hr Hi). cbn [unshifted] in Hun. rewrite forallb_forall in Hun. apply Hun, Hin. }
    { unfold chosen in *. destruct iv; [exact Hch|]. cbn [ilen] in Hch. destruct (Z.eqb_spec q d); [contradiction|].
      rewrite nthz_map, Et in Hch. exact Hch. }
    assert (Hget : forall k, has (Idx d) st = true -> tuple_index d st = Some k -> k = a d).
    { intros k _ Hk. unfold tuple_index in Hk. destruct (get (Idx d) st) as [vi|] eqn:Ei; [|discriminate].
      pose proof (ag_idx _ _ _ Hag _ _ Ei) as Hvi. unfold vagree in Hvi. destruct vi; simpl in *; try discriminate. congruence. }
    split; [intros Hub E|intros E]; apply guard_Some in E; destruct E as [Eh E].
    + assert (Hi : has (Idx d) st = true).
      { cbn [has_lower_bound] in Eh. destruct (has (Idx d) st); [reflexivity|]. injection Eh as Eh. apply Z.eqb_eq in Eh. contradiction. }
      apply guard_Some in E. destruct E as [_ E]. rewrite Hi in E. destruct (tuple_index d st) as [k|] eqn:Ek; [|discriminate]. cbn [obind] in E.
      rewrite (Hget k Hi eq_refl) in E. rewrite nthz_map, Et in E. cbn [option_map ojoin] in E. rewrite nthz_map, Et. cbn [option_map].
      apply IH1; [|exact E]. cbn [unblocked] in Hub. rewrite forallb_forall in Hub. apply Hub, Hin.
    + assert (Hi : has (Idx d) st = true).
      { cbn [has_lower_bound] in Eh. destruct (has (Idx d) st); [reflexivity|]. injection Eh as Eh. apply Z.eqb_eq in Eh. contradiction. }
      apply guard_Some in E. destruct E as [_ E]. rewrite Hi in E. destruct (tuple_index d st) as [k|] eqn:Ek; [|discriminate]. cbn [obind] in E.
      rewrite (Hget k Hi eq_refl) in E. rewrite nthz_map, Et in E. cbn [option_map ojoin] in E. auto.
  - cbn [lower_bound lower_bound_at iofa].
    destruct (signature_Vector_inv _ _ _ Es) as (s0 & E0 & Hdd & ->). cbn [spath] in Ep.
    destruct (spath s0 a) as [pr|] eqn:Epr; [|discriminate]. injection Ep as <-. cbn [steady turns] in Hst, Htu.
    unfold chosen in Hch. cbn [ilen] in Hch.
    destruct (Z.eqb_spec q d) as [->|Hne].
    + destruct r; [discriminate|]. split; [intros _ E|intros E]; apply guard_Some in E; destruct E as [_ E].
      * destruct iv as [[mn en]|].
        -- destruct (size_ t (remove [Idx d; Len d] st)) as [sz|] eqn:Ez; [|discriminate]. cbn [obind] in E. injection E as <-.
           assert (Hz : vz sz = Some (u64 (isize t (fupd l d None)))).
           { eapply (size_spec t Hw); eauto using agree_remove_both, lendef_remove_both. congruence. }
           intros y Hy. rewrite (agW_mul_r _ _ _ _ Hz Hch y Hy), eqW_u64. apply eqW_eq. lia.
        -- injection E as <-. apply (agW_eqW _ 0); [|apply agW_Sta]. rewrite Hch. apply eqW_eq. lia.
      * split; [|intros _; destruct iv as [[mn en]|]; injection E as <-; cbn [mndef]; auto; discriminate].
        destruct iv as [[mn en]|]; injection E as <-; [exact Hch|]. apply (agW_eqW _ 0); [|apply agW_Sta]. rewrite Hch. reflexivity.
    + destruct Hq as [Hq|Hq]; [congruence|].
      destruct (IH Hw (remove [Idx d; Len d] st) (fupd l d None) a s0 pr q r iv w) as [IH1 IH2]; auto using agree_remove_both, lendef_remove_both.
      2: { rewrite get_remove. destruct (tag_mem _ _); [reflexivity|exact Hop]. }
      { intros Hr Hi. specialize (Hun Hr Hi). cbn [unshifted] in Hun. destruct (Z.eqb_spec q d); [contradiction|exact Hun]. }
      split; [intros Hub E|intros E]; apply guard_Some in E; destruct E as [_ E]; auto.
      apply IH1; [|exact E]. cbn [unblocked] in Hub. destruct (Z.eqb_spec q d); [contradiction|exact Hub].
  - destruct (view_down _ _ _ _ _ l Hw Es Ep) as (s0 & p' & E0 & Ev & Hsn & Ep' & R & Hnd').
    destruct (swf_view _ _ Hw) as [Hv Ht]. pose proof (swf_uswf _ Ht) as Hu. destruct (steady_down _ _ _ Hst) as [Hs1 Hs2].
    assert (Hs0 : signature (View v t) <> None) by congruence. assert (Ht0 : signature t <> None) by congruence.
    pose proof (view_step v t s0 sg l a a p' p q Hu Hv E0 Ev Ep' R Hnd' Hq Hs1 (fun x _ _ => eq_refl)) as Hstep.
    set (l' := view_lenv v l) in *. set (b := view_asg v (ilen t) l a) in *.
    assert (Hopen : forall q' st', vnext v q = Some q' -> sub_state v t st = Some st' -> get (Idx q') st' = None).
    { intros q' st' Hn Est. apply (sub_open v t st st' q q' r Est Hn Htu); [| |exact Hop].
      - intros d i ->. cbn [prel] in R. subst p. apply in_pm in Hq. destruct Hq as [[_ Hne]|(k & _ & [])]. exact Hne.
      - intros ps ->. cbn [prel] in R. subst p. apply in_map_iff in Hq. destruct Hq as ([q0 k] & Hqe & Hq'). cbn [fst snd] in Hqe. injection Hqe as <- ->.
        cbn [view_sig] in Ev. destruct (nodupb (map fst ps) && _ && _) eqn:Er in Ev; [|discriminate].
        assert (Hback : rename_in ps (rename_dim ps q0) = q0) by exact (rename_back ps s0 q0 Er (spath_accept' _ _ _ _ _ Ep' Hq')).
        rewrite !andb_true_iff, !nodupb_NoDup in Er. rewrite Hback. tauto. }
    assert (Hsub : forall q' r' iv' w' b', vnext v q = Some q' -> (forall x, x <> q' -> b' x = b x) ->
      turns r' q' t = true -> (r' = true -> iv' = None -> unshifted q' t = true) -> chosen r' t l' b' q' iv' ->
      (unblocked q' t = true -> (do st' <- sub_state v t st; lower_bound t q' st' iv') = Some w' -> agW w' (iofa t l' b' q')) /\
      ((do st' <- sub_state v t st; lower_bound_at t q' st' iv') = Some w' -> at_ok r' iv' w' (b' q'))).
    { intros q' r' iv' w' b' Hn Hbb Htu' Hun' Hch'. rewrite Hn in Hstep, Hs2. destruct Hstep as (Hq' & _ & _).
      destruct (sub_state v t st) as [st'|] eqn:Est; cbn [obind]; [|split; discriminate]. pose proof (Hopen q' st' Hn eq_refl) as Hop'.
      assert (Epb : spath s0 b' = Some p').
      { eapply spath_ext; [exact Ep'|]. intros e n He. apply Hbb. intros ->. pose proof (nodup_fst_eq _ _ _ _ Hnd' He Hq'). discriminate. }
      apply (IH Ht st' l' b' s0 p' q' r' iv' w'); auto.
      - exact (proj2 Hlk).
      - destruct (sub_state_refines _ _ _ _ _ _ Hs0 Hlk Hag Est) as [Hg1 Hg2]. split; [exact Hg1|]. intros x vx Hx. rewrite Hbb; [apply Hg2, Hx|]. congruence.
      - exact (sub_lendef _ _ _ _ _ _ Hv Hs0 Hlk Hag Est Hld). }
    assert (Hlen : forall e n, (do st' <- sub_state v t st; length_ t e st') = Some n -> agW n (ilen t l' b e)).
    { intros e n En. destruct (sub_state v t st) as [st'|] eqn:Est; [|discriminate]. cbn [obind] in En. apply agW_vagree.
      exact (length_agree t Ht0 st' l' b e n (proj2 Hlk) (sub_state_refines _ _ _ _ _ _ Hs0 Hlk Hag Est) En). }
    (* a view that leaves [q] alone *)
    assert (Hplain : forall q', vnext v q = Some q' -> iofa (View v t) l a q = iofa t l' b q' -> b q' = a q -> ilen (View v t) l a q = ilen t l' b q' ->
      turns r q' t = true -> (r = true -> iv = None -> unshifted q' t = true) ->
      (unblocked q' t = true -> (do st' <- sub_state v t st; lower_bound t q' st' iv) = Some w -> agW w (iofa (View v t) l a q)) /\
      ((do st' <- sub_state v t st; lower_bound_at t q' st' iv) = Some w -> at_ok r iv w (a q))).
    { intros q' Hn Hio Hb Hil Htu' Hun'. rewrite Hio, <- Hb. apply (Hsub q' r iv w b Hn (fun _ _ => eq_refl) Htu' Hun').
      unfold chosen in *. rewrite Hb, <- Hil. exact Hch. }
    assert (Hg : forall A (x : option A) y h, guard h x = Some y -> x = Some y) by (intros A x y h E; apply guard_Some in E; apply E).
    (* a view that moves [q] by a constant *)
    assert (Hmoved : forall start none none2, vz start <> None -> vnext v q = Some q -> iofa (View v t) l a q = iofa t l' b q -> eqW (b q) (a q + vzd start) ->
      turns r q t = true ->
      (iv = None -> r = true -> (forall e, none = Some e -> agW e (b q + 1)) /\ (forall e, none2 = Some e -> agW e (b q + 1))) ->
      (unblocked q t = true -> match iv with
       | None => do e <- none; do st' <- sub_state v t st; lower_bound t q st' (Some (start, e))
       | Some (mn, en) => do st' <- sub_state v t st; lower_bound t q st' (Some (vadd mn start, vadd en start)) end = Some w ->
       agW w (iofa (View v t) l a q)) /\
      (match iv with
       | None => do e <- none2; do x <- (do st' <- sub_state v t st; lower_bound_at t q st' (Some (start, e))); Some (vsub x start)
       | Some (mn, en) => do x <- (do st' <- sub_state v t st; lower_bound_at t q st' (Some (vadd mn start, vadd en start))); Some (vsub x start) end = Some w ->
       at_ok r iv w (a q))).
    { intros start none none2 Hsd Hn Hio Hb Htu' Hnone. rewrite Hio. destruct iv as [[mn en]|].
      - assert (Hch' : chosen r t l' b q (Some (vadd mn start, vadd en start))).
        { unfold chosen in *. destruct r.
          - apply (agW_eqW _ (a q + 1 + vzd start)); [rewrite Hb; apply eqW_eq; lia|]. apply agW_add; [exact Hch|apply agW_self].
          - apply (agW_eqW _ (a q + vzd start)); [rewrite Hb; reflexivity|]. apply agW_add; [exact Hch|apply agW_self]. }
        split; [intros Hub E|intros E]; [apply (Hsub q r _ w b Hn (fun _ _ => eq_refl) Htu' (never_none _ _ _) Hch' ); assumption|].
        destruct (do st' <- sub_state v t st; lower_bound_at t q st' _) as [x|] eqn:Ex in E; [|discriminate]. cbn [obind] in E. injection E as <-.
        destruct (proj2 (Hsub q r _ x b Hn (fun _ _ => eq_refl) Htu' (never_none _ _ _) Hch') Ex) as [X1 X2].
        split; [|intros Hr Hm; apply def_vsub; [apply (X2 Hr); cbn [mndef] in *; apply def_vadd; assumption|exact Hsd]].
        apply (agW_eqW _ (b q - vzd start)); [rewrite Hb; apply eqW_eq; lia|]. apply agW_sub; [exact X1|apply agW_self].
      - assert (Hch' : forall e, (r = true -> agW e (b q + 1)) -> chosen r t l' b q (Some (start, e))).
        { intros e He. unfold chosen in *. destruct r; [apply He; reflexivity|]. apply (agW_eqW _ (0 + vzd start)); [|apply agW_self].
          rewrite Hb, Hch. reflexivity. }
        split; [intros Hub E|intros E].
        + destruct none as [e|]; [|discriminate]. cbn [obind] in E. apply (Hsub q r (Some (start, e)) w b Hn (fun _ _ => eq_refl) Htu' (never_none _ _ _)); [|exact Hub|exact E].
          apply Hch'. intros Hr. apply (proj1 (Hnone eq_refl Hr)). reflexivity.
        + destruct none2 as [e|]; [|discriminate]. cbn [obind] in E.
          destruct (do st' <- sub_state v t st; lower_bound_at t q st' _) as [x|] eqn:Ex in E; [|discriminate]. cbn [obind] in E. injection E as <-.
          destruct (proj2 (Hsub q r (Some (start, e)) x b Hn (fun _ _ => eq_refl) Htu' (never_none _ _ _) (Hch' e (fun Hr => proj2 (Hnone eq_refl Hr) e eq_refl))) Ex) as [X1 X2].
          split; [|intros Hr _; apply def_vsub; [apply (X2 Hr); exact Hsd|exact Hsd]].
          apply (agW_eqW _ (b q - vzd start)); [rewrite Hb; apply eqW_eq; lia|]. apply agW_sub; [exact X1|apply agW_self]. }
    assert (Hsplit : forall e1 e2 h u, (u = true -> e1 = Some w -> agW w (iofa (View v t) l a q)) /\ (e2 = Some w -> at_ok r iv w (a q)) ->
      (u = true -> guard h e1 = Some w -> agW w (iofa (View v t) l a q)) /\ (guard h e2 = Some w -> at_ok r iv w (a q))).
    { intros e1 e2 h u [H1 H2]. split; [intros Hub E|intros E]; apply Hg in E; auto. }
    (* the index in a block *)
    assert (Hminor : forall d m, q = m -> vnext v q = Some d -> turns r d t = true ->
      match iv with
      | None => do n <- length_ (View v t) m st; do st' <- sub_state v t st; lower_bound_at t d st' (Some (Sta 0, n))
      | Some _ => do st' <- sub_state v t st; lower_bound_at t d st' iv end = Some w -> at_ok r iv w (a q)).
    { intros d m Hqm Hn Htu' E. set (b' := fupd b d (a q)).
      assert (Hb' : forall x, x <> d -> b' x = b x) by (intros x Hx; apply fupd_neq, Hx).
      assert (Hd' : b' d = a q) by apply fupd_eq. rewrite <- Hd'. destruct iv as [[mn en]|].
      - apply (Hsub d r (Some (mn, en)) w b' Hn Hb' Htu' (never_none _ _ _)); [|exact E]. unfold chosen in *. rewrite Hd'. exact Hch.
      - destruct (length_ (View v t) m st) as [n|] eqn:En; [|discriminate]. cbn [obind] in E.
        destruct (proj2 (Hsub d r (Some (Sta 0, n)) w b' Hn Hb' Htu' (never_none _ _ _) ltac:(
          unfold chosen in *; rewrite Hd'; destruct r;
            [apply (agW_eqW _ (ilen (View v t) l a q)); [rewrite Hch; apply eqW_eq; lia|subst m; exact (agW_vagree _ _ (length_agree _ Hs0 st l a q n Hlk Hag En))]
            |apply (agW_eqW _ 0); [rewrite Hch; reflexivity|apply agW_Sta]])) E) as [X1 X2].
        split; [exact X1|]. intros Hr _. apply (X2 Hr). discriminate. }
    (* the index of a block *)
    assert (Hmajor : forall d m, vnext v q = Some d -> r = false -> turns false d t = true ->
      (do z <- (do st' <- sub_state v t st; lower_bound_at t d st' None);
       match iv with
       | None => do n <- length_ (View v t) m st; same_return (is_zero z) (Sta 0) (vsub n (Sta 1))
       | Some (mn, en) => same_return (is_zero z) mn (vsub en (Sta 1)) end) = Some w -> at_ok r iv w (a q)).
    { intros d m Hn -> Htu' E. set (b' := fupd b d 0).
      assert (Hb' : forall x, x <> d -> b' x = b x) by (intros x Hx; apply fupd_neq, Hx).
      assert (Hd' : b' d = 0) by apply fupd_eq.
      destruct (do st' <- sub_state v t st; lower_bound_at t d st' None) as [z|] eqn:Ez in E; [|discriminate]. cbn [obind] in E.
      destruct (proj2 (Hsub d false None z b' Hn Hb' Htu' (never_false _ _) ltac:(unfold chosen; rewrite Hd'; reflexivity)) Ez) as [Z1 Z2].
      assert (Hz : is_zero z = true).
      { specialize (Z2 eq_refl I). unfold is_zero. destruct (vz z) as [zv|] eqn:Ezv; [|congruence]. specialize (Z1 zv Ezv). rewrite Hd' in Z1.
        unfold eqW in Z1. rewrite !u64_small in Z1 by (try (eapply vz_range; exact Ezv); pose proof W_pos; lia). subst zv. reflexivity. }
      rewrite Hz in E. unfold chosen in Hch. destruct iv as [[mn en]|].
      - apply same_return_l in E. subst w. split; [exact Hch|]. intros _ H. exact H.
      - destruct (length_ (View v t) m st) as [n|]; [|discriminate]. cbn [obind] in E. apply same_return_l in E. subst w.
        split; [|discriminate]. apply (agW_eqW _ 0); [rewrite Hch; reflexivity|apply agW_Sta]. }
    assert (Hvz : forall x, match vz x with Some _ => true | None => false end = true -> vz x <> None) by (intros x; destruct (vz x); congruence).
    assert (Hvs := Hv). unfold view_swf in Hvs. rewrite E0 in Hvs.
    cbn [lower_bound lower_bound_at]. apply Hsplit. clear Hsplit.
    unfold chosen in Hch.
    destruct v as [d|d i|d n|d s|d s len|d s en|d s rr|d|d M m|d M m pd|d bb M m ml|M m d|sl gl d ds|ds|d|ps|xa xb d];
      cbn [turns unshifted unblocked vnext] in *; try discriminate;
      try (apply (Hplain q); [reflexivity|reflexivity|reflexivity|reflexivity|exact Htu|exact Hun]).
    + (* bcast *) destruct (Z.eqb_spec q d) as [->|Hne].
      * destruct r; [discriminate|]. cbn [iofa]. unfold vnext. rewrite Z.eqb_refl. split; [intros _ E|intros E].
        -- injection E as <-. apply agW_Sta.
        -- split; [|intros _; destruct iv as [[mn en]|]; injection E as <-; cbn [mndef]; auto; discriminate].
           destruct iv as [[mn en]|]; injection E as <-; [exact Hch|]. apply (agW_eqW _ 0); [|apply agW_Sta]. rewrite Hch. reflexivity.
      * apply (Hplain q); [reflexivity| |reflexivity| |exact Htu|exact Hun].
        -- rewrite iofa_other by reflexivity. cbn [vnext]. destruct (Z.eqb_spec q d); [contradiction|reflexivity].
        -- cbn [ilen view_ilen]. destruct (Z.eqb_spec q d); [contradiction|reflexivity].
    + (* fix *) assert (Hqd : q <> d).
      { cbn [prel] in R. subst p. apply in_pm in Hq. destruct Hq as [[_ Hne]|(k & _ & [])]. exact Hne. }
      apply (Hplain q); [reflexivity|reflexivity| |reflexivity|exact Htu|exact Hun].
      unfold b. cbn [view_asg]. rewrite fupd_neq by exact Hqd. reflexivity.
    + (* shift *) destruct (Z.eqb_spec q d) as [->|Hne].
      * apply Hmoved; [apply Hvz, Hvs|reflexivity|reflexivity| |exact Htu|].
        -- unfold b. cbn [view_asg]. rewrite fupd_eq, eqW_u64. reflexivity.
        -- intros -> ->. specialize (Hun eq_refl eq_refl). discriminate.
      * apply (Hplain q); [reflexivity|reflexivity| | |exact Htu|].
        -- unfold b. cbn [view_asg]. rewrite fupd_neq by exact Hne. reflexivity.
        -- cbn [ilen view_ilen]. destruct (Z.eqb_spec q d); [contradiction|reflexivity].
        -- intros H1 H2. specialize (Hun H1 H2). exact Hun.
    + (* slice *) destruct (Z.eqb_spec q d) as [->|Hne].
      * assert (Hb : eqW (b d) (a d + vzd s)) by (unfold b; cbn [view_asg]; rewrite fupd_eq, eqW_u64; reflexivity).
        apply Hmoved; [destruct (vz s); congruence|reflexivity|reflexivity|exact Hb|exact Htu|].
        intros -> ->. cbn [ilen view_ilen] in Hch. rewrite Z.eqb_refl in Hch.
        assert (X : agW (vadd s len) (b d + 1)).
        { apply (agW_eqW _ (vzd s + vzd len)); [rewrite Hb, Hch; apply eqW_eq; lia|]. apply agW_add; apply agW_self. }
        split; intros e Ee; injection Ee as <-; exact X.
      * apply (Hplain q); [reflexivity|reflexivity| | |exact Htu|exact Hun].
        -- unfold b. cbn [view_asg]. rewrite fupd_neq by exact Hne. reflexivity.
        -- cbn [ilen view_ilen]. destruct (Z.eqb_spec q d); [contradiction|reflexivity].
    + (* span *) destruct (Z.eqb_spec q d) as [->|Hne].
      * assert (Hb : eqW (b d) (a d + vzd s)) by (unfold b; cbn [view_asg]; rewrite fupd_eq, eqW_u64; reflexivity).
        apply Hmoved; [destruct (vz s); congruence|reflexivity|reflexivity|exact Hb|exact Htu|].
        intros -> ->. cbn [ilen view_ilen] in Hch. rewrite Z.eqb_refl in Hch.
        assert (X : agW en (b d + 1)).
        { apply (agW_eqW _ (vzd en)); [rewrite Hb, Hch, eqW_u64; apply eqW_eq; lia|]. apply agW_self. }
        split; intros e Ee; injection Ee as <-; exact X.
      * apply (Hplain q); [reflexivity|reflexivity| | |exact Htu|exact Hun].
        -- unfold b. cbn [view_asg]. rewrite fupd_neq by exact Hne. reflexivity.
        -- cbn [ilen view_ilen]. destruct (Z.eqb_spec q d); [contradiction|reflexivity].
    + (* reverse *)
      assert (Hsame : ilen t l' a q = ilen t l' b q).
      { destruct Hstep as (Hq' & _ & _). unfold view_swf in Hv. rewrite E0 in Hv. apply andb_true_iff in Hv. destruct Hv as [_ Hv].
        rewrite forallb_forall in Hv. specialize (Hv q (proj1 (accept_sdims _ _) (spath_accept' _ _ _ _ _ Ep' Hq'))).
        apply negb_true_iff, mem_false in Hv.
        apply (uswf_loc t Hu l' s0 b a p' q E0 Ep' Hq'). intros x Hx _. unfold b. cbn [view_asg]. rewrite fupd_neq; [reflexivity|]. congruence. }
      destruct (Z.eqb_spec q d) as [->|Hne].
      * apply andb_true_iff in Htu. destruct Htu as [-> Htu].
        assert (Hb : eqW (b d) (ilen t l' b d - 1 - a d)).
        { rewrite <- Hsame. unfold b. cbn [view_asg]. rewrite fupd_eq, eqW_u64. reflexivity. }
        destruct iv as [[mn en]|].
        -- assert (Hch' : forall n, agW n (ilen t l' b d) -> chosen false t l' b d (Some (vsub n en, vsub (vsub n (Sta 1)) mn))).
           { intros n Hn. unfold chosen. apply (agW_eqW _ (ilen t l' b d - (a d + 1))); [rewrite Hb; apply eqW_eq; lia|]. apply agW_sub; [exact Hn|exact Hch]. }
           split; [intros Hub E|intros E]; destruct (do st' <- sub_state (VReverse d) t st; length_ t d st') as [n|] eqn:En in E; try discriminate; cbn [obind] in E.
           ++ apply (Hsub d false _ w b eq_refl (fun _ _ => eq_refl) Htu (never_false _ _) (Hch' n (Hlen d n En))); assumption.
           ++ destruct (do st' <- sub_state _ t st; lower_bound_at t d st' _) as [x|] eqn:Ex in E; [|discriminate]. cbn [obind] in E. injection E as <-.
              split; [|discriminate].
              apply (agW_eqW _ (ilen t l' b d - 1 - b d)); [rewrite Hb; apply eqW_eq; lia|]. apply agW_sub; [apply agW_sub; [exact (Hlen d n En)|apply agW_Sta]|].
              apply (Hsub d false _ x b eq_refl (fun _ _ => eq_refl) Htu (never_false _ _) (Hch' n (Hlen d n En))). exact Ex.
        -- assert (Hch' : chosen false t l' b d None).
           { unfold chosen. rewrite Hb, Hch. cbn [ilen view_ilen]. fold l'. rewrite Hsame. apply eqW_eq. lia. }
           split; [intros Hub E|intros E].
           ++ apply (Hsub d false _ w b eq_refl (fun _ _ => eq_refl) Htu (never_false _ _) Hch'); assumption.
           ++ destruct (do st' <- sub_state (VReverse d) t st; length_ t d st') as [n|] eqn:En in E; [|discriminate]. cbn [obind] in E.
              destruct (do st' <- sub_state _ t st; lower_bound_at t d st' _) as [x|] eqn:Ex in E; [|discriminate]. cbn [obind] in E. injection E as <-.
              split; [|discriminate].
              apply (agW_eqW _ (ilen t l' b d - 1 - b d)); [rewrite Hb; apply eqW_eq; lia|]. apply agW_sub; [apply agW_sub; [exact (Hlen d n En)|apply agW_Sta]|].
              apply (Hsub d false _ x b eq_refl (fun _ _ => eq_refl) Htu (never_false _ _) Hch'). exact Ex.
      * assert (X := Hplain q eq_refl eq_refl). destruct iv as [[mn en]|]; (apply X; [|exact Hsame|exact Htu|exact Hun]).
        all: unfold b; cbn [view_asg]; rewrite fupd_neq by exact Hne; reflexivity.
    + (* blocks *) destruct (Z.eqb_spec q m) as [Hm|Hm].
      { split; [intros Hub; simpl in Hub; destruct (Z.eqb_spec q m); [|contradiction]; rewrite ?orb_true_r in Hub; discriminate|].
        apply (Hminor d m); [exact Hm|rewrite orb_true_r; reflexivity|exact Htu]. }
      destruct (Z.eqb_spec q M) as [HM|HM].
      { split; [intros Hub; simpl in Hub; destruct (Z.eqb_spec q M); [discriminate|contradiction]|].
        apply andb_true_iff in Htu. destruct Htu as [Hr Htu]. destruct r; [discriminate|]. apply (Hmajor d m); [reflexivity|reflexivity|exact Htu]. }
      destruct (Z.eqb_spec q d) as [|H1]; [discriminate|]. cbn [negb andb] in Htu. cbn [mem existsb].
      destruct (Hplain q) as [X1 X2]; [reflexivity| | | |exact Htu|exact Hun|].
      -- rewrite (iofa_blocks _ d M m) by reflexivity. cbn zeta. cbn [vnext]. destruct (Z.eqb_spec q m); [contradiction|]. destruct (Z.eqb_spec q M); [contradiction|]. reflexivity.
      -- unfold b. cbn [view_asg]. rewrite fupd_neq by exact H1. reflexivity.
      -- cbn [ilen view_ilen]. destruct (Z.eqb_spec q m); [contradiction|]. destruct (Z.eqb_spec q M); [contradiction|]. reflexivity.
      -- split; [|exact X2]. intros Hub. apply andb_true_iff in Hub. apply X1, Hub.
    + (* dynamic *) destruct (Z.eqb_spec q m) as [Hm|Hm].
      { split; [intros Hub; simpl in Hub; destruct (Z.eqb_spec q m); [|contradiction]; rewrite ?orb_true_r in Hub; discriminate|].
        destruct iv; [discriminate|]. apply (Hminor d m); [exact Hm| |exact Htu]. rewrite orb_true_r. cbn [view_sig] in Ev. destruct (_ || _) eqn:Eb in Ev; [discriminate|].
        destruct (Z.eqb_spec q pd); [lia|reflexivity]. }
      destruct (Z.eqb_spec q M) as [HM|HM].
      { split; [intros Hub; simpl in Hub; destruct (Z.eqb_spec q M); [discriminate|contradiction]|].
        apply andb_true_iff in Htu. destruct Htu as [Hr Htu]. destruct r; [discriminate|]. destruct iv; [discriminate|]. apply (Hmajor d m); [|reflexivity|exact Htu].
        cbn [view_sig] in Ev. destruct (_ || _) eqn:Eb in Ev; [discriminate|]. destruct (Z.eqb_spec q pd); [lia|reflexivity]. }
      cbn [mem existsb]. destruct (Z.eqb_spec q pd) as [Hp|Hp].
      { destruct r; [discriminate|]. cbn [orb]. rewrite (iofa_blocks _ d M m) by reflexivity. cbn zeta. cbn [vnext].
        destruct (Z.eqb_spec q M); [contradiction|]. destruct (Z.eqb_spec q m); [contradiction|]. destruct (Z.eqb_spec q pd); [|contradiction]. split.
        - intros _ E. injection E as <-. apply agW_Sta.
        - intros E. destruct iv; [discriminate|]. injection E as <-. split; [|discriminate]. apply (agW_eqW _ 0); [|apply agW_Sta]. rewrite Hch. reflexivity. }
      destruct (Z.eqb_spec q d) as [|H1]; [discriminate|]. cbn [negb andb orb] in *.
      destruct (Hplain q) as [X1 X2]; [reflexivity| | | |exact Htu|exact Hun|].
      -- rewrite (iofa_blocks _ d M m) by reflexivity. cbn zeta. cbn [vnext]. destruct (Z.eqb_spec q m); [contradiction|]. destruct (Z.eqb_spec q M); [contradiction|]. destruct (Z.eqb_spec q pd); [contradiction|]. reflexivity.
      -- unfold b. cbn [view_asg]. rewrite fupd_neq by exact H1. reflexivity.
      -- cbn [ilen view_ilen]. destruct (Z.eqb_spec q m); [contradiction|]. destruct (Z.eqb_spec q M); [contradiction|]. destruct (Z.eqb_spec q pd); [contradiction|]. reflexivity.
      -- split; [intros Hub; apply andb_true_iff in Hub; apply X1, Hub|]. destruct iv; [discriminate|exact X2].
    + (* static *) destruct (Z.eqb_spec q m) as [Hm|Hm].
      { split; [intros Hub; simpl in Hub; destruct (Z.eqb_spec q m); [|contradiction]; rewrite ?orb_true_r in Hub; discriminate|].
        apply (Hminor d m); [exact Hm|rewrite orb_true_r; reflexivity|exact Htu]. }
      destruct (Z.eqb_spec q M) as [HM|HM].
      { split; [intros Hub; simpl in Hub; destruct (Z.eqb_spec q M); [discriminate|contradiction]|].
        apply andb_true_iff in Htu. destruct Htu as [Hr Htu]. destruct r; [discriminate|]. apply (Hmajor d m); [reflexivity|reflexivity|exact Htu]. }
      apply andb_true_iff in Htu. destruct Htu as [Hno Htu]. apply negb_true_iff, mem_false in Hno. simpl in Hno.
      assert (q <> d /\ q <> bb) as (H1 & H4) by intuition. cbn [mem existsb]. destruct (Z.eqb_spec q bb); [contradiction|]. cbn [orb] in *.
      destruct (Hplain q) as [X1 X2]; [reflexivity| | | |exact Htu|exact Hun|].
      -- rewrite (iofa_blocks _ d M m) by reflexivity. cbn zeta. cbn [vnext]. destruct (Z.eqb_spec q m); [contradiction|]. destruct (Z.eqb_spec q M); [contradiction|]. reflexivity.
      -- unfold b. cbn [view_asg]. rewrite fupd_neq by exact H1. reflexivity.
      -- cbn [ilen view_ilen]. destruct (Z.eqb_spec q m); [contradiction|]. destruct (Z.eqb_spec q M); [contradiction|]. destruct (Z.eqb_spec q bb); [contradiction|]. reflexivity.
      -- split; [|exact X2]. intros Hub. apply andb_true_iff in Hub. apply X1, Hub.
    + (* merge *) apply andb_true_iff in Htu. destruct Htu as [Hno Htu]. apply negb_true_iff, mem_false in Hno. simpl in Hno.
      assert (q <> d /\ q <> M /\ q <> m) as (H1 & H2 & H3) by intuition. destruct (Z.eqb_spec q d); [contradiction|].
      apply (Hplain q); [reflexivity|reflexivity| | |exact Htu|exact Hun].
      -- unfold b. cbn [view_asg]. rewrite fupds_out by (simpl; intuition). reflexivity.
      -- cbn [ilen view_ilen]. destruct (Z.eqb_spec q d); [contradiction|]. reflexivity.
    + (* rename *) apply (Hplain (rename_in ps q)); [reflexivity|reflexivity| |reflexivity|exact Htu|exact Hun].
      unfold b. cbn [view_asg]. cbn [prel] in R. subst p. apply in_map_iff in Hq. destruct Hq as ([q' k] & Hqe & Hq'). cbn [fst snd] in Hqe. injection Hqe as <- ->.
      cbn [view_sig] in Ev. destruct (nodupb (map fst ps) && _ && _) eqn:Er in Ev; [|discriminate].
      assert (Hback : rename_in ps (rename_dim ps q') = q') by exact (rename_back ps s0 q' Er (spath_accept' _ _ _ _ _ Ep' Hq')).
      rewrite Hback. reflexivity.
Qed.

(** ** Offsets grow with the index, or fall if the dimension is reversed *)

Theorem turns_mono s : swf s = true -> forall l a a2 sg p q r, pvalid s l a sg p -> pvalid s l a2 sg p -> lrange l ->
  good s l a -> good s l a2 -> In (q, None) p -> differ_at q p a a2 -> steady q s = true -> turns r q s = true -> a q <= a2 q ->
  if r then ioff s l a2 <= ioff s l a else ioff s l a <= ioff s l a2.
Proof.
  induction s as [c|d ts IH|d t IH|v t IH|ts IH] using struct_ind'; intros Hw l a a2 sg p q r Hv Hv2 Hl Hg Hg2 Hq Hd Hst Htu Hle; try discriminate.
  - destruct (pvalid_tuple _ _ _ _ _ _ Hv) as (ss & t & s0 & p0 & -> & F & Hx & Et & En & -> & Hda & V').
    destruct Hq as [Hq|Hq]; [discriminate|].
    assert (Hqd : d <> q).
    { intros ->. destruct V' as (_ & Ep & _). rewrite (spath_accept' _ _ _ _ _ Ep Hq) in Hda. discriminate. }
    assert (Hdd : a2 d = a d) by (apply Hd; [left; reflexivity|exact Hqd]).
    destruct (pvalid_tuple _ _ _ _ _ _ Hv2) as (ss' & t' & s1 & p1 & Hss & _ & _ & Et' & En' & Hp & _ & V2'). injection Hss as <-. injection Hp as <-.
    rewrite Hdd, Et in Et'. injection Et' as <-. rewrite Hdd, En in En'. injection En' as <-.
    pose proof (swf_tuple _ _ Hw) as Hws. rewrite forallb_forall in Hws. pose proof (nthz_In _ _ _ Et) as Hin. rewrite Forall_forall in IH.
    cbn [steady turns] in Hst, Htu. rewrite forallb_forall in Hst, Htu. cbn [good] in Hg, Hg2. rewrite nthz_map, Et in Hg. rewrite nthz_map, Hdd, Et in Hg2.
    assert (X : if r then ioff t l a2 <= ioff t l a else ioff t l a <= ioff t l a2).
    { apply (IH t Hin (Hws t Hin) l a a2 s0 p0 q r); auto. intros x Hx'. apply Hd. right. exact Hx'. }
    cbn [ioff]. rewrite Hdd, !nthz_map, Et. cbn [option_map]. destruct r; lia.
  - destruct (pvalid_vector _ _ _ _ _ _ Hv) as (Hi & s0 & p0 & -> & -> & Hnd & Hv').
    destruct (pvalid_vector _ _ _ _ _ _ Hv2) as (Hi2 & s1 & p1 & Hs1 & Hp1 & _ & Hv2'). injection Hs1 as <-. injection Hp1 as <-.
    pose proof Hv' as (E0 & Ep0 & _). cbn [steady turns] in Hst, Htu. cbn [good] in Hg, Hg2. cbn [ioff].
    destruct (Z.eqb_spec q d) as [->|Hne].
    + destruct r; [discriminate|].
      rewrite (ioff_local t (swf_uswf t Hw) (fupd l d None) a a2 s0 p0 E0 Ep0).
      * pose proof (isize_nonneg t (fupd l d None) Hw ltac:(congruence) (lrange_None _ _ Hl)). nia.
      * intros x Hx. apply Hd; [right; exact Hx|]. intros ->. destruct (fst_in _ _ Hx) as [k Hk]. rewrite (spath_accept' _ _ _ _ _ Ep0 Hk) in Hnd. discriminate.
    + destruct Hq as [Hq|Hq]; [congruence|].
      assert (X : if r then ioff t (fupd l d None) a2 <= ioff t (fupd l d None) a else ioff t (fupd l d None) a <= ioff t (fupd l d None) a2).
      { apply (IH Hw (fupd l d None) a a2 s0 p0 q r); auto using lrange_None. intros x Hx. apply Hd. right. exact Hx. }
      rewrite (Hd d) by (try (left; reflexivity); congruence). destruct r; lia.
  - destruct (swf_view _ _ Hw) as [Hvw Ht]. pose proof (swf_uswf _ Ht) as Hu. pose proof Hg as (Hga & Hgb & _). pose proof Hg2 as (Hgc & Hgd & _).
    destruct (pvalid_view v t l a sg p (swf_uswf _ Hw) Hl Hga Hv) as (s0 & p' & Ev & R & Hsn & Hnd' & V').
    destruct (pvalid_view v t l a2 sg p (swf_uswf _ Hw) Hl Hgc Hv2) as (s1 & p1 & _ & R2 & _ & _ & V2').
    pose proof V' as (E0 & Ep' & _). pose proof V2' as (E1 & Ep1 & F2). assert (s1 = s0) by congruence. subst s1.
    destruct (steady_down _ _ _ Hst) as [Hs1 Hs2].
    pose proof (view_step v t s0 sg l a a2 p' p q Hu Hvw E0 Ev Ep' R Hnd' Hq Hs1 Hd) as Hstep.
    set (l' := view_lenv v l) in *. set (b := view_asg v (ilen t) l a) in *. set (b2 := view_asg v (ilen t) l a2) in *.
    assert (Hp1 : vnext v q <> None -> p1 = p').
    { intros Hn. destruct (vnext v q) as [q'|]; [|congruence]. destruct Hstep as (Hq' & Hd' & _).
      assert (Hx : spath s0 b2 = Some p').
      { eapply spath_ext; [exact Ep'|]. intros e n He. apply Hd'; [eapply in_fst; eauto|].
        intros ->. pose proof (nodup_fst_eq _ _ _ _ Hnd' He Hq'). discriminate. }
      congruence. }
    assert (Hsub : forall q' r', vnext v q = Some q' -> turns r' q' t = true ->
      (b q' <= b2 q' -> if r' then ioff t l' b2 <= ioff t l' b else ioff t l' b <= ioff t l' b2) /\
      (b2 q' <= b q' -> if r' then ioff t l' b <= ioff t l' b2 else ioff t l' b2 <= ioff t l' b)).
    { intros q' r' Hn Htu'. rewrite Hn in *. destruct Hstep as (Hq' & Hd' & _). rewrite (Hp1 ltac:(discriminate)) in V2'.
      pose proof (view_lrange v l Hl) as Hl'. split; intros Hle'.
      - apply (IH Ht l' b b2 s0 p' q' r'); auto.
      - apply (IH Ht l' b2 b s0 p' q' r'); auto. intros x Hx Hxq. symmetry. apply Hd'; assumption. }
    assert (Hplain : forall q', vnext v q = Some q' -> turns r q' t = true -> b q' = a q -> b2 q' = a2 q ->
      if r then ioff t l' b2 <= ioff t l' b else ioff t l' b <= ioff t l' b2).
    { intros q' Hn Htu' Hb Hb2. apply (Hsub q' r Hn Htu'). rewrite Hb, Hb2. exact Hle. }
    assert (Hfa : vfacts v (Lof v t l a) l a b p').
    { destruct Hv as (_ & _ & Fp). eapply (vfacts_ok v t s0 sg l a p' p); eauto using swf_uswf. apply swf_loc, Ht. }
    assert (Hfb : vfacts v (Lof v t l a2) l a2 b2 p1).
    { destruct Hv2 as (_ & _ & Fp). eapply (vfacts_ok v t s0 sg l a2 p1 p); eauto using swf_uswf; [apply swf_loc, Ht|].
      eapply spath_nodup; [exact Hsn|exact Ep1]. }
    cbn [ioff]. fold l' b b2.
    assert (Hmoved : forall d c, vnext v q = Some q -> turns r q t = true -> 
      (forall k, In (d, k) p' -> b d = a d + c) -> (forall k, In (d, k) p1 -> b2 d = a2 d + c) -> q = d ->
      if r then ioff t l' b2 <= ioff t l' b else ioff t l' b <= ioff t l' b2).
    { intros d c Hn Htu' H1 H2 ->. apply (Hsub d r Hn Htu'). rewrite Hn in Hstep. destruct Hstep as (Hq' & _ & _).
      rewrite (H1 None Hq'), (H2 None); [lia|]. rewrite Hp1; [exact Hq'|]. rewrite Hn. discriminate. }
    assert (Hboth : forall d, vnext v q = Some d -> ~ In d (ldeps t d) -> In (d, None) p' /\ p1 = p' /\ Lof v t l a2 d = Lof v t l a d).
    { intros d Hn Hnl. pose proof (Hp1 ltac:(congruence)) as Hpp. rewrite Hn in Hstep. destruct Hstep as (Hq' & Hx & _). split; [exact Hq'|]. split; [exact Hpp|].
      rewrite (Lof_fun _ t s0 l a p' E0 Ep' Hnd' d Hq'), (Lof_fun _ t s0 l a2 p' E1 ltac:(rewrite <- Hpp; exact Ep1) Hnd' d Hq').
      apply (uswf_loc t Hu l' s0 b b2 p' d E0 Ep' Hq'). intros y Hy Hyp. apply Hx; [exact Hyp|congruence]. }
    destruct v as [d|d i|d n|d s|d s len|d s en|d s rr|d|d M m|d M m pd|d bb M m ml|M m d|sl gl d ds|ds|d|ps|xa xb d];
      cbn [turns vnext vfacts] in *; try discriminate;
      try (apply (Hplain q); [reflexivity|exact Htu|reflexivity|reflexivity]).
    + destruct (Z.eqb_spec q d) as [->|Hne]; [|apply (Hplain q); [reflexivity|exact Htu|reflexivity|reflexivity]].
      destruct r; [discriminate|]. rewrite (ioff_local t Hu l' b b2 s0 p' E0 Ep' Hstep). lia.
    + assert (Hqd : q <> d).
      { cbn [prel] in R. subst p. apply in_pm in Hq. destruct Hq as [[_ Hne]|(k & _ & [])]. exact Hne. }
      apply (Hplain q); [reflexivity|exact Htu| |]; unfold b, b2; cbn [view_asg]; rewrite fupd_neq by exact Hqd; reflexivity.
    + destruct (Z.eq_dec q d) as [->|Hne].
      * apply (Hmoved d (vzd s)); auto; intros k Hk; [apply (Hfa k Hk)|apply (Hfb k Hk)].
      * apply (Hplain q); [reflexivity|exact Htu| |]; unfold b, b2; cbn [view_asg]; rewrite fupd_neq by exact Hne; reflexivity.
    + destruct (Z.eq_dec q d) as [->|Hne].
      * apply (Hmoved d (vzd s)); auto; intros k Hk; [apply (Hfa k Hk)|apply (Hfb k Hk)].
      * apply (Hplain q); [reflexivity|exact Htu| |]; unfold b, b2; cbn [view_asg]; rewrite fupd_neq by exact Hne; reflexivity.
    + destruct (Z.eq_dec q d) as [->|Hne].
      * apply (Hmoved d (vzd s)); auto; intros k Hk; [apply (Hfa k Hk)|apply (Hfb k Hk)].
      * apply (Hplain q); [reflexivity|exact Htu| |]; unfold b, b2; cbn [view_asg]; rewrite fupd_neq by exact Hne; reflexivity.
    + destruct (Z.eqb_spec q d) as [->|Hne].
      * apply andb_true_iff in Htu. destruct Htu as [-> Htu]. destruct Hstep as (Hq' & _ & HW). pose proof (Hp1 ltac:(discriminate)) as Hpp.
        apply (Hsub d false eq_refl Htu). destruct (Hfa None Hq') as [H1 H1']. rewrite Hpp in Hfb. destruct (Hfb None Hq') as [H2 H2'].
        assert (HL : Lof (VReverse d) t l a2 d = Lof (VReverse d) t l a d).
        { rewrite (Lof_fun _ t s0 l a p' E0 Ep' Hnd' d Hq'), (Lof_fun _ t s0 l a2 p' E1 ltac:(rewrite <- Hpp; exact Ep1) Hnd' d Hq').
          apply (uswf_loc t Hu l' s0 b b2 p' d E0 Ep' Hq'). intros x Hx Hxp.
          unfold view_swf in Hvw. rewrite E0 in Hvw. apply andb_true_iff in Hvw. destruct Hvw as [_ Hvw]. rewrite forallb_forall in Hvw.
          specialize (Hvw d (proj1 (accept_sdims _ _) (spath_accept' _ _ _ _ _ Ep' Hq'))). apply negb_true_iff, mem_false in Hvw.
          assert (x <> d) by congruence. unfold b, b2. cbn [view_asg]. rewrite !fupd_neq by assumption. cbn [prel] in R. subst p. apply Hd; assumption. }
        rewrite H1, H2, HL. lia.
      * apply (Hplain q); [reflexivity|exact Htu| |]; unfold b, b2; cbn [view_asg]; rewrite fupd_neq by exact Hne; reflexivity.
    + (* blocks *) assert (Hvs := Hvw). unfold view_swf in Hvs. rewrite E0 in Hvs. apply negb_true_iff, mem_false in Hvs.
      destruct (Z.eqb_spec q m) as [Hm|Hm]; [|destruct (Z.eqb_spec q M) as [HM|HM]].
      * rewrite orb_true_r in *. destruct (Hboth d eq_refl Hvs) as (Hq' & Hpp & HL). rewrite Hpp in Hfb. destruct (Hfa None Hq') as (G1 & G2 & G3 & _). destruct (Hfb None Hq') as (G1' & _ & G3' & _).
        assert (HM : a2 M = a M).
        { apply Hd; [|]. - destruct R as [-> _]. apply (in_fst M (@None Z)). apply in_pm. right. exists None. split; [exact Hq'|simpl; tauto].
          - cbn [view_sig] in Ev. destruct (_ || _) eqn:Eb in Ev; [discriminate|]. lia. }
        apply (Hsub d r eq_refl Htu). rewrite G1, G1', HL, HM. subst q. lia.
      * cbn [orb] in *. apply andb_true_iff in Htu. destruct Htu as [Hr Htu]. destruct r; [discriminate|].
        destruct (Hboth d eq_refl Hvs) as (Hq' & Hpp & HL). rewrite Hpp in Hfb. destruct (Hfa None Hq') as (G1 & G2 & G3 & _). destruct (Hfb None Hq') as (G1' & _ & G3' & _).
        assert (Hmm : a2 m = a m).
        { apply Hd; [|congruence]. destruct R as [-> _]. apply (in_fst m (@None Z)). apply in_pm. right. exists None. split; [exact Hq'|simpl; tauto]. }
        apply (Hsub d false eq_refl Htu). rewrite G1, G1', HL, Hmm. subst q. rewrite HL in G3'. clear - Hle G3. cbn zeta in *. nia.
      * cbn [orb] in *. destruct (Z.eqb_spec q d) as [|H1]; [discriminate|].
        apply (Hplain q); [reflexivity|exact Htu| |]; unfold b, b2; cbn [view_asg]; rewrite fupd_neq by exact H1; reflexivity.
    + (* dynamic *) assert (Hvs := Hvw). unfold view_swf in Hvs. rewrite E0 in Hvs. apply negb_true_iff, mem_false in Hvs.
      assert (Hne : M <> m /\ M <> pd /\ m <> pd) by (cbn [view_sig] in Ev; destruct (_ || _) eqn:Eb in Ev; [discriminate|]; lia).
      destruct (Z.eqb_spec q m) as [Hm|Hm]; [|destruct (Z.eqb_spec q M) as [HM|HM]; [|destruct (Z.eqb_spec q pd) as [Hpd|Hpd]]].
      * destruct (Z.eqb_spec q pd); [lia|]. rewrite orb_true_r in *.
        destruct (Hboth d eq_refl Hvs) as (Hq' & Hpp & HL). rewrite Hpp in Hfb. destruct (Hfa None Hq') as (G1 & G2 & G3 & _). destruct (Hfb None Hq') as (G1' & _ & G3' & _).
        assert (HM : a2 M = a M).
        { apply Hd; [|lia]. destruct R as [-> _]. apply (in_fst M (@None Z)). apply in_pm. right. exists None. split; [exact Hq'|simpl; tauto]. }
        apply (Hsub d r eq_refl Htu). rewrite G1, G1', HL, HM. subst q. lia.
      * destruct (Z.eqb_spec q pd); [lia|]. cbn [orb] in *. apply andb_true_iff in Htu. destruct Htu as [Hr Htu]. destruct r; [discriminate|].
        destruct (Hboth d eq_refl Hvs) as (Hq' & Hpp & HL). rewrite Hpp in Hfb. destruct (Hfa None Hq') as (G1 & G2 & G3 & _). destruct (Hfb None Hq') as (G1' & _ & G3' & _).
        assert (Hmm : a2 m = a m).
        { apply Hd; [|congruence]. destruct R as [-> _]. apply (in_fst m (@None Z)). apply in_pm. right. exists None. split; [exact Hq'|simpl; tauto]. }
        apply (Hsub d false eq_refl Htu). rewrite G1, G1', HL, Hmm. subst q. clear - Hle G3. cbn zeta in *. nia.
      * destruct r; [discriminate|]. rewrite (ioff_local t Hu l' b b2 s0 p' E0 Ep' Hstep). lia.
      * cbn [orb] in *. destruct (Z.eqb_spec q d) as [|H1]; [discriminate|].
        apply (Hplain q); [reflexivity|exact Htu| |]; unfold b, b2; cbn [view_asg]; rewrite fupd_neq by exact H1; reflexivity.
    + (* static *) assert (Hvs := Hvw). unfold view_swf in Hvs. rewrite E0 in Hvs. apply andb_true_iff in Hvs. destruct Hvs as [_ Hvs]. apply negb_true_iff, mem_false in Hvs.
      assert (Hne : bb <> M /\ bb <> m /\ M <> m) by (cbn [view_sig] in Ev; destruct (_ || _) eqn:Eb in Ev; [discriminate|]; lia).
      destruct (Z.eqb_spec q m) as [Hm|Hm]; [|destruct (Z.eqb_spec q M) as [HM|HM]].
      * rewrite orb_true_r in *. destruct (Hboth d eq_refl Hvs) as (Hq' & Hpp & HL). rewrite Hpp in Hfb. destruct (Hfa None Hq') as (F0 & G1 & G2). destruct (Hfb None Hq') as (_ & G1' & G2').
        assert (HM : a2 M = a M).
        { apply Hd; [|lia]. destruct R as [-> _]. apply (in_fst M (@None Z)). apply in_pm. right. exists None. split; [exact Hq'|simpl; tauto]. }
        assert (Hbb : a2 bb = a bb).
        { apply Hd; [|lia]. destruct R as [-> _]. apply (in_fst bb (Some 2)). apply in_pm. right. exists None. split; [exact Hq'|simpl; tauto]. }
        apply (Hsub d r eq_refl Htu). rewrite HL in G2'. subst q. clear - Hle HM Hbb G2 G2'. cbn zeta in *.
        destruct G2 as [(B & _ & _ & F & _)|(B & _ & _ & F & _)], G2' as [(B' & _ & _ & F' & _)|(B' & _ & _ & F' & _)]; try lia; rewrite F, F'; nia.
      * cbn [orb] in *. apply andb_true_iff in Htu. destruct Htu as [Hr Htu]. destruct r; [discriminate|].
        destruct (Hboth d eq_refl Hvs) as (Hq' & Hpp & HL). rewrite Hpp in Hfb. destruct (Hfa None Hq') as (F0 & G1 & G2). destruct (Hfb None Hq') as (_ & G1' & G2').
        assert (Hmm : a2 m = a m).
        { apply Hd; [|lia]. destruct R as [-> _]. apply (in_fst m (@None Z)). apply in_pm. right. exists None. split; [exact Hq'|simpl; tauto]. }
        assert (Hbb : a2 bb = a bb).
        { apply Hd; [|lia]. destruct R as [-> _]. apply (in_fst bb (Some 2)). apply in_pm. right. exists None. split; [exact Hq'|simpl; tauto]. }
        apply (Hsub d false eq_refl Htu). rewrite HL in G2'. subst q. clear - Hle Hmm Hbb F0 G2 G2'. cbn zeta in *.
        destruct G2 as [(B & _ & _ & F & _)|(B & _ & _ & F & _)], G2' as [(B' & _ & _ & F' & _)|(B' & _ & _ & F' & _)]; try lia; rewrite F, F'; nia.
      * apply andb_true_iff in Htu. destruct Htu as [Hno Htu]. apply negb_true_iff, mem_false in Hno. simpl in Hno.
        assert (q <> d) as H1 by intuition. cbn [orb] in *.
        apply (Hplain q); [reflexivity|exact Htu| |]; unfold b, b2; cbn [view_asg]; rewrite fupd_neq by exact H1; reflexivity.
    + apply andb_true_iff in Htu. destruct Htu as [Hno Htu]. apply negb_true_iff, mem_false in Hno. simpl in Hno.
      apply (Hplain q); [reflexivity|exact Htu| |]; unfold b, b2; cbn [view_asg]; rewrite fupds_out by (simpl; intuition); reflexivity.
    + pose proof Hq as Hqq. cbn [prel] in R. subst p. apply in_map_iff in Hqq. destruct Hqq as ([q' k] & Hqe & Hq'). cbn [fst snd] in Hqe. injection Hqe as <- ->.
      cbn [view_sig] in Ev. destruct (nodupb (map fst ps) && _ && _) eqn:Er in Ev; [|discriminate].
      assert (Hback : rename_in ps (rename_dim ps q') = q') by exact (rename_back ps s0 q' Er (spath_accept' _ _ _ _ _ Ep' Hq')).
      apply (Hplain (rename_in ps (rename_dim ps q')) eq_refl Htu); rewrite Hback; reflexivity.
Qed.

(** ** Through the API *)

Lemma agW_exact w i x : agW w x -> vz w = Some i -> 0 <= x < W -> i = x.
Proof.
  intros H E Hx. specialize (H i E). apply vz_range in E. unfold eqW in H. rewrite !u64_small in H by assumption. exact H.
Qed.

(** The index where the offset is the lowest. *)
Definition low_index (r : bool) (x y : Z) : Z := if r then y - 1 else x.

Lemma at_index_asg s st p q i : names_element s st p -> In (q, None) p -> at_index st q i -> asg_of st q = i.
Proof. intros N Hq (w & Hw & Hi). unfold asg_of. rewrite Hw. apply vzd_vz, Hi. Qed.

Lemma chosen_low s q r st0 l a iv x y : signature s <> None -> lenok s l -> agree st0 l a ->
  interval s q st0 iv x y -> a q = low_index r x y -> chosen r s l a q iv.
Proof.
  intros Hs Hlk Hag Hiv Ha. unfold chosen. rewrite Ha. unfold low_index. destruct iv as [[mn en]|]; cbn [interval] in Hiv.
  - destruct Hiv as [Hx Hy]. destruct r.
    + intros z Hz. rewrite Hy in Hz. injection Hz as <-. apply eqW_eq. lia.
    + intros z Hz. rewrite Hx in Hz. injection Hz as <-. reflexivity.
  - destruct Hiv as (-> & n & En & Hn). destruct r; [|reflexivity].
    pose proof (length_agree s Hs st0 l a q n Hlk Hag En) as H. unfold vagree in H. rewrite Hn in H. rewrite H. reflexivity.
Qed.

Lemma interval_range s q st iv x y : interval s q st iv x y -> 0 <= x < W /\ 0 <= y < W.
Proof.
  destruct iv as [[mn en]|]; cbn [interval].
  - intros [H1 H2]. split; eapply vz_range; eauto.
  - intros (-> & n & _ & Hn). split; [pose proof W_pos; lia|eapply vz_range; eauto].
Qed.

Lemma low_lowest s q r st p x y : used_correctly s st -> fits s st -> names_element s st p -> In (q, None) p ->
  steady q s = true -> turns r q s = true -> x < y -> asg_of st q = low_index r x y -> lowest s q x y st.
Proof.
  intros U Hf N Hq Hst Htu Hxy Ha st2 p2 i2 o o2 z z2 U2 N2 Hd Hi2 Hr E E2 Hz Hz2.
  destruct (differ_setup _ _ _ _ _ _ U U2 N N2 Hd Hq) as (sg & V1 & V2 & G2 & Hda & P1 & Hio).
  destruct (access_offset _ _ _ _ U N E) as (_ & _ & _ & _ & _ & _ & O1).
  destruct (access_offset _ _ _ _ U2 N2 E2) as (_ & _ & _ & _ & _ & _ & O2). rewrite Hio in O2.
  destruct U as (Hw & Hlk & G1 & L1).
  assert (Ha2 : asg_of st2 q = i2).
  { destruct Hi2 as (w & Hw2 & Hi2). unfold asg_of. rewrite Hw2. apply vzd_vz, Hi2. }
  destruct (int_in_bounds s _ _ sg p Hw (lrange_of st) G1 V1) as (c1 & _ & A1 & A2 & A3).
  destruct (int_in_bounds s _ _ sg p Hw (lrange_of st) G2 V2) as (c2 & _ & B1 & B2 & B3).
  unfold fits in Hf. rewrite u64_small in O1, O2 by lia. rewrite Hz in O1. rewrite Hz2 in O2. injection O1 as ->. injection O2 as ->.
  destruct r; cbn [low_index] in Ha.
  - assert (Hda' : differ_at q p (asg_of st2) (asg_of st)) by (intros k Hk Hkq; symmetry; apply Hda; assumption).
    exact (turns_mono s Hw _ _ _ sg p q true V2 V1 (lrange_of st) G2 G1 Hq Hda' Hst Htu ltac:(lia)).
  - exact (turns_mono s Hw _ _ _ sg p q false V1 V2 (lrange_of st) G1 G2 Hq Hda Hst Htu ltac:(lia)).
Qed.

Lemma fewer_open q st0 st : with_fewer_indices q st0 st -> get (Idx q) st0 = None.
Proof. intros [_ H]. destruct (get (Idx q) st0) as [v|] eqn:E; [|reflexivity]. destruct (H q v E) as [X _]. contradiction. Qed.

Theorem lower_at_api s q r st0 st p iv x y w i : used_correctly s st -> fits s st -> names_element s st p -> In (q, None) p ->
  steady q s = true -> turns r q s = true -> (r = true -> iv = None -> unshifted q s = true) ->
  with_fewer_indices q st0 st -> interval s q st0 iv x y -> x < y ->
  lower_bound_at s q st0 iv = Some w -> vz w = Some i -> at_index st q i -> x <= i < y /\ lowest s q x y st.
Proof.
  intros U Hf N Hq Hst Htu Hun Hfe Hiv Hxy E Hi Hat. pose proof (at_index_asg _ _ _ _ _ N Hq Hat) as Ha.
  pose proof (interval_range _ _ _ _ _ _ Hiv) as [Hx Hy].
  assert (Hlow : i = low_index r x y).
  { pose proof U as (Hw & Hlk & G1 & L1).
    destruct (signature s) as [sg|] eqn:Es; [|destruct N as [N _]; unfold dims_of in N; rewrite Es in N; discriminate].
    destruct (names_pvalid s st sg p Hw Hlk Es N) as [(_ & Ep & _) P1]. destruct (fewer_agree _ _ _ p Hfe L1 P1) as (Hag & Hld & _).
    set (a := fupd (asg_of st) q (low_index r x y)).
    assert (Hag' : agree st0 (lenv_of st) a).
    { destruct Hag as [H1 H2]. split; [exact H1|]. intros d v Hd. destruct (proj2 Hfe d v Hd) as [Hne _]. unfold a. rewrite fupd_neq by exact Hne. apply H2, Hd. }
    assert (Ep' : spath sg a = Some p).
    { eapply spath_ext; [exact Ep|]. intros e n He. unfold a. rewrite fupd_neq; [reflexivity|]. intros ->.
      pose proof (nodup_fst_eq _ _ _ _ (swf_path_nodup _ _ _ _ Hw Es Ep) He Hq). discriminate. }
    assert (Haq : a q = low_index r x y) by (unfold a; apply fupd_eq).
    assert (HW : agW w (a q)).
    { refine (proj1 (proj2 (lower_int s Hw st0 (lenv_of st) a sg p q r iv w Es Ep' Hq Hst Htu Hun Hlk Hag' Hld (fewer_open _ _ _ Hfe) _) E)).
      eapply chosen_low; eauto. congruence. }
    rewrite Haq in HW. apply (agW_exact w i _ HW Hi). unfold low_index. destruct r; lia. }
  split; [rewrite Hlow; unfold low_index; destruct r; lia|]. eapply low_lowest; eauto. congruence.
Qed.

Theorem lower_along_api s q r st0 st p iv x y w o z z2 : used_correctly s st -> fits s st -> names_element s st p -> In (q, None) p ->
  steady q s = true -> turns r q s = true -> unblocked q s = true -> (r = true -> iv = None -> unshifted q s = true) ->
  with_fewer_indices q st0 st -> interval s q st0 iv x y -> x < y -> at_index st q (if r then y - 1 else x) ->
  lower_bound s q st0 iv = Some w -> vz w = Some z -> offset_along s q st = Some o -> vz o = Some z2 ->
  z = z2 /\ lowest s q x y st.
Proof.
  intros U Hf N Hq Hst Htu Hub Hun Hfe Hiv Hxy Hat E Hz Eo Hz2. pose proof (at_index_asg _ _ _ _ _ N Hq Hat) as Ha.
  split; [|eapply low_lowest; eauto]. pose proof U as (Hw & Hlk & G1 & L1).
  destruct (signature s) as [sg|] eqn:Es; [|destruct N as [N _]; unfold dims_of in N; rewrite Es in N; discriminate].
  destruct (names_pvalid s st sg p Hw Hlk Es N) as [(_ & Ep & _) P1]. destruct (fewer_agree _ _ _ p Hfe L1 P1) as (Hag & Hld & _).
  assert (HW : agW w (iofa s (lenv_of st) (asg_of st) q)).
  { refine (proj1 (lower_int s Hw st0 (lenv_of st) (asg_of st) sg p q r iv w Es Ep Hq Hst Htu Hun Hlk Hag Hld (fewer_open _ _ _ Hfe) _) Hub E).
    eapply chosen_low; eauto. congruence. }
  pose proof (offset_along_spec s Hw st _ _ sg p q o Es Ep Hq Hst Hlk (agree_of st) L1 Eo z2 Hz2) as HW2.
  specialize (HW z Hz). unfold eqW in *. rewrite <- HW2 in HW. rewrite !u64_small in HW; eauto using vz_range.
Qed.

(** The answers in dimensions that are not reversed are defined. *)
Theorem lower_defined_api s q st0 st p iv w : used_correctly s st -> names_element s st p -> In (q, None) p ->
  steady q s = true -> turns false q s = true -> with_fewer_indices q st0 st ->
  match iv with None => True | Some (mn, _) => vz mn <> None end ->
  lower_bound_at s q st0 iv = Some w -> vz w <> None.
Proof.
  intros U N Hq Hst Htu Hfe Hiv E. pose proof U as (Hw & Hlk & G1 & L1).
  destruct (signature s) as [sg|] eqn:Es; [|destruct N as [N _]; unfold dims_of in N; rewrite Es in N; discriminate].
  destruct (names_pvalid s st sg p Hw Hlk Es N) as [(_ & Ep & _) P1]. destruct (fewer_agree _ _ _ p Hfe L1 P1) as (Hag & Hld & _).
  set (a := fupd (asg_of st) q (match iv with None => 0 | Some (mn, _) => vzd mn end)).
  assert (Hag' : agree st0 (lenv_of st) a).
  { destruct Hag as [H1 H2]. split; [exact H1|]. intros d v Hd. destruct (proj2 Hfe d v Hd) as [Hne _]. unfold a. rewrite fupd_neq by exact Hne. apply H2, Hd. }
  assert (Ep' : spath sg a = Some p).
  { eapply spath_ext; [exact Ep|]. intros e n He. unfold a. rewrite fupd_neq; [reflexivity|]. intros ->.
    pose proof (nodup_fst_eq _ _ _ _ (swf_path_nodup _ _ _ _ Hw Es Ep) He Hq). discriminate. }
  refine (proj2 (proj2 (lower_int s Hw st0 (lenv_of st) a sg p q false iv w Es Ep' Hq Hst Htu (never_false _ _) Hlk Hag' Hld (fewer_open _ _ _ Hfe) _) E) eq_refl _).
  - unfold chosen, a. rewrite fupd_eq. destruct iv as [[mn en]|]; [apply agW_self|reflexivity].
  - exact Hiv.
Qed.
