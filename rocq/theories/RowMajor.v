(** * Nested vectors: the row-major formula *)

From Verif Require Export Shortcuts Access.

(** Independent specification: position of an index tuple, first dimension fastest. *)
Fixpoint position (l : list (Z * Z)) : Z :=      (* (index, length) pairs *)
  match l with [] => 0 | (i, n) :: r => i + n * position r end.
Fixpoint volume (l : list Z) : Z := match l with [] => 1 | n :: r => n * volume r end.

(** Outermost first. *)
Fixpoint rows (c : cty) (l : list (dim * val)) : struct :=
  match l with [] => Scalar c | (d, n) :: r => vec d n (rows c r) end.

Lemma apply_app p q t : apply (p ++ q) t = apply q (apply p t).
Proof. apply fold_left_app. Qed.

Lemma vectors_rows c l : apply (p_vectors l) (Scalar c) = rows c (rev l).
Proof.
  induction l as [|[d n] l IH] using rev_ind; [reflexivity|].
  unfold p_vectors in *. rewrite flat_map_app, apply_app, IH, rev_app_distr. reflexivity.
Qed.

Fixpoint rsig (c : cty) (l : list (dim * val)) : sig :=
  match l with [] => SScalar c | (d, n) :: r => SFun d (arglen_of n) (rsig c r) end.

Lemma cty_eqb_refl c : cty_eqb c c = true.
Proof. destruct c. unfold cty_eqb. simpl. rewrite !Z.eqb_refl. reflexivity. Qed.

Lemma rsig_accept c l d : any_accept d (rsig c l) = true -> In d (map fst l).
Proof.
  induction l as [|[e n] l IH]; simpl; [discriminate|]. rewrite orb_true_iff. intros [H|H]; [left; lia|auto].
Qed.

Lemma rows_signature c l : NoDup (map fst l) -> signature (rows c l) = Some (rsig c l).
Proof.
  induction l as [|[d n] l IH]; intros Hnd; [reflexivity|]. inv Hnd. cbn [rows signature vec]. rewrite (IH H2).
  destruct (any_accept d (rsig c l)) eqn:E; [apply rsig_accept in E; contradiction|].
  cbn [view_sig sreplace mem existsb]. rewrite Z.eqb_refl. reflexivity.
Qed.

Lemma rsig_scalar c l st : sig_get_scalar (rsig c l) st = Some c.
Proof. revert st. induction l as [|[d n] l IH]; intros st; simpl; auto. Qed.

Lemma sub_vec d n t st : exists st1, sub_state (VSetLength d n) (Vector d t) st = Some st1 /\
  get (Len d) st1 = Some n /\ has (Len d) st1 = true /\ (forall q, get (Idx q) st1 = get (Idx q) st).
Proof.
  eexists. split; [reflexivity|]. assert (E : get (Len d) (with_ [(Len d, n)] st) = Some n).
  { rewrite get_with. simpl. rewrite Z.eqb_refl. reflexivity. }
  split; [exact E|]. split; [unfold has; rewrite E; reflexivity|].
  intros q. rewrite get_with. reflexivity.
Qed.

Definition lens (l : list (dim * val)) : list Z := map (fun x => vzd (snd x)) l.

Lemma rows_size c l : Forall (fun x => vz (snd x) <> None) l -> forall st,
  has_size (rows c l) st = Some true /\
  exists v, size_ (rows c l) st = Some v /\ vz v = Some (u64 (volume (lens l) * ct_size c)).
Proof.
  induction 1 as [|[d n] l Hn Hl IH]; intros st.
  - split; [reflexivity|]. exists (Sta (ct_size c)). split; [reflexivity|]. cbn [vz lens volume map]. do 2 f_equal. lia.
  - cbn [rows vec has_size size_]. destruct (sub_vec d n (rows c l) st) as (st1 & -> & Eg & Eh & _).
    cbn [obind]. rewrite Eh. destruct (IH (remove [Idx d; Len d] st1)) as (-> & v & -> & Ev).
    split; [reflexivity|]. cbn [view_complete oand guard]. rewrite Eg. cbn [obind]. eexists. split; [reflexivity|].
    simpl snd in Hn. destruct (vz n) as [x|] eqn:En; [|congruence]. rewrite (vz_vmul' _ _ _ _ En Ev).
    cbn [lens map snd volume]. fold (lens l). rewrite (vzd_vz n x En), u64_mul_r. do 2 f_equal. lia.
Qed.

(** Outermost first. *)
Fixpoint position_out (l : list (Z * Z)) : Z :=
  match l with [] => 0 | (i, _) :: r => i * volume (map snd r) + position_out r end.

Lemma volume_app l m : volume (l ++ m) = volume l * volume m.
Proof. induction l as [|x l IH]; cbn [app volume]; [lia|]. rewrite IH. ring. Qed.
Lemma volume_rev l : volume (rev l) = volume l.
Proof. induction l as [|x l IH]; cbn [rev volume]; [reflexivity|]. rewrite volume_app, IH. cbn [volume]. ring. Qed.

Lemma position_snoc l i n : position (l ++ [(i, n)]) = position l + volume (map snd l) * i.
Proof. induction l as [|[j m] l IH]; cbn [app position map snd volume]; [lia|]. rewrite IH. ring. Qed.

Lemma position_rev l : position (rev l) = position_out l.
Proof.
  induction l as [|[i n] l IH]; [reflexivity|]. cbn [rev]. rewrite position_snoc, IH, map_rev, volume_rev.
  cbn [position_out]. ring.
Qed.

Definition pairs (st : state) (l : list (dim * val)) : list (Z * Z) :=
  map (fun x => (asg_of st (fst x), vzd (snd x))) l.

(** The state has an index below the length for every dimension. *)
Definition indexed (st : state) (l : list (dim * val)) : Prop :=
  Forall (fun x => exists i k n, get (Idx (fst x)) st = Some i /\ vz i = Some k /\ vz (snd x) = Some n /\ k < n) l.

Lemma asg_of_get st d i k : get (Idx d) st = Some i -> vz i = Some k -> asg_of st d = k.
Proof. intros E Ek. unfold asg_of. rewrite E. apply vzd_vz, Ek. Qed.

Lemma rows_offset c l : NoDup (map fst l) -> forall st start x, indexed st l -> vz start = Some (u64 x) ->
  has_offset_of (Scalar c) (rows c l) st = Some true /\
  exists v, offset_of (Scalar c) (rows c l) st start = Some v /\ vz v = Some (u64 (x + position_out (pairs st l) * ct_size c)).
Proof.
  induction l as [|[d n] l IH]; intros Hnd st start x Hix Hs.
  - cbn [rows has_offset_of offset_of same_type]. rewrite cty_eqb_refl. split; [reflexivity|].
    exists start. split; [reflexivity|]. rewrite Hs. simpl. do 2 f_equal. lia.
  - inv Hnd. inv Hix. destruct H3 as (i & k & m & Ei & Ek & Em & Hlt). cbn [fst snd] in *.
    cbn [rows vec has_offset_of offset_of same_type]. destruct (sub_vec d n (rows c l) st) as (st1 & -> & Eg & Eh & Ex).
    cbn [obind]. rewrite Eh. assert (Ehi : has (Idx d) st1 = true) by (unfold has; rewrite Ex, Ei; reflexivity).
    rewrite Ehi, Ex, Ei, Eg. cbn [andb obind view_complete].
    assert (Hix' : indexed (remove [Idx d; Len d] st1) l /\ pairs (remove [Idx d; Len d] st1) l = pairs st l).
    { assert (G : forall y, In y l -> get (Idx (fst y)) (remove [Idx d; Len d] st1) = get (Idx (fst y)) st).
      { intros y Hy. rewrite get_remove. simpl. destruct (Z.eqb_spec (fst y) d) as [E|_]; [|simpl; apply Ex].
        exfalso. apply H1. rewrite <- E. apply in_map, Hy. }
      split.
      - apply Forall_forall. intros y Hy. rewrite (G y Hy). unfold indexed in H4. rewrite Forall_forall in H4. apply H4, Hy.
      - apply map_ext_in. intros y Hy. unfold asg_of. rewrite (G y Hy). reflexivity. }
    destruct Hix' as [Hix' Ep].
    assert (Hsz : Forall (fun x => vz (snd x) <> None) l).
    { eapply Forall_impl; [|exact H4]. simpl. intros y (? & ? & ? & _ & _ & E & _). congruence. }
    destruct (rows_size c l Hsz (remove [Idx d; Len d] st1)) as (_ & sz & -> & Esz). cbn [obind].
    assert (Hend : forall start' x', vz start' = Some (u64 x') -> x' = x + k * (volume (lens l) * ct_size c) ->
      exists v, guard (oand (Some true) (has_offset_of (Scalar c) (rows c l) (remove [Idx d; Len d] st1)))
        (guard (has_offset_of (Scalar c) (rows c l) (remove [Idx d; Len d] st1))
          (offset_of (Scalar c) (rows c l) (remove [Idx d; Len d] st1) start')) = Some v /\
        vz v = Some (u64 (x + position_out (pairs st ((d, n) :: l)) * ct_size c))).
    { intros start' x' Hs' ->. destruct (IH H2 _ start' _ Hix' Hs') as (-> & v & -> & Ev).
      exists v. split; [reflexivity|]. rewrite Ev, Ep. cbn [pairs map position_out fst snd]. rewrite (asg_of_get st d i k Ei Ek).
      do 2 f_equal. replace (map snd (map (fun y => (asg_of st (fst y), vzd (snd y))) l)) with (lens l)
        by (unfold lens; rewrite map_map; reflexivity). fold (pairs st l). ring. }
    split; [destruct (IH H2 _ start x Hix' Hs) as (-> & _); reflexivity|].
    destruct (is_sta 1 n) eqn:E1.
    + apply (Hend start x Hs). unfold is_sta in E1. destruct n; try discriminate. simpl in Em. inv Em.
      pose proof (vz_range _ _ Ek). assert (k = 0) by lia. lia.
    + apply (Hend _ (x + k * (volume (lens l) * ct_size c))); [|reflexivity].
      rewrite (vz_vadd' _ _ _ _ (vz_vmul' _ _ _ _ Ek Esz) Hs). rewrite u64_mul_r, u64_add_l, u64_add_r. do 2 f_equal. lia.
Qed.

Lemma position_range l : Forall (fun x => 0 <= fst x < snd x) l -> 0 <= position l < volume (map snd l).
Proof.
  induction 1 as [|[i n] l H _ IH]; cbn [position map snd volume fst] in *; [lia|]. nia.
Qed.

Lemma volume_nonneg l : Forall (fun x => 0 <= x) l -> 0 <= volume l.
Proof. induction 1; cbn [volume]; nia. Qed.

Lemma vz_nonneg v : 0 <= vzd v < W.
Proof. unfold vzd, odef. destruct (vz v) eqn:E; [eapply vz_range, E|]. rewrite W_eq. lia. Qed.

Theorem vectors_offset c l st : NoDup (map fst l) -> indexed st l ->
  0 <= ct_size c -> volume (lens l) * ct_size c < W ->
  exists o, offset (apply (p_vectors l) (Scalar c)) st = Some o /\ vz o = Some (position (pairs st l) * ct_size c).
Proof.
  intros Hnd Hix Hc Hfit. rewrite vectors_rows. unfold offset, scalar_t.
  assert (Hnd' : NoDup (map fst (rev l))) by (rewrite map_rev; apply NoDup_rev, Hnd).
  rewrite (rows_signature c (rev l) Hnd'). cbn [obind]. rewrite rsig_scalar. cbn [obind].
  assert (Hix' : indexed st (rev l)).
  { apply Forall_forall. intros x Hx. apply in_rev in Hx. unfold indexed in Hix. rewrite Forall_forall in Hix. apply Hix, Hx. }
  destruct (rows_offset c (rev l) Hnd' st (Sta 0) 0 Hix' eq_refl) as (_ & o & -> & Eo).
  exists o. split; [reflexivity|]. rewrite Eo, Z.add_0_l. unfold pairs at 1. rewrite map_rev, <- position_rev, rev_involutive.
  f_equal. apply u64_small. fold (pairs st l).
  assert (Hr : Forall (fun x => 0 <= fst x < snd x) (pairs st l)).
  { unfold pairs. apply Forall_forall. intros y Hy. apply in_map_iff in Hy. destruct Hy as (x & <- & Hx).
    unfold indexed in Hix. rewrite Forall_forall in Hix. destruct (Hix x Hx) as (i & k & n & Ei & Ek & En & Hlt).
    cbn [fst snd]. rewrite (asg_of_get _ _ _ _ Ei Ek), (vzd_vz _ _ En). pose proof (vz_range _ _ Ek). lia. }
  apply position_range in Hr.
  replace (map snd (pairs st l)) with (lens l) in Hr by (unfold pairs, lens; rewrite map_map; reflexivity). nia.
Qed.

Theorem vectors_size c l st : Forall (fun x => vz (snd x) <> None) l ->
  0 <= ct_size c -> volume (lens l) * ct_size c < W ->
  exists n, get_size (apply (p_vectors l) (Scalar c)) st = Some n /\ vz n = Some (volume (lens l) * ct_size c).
Proof.
  intros Hl Hc Hfit. rewrite vectors_rows.
  assert (Hl' : Forall (fun x => vz (snd x) <> None) (rev l)).
  { apply Forall_forall. intros x Hx. apply in_rev in Hx. rewrite Forall_forall in Hl. apply Hl, Hx. }
  destruct (rows_size c (rev l) Hl' st) as (_ & n & E & En). exists n. split; [exact E|].
  rewrite En. unfold lens at 1. rewrite map_rev, volume_rev. f_equal. apply u64_small. fold (lens l).
  split; [|exact Hfit]. apply Z.mul_nonneg_nonneg; [|exact Hc]. apply volume_nonneg, Forall_forall.
  intros x Hx. unfold lens in Hx. apply in_map_iff in Hx. destruct Hx as (y & <- & _). apply vz_nonneg.
Qed.
