(** * Lengths are well defined

    No division by zero and no over-wide shift happens when lengths are asked for, as long as the
    preconditions of Good.v hold and no index is given for an empty dimension. *)

From Verif Require Export Layout.

Definition dz (v : val) : Prop := vz v <> None.

Lemma dz_vadd a b : dz a -> dz b -> dz (vadd a b).
Proof. unfold dz. rewrite vz_vadd. destruct (vz a), (vz b); congruence. Qed.
Lemma dz_vsub a b : dz a -> dz b -> dz (vsub a b).
Proof. unfold dz. rewrite vz_vsub. destruct (vz a), (vz b); congruence. Qed.
Lemma dz_vmul a b : dz a -> dz b -> dz (vmul a b).
Proof.
  unfold dz. destruct (vz a) as [x|] eqn:Ea, (vz b) as [y|] eqn:Eb; try congruence.
  rewrite (vz_vmul _ _ _ _ Ea Eb). congruence.
Qed.
Lemma vz_vagree b y : dz b -> vagree b y -> vz b = Some y.
Proof. unfold dz, vagree. destruct (vz b); congruence. Qed.
Lemma dz_vdiv a b y : dz a -> dz b -> vagree b y -> y <> 0 -> dz (vdiv a b).
Proof.
  intros Ha Hb Hv Hy. pose proof (vz_vagree _ _ Hb Hv) as Eb. unfold dz in *.
  destruct (vz a) as [x|] eqn:Ea; [|congruence]. rewrite (vz_vdiv _ _ _ _ Ea Eb Hy). congruence.
Qed.
Lemma dz_vmod a b y : dz a -> dz b -> vagree b y -> y <> 0 -> dz (vmod a b).
Proof.
  intros Ha Hb Hv Hy. pose proof (vz_vagree _ _ Hb Hv) as Eb. unfold dz in *.
  destruct (vz a) as [x|] eqn:Ea; [|congruence]. rewrite (vz_vmod _ _ _ _ Ea Eb Hy). congruence.
Qed.
Lemma dz_vceil a b y : dz a -> dz b -> vagree b y -> y <> 0 -> dz (vceil a b).
Proof.
  intros Ha Hb Hv Hy. apply (dz_vdiv _ _ y); auto. apply dz_vsub; [apply dz_vadd; auto|]. discriminate.
Qed.
Lemma dz_vlt a b : dz a -> dz b -> dz (vlt a b).
Proof. unfold dz, vlt. destruct (vz a), (vz b); simpl; congruence. Qed.

Lemma zc_special_def n d z : 2 <= n <= 32 -> 0 <= d < n -> zc_special n d z <> None.
Proof.
  intros Hn Hd. destruct (zc_special_bits n d 0 0 Hn Hd ltac:(lia) ltac:(lia)) as (r & E & _). revert E.
  unfold zc_special. destruct (_ <? _); [intros _; discriminate|discriminate].
Qed.

Lemma zc_indices_def sl gl i ls : (2 <= List.length ls <= 32)%nat -> (sl * List.length ls < 32)%nat ->
  dz i -> Forall dz ls -> Forall dz (zc_indices sl gl i ls).
Proof.
  intros Hn Hs Hi Hl. unfold zc_indices. destruct (vz i) as [z|] eqn:Ei; [|elim Hi; exact Ei].
  assert (Ho : exists xs, omap vz ls = Some xs).
  { clear -Hl. induction Hl as [|x ls Hx Hl [xs IH]]; [exists []; reflexivity|]. simpl.
    unfold dz in Hx. destruct (vz x) as [y|]; [|congruence]. rewrite IH. simpl. eauto. }
  destruct Ho as [xs ->]. apply Forall_forall. intros w Hw. apply in_map_iff in Hw. destruct Hw as (k & <- & Hk).
  apply in_seq in Hk.
  pose proof (zc_special_def (Z.of_nat (List.length ls)) (Z.of_nat k)
     (Z.land z (2 ^ (Z.of_nat sl * Z.of_nat (List.length ls)) - 1)) ltac:(lia) ltac:(lia)) as H.
  destruct (zc_special _ _ _); [|congruence]. destruct (Z.ltb_spec (Z.of_nat sl * Z.of_nat (List.length ls)) 32); [discriminate|lia].
Qed.

(** Every length in the state is defined. *)
Definition lendef (st : state) : Prop := forall d w, get (Len d) st = Some w -> dz w.
(** Every index on the path is defined, and its dimension is not empty. *)
Definition idef (s : struct) (l : lenv) (a : asg) (p : path) (st : state) : Prop :=
  forall d w, In d (map fst p) -> get (Idx d) st = Some w -> dz w /\ 0 < odef (plen s l a d).

(** ** Dimensions a view leaves alone *)

Definition touched (v : view) : list dim :=
  match v with
  | VFix d _ | VShift d _ | VSlice d _ _ | VSpan d _ _ | VStep d _ _ | VReverse d
  | VBlocks d _ _ | VBlocksDyn d _ _ _ | VBlocksSta d _ _ _ _ => [d]
  | VMerge M m _ => [M; m]
  | VZCurve _ _ _ ds => ds
  | _ => []
  end.
Definition fresh (v : view) : list dim :=
  match v with
  | VBcast d => [d]
  | VBlocks _ M m => [M; m]
  | VBlocksDyn _ M m p => [M; m; p]
  | VBlocksSta _ b M m _ => [b; M; m]
  | VMerge _ _ d | VZCurve _ _ d _ => [d]
  | _ => []
  end.
Definition renames (v : view) : bool := match v with VRename _ | VJoin _ _ _ => true | _ => false end.

Section Kept.
  Variables (v : view) (t : struct) (s0 sg : sig) (l : lenv) (a : asg) (p' p : path).
  Hypothesis Hloc : loc t.
  Hypothesis Hw : view_swf v t = true.
  Hypothesis E0 : signature t = Some s0.
  Hypothesis Ev : view_sig v s0 = Some sg.
  Hypothesis Ep' : spath s0 (view_asg v (ilen t) l a) = Some p'.
  Hypothesis R : prel v p' p.
  Hypothesis Hnd : NoDup (map fst p').
  Hypothesis Hr : renames v = false.

  Lemma view_kept x k : In (x, k) p' -> ~ In x (touched v) ->
    ~ In x (fresh v) /\ In (x, k) p /\ view_asg v (ilen t) l a x = a x /\
    (k = None -> view_ilen v (ilen t) l a x = Lof v t l a x).
  Proof.
    intros Hx Ht. pose proof (Lof_fun v t s0 l a p' E0 Ep' Hnd) as HLf. pose proof (loc_at v t s0 l a p' Hloc E0 Ep' Hnd) as Hla.
    assert (Hac : any_accept x s0 = true) by exact (spath_accept _ _ _ Ep' _ Hx).
    assert (Hfr : forall d y, negb (y =? d) && any_accept y s0 = false -> x <> d -> x <> y).
    { intros d y Hf Hqd ->. rewrite Hac in Hf. destruct (Z.eqb_spec y d); [contradiction|discriminate]. }
    set (L := Lof v t l a) in *. clearbody L.
    unfold view_swf in Hw. rewrite E0 in Hw.
    destruct v as [d|d i|d n|d st|d st len|d st en|d st sr|d|d M m|d M m pd|d b M m ml|M m d|sl gl d ds|ds|d|ps|xa xb d];
      cbn [prel touched fresh renames] in *; try discriminate.
    - apply negb_true_iff in Hw. assert (Hne : x <> d) by congruence. subst p.
      split; [simpl; intuition congruence|]. split; [right; exact Hx|]. split; [reflexivity|]. intros ->.
      cbn [view_ilen]. rewrite HLf by exact Hx. destruct (Z.eqb_spec x d); [contradiction|reflexivity].
    - assert (Hne : x <> d) by (simpl in Ht; intuition congruence). subst p.
      split; [auto|]. split; [apply in_pm; left; auto|]. cbn [view_asg view_ilen]. rewrite fupd_neq by exact Hne.
      split; [reflexivity|]. intros ->. rewrite HLf by exact Hx. reflexivity.
    - destruct R as [-> _]. split; [auto|]. split; [exact Hx|]. split; [reflexivity|]. intros ->. rewrite HLf by exact Hx. reflexivity.
    - assert (Hne : x <> d) by (simpl in Ht; intuition congruence). subst p.
      split; [auto|]. split; [apply in_pm; left; auto|]. cbn [view_asg view_ilen]. rewrite fupd_neq by exact Hne.
      split; [reflexivity|]. intros ->. rewrite HLf by exact Hx. destruct (Z.eqb_spec x d); [contradiction|reflexivity].
    - assert (Hne : x <> d) by (simpl in Ht; intuition congruence). subst p.
      split; [auto|]. split; [apply in_pm; left; auto|]. cbn [view_asg view_ilen]. rewrite fupd_neq by exact Hne.
      split; [reflexivity|]. intros ->. rewrite HLf by exact Hx. destruct (Z.eqb_spec x d); [contradiction|reflexivity].
    - assert (Hne : x <> d) by (simpl in Ht; intuition congruence). subst p.
      split; [auto|]. split; [apply in_pm; left; auto|]. cbn [view_asg view_ilen]. rewrite fupd_neq by exact Hne.
      split; [reflexivity|]. intros ->. rewrite HLf by exact Hx. destruct (Z.eqb_spec x d); [contradiction|reflexivity].
    - assert (Hne : x <> d) by (simpl in Ht; intuition congruence). subst p.
      split; [auto|]. split; [apply in_pm; left; auto|]. cbn [view_asg view_ilen]. rewrite fupd_neq by exact Hne.
      split; [reflexivity|]. intros ->. rewrite HLf by exact Hx. destruct (Z.eqb_spec x d); [contradiction|reflexivity].
    - assert (Hne : x <> d) by (simpl in Ht; intuition congruence). subst p.
      split; [auto|]. split; [exact Hx|]. cbn [view_asg view_ilen]. rewrite fupd_neq by exact Hne.
      split; [reflexivity|]. intros ->. apply Hla; [exact Hx|]. intros y Hy _. cbn [view_asg]. rewrite fupd_neq; [reflexivity|]. intros ->.
      apply andb_true_iff in Hw. destruct Hw as [_ Hq]. rewrite forallb_forall in Hq. apply accept_sdims in Hac.
      specialize (Hq _ Hac). apply negb_true_iff, mem_false in Hq. contradiction.
    - assert (Hne : x <> d) by (simpl in Ht; intuition congruence). destruct R as [-> _].
      cbn [view_sig] in Ev. destruct ((M =? m) || _ || _) eqn:Ef in Ev; [discriminate|].
      rewrite !orb_false_iff in Ef. destruct Ef as [[_ EfM] Efm].
      pose proof (Hfr d M EfM Hne). pose proof (Hfr d m Efm Hne).
      split; [simpl; intuition congruence|]. split; [apply in_pm; left; auto|]. cbn [view_asg view_ilen]. rewrite fupd_neq by exact Hne.
      split; [reflexivity|]. intros ->. rewrite HLf by exact Hx. destruct (Z.eqb_spec x m), (Z.eqb_spec x M); try contradiction. reflexivity.
    - assert (Hne : x <> d) by (simpl in Ht; intuition congruence). destruct R as [-> _].
      cbn [view_sig] in Ev. destruct ((M =? m) || _ || _ || _ || _ || _) eqn:Ef in Ev; [discriminate|].
      rewrite !orb_false_iff in Ef. destruct Ef as [[[_ EfM] Efm] Efp].
      pose proof (Hfr d M EfM Hne). pose proof (Hfr d m Efm Hne). pose proof (Hfr d pd Efp Hne).
      split; [simpl; intuition congruence|]. split; [apply in_pm; left; auto|]. cbn [view_asg view_ilen]. rewrite fupd_neq by exact Hne.
      split; [reflexivity|]. intros ->. rewrite HLf by exact Hx.
      destruct (Z.eqb_spec x pd), (Z.eqb_spec x m), (Z.eqb_spec x M); try contradiction. reflexivity.
    - assert (Hne : x <> d) by (simpl in Ht; intuition congruence). destruct R as [-> _].
      cbn [view_sig] in Ev. destruct ((b =? M) || _ || _ || _ || _ || _) eqn:Ef in Ev; [discriminate|].
      rewrite !orb_false_iff in Ef. destruct Ef as [[[_ EfM] Efm] Efp].
      pose proof (Hfr d M EfM Hne). pose proof (Hfr d m Efm Hne). pose proof (Hfr d b Efp Hne).
      split; [simpl; intuition congruence|]. split; [apply in_pm; left; auto|]. cbn [view_asg view_ilen]. rewrite fupd_neq by exact Hne.
      split; [reflexivity|]. intros ->. rewrite HLf by exact Hx.
      destruct (Z.eqb_spec x b), (Z.eqb_spec x m), (Z.eqb_spec x M); try contradiction. reflexivity.
    - assert (Hne : x <> d).
      { intros ->. cbn [view_sig] in Ev. destruct ((M =? m) || _) eqn:Ef in Ev; [discriminate|].
        rewrite !orb_false_iff in Ef. destruct Ef as [_ Ef]. rewrite Hac in Ef. simpl in Ht.
        destruct (Z.eqb_spec d M), (Z.eqb_spec d m); try discriminate; intuition congruence. }
      split; [simpl; intuition congruence|]. split.
      { destruct R as [HP _]. eapply Permutation_in; [apply Permutation_sym, HP|]. apply in_or_app. right.
        apply filter_In. split; [exact Hx|]. apply negb_true_iff, mem_false, Ht. }
      cbn [view_asg view_ilen]. rewrite fupds_out by exact Ht. split; [reflexivity|]. intros ->. rewrite HLf by exact Hx.
      destruct (Z.eqb_spec x d); [contradiction|reflexivity].
    - cbn [view_sig] in Ev. destruct (_ && _ && _ && _ && nodupb ds && _) eqn:Ef in Ev; [|discriminate].
      rewrite !andb_true_iff in Ef. destruct Ef as [_ Hdd].
      assert (Hne : x <> d).
      { intros ->. rewrite Hac in Hdd. apply Ht, mem_In. destruct (mem d ds); [reflexivity|discriminate]. }
      split; [simpl; intuition congruence|]. split.
      { destruct R as [HP _]. eapply Permutation_in; [apply Permutation_sym, HP|]. apply in_or_app. right.
        apply filter_In. split; [exact Hx|]. apply negb_true_iff, mem_false, Ht. }
      cbn [view_asg view_ilen].
      rewrite fupds_out; [|rewrite map_fst_combine; [exact Ht|rewrite map_length, zc_indices_length, map_length; reflexivity]].
      split; [reflexivity|]. intros ->. rewrite HLf by exact Hx. destruct (Z.eqb_spec x d); [contradiction|reflexivity].
    - split; [auto|]. split; [eapply Permutation_in; [apply Permutation_sym, R|exact Hx]|]. split; [reflexivity|].
      intros ->. rewrite HLf by exact Hx. reflexivity.
    - destruct R as [Hd ->]. split; [auto|]. split.
      + destruct (Z.eq_dec x d) as [E|Hne]; [|right; apply in_pm; left; auto]. left. subst x. f_equal.
        assert (In (d, k) p' -> k = None); [|symmetry; auto]. intros Hk. eapply nodup_fst_eq; eauto.
      + split; [reflexivity|]. intros ->. rewrite HLf by exact Hx. reflexivity.
  Qed.
End Kept.

(** What [sub_state] does to the indices of other dimensions, and to lengths. *)
Lemma st_kept v hl ln st st' x : view_sub_state v hl ln st = Some st' -> renames v = false ->
  ~ In x (touched v) -> ~ In x (fresh v) -> get (Idx x) st' = get (Idx x) st.
Proof.
  intros E Hr Ht Hf.
  assert (Hc1 : forall d M m, x <> d -> x <> M -> x <> m -> get (Idx x) (clean_blocks d M m st) = get (Idx x) st).
  { intros. unfold clean_blocks. rewrite get_remove; teq. eqdims. }
  assert (Hc2 : forall d M m p cs, x <> d -> x <> M -> x <> m -> x <> p -> clean_blocks_dyn d M m p st = Some cs ->
            get (Idx x) cs = get (Idx x) st).
  { intros d M m p cs ? ? ? ?. unfold clean_blocks_dyn. destruct (has _ _); [discriminate|]. intros Ec; inv Ec.
    rewrite get_remove; teq. eqdims. }
  assert (Hc3 : forall d b M m cs, x <> d -> x <> b -> x <> M -> x <> m -> clean_blocks_sta d b M m st = Some cs ->
            get (Idx x) cs = get (Idx x) st).
  { intros d b M m cs ? ? ? ?. unfold clean_blocks_sta. destruct (_ || _ || _); [discriminate|]. intros Ec; inv Ec.
    rewrite get_remove; teq. eqdims. }
  assert (Hc4 : forall d M m, x <> d -> x <> M -> x <> m -> get (Idx x) (clean_merge M m d st) = get (Idx x) st).
  { intros. unfold clean_merge. rewrite get_remove; teq. eqdims. }
  destruct v as [d|d i|d n|d s|d s n|d s e|d s r|d|d M m|d M m p|d b M m ml|M m d|sl gl d ds|ds|d|ps|y z d];
    simpl in E, Ht, Hf; try discriminate.
  - inv E. rewrite get_remove; teq. eqdims; tauto.
  - inv E. rewrite get_with, get_remove; teq. eqdims; tauto.
  - inv E. rewrite get_with; teq. reflexivity.
  - destruct (get (Idx d) st), (get (Len d) st); inv E; rewrite ?get_with, get_remove; teq; eqdims; tauto.
  - destruct (get (Idx d) st); inv E; rewrite ?get_with; teq; eqdims; tauto.
  - destruct (get (Idx d) st); inv E; rewrite ?get_with; teq; eqdims; tauto.
  - destruct (get (Idx d) st); inv E; rewrite ?get_with; teq; eqdims; tauto.
  - destruct (get (Idx d) st); [|inv E; reflexivity]. destruct (hl _ _) as [[|]|]; simpl in E; try discriminate.
    + destruct (ln _ _); [|discriminate]. simpl in E. inv E. rewrite get_with, get_remove; teq; eqdims; tauto.
    + inv E. rewrite get_remove; teq; eqdims; tauto.
  - specialize (Hc1 d M m ltac:(intuition congruence) ltac:(intuition congruence) ltac:(intuition congruence)).
    destruct (get (Len M) st), (get (Len m) st), (get (Idx M) st), (get (Idx m) st); try destruct (hl _ _) as [[|]|]; simpl in E; try discriminate;
      try destruct (ln _ _); try discriminate; inv E; rewrite ?get_with; teq; eqdims; tauto.
  - destruct (clean_blocks_dyn d M m p st) as [cs|] eqn:Ec; [|discriminate]. simpl in E.
    specialize (Hc2 d M m p cs ltac:(intuition congruence) ltac:(intuition congruence) ltac:(intuition congruence) ltac:(intuition congruence) Ec).
    destruct (get (Len M) st), (get (Len m) st), (get (Idx M) st), (get (Idx m) st); simpl in E; try discriminate;
      try destruct (ln _ _); try discriminate; inv E; rewrite ?get_with; teq; eqdims; tauto.
  - destruct (clean_blocks_sta d b M m st) as [cs|] eqn:Ec;
      [|destruct (get (Idx b) st), (get (Idx M) st), (get (Idx m) st); try destruct (is_body b st); simpl in E; discriminate].
    specialize (Hc3 d b M m cs ltac:(intuition congruence) ltac:(intuition congruence) ltac:(intuition congruence) ltac:(intuition congruence) Ec).
    destruct (get (Idx b) st), (get (Idx M) st), (get (Idx m) st); try (inv E; exact Hc3).
    destruct (is_body b st) as [[|]|]; simpl in E; try discriminate.
    + inv E. rewrite get_with; teq; eqdims; tauto.
    + destruct (ln d cs); [|discriminate]. inv E. rewrite get_with; teq; eqdims; tauto.
  - specialize (Hc4 d M m ltac:(intuition congruence) ltac:(intuition congruence) ltac:(intuition congruence)).
    destruct (hl m _) as [hm|]; [|discriminate]. destruct (hl M _) as [hM|]; [|discriminate].
    simpl in E. destruct hm, hM; simpl in E.
    + destruct (get (Idx d) st); [|inv E; exact Hc4]. destruct (ln _ _); [|discriminate]. inv E.
      rewrite get_with; teq; eqdims; tauto.
    + destruct (ln _ _); [|discriminate]. simpl in E. destruct (get (Len d) st), (get (Idx d) st); inv E; try exact Hc4;
      rewrite ?get_with; teq; eqdims; tauto.
    + destruct (ln _ _); [|discriminate]. simpl in E. destruct (get (Len d) st), (get (Idx d) st); inv E; try exact Hc4;
      rewrite ?get_with; teq; eqdims; tauto.
    + inv E. exact Hc4.
  - assert (Hm : mem x ds = false) by (apply mem_false; exact Ht).
    assert (Hne : (x =? d) = false) by (apply Z.eqb_neq; intuition congruence).
    destruct (get (Idx d) st).
    + destruct (omap _ ds) as [ls|] eqn:El; [|discriminate]. inv E. rewrite get_with, get_combine_idx.
      destruct (alook x (combine ds (zc_indices sl gl v ls))) eqn:Ea.
      * apply alook_In, in_combine_l in Ea. contradiction.
      * rewrite get_clean_zcurve_idx, Hne, Hm. reflexivity.
    + inv E. rewrite get_clean_zcurve_idx, Hne, Hm. reflexivity.
  - inv E. reflexivity.
  - inv E. reflexivity.
Qed.

Lemma st_lens v t hl ln st st' : view_swf v t = true ->
  view_sub_state v hl ln st = Some st' ->
  match v with VMerge _ _ d => get (Len d) st = None | VRename ps => NoDup (map fst ps) /\ NoDup (map snd ps) | _ => True end ->
  lendef st -> lendef st'.
Proof.
  intros Hw E Hm Hl x w. pose proof (Hl x) as Hx.
  assert (Hc2 : forall d M m p cs, clean_blocks_dyn d M m p st = Some cs -> get (Len x) cs = Some w -> dz w).
  { intros d M m p cs. unfold clean_blocks_dyn. destruct (has _ _); [discriminate|]. intros Ec; inv Ec.
    rewrite get_remove; teq. eqdims; auto. }
  assert (Hc3 : forall d b M m cs, clean_blocks_sta d b M m st = Some cs -> get (Len x) cs = Some w -> dz w).
  { intros d b M m cs. unfold clean_blocks_sta. destruct (_ || _ || _); [discriminate|]. intros Ec; inv Ec.
    rewrite get_remove; teq. eqdims; auto. }
  unfold view_swf in Hw. destruct (signature t) as [sg|]; [|discriminate].
  destruct v as [d|d i|d n|d s|d s n|d s e|d s r|d|d M m|d M m p|d b M m ml|M m d|sl gl d ds|ds|d|ps|y z d];
    simpl in E; try discriminate.
  - inv E. rewrite get_remove; teq. eqdims; auto.
  - inv E. rewrite get_with, get_remove; teq. eqdims; auto.
  - inv E. rewrite get_with; teq. destruct (Z.eqb_spec x d); [|auto]. intros Ew; inv Ew. unfold dz. destruct (vz w); congruence.
  - assert (Hs : dz s) by (unfold dz; destruct (vz s); congruence).
    destruct (get (Idx d) st), (get (Len d) st) eqn:Eg; inv E; rewrite ?get_with, get_remove; teq; eqdims; auto;
      intros Ew; inv Ew; apply dz_vadd; auto; eapply Hl; eauto.
  - destruct (get (Idx d) st); inv E; rewrite ?get_with; teq; auto.
  - destruct (get (Idx d) st); inv E; rewrite ?get_with; teq; auto.
  - destruct (get (Idx d) st); inv E; rewrite ?get_with; teq; auto.
  - destruct (get (Idx d) st); [|inv E; auto]. destruct (hl _ _) as [[|]|]; simpl in E; try discriminate.
    + destruct (ln _ _); [|discriminate]. simpl in E. inv E. rewrite get_with, get_remove; teq; auto.
    + inv E. rewrite get_remove; teq; auto.
  - assert (Hc1 : get (Len x) (clean_blocks d M m st) = Some w -> dz w).
    { unfold clean_blocks. rewrite get_remove; teq. eqdims; auto. }
    destruct (get (Len M) st) eqn:EM, (get (Len m) st) eqn:Em, (get (Idx M) st), (get (Idx m) st); try destruct (hl _ _) as [[|]|]; simpl in E; try discriminate;
      try destruct (ln _ _); try discriminate; inv E; rewrite ?get_with; teq; try destruct (x =? d); auto;
      intros Ew; inv Ew; apply dz_vmul; eauto.
  - destruct (clean_blocks_dyn d M m p st) as [cs|] eqn:Ec; [|discriminate]. simpl in E. specialize (Hc2 _ _ _ _ _ Ec).
    destruct (get (Len M) st) eqn:EM, (get (Len m) st) eqn:Em, (get (Idx M) st), (get (Idx m) st); simpl in E; try discriminate;
      try destruct (ln _ _); try discriminate; inv E; rewrite ?get_with; teq; try destruct (x =? d); auto;
      intros Ew; inv Ew; apply dz_vmul; eauto.
  - destruct (clean_blocks_sta d b M m st) as [cs|] eqn:Ec;
      [|destruct (get (Idx b) st), (get (Idx M) st), (get (Idx m) st); try destruct (is_body b st); simpl in E; discriminate].
    specialize (Hc3 _ _ _ _ _ Ec).
    destruct (get (Idx b) st), (get (Idx M) st), (get (Idx m) st); try (inv E; exact Hc3).
    destruct (is_body b st) as [[|]|]; simpl in E; try discriminate.
    + inv E. rewrite get_with; teq. auto.
    + destruct (ln d cs); [|discriminate]. inv E. rewrite get_with; teq. auto.
  - rewrite Hm in E. assert (Hc4 : get (Len x) (clean_merge M m d st) = Some w -> dz w).
    { unfold clean_merge. rewrite get_remove; teq. eqdims; auto. }
    destruct (hl m _) as [hm|]; [|discriminate]. destruct (hl M _) as [hM|]; [|discriminate].
    simpl in E. destruct hm, hM; simpl in E.
    + destruct (get (Idx d) st); [|inv E; exact Hc4]. destruct (ln _ _); [|discriminate]. inv E.
      rewrite get_with; teq; auto.
    + destruct (ln _ _); [|discriminate]. simpl in E. destruct (get (Idx d) st); inv E; try exact Hc4;
      rewrite ?get_with; teq; auto.
    + destruct (ln _ _); [|discriminate]. simpl in E. inv E. exact Hc4.
    + inv E. exact Hc4.
  - destruct (get (Idx d) st).
    + destruct (omap _ ds) as [ls|] eqn:El; [|discriminate]. inv E. rewrite get_with, get_combine_len, get_clean_zcurve_len.
      destruct (mem x ds); [discriminate|auto].
    + inv E. rewrite get_clean_zcurve_len. destruct (mem x ds); [discriminate|auto].
  - inv E. auto.
  - inv E. auto.
  - inv E. destruct Hm as [H1 H2]. rewrite get_rename_state by assumption. destruct (ext_name ps x); [apply Hl|discriminate].
Qed.

(** ** Definedness of lengths *)

Definition Ddef (s : struct) : Prop := forall st l a sg p q w,
  signature s = Some sg -> spath sg a = Some p -> NoDup (map fst p) -> lenok s l -> lrange l -> good s l a ->
  agree st l a -> lendef st -> idef s l a p st -> get (Idx q) st = None -> In (q, None) p ->
  length_ s q st = Some w -> dz w.

Lemma peeled_all d ds p' p : peeled d ds (List.length ds) p' p -> NoDup ds -> NoDup (map fst p') ->
  (forall x, In x ds -> In x (map fst p')) -> In (d, None) p.
Proof. intros H Hd Hp Hall. eapply peeled_new; [exact H|]. apply inside_all; assumption. Qed.

Lemma dz_fold ls : Forall dz ls -> forall x, dz x -> dz (fold_left (dyn2 Z.mul) ls x).
Proof.
  induction 1 as [|y ls Hy Hls IH]; intros x Hx; [exact Hx|].
  simpl. apply IH. unfold dyn2, dz in *. destruct (vz x), (vz y); simpl; congruence.
Qed.

Lemma omap_In_back {A B} (f : A -> option B) l ls y : omap f l = Some ls -> In y ls -> exists x, In x l /\ f x = Some y.
Proof.
  intros E. apply omap_Some_Forall2 in E. induction E as [|x z l' ls' Hh E IH]; intros H; [destruct H|].
  destruct H as [->|H]; [exists x; simpl; auto|]. destruct (IH H) as (x' & ? & ?). exists x'. simpl. auto.
Qed.

Section Sub.
  Variables (v : view) (t : struct) (s0 sg : sig) (l : lenv) (a : asg) (p' p : path) (st : state).
  Hypothesis HD : Ddef t.
  Hypothesis Hw : view_swf v t = true.
  Hypothesis Ht : uswf t = true.
  Hypothesis E0 : signature t = Some s0.
  Hypothesis Ev : view_sig v s0 = Some sg.
  Hypothesis Ep' : spath s0 (view_asg v (ilen t) l a) = Some p'.
  Hypothesis Ep : spath sg a = Some p.
  Hypothesis R : prel v p' p.
  Hypothesis Hnd : NoDup (map fst p').
  Hypothesis Hndp : NoDup (map fst p).
  Hypothesis Hlok : lenok (View v t) l.
  Hypothesis Hl : lrange l.
  Hypothesis Hg : good (View v t) l a.
  Hypothesis Hag : agree st l a.
  Hypothesis Hld : lendef st.
  Hypothesis Hid : idef (View v t) l a p st.

  Lemma Es : signature (View v t) = Some sg.
  Proof. simpl. rewrite E0. exact Ev. Qed.

  (** Positive lengths at the level of the view. *)
  Lemma pos_at x k w : In (x, k) p -> get (Idx x) st = Some w ->
    dz w /\ vagree w (a x) /\ 0 < match k with Some n => n | None => view_ilen v (ilen t) l a x end.
  Proof.
    intros Hx Hwx. destruct (Hid x w (in_fst _ _ _ Hx) Hwx) as [H1 H2]. split; [exact H1|].
    split; [apply (ag_idx _ _ _ Hag _ _ Hwx)|].
    rewrite (plen_in _ _ _ _ _ _ _ Es Ep Hndp Hx) in H2. destruct k; exact H2.
  Qed.

  Lemma kept_def cs x k w : renames v = false -> In (x, k) p' -> ~ In x (touched v) ->
    get (Idx x) cs = get (Idx x) st -> get (Idx x) cs = Some w -> dz w /\ 0 < Lof v t l a x.
  Proof.
    intros Hr Hx Hto Ecs Hwx. rewrite Ecs in Hwx.
    destruct (view_kept v t s0 sg l a p' p (uswf_loc _ Ht) Hw E0 Ev Ep' R Hnd Hr x k Hx Hto) as (_ & Hxp & _ & Hil).
    destruct (pos_at _ _ _ Hxp Hwx) as (H1 & _ & H2). split; [exact H1|]. destruct k as [k|].
    - rewrite (Lof_dep v t s0 l a p' E0 Ep' Hnd _ _ Hx). exact H2.
    - rewrite <- Hil by reflexivity. exact H2.
  Qed.

  (** Lengths of the sub-structure, in a state without the touched dimensions. *)
  Lemma len_def cs q w : agree cs (view_lenv v l) (view_asg v (ilen t) l a) -> lendef cs -> renames v = false ->
    (forall x, In x (map fst p') -> In x (touched v) -> get (Idx x) cs = None) ->
    (forall x, In x (map fst p') -> ~ In x (touched v) -> get (Idx x) cs = get (Idx x) st) ->
    get (Idx q) cs = None -> In (q, None) p' -> length_ t q cs = Some w -> dz w /\ vagree w (Lof v t l a q).
  Proof.
    intros Hc Hlc Hr H1 H2 Hq Hin E. destruct Hg as (Hg1 & Hg2 & _). destruct Hlok as [_ Hlok']. split.
    - eapply (HD cs _ _ s0 p' q w); eauto using view_lrange.
      intros x w' Hx Hwx. destruct (fst_in _ _ Hx) as [k Hk].
      destruct (in_dec Z.eq_dec x (touched v)) as [Hto|Hto]; [rewrite (H1 _ Hx Hto) in Hwx; discriminate|].
      exact (kept_def cs x k w' Hr Hk Hto (H2 _ Hx Hto) Hwx).
    - rewrite (Lof_fun v t s0 l a p' E0 Ep' Hnd _ Hin). eapply length_agree; eauto. congruence.
  Qed.

  Lemma cs_kept cs : renames v = false ->
    (forall x, In x (map fst p') -> ~ In x (touched v) -> ~ In x (fresh v) -> get (Idx x) cs = get (Idx x) st) ->
    forall x, In x (map fst p') -> ~ In x (touched v) -> get (Idx x) cs = get (Idx x) st.
  Proof.
    intros Hr H x Hx Hto. destruct (fst_in _ _ Hx) as [k Hk]. apply H; auto.
    eapply view_kept; eauto using uswf_loc.
  Qed.

  Lemma touched_def st' x k w : sub_state v t st = Some st' -> In (x, k) p' -> In x (touched v) ->
    get (Idx x) st' = Some w -> dz w /\ 0 < Lof v t l a x.
  Proof.
    intros E Hx Hto Hwx. unfold sub_state in E.
    pose proof len_def as HL. pose proof cs_kept as HK. pose proof pos_at as HP.
    pose proof (Lof_fun v t s0 l a p' E0 Ep' Hnd) as HLf. pose proof (Lof_dep v t s0 l a p' E0 Ep' Hnd) as HLd.
    pose proof (Lof_in v t s0 l a p' E0 Ep' Hnd) as HLi.
    pose proof (Lof_range v t s0 l a p' Ht E0 Ep' Hnd Hl) as HLr.
    pose proof (loc_at v t s0 l a p' (uswf_loc _ Ht) E0 Ep' Hnd) as Hla.
    pose proof (fun st1 => sub_state_refines v t st l a st1) as HR.
    destruct Hg as (Hg1 & _ & _). pose proof Hw as Hw2.
    unfold view_swf in Hw2. rewrite E0 in Hw2.
    set (L := Lof v t l a) in *. clearbody L.
    destruct v as [d|d i|d n|d s|d s n|d s e|d s r|d|d M m|d M m pd|d b M m ml|M m d|sl gl d ds|ds|d|ps|xa xb d];
      cbn [prel touched fresh renames view_good view_sub_state] in *; try contradiction.
    - (* fix *) destruct Hto as [<-|[]]. inv E. rewrite get_with in Hwx. revert Hwx. teq. rewrite Z.eqb_refl. intros Hwx. inv Hwx.
      rewrite (HLi _ _ Hx) in Hg1. cbn [on_len] in Hg1. destruct (vz w) as [z|] eqn:Ez; [|discriminate].
      split; [unfold dz; congruence|]. pose proof (vz_range _ _ Ez). unfold vzd in Hg1. rewrite Ez in Hg1. simpl in Hg1. lia.
    - (* shift *) destruct Hto as [<-|[]]. rewrite (HLi _ _ Hx) in Hg1. cbn [on_len] in Hg1.
      assert (Hs : dz s) by (unfold dz; destruct (vz s); congruence).
      assert (Hxp : In (d, option_map (fun n => u64 (n - vzd s)) k) p) by (subst p; apply in_pm; right; exists k; split; [exact Hx|left; reflexivity]).
      destruct (get (Idx d) st) as [i|] eqn:Ei.
      2:{ destruct (get (Len d) st); inv E; rewrite ?get_with, get_remove in Hwx; revert Hwx; teq; rewrite Z.eqb_refl; discriminate. }
      destruct (HP _ _ _ Hxp Ei) as (Hi & _ & Hpos).
      assert (w = vadd i s) as ->.
      { destruct (get (Len d) st); inv E; rewrite ?get_with in Hwx; revert Hwx; teq; rewrite Z.eqb_refl; intros Ew; inv Ew; reflexivity. }
      split; [apply dz_vadd; assumption|]. pose proof (vzd_range s) as Hsr. pose proof (HLr _ _ Hx) as Hr.
      destruct k as [k|]; cbn [option_map view_ilen] in Hpos.
      + rewrite (HLd _ _ Hx) in *. destruct (l d) eqn:El; [pose proof (Hl _ _ El)|]; rewrite u64_small in Hpos by lia; lia.
      + rewrite Z.eqb_refl in Hpos. rewrite <- HLf in Hpos by exact Hx.
        destruct (l d) eqn:El; [pose proof (Hl _ _ El); lia|]. rewrite u64_small in Hpos by lia. lia.
    - (* slice *) destruct Hto as [<-|[]]. rewrite (HLi _ _ Hx) in Hg1. cbn [on_len] in Hg1.
      assert (Hs : dz s) by (unfold dz; destruct (vz s); congruence).
      assert (Hxp : In (d, option_map (fun _ => vzd n) k) p) by (subst p; apply in_pm; right; exists k; split; [exact Hx|left; reflexivity]).
      destruct (get (Idx d) st) as [i|] eqn:Ei; inv E; [|congruence].
      destruct (HP _ _ _ Hxp Ei) as (Hi & _ & Hpos).
      rewrite get_with in Hwx. revert Hwx; teq; rewrite Z.eqb_refl; intros Ew; inv Ew.
      split; [apply dz_vadd; assumption|]. pose proof (vzd_range s) as Hsr.
      destruct k; cbn [option_map view_ilen] in Hpos; rewrite ?Z.eqb_refl in Hpos; lia.
    - (* span *) destruct Hto as [<-|[]]. rewrite (HLi _ _ Hx) in Hg1. cbn [on_len] in Hg1.
      assert (Hs : dz s) by (unfold dz; destruct (vz s); congruence).
      assert (Hxp : In (d, option_map (fun _ => u64 (vzd e - vzd s)) k) p) by (subst p; apply in_pm; right; exists k; split; [exact Hx|left; reflexivity]).
      destruct (get (Idx d) st) as [i|] eqn:Ei; inv E; [|congruence].
      destruct (HP _ _ _ Hxp Ei) as (Hi & _ & Hpos).
      rewrite get_with in Hwx. revert Hwx; teq; rewrite Z.eqb_refl; intros Ew; inv Ew.
      split; [apply dz_vadd; assumption|]. pose proof (vzd_range s) as Hsr. pose proof (vzd_range e) as Her.
      destruct k; cbn [option_map view_ilen] in Hpos; rewrite ?Z.eqb_refl in Hpos; rewrite u64_small in Hpos by lia; lia.
    - (* step *) destruct Hto as [<-|[]]. rewrite (HLi _ _ Hx) in Hg1. cbn [on_len] in Hg1.
      apply andb_true_iff in Hw2. destruct Hw2 as [Hsr Hdep].
      assert (Hs : dz s) by (unfold dz; destruct (vz s); congruence).
      assert (Hr : dz r /\ 0 < vzd r) by (unfold dz, vzd; destruct (vz s), (vz r); try congruence; split; [congruence|lia]).
      destruct Hr as [Hr Hr0].
      assert (Hxp : In (d, option_map (fun n => u64 (n + vzd r - vzd s - 1) / vzd r) k) p) by (subst p; apply in_pm; right; exists k; split; [exact Hx|left; reflexivity]).
      destruct (get (Idx d) st) as [i|] eqn:Ei; inv E; [|congruence].
      destruct (HP _ _ _ Hxp Ei) as (Hi & _ & Hpos).
      rewrite get_with in Hwx. revert Hwx; teq; rewrite Z.eqb_refl; intros Ew; inv Ew.
      split; [apply dz_vadd; [apply dz_vmul; assumption|assumption]|].
      pose proof (vzd_range s) as Hsr'. pose proof (vzd_range r) as Hrr. pose proof (HLr _ _ Hx) as HLr'.
      assert (Hq : 0 < u64 (L d + vzd r - vzd s - 1) / vzd r).
      { destruct k as [k|]; cbn [option_map view_ilen] in Hpos; [rewrite (HLd _ _ Hx); exact Hpos|].
        rewrite Z.eqb_refl in Hpos. rewrite Hla in Hpos; [exact Hpos|exact Hx|].
        intros y Hy Hyp. cbn [view_asg]. rewrite fupd_neq; [reflexivity|]. intros ->.
        apply negb_true_iff, mem_false in Hdep. contradiction. }
      clear Hpos. rewrite u64_small in Hq by lia.
      destruct (Z.eq_dec (L d) 0) as [E1|]; [|lia]. rewrite E1, Z.div_small in Hq by lia. lia.
    - (* reverse *) destruct Hto as [<-|[]]. apply andb_true_iff in Hw2. destruct Hw2 as [Hnd' Hdep].
      assert (k = None) as ->.
      { destruct k as [k|]; [|reflexivity]. exfalso. apply negb_true_iff, mem_false in Hnd'. apply Hnd'. eapply spath_sdep; eauto. }
      destruct (get (Idx d) st) as [i|] eqn:Ei; [|inv E; congruence]. subst p.
      destruct (HP _ _ _ Hx Ei) as (Hi & _ & Hpos). cbn [view_ilen] in Hpos.
      rewrite Hla in Hpos; [|exact Hx|].
      2:{ intros y Hy _. cbn [view_asg]. rewrite fupd_neq; [reflexivity|]. intros ->. rewrite forallb_forall in Hdep.
          pose proof (spath_accept _ _ _ Ep' _ Hx) as Hac. simpl in Hac. apply accept_sdims in Hac.
          specialize (Hdep _ Hac). apply negb_true_iff, mem_false in Hdep. contradiction. }
      split; [|exact Hpos].
      destruct (has_length t d (remove [Idx d] st)) as [[|]|]; simpl in E; try discriminate.
      + destruct (length_ t d (remove [Idx d] st)) as [n|] eqn:En; [|discriminate]. inv E.
        rewrite get_with in Hwx. revert Hwx; teq; rewrite Z.eqb_refl; intros Ew; inv Ew.
        apply dz_vsub; [|exact Hi]. apply dz_vsub; [|discriminate].
        eapply (HL (remove [Idx d] st) d n); eauto.
        * eapply agree_upd_absent; [apply agree_remove_idx; exact Hag|]. intros y Hy. cbn [view_asg]. apply fupd_neq.
          intros ->. apply Hy. rewrite get_remove. teq. rewrite Z.eqb_refl. reflexivity.
        * intros y wy. rewrite get_remove. teq. apply Hld.
        * intros y _ [<-|[]]. rewrite get_remove. teq. rewrite Z.eqb_refl. reflexivity.
        * apply HK; [reflexivity|]. intros y _ Hy _. rewrite get_remove. teq. destruct (Z.eqb_spec y d); [exfalso; subst; apply Hy; left; reflexivity|reflexivity].
        * rewrite get_remove. teq. rewrite Z.eqb_refl. reflexivity.
      + inv E. rewrite get_remove in Hwx. revert Hwx. teq. rewrite Z.eqb_refl. discriminate.
    - (* blocks *) destruct Hto as [<-|[]]. destruct R as [-> Rn]. pose proof (Rn _ Hx). subst k.
      assert (HMp : In (M, None) (pm (fun _ => [(M, None); (m, None)]) d p')) by (apply in_pm; right; exists None; split; [exact Hx|left; reflexivity]).
      assert (Hmp : In (m, None) (pm (fun _ => [(M, None); (m, None)]) d p')) by (apply in_pm; right; exists None; split; [exact Hx|right; left; reflexivity]).
      assert (Hd0 : get (Idx d) (clean_blocks d M m st) = None).
      { unfold clean_blocks. rewrite get_remove. teq. rewrite Z.eqb_refl. reflexivity. }
      assert (Hdep : ilen t (view_lenv (VBlocks d M m) l) a d = L d).
      { apply Hla; [exact Hx|]. intros y Hy _. cbn [view_asg]. rewrite fupd_neq; [reflexivity|]. intros ->.
        apply negb_true_iff, mem_false in Hw2. contradiction. }
      pose proof (HLr _ _ Hx) as HLr'.
      destruct (get (Idx M) st) as [iM|] eqn:EiM, (get (Idx m) st) as [im|] eqn:Eim.
      2-4: exfalso; destruct (get (Len M) st), (get (Len m) st);
        try (destruct (has_length t d (clean_blocks d M m st)) as [[|]|]; simpl in E); inv E;
        rewrite ?get_with in Hwx; revert Hwx; teq; rewrite Hd0; discriminate.
      destruct (HP _ _ _ HMp EiM) as (HiM & _ & HposM). destruct (HP _ _ _ Hmp Eim) as (Him & _ & Hposm).
      assert (HMm : M <> m).
      { intros ->. cbn [view_sig] in Ev. rewrite Z.eqb_refl in Ev. discriminate. }
      cbn [view_ilen] in HposM, Hposm. rewrite Hdep in HposM, Hposm. rewrite Z.eqb_refl in HposM, Hposm.
      destruct (Z.eqb_spec M m); [contradiction|]. unfold minor_len in *.
      assert (HlM := ag_len _ _ _ Hag M). assert (Hlm := ag_len _ _ _ Hag m).
      assert (HdM := Hld M). assert (Hdm := Hld m).
      rewrite (HLi _ _ Hx) in Hg1. cbn [on_len] in Hg1.
      destruct (get (Len M) st) as [lM|] eqn:ElM, (get (Len m) st) as [lm|] eqn:Elm, (l M) as [xM|] eqn:EM, (l m) as [xm|] eqn:Em;
        simpl in HlM, Hlm; try contradiction.
      + inv E. rewrite get_with in Hwx. revert Hwx. teq. rewrite Z.eqb_refl. intros Ew; inv Ew.
        split; [|nia]. apply dz_vadd; [apply dz_vmul|]; eauto.
      + destruct (has_length t d (clean_blocks d M m st)) as [[|]|]; simpl in E; try discriminate.
        2:{ inv E. congruence. }
        destruct (length_ t d (clean_blocks d M m st)) as [nl|] eqn:En; [|discriminate]. inv E.
        rewrite get_with in Hwx. revert Hwx. teq. rewrite Z.eqb_refl. intros Ew; inv Ew.
        split; [|destruct (Z.eq_dec (L d) 0) as [E1|]; [rewrite E1, Z.div_0_l in Hposm by lia; lia|lia]].
        apply dz_vadd; [|exact Him]. apply dz_vmul; [exact HiM|]. eapply (dz_vdiv _ _ xM); eauto.
        eapply (HL (clean_blocks d M m st) d nl); eauto.
        * apply (agree_upd_absent _ _ a); [apply agree_blocks_cs; auto|]. intros y Hy. cbn [view_asg]. apply fupd_neq.
          intros ->. apply Hy, Hd0.
        * intros y wy. unfold clean_blocks. rewrite get_remove. teq. eqdims; apply Hld.
        * intros y _ [<-|[]]. exact Hd0.
        * apply HK; [reflexivity|]. intros y _ Hy1 Hy2. unfold clean_blocks. rewrite get_remove. teq.
          simpl in Hy1, Hy2. eqdims; tauto.
      + inv E. rewrite get_with in Hwx. revert Hwx. teq. rewrite Z.eqb_refl. intros Ew; inv Ew.
        split; [apply dz_vadd; [apply dz_vmul|]; eauto|]. cbn [odef] in HposM.
        destruct (Z.eq_dec (L d) 0) as [E1|]; [|lia]. rewrite E1, Z.div_0_l in HposM by lia. lia.
      + lia.
    - (* dyn *) destruct Hto as [<-|[]]. destruct R as [-> Rn]. pose proof (Rn _ Hx). subst k.
      assert (HMp : In (M, None) (pm (fun _ => [(M, None); (m, None); (pd, None)]) d p')) by (apply in_pm; right; exists None; split; [exact Hx|left; reflexivity]).
      assert (Hmp : In (m, None) (pm (fun _ => [(M, None); (m, None); (pd, None)]) d p')) by (apply in_pm; right; exists None; split; [exact Hx|right; left; reflexivity]).
      destruct (clean_blocks_dyn d M m pd st) as [cs|] eqn:Ecs; [|discriminate]. simpl in E.
      assert (Hcg : forall tg, get tg cs = get tg (remove [Idx pd] (clean_blocks d M m st))) by (intros tg; eapply clean_dyn_eq; eauto).
      assert (Hd0 : get (Idx d) cs = None).
      { rewrite Hcg. unfold clean_blocks. rewrite !get_remove. teq. rewrite Z.eqb_refl. simpl. destruct (d =? pd); reflexivity. }
      assert (Hdep : ilen t (view_lenv (VBlocksDyn d M m pd) l) a d = L d).
      { apply Hla; [exact Hx|]. intros y Hy _. cbn [view_asg]. rewrite fupd_neq; [reflexivity|]. intros ->.
        apply negb_true_iff, mem_false in Hw2. contradiction. }
      pose proof (HLr _ _ Hx) as HLr'.
      destruct (get (Idx M) st) as [iM|] eqn:EiM, (get (Idx m) st) as [im|] eqn:Eim.
      2-4: exfalso; destruct (get (Len M) st), (get (Len m) st); inv E;
        rewrite ?get_with in Hwx; revert Hwx; teq; rewrite Hd0; discriminate.
      destruct (HP _ _ _ HMp EiM) as (HiM & _ & HposM). destruct (HP _ _ _ Hmp Eim) as (Him & _ & Hposm).
      cbn [view_sig] in Ev. destruct ((M =? m) || _ || _ || _ || _ || _) eqn:Ef in Ev; [discriminate|].
      rewrite !orb_false_iff in Ef. destruct Ef as [[[[[Ef1 Ef2] Ef3] _] _] _].
      cbn [view_ilen] in HposM, Hposm. rewrite Hdep in HposM, Hposm. rewrite Z.eqb_refl in HposM, Hposm.
      rewrite Ef2, Ef1 in HposM. rewrite Ef3 in Hposm. unfold minor_len_up in *.
      assert (HlM := ag_len _ _ _ Hag M). assert (Hlm := ag_len _ _ _ Hag m).
      assert (HdM := Hld M). assert (Hdm := Hld m).
      rewrite (HLi _ _ Hx) in Hg1. cbn [on_len] in Hg1.
      destruct (get (Len M) st) as [lM|] eqn:ElM, (get (Len m) st) as [lm|] eqn:Elm, (l M) as [xM|] eqn:EM, (l m) as [xm|] eqn:Em;
        simpl in HlM, Hlm; try contradiction.
      + inv E. rewrite get_with in Hwx. revert Hwx. teq. rewrite Z.eqb_refl. intros Ew; inv Ew.
        split; [|nia]. apply dz_vadd; [apply dz_vmul|]; eauto.
      + destruct (length_ t d cs) as [nl|] eqn:En; [|discriminate]. inv E.
        rewrite get_with in Hwx. revert Hwx. teq. rewrite Z.eqb_refl. intros Ew; inv Ew.
        pose proof (Hl _ _ EM).
        split; [|destruct (Z.eq_dec (L d) 0) as [E1|]; [rewrite E1, u64_small, Z.div_small in Hposm by lia; lia|lia]].
        apply dz_vadd; [|exact Him]. apply dz_vmul; [exact HiM|]. eapply (dz_vceil _ _ xM); eauto; try lia.
        eapply (HL cs d nl); eauto.
        * apply (agree_upd_absent _ _ a); [eapply agree_dyn; [|exact Ecs]; apply (agree_blocks_cs d M m); auto|]. intros y Hy. cbn [view_asg]. apply fupd_neq.
          intros ->. apply Hy, Hd0.
        * intros y wy. rewrite Hcg. unfold clean_blocks. rewrite !get_remove. teq. eqdims; apply Hld.
        * intros y _ [<-|[]]. exact Hd0.
        * apply HK; [reflexivity|]. intros y _ Hy1 Hy2. rewrite Hcg. unfold clean_blocks. rewrite !get_remove. teq.
          simpl in Hy1, Hy2. eqdims; tauto.
      + inv E. rewrite get_with in Hwx. revert Hwx. teq. rewrite Z.eqb_refl. intros Ew; inv Ew.
        split; [apply dz_vadd; [apply dz_vmul|]; eauto|]. cbn [odef] in HposM. pose proof (Hl _ _ Em).
        destruct (Z.eq_dec (L d) 0) as [E1|]; [|lia]. rewrite E1, u64_small, Z.div_small in HposM by lia. lia.
      + lia.
    - (* static *) destruct Hto as [<-|[]]. destruct R as [-> Rn]. pose proof (Rn _ Hx). subst k.
      apply andb_true_iff in Hw2. destruct Hw2 as [Hml Hdep0].
      assert (Hml' : dz ml /\ 0 < vzd ml) by (unfold dz, vzd; destruct (vz ml); [split; [congruence|lia]|discriminate]).
      destruct Hml' as [Hmd Hm0].
      set (f := fun _ : option Z => [(b, Some 2); (M, None); (m, None)]) in *.
      assert (HMp : In (M, None) (pm f d p')) by (apply in_pm; right; exists None; split; [exact Hx|right; left; reflexivity]).
      assert (Hmp : In (m, None) (pm f d p')) by (apply in_pm; right; exists None; split; [exact Hx|right; right; left; reflexivity]).
      assert (Hdep : ilen t (view_lenv (VBlocksSta d b M m ml) l) a d = L d).
      { apply Hla; [exact Hx|]. intros y Hy _. cbn [view_asg]. rewrite fupd_neq; [reflexivity|]. intros ->.
        apply negb_true_iff, mem_false in Hdep0. contradiction. }
      pose proof (HLr _ _ Hx) as HLr'.
      destruct (clean_blocks_sta d b M m st) as [cs|] eqn:Ecs;
        [|destruct (get (Idx b) st), (get (Idx M) st), (get (Idx m) st); try destruct (is_body b st); simpl in E; discriminate].
      assert (Hd0 : get (Idx d) cs = None).
      { unfold clean_blocks_sta in Ecs. destruct (_ || _ || _); [discriminate|]. inv Ecs. rewrite get_remove. teq. rewrite Z.eqb_refl. reflexivity. }
      destruct (get (Idx b) st) as [ib|] eqn:Eib, (get (Idx M) st) as [iM|] eqn:EiM, (get (Idx m) st) as [im|] eqn:Eim.
      2-8: exfalso; inv E; congruence.
      destruct (HP _ _ _ HMp EiM) as (HiM & _ & HposM). destruct (HP _ _ _ Hmp Eim) as (Him & _ & Hposm).
      cbn [view_sig] in Ev. destruct ((b =? M) || _ || _ || _ || _ || _) eqn:Ef in Ev; [discriminate|].
      rewrite !orb_false_iff in Ef. destruct Ef as [[[[[Ef1 Ef2] Ef3] _] _] _].
      cbn [view_ilen] in HposM, Hposm. rewrite Hdep in HposM, Hposm. rewrite Z.eqb_refl in HposM, Hposm.
      rewrite (Z.eqb_sym M b), Ef1, Ef3 in HposM. rewrite (Z.eqb_sym m b), Ef2 in Hposm.
      destruct (is_body b st) as [body|] eqn:Eb; [|discriminate]. pose proof (is_body_agree _ _ _ _ _ Hag Eb) as Hbody. simpl in E.
      assert (H0 : 0 < L d).
      { destruct (Z.eq_dec (L d) 0) as [E1|]; [|lia]. rewrite E1, ?Z.div_0_l, ?Z.mod_0_l in * by lia. destruct (a b =? 0); lia. }
      split; [|exact H0]. destruct body.
      + inv E. rewrite get_with in Hwx. revert Hwx. teq. rewrite Z.eqb_refl. intros Ew; inv Ew.
        apply dz_vadd; [apply dz_vmul|]; eauto.
      + destruct (length_ t d cs) as [nl|] eqn:En; [|discriminate]. inv E.
        rewrite get_with in Hwx. revert Hwx. teq. rewrite Z.eqb_refl. intros Ew; inv Ew.
        apply dz_vadd; [|exact Him]. apply dz_vmul; [|exact Hmd]. apply (dz_vdiv _ _ (vzd ml)); auto using vagree_vzd; [|lia].
        eapply (HL cs d nl); eauto.
        * apply (agree_upd_absent _ _ a); [exact (agree_sta _ _ _ _ _ _ _ _ Hag Ecs)|]. intros y Hy. cbn [view_asg]. apply fupd_neq.
          intros ->. apply Hy, Hd0.
        * intros y wy. unfold clean_blocks_sta in Ecs. destruct (_ || _ || _); [discriminate|]. inv Ecs. rewrite get_remove. teq. eqdims; apply Hld.
        * intros y _ [<-|[]]. exact Hd0.
        * apply HK; [reflexivity|]. intros y _ Hy1 Hy2. unfold clean_blocks_sta in Ecs. destruct (_ || _ || _); [discriminate|]. inv Ecs. rewrite !get_remove. teq.
          simpl in Hy1, Hy2. eqdims; tauto.
    - (* merge *)
      assert (HMm : M <> m).
      { intros ->. cbn [view_sig] in Ev. rewrite Z.eqb_refl in Ev. discriminate. }
      assert (HndM : NoDup [M; m]) by (repeat constructor; simpl; intuition congruence).
      apply andb_true_iff in Hw2. destruct Hw2 as [Hdis Htog].
      destruct (together_path _ _ _ _ HndM Hnd Htog Ep') as [Hall|Hnone]; [|exfalso; apply (Hnone _ Hto), (in_fst _ _ _ Hx)].
      assert (HM : In (M, None) p').
      { destruct (fst_in _ _ (Hall M ltac:(simpl; auto))) as [kM HM]. destruct R as [_ Rn].
        rewrite (Rn _ _ HM ltac:(simpl; auto)) in HM. exact HM. }
      assert (Hm : In (m, None) p').
      { destruct (fst_in _ _ (Hall m ltac:(simpl; auto))) as [km Hm]. destruct R as [_ Rn].
        rewrite (Rn _ _ Hm ltac:(simpl; auto)) in Hm. exact Hm. }
      pose proof (peeled_all d [M; m] p' p R HndM Hnd Hall) as Hdp.
      pose proof (HLr _ _ HM) as HrM. pose proof (HLr _ _ Hm) as Hrm.
      assert (Hcs0 : forall y, In y [M; m] -> get (Idx y) (clean_merge M m d st) = None).
      { intros y Hy. unfold clean_merge. rewrite get_remove. teq. destruct Hy as [<-|[<-|[]]]; rewrite Z.eqb_refl; simpl; rewrite ?orb_true_r; reflexivity. }
      assert (Hloc : forall y, In y [M; m] -> ilen t (view_lenv (VMerge M m d) l) (fupds a [(M, 0); (m, 0)]) y = L y).
      { intros y Hy. apply Hla; [destruct Hy as [<-|[<-|[]]]; assumption|]. intros z Hz _.
        unfold disjointb in Hdis. rewrite forallb_forall in Hdis.
        assert (Hzn : ~ In z [M; m]).
        { intros Hzm. specialize (Hdis _ Hzm). apply negb_true_iff, mem_false in Hdis. apply Hdis.
          apply in_or_app. destruct Hy as [<-|[<-|[]]]; auto. }
        cbn [view_asg]. rewrite !fupds_out by exact Hzn. reflexivity. }
      destruct (get (Idx d) st) as [i|] eqn:Ei.
      2:{ exfalso. assert (Hgd : get (Len d) st = None) by (eapply agree_len_None'; [exact Hag|apply Hlok]). rewrite Hgd in E.
        destruct (has_length t m (clean_merge M m d st)) as [hm|]; [|discriminate].
        destruct (has_length t M (clean_merge M m d st)) as [hM|]; [|discriminate]. simpl in E.
        destruct hm, hM; simpl in E; try destruct (length_ t _ _); inv E; rewrite Hcs0 in Hwx by exact Hto; discriminate. }
      destruct (HP _ _ _ Hdp Ei) as (Hi & _ & Hpos). cbn [view_ilen] in Hpos. rewrite Z.eqb_refl in Hpos.
      rewrite !Hloc in Hpos by (simpl; auto). rewrite (HLi _ _ HM), (HLi _ _ Hm) in Hg1. rewrite u64_small in Hpos by nia.
      assert (HM0 : 0 < L M) by nia. assert (Hm0 : 0 < L m) by nia.
      split; [|destruct Hto as [<-|[<-|[]]]; assumption].
      assert (Hgd : get (Len d) st = None) by (eapply agree_len_None'; [exact Hag|apply Hlok]). rewrite Hgd in E.
      destruct (has_length t m (clean_merge M m d st)) as [hm|]; [|discriminate].
      destruct (has_length t M (clean_merge M m d st)) as [hM|]; [|discriminate]. simpl in E.
      assert (Hln : forall nl, length_ t m (clean_merge M m d st) = Some nl -> dz nl /\ vagree nl (L m)).
      { intros nl En. eapply (HL (clean_merge M m d st) m nl); eauto.
        - eapply (agree_upd_absent _ _ (fupds a [(M, 0); (m, 0)])); [apply agree_clean_merge, Hag|]. intros y Hy.
          cbn [view_asg]. assert (Hyn : ~ In y [M; m]) by (intros Hyn; apply Hy, Hcs0, Hyn). rewrite !fupds_out by exact Hyn. reflexivity.
        - intros y wy. unfold clean_merge. rewrite get_remove. teq. eqdims; apply Hld.
        - apply HK; [reflexivity|]. intros y _ Hy1 Hy2. unfold clean_merge. rewrite get_remove. teq.
          simpl in Hy1, Hy2. eqdims; tauto.
        - apply Hcs0. simpl; auto. }
      destruct hm; [|destruct hM; simpl in E; [destruct (length_ t M _); [|discriminate]|]; inv E; rewrite Hcs0 in Hwx by exact Hto; discriminate].
      destruct (length_ t m (clean_merge M m d st)) as [nl|]; [|destruct hM; discriminate].
      destruct (Hln _ eq_refl) as [Hn1 Hn2].
      destruct hM; simpl in E; inv E; rewrite get_with in Hwx; revert Hwx; teq; destruct Hto as [<-|[<-|[]]];
        rewrite ?Z.eqb_refl; try (destruct (Z.eqb_spec m M); [congruence|]); intros Ew; inv Ew;
        (apply (dz_vdiv _ _ (L m)) || apply (dz_vmod _ _ (L m))); auto; lia.
    - (* zcurve *) rewrite !andb_true_iff in Hw2. destruct Hw2 as ((((Hdis & Hn2) & Hn32) & Hs32) & Htog).
      apply Nat.leb_le in Hn2, Hn32. apply Nat.ltb_lt in Hs32.
      assert (Hnds : NoDup ds).
      { cbn [view_sig] in Ev. destruct (_ && _ && _ && _ && nodupb ds && _) eqn:Ef in Ev; [|discriminate].
        rewrite !andb_true_iff in Ef. apply nodupb_NoDup. tauto. }
      destruct (together_path _ _ _ _ Hnds Hnd Htog Ep') as [Hall|Hnone]; [|exfalso; apply (Hnone _ Hto), (in_fst _ _ _ Hx)].
      assert (Hin : forall y, In y ds -> In (y, None) p').
      { intros y Hy. destruct (fst_in _ _ (Hall y Hy)) as [ky Hky]. destruct R as [_ Rn]. rewrite (Rn _ _ Hky Hy) in Hky. exact Hky. }
      pose proof (peeled_all d ds p' p R Hnds Hnd Hall) as Hdp.
      assert (Hcs0 : forall y, In y ds -> get (Idx y) (clean_zcurve d ds st) = None).
      { intros y Hy. rewrite get_clean_zcurve_idx. apply mem_In in Hy. rewrite Hy, orb_true_r. reflexivity. }
      assert (Hloc : forall y, In y ds -> ilen t (view_lenv (VZCurve sl gl d ds) l) (fupds a (map (fun q => (q, 0)) ds)) y = L y).
      { intros y Hy. apply Hla; [auto|]. intros z Hz _.
        unfold disjointb in Hdis. rewrite forallb_forall in Hdis.
        assert (Hzn : ~ In z ds).
        { intros Hzm. specialize (Hdis _ Hzm). apply negb_true_iff, mem_false in Hdis. apply Hdis.
          apply in_flat_map. eauto. }
        cbn [view_asg]. rewrite !fupds_out; [reflexivity| |].
        - rewrite map_fst_combine; [exact Hzn|rewrite map_length, zc_indices_length, map_length; reflexivity].
        - rewrite map_map. simpl. rewrite map_id. exact Hzn. }
      destruct (get (Idx d) st) as [i|] eqn:Ei; [|inv E; rewrite Hcs0 in Hwx by exact Hto; discriminate].
      destruct (HP _ _ _ Hdp Ei) as (Hi & _ & Hpos). cbn [view_ilen] in Hpos. rewrite Z.eqb_refl in Hpos.
      rewrite (map_ext_in _ L) in Hpos by exact Hloc.
      assert (Hfold : fold_left Z.mul (map L ds) 1 = prodl (map L ds)).
      { unfold prodl. rewrite <- fold_symmetric; [reflexivity|intros; lia|intros; lia]. }
      rewrite Hfold in Hpos.
      assert (Hne : forall y, In y ds -> L y <> 0).
      { intros y Hy E1. assert (prodl (map L ds) = 0) as E2; [|rewrite E2 in Hpos; rewrite u64_small in Hpos by (pose proof W_pos; lia); lia].
        clear -Hy E1. induction ds as [|z ds IH]; [destruct Hy|]. cbn [map prodl fold_right] in *. fold (prodl (map L ds)).
        destruct Hy as [->|Hy]; [rewrite E1; lia|rewrite IH by exact Hy; lia]. }
      split; [|pose proof (HLr _ _ Hx); specialize (Hne _ Hto); lia].
      destruct (omap _ ds) as [ls|] eqn:El; [|discriminate]. inv E.
      rewrite get_with, get_combine_idx in Hwx.
      destruct (alook x (combine ds (zc_indices sl gl i ls))) eqn:Ea; [|rewrite Hcs0 in Hwx by exact Hto; discriminate].
      inv Hwx. apply alook_In, in_combine_r in Ea.
      pose proof (omap_length _ _ _ El) as Hlen.
      assert (Hls : Forall dz ls).
      { apply Forall_forall. intros nl Hnl. destruct (omap_In_back _ _ _ _ El Hnl) as (y & Hy & En).
        eapply (HL (clean_zcurve d ds st) y nl); eauto.
        - eapply (agree_upd_absent _ _ (fupds a (map (fun q => (q, 0)) ds))); [apply agree_clean_zcurve, Hag|]. intros z Hz.
          cbn [view_asg]. assert (Hzn : ~ In z ds) by (intros Hyn; apply Hz, Hcs0, Hyn). rewrite !fupds_out; [reflexivity| |].
          + rewrite map_map. simpl. rewrite map_id. exact Hzn.
          + rewrite map_fst_combine; [exact Hzn|rewrite map_length, zc_indices_length, map_length; reflexivity].
        - intros z wz. rewrite get_clean_zcurve_len. destruct (mem z ds); [discriminate|]. apply Hld.
        - apply HK; [reflexivity|]. intros z _ Hz1 Hz2. rewrite get_clean_zcurve_idx.
          apply mem_false in Hz1. rewrite Hz1. destruct (Z.eqb_spec z d); [subst; simpl in Hz2; tauto|reflexivity]. }
      pose proof (zc_indices_def sl gl i ls ltac:(lia) ltac:(lia) Hi Hls) as HF. rewrite Forall_forall in HF. apply HF, Ea.
  Qed.

  Lemma sub_dfn st' : sub_state v t st = Some st' ->
    lendef st' /\ idef t (view_lenv v l) (view_asg v (ilen t) l a) p' st'.
  Proof.
    intros E. pose proof touched_def as HT. pose proof kept_def as HK.
    assert (Hok : view_ok v l) by (eapply view_ok_of; [rewrite Es; discriminate|exact Hlok]).
    split.
    - eapply st_lens; eauto. destruct v; auto. eapply agree_len_None'; [exact Hag|apply Hlok].
    - intros x w Hx Hwx. destruct (fst_in _ _ Hx) as [k Hk].
      destruct (renames v) eqn:Hr.
      + pose proof pos_at as HP. pose proof (Lof_in v t s0 l a p' E0 Ep' Hnd) as HLi.
        pose proof (Lof_fun v t s0 l a p' E0 Ep' Hnd) as HLf. pose proof (Lof_dep v t s0 l a p' E0 Ep' Hnd) as HLd.
        destruct v as [| | | | | | | | | | | | | | |ps|]; try discriminate; [|destruct R]. destruct Hok as [Hf Hs].
        unfold sub_state, view_sub_state in E. inv E. rewrite get_rename_state in Hwx by assumption.
        assert (Hnm : ext_name ps x = Some (rename_dim ps x)).
        { unfold ext_name in *. destruct (mem x (map fst ps)) eqn:Em; [reflexivity|].
          destruct (mem x (map snd ps)); [discriminate|]. rewrite rename_dim_out; [reflexivity|apply mem_false, Em]. }
        rewrite Hnm in Hwx.
        cbn [prel] in R. assert (Hxp : In (rename_dim ps x, k) p) by (rewrite R; apply in_map_iff; exists (x, k); auto).
        destruct (HP _ _ _ Hxp Hwx) as (H1 & _ & H2). split; [exact H1|]. rewrite (HLi _ _ Hk). cbn [odef].
        destruct k as [k|]; [rewrite (HLd _ _ Hk); exact H2|]. rewrite (HLf _ Hk). cbn [view_ilen] in H2.
        cbn [view_sig] in Ev. destruct (nodupb (map fst ps) && _ && _) eqn:Er in Ev; [|discriminate].
        rewrite rename_back with (s := s0) in H2; [exact H2|exact Er|exact (spath_accept _ _ _ Ep' _ Hk)].
      + destruct (in_dec Z.eq_dec x (touched v)) as [Hto|Hto]; [exact (HT st' x k w E Hk Hto Hwx)|].
        apply (HK st' x k w); auto. unfold sub_state in E. eapply st_kept; eauto. eapply view_kept; eauto using uswf_loc.
  Qed.

  Lemma sub_len st' q w : sub_state v t st = Some st' -> In (q, None) p' -> get (Idx q) st' = None ->
    length_ t q st' = Some w -> dz w.
  Proof.
    intros E Hq Hn Hw'. destruct (sub_dfn _ E) as [H1 H2]. destruct Hg as (_ & Hg2 & _). destruct Hlok as [_ Hlok'].
    eapply (HD st' _ _ s0 p' q w); eauto using view_lrange.
    eapply sub_state_refines; eauto. rewrite Es. discriminate.
  Qed.

  Lemma kept_len st' q w : renames v = false -> sub_state v t st = Some st' -> In (q, None) p' -> ~ In q (touched v) ->
    get (Idx q) st = None -> length_ t q st' = Some w -> dz w.
  Proof.
    intros Hr E Hq Hto Hn. apply sub_len; auto. rewrite <- Hn. unfold sub_state in E. eapply st_kept; eauto.
    eapply view_kept; eauto using uswf_loc.
  Qed.

  Lemma view_length_def q w : get (Idx q) st = None -> In (q, None) p ->
    view_length v (has_length t) (length_ t) q st = Some w -> dz w.
  Proof.
    intros Hn Hq E. pose proof sub_len as HS. pose proof kept_len as HK0. pose proof len_def as HL. pose proof pos_at as HP.
    pose proof cs_kept as HK.
    assert (Hsub : renames v = false -> In (q, None) p' -> ~ In q (touched v) ->
      (do st' <- view_sub_state v (has_length t) (length_ t) st; length_ t q st') = Some w -> dz w).
    { intros Hr Hq' Hto E'. destruct (view_sub_state _ _ _ st) as [st'|] eqn:Est; [|discriminate]. simpl in E'.
      exact (HK0 st' q w Hr Est Hq' Hto Hn E'). }
    clear HK0. pose proof Hw as Hw2. unfold view_swf in Hw2. rewrite E0 in Hw2. pose proof Hg as (Hg1 & Hg2 & Hg3).
    destruct v as [d|d i|d n|d s|d s n|d s e|d s r|d|d M m|d M m pd|d b M m ml|M m d|sl gl d ds|ds|d|ps|xa xb d];
      cbn [prel touched fresh renames view_good view_length] in *.
    - (* bcast *) destruct (Z.eqb_spec q d) as [Eq|Hqd]; [subst; eapply Hld; eauto|].
      subst p. destruct Hq as [Hq|Hq]; [congruence|]. apply Hsub; auto.
    - (* fix *) subst p. apply in_pm in Hq. destruct Hq as [[Hq Hqd]|(k & _ & [])]. apply Hsub; auto. simpl in *; intuition congruence.
    - (* set_length *) destruct R as [-> _]. apply Hsub; auto.
    - (* shift *) assert (Hs : dz s) by (unfold dz; destruct (vz s); congruence). subst p. apply in_pm in Hq.
      destruct (Z.eqb_spec q d) as [Eq|Hqd].
      + subst q. destruct (get (Len d) st) as [x|] eqn:El; [inv E; eapply Hld; eauto|].
        destruct (view_sub_state _ _ _ st) as [st'|] eqn:Est; [|discriminate]. simpl in E.
        destruct (length_ t d st') as [x|] eqn:Ex; [|discriminate]. inv E. apply dz_vsub; [|exact Hs].
        eapply (HS st' d x Est); [|  |exact Ex].
        * destruct Hq as [[_ Hq]|([k|] & Hk & Hq)]; [simpl in Hq; congruence| |exact Hk]. destruct Hq as [Hq|[]]. discriminate.
        * simpl in Est. rewrite Hn, El in Est. inv Est. rewrite get_remove. teq. rewrite Z.eqb_refl. reflexivity.
      + apply Hsub; auto.
        * destruct Hq as [[Hq _]|(k & _ & [Hq|[]])]; [exact Hq|congruence].
        * simpl; intuition congruence.
    - (* slice *) assert (dz n) by (unfold dz; destruct (vz s), (vz n); congruence). subst p. apply in_pm in Hq.
      destruct (Z.eqb_spec q d) as [Eq|Hqd]; [inv E; assumption|]. apply Hsub; auto.
      + destruct Hq as [[Hq _]|(k & _ & [Hq|[]])]; [exact Hq|congruence].
      + simpl; intuition congruence.
    - (* span *) assert (dz s /\ dz e) as [] by (unfold dz; destruct (vz s), (vz e); try congruence; split; congruence). subst p. apply in_pm in Hq.
      destruct (Z.eqb_spec q d) as [Eq|Hqd]; [inv E; apply dz_vsub; assumption|]. apply Hsub; auto.
      + destruct Hq as [[Hq _]|(k & _ & [Hq|[]])]; [exact Hq|congruence].
      + simpl; intuition congruence.
    - (* step *) apply andb_true_iff in Hw2. destruct Hw2 as [Hsr Hdep].
      assert (Hsd : dz s /\ dz r /\ 0 < vzd r) by (unfold dz, vzd; destruct (vz s), (vz r); try congruence; repeat split; try congruence; lia).
      destruct Hsd as (Hsd & Hrd & Hr0). subst p. apply in_pm in Hq.
      destruct (Z.eqb_spec q d) as [Eq|Hqd].
      + subst q. destruct (length_ t d st) as [x|] eqn:Ex; [|discriminate]. simpl in E. inv E.
        apply (dz_vdiv _ _ (vzd r)); auto using vagree_vzd; [|lia].
        apply dz_vsub; [apply dz_vsub; [apply dz_vadd|]|]; auto; [|discriminate].
        eapply (HS st d x); [simpl; rewrite Hn; reflexivity| |exact Hn|exact Ex].
        destruct Hq as [[_ Hq]|([k|] & Hk & Hq)]; [simpl in Hq; congruence| |exact Hk]. destruct Hq as [Hq|[]]. discriminate.
      + apply Hsub; auto.
        * destruct Hq as [[Hq _]|(k & _ & [Hq|[]])]; [exact Hq|congruence].
        * simpl; intuition congruence.
    - (* reverse *) apply andb_true_iff in Hw2. destruct Hw2 as [Hw2 Hdep]. apply negb_true_iff in Hw2.
      rewrite (reverse_sig _ _ _ Hw2 Ev) in Ep.
      eapply (HD st l a s0 p q w); eauto; [apply Hlok|].
      intros x wx Hx Hwx. destruct (fst_in _ _ Hx) as [k Hk].
      destruct (HP _ _ _ Hk Hwx) as (H1 & _ & H2). split; [exact H1|].
      rewrite (plen_in _ _ _ _ _ _ _ E0 Ep Hndp Hk). cbn [view_ilen view_lenv] in H2. destruct k; exact H2.
    - (* blocks *) destruct R as [-> Rn]. apply in_pm in Hq.
      assert (Hd0 : get (Idx d) (clean_blocks d M m st) = None).
      { unfold clean_blocks. rewrite get_remove. teq. rewrite Z.eqb_refl. reflexivity. }
      assert (HlM := ag_len _ _ _ Hag M). assert (Hlm := ag_len _ _ _ Hag m).
      assert (HdM := Hld M). assert (Hdm := Hld m).
      assert (Hin : q = M \/ q = m -> In (d, None) p').
      { intros Hqm. destruct Hq as [[Hq1 Hq2]|(k & Hk & Hq)]; [|rewrite (Rn _ Hk) in Hk; exact Hk].
        exfalso. cbn [view_sig] in Ev. destruct ((M =? m) || _ || _) eqn:Ef in Ev; [discriminate|].
        rewrite !orb_false_iff in Ef. destruct Ef as [[_ EfM] Efm].
        pose proof (spath_accept _ _ _ Ep' _ Hq1) as Hac. simpl in Hac, Hq2.
        apply Z.eqb_neq in Hq2. destruct Hqm as [->| ->]; rewrite Hac, Hq2 in *; discriminate. }
      destruct (Z.eqb_spec q m) as [Eq|Hqm]; [|destruct (Z.eqb_spec q M) as [Eq|HqM]].
      + subst q. specialize (Hin (or_intror eq_refl)). destruct (get (Len m) st) as [lm|] eqn:Elm; [inv E; auto|].
        destruct (get (Len M) st) as [lM|] eqn:ElM; [|discriminate]. simpl in E.
        destruct (length_ t d (clean_blocks d M m st)) as [nl|] eqn:En; [|discriminate]. inv E.
        destruct (l M) as [xM|] eqn:EM; [|contradiction]. destruct (l m) as [xm|] eqn:Em; [contradiction|].
        apply (dz_vdiv _ _ xM); auto. eapply (HL (clean_blocks d M m st) d nl); eauto.
        * apply (agree_upd_absent _ _ a); [apply agree_blocks_cs; auto|]. intros y Hy. cbn [view_asg]. apply fupd_neq.
          intros ->. apply Hy, Hd0.
        * intros y wy. unfold clean_blocks. rewrite get_remove. teq. eqdims; apply Hld.
        * intros y _ [<-|[]]. exact Hd0.
        * apply HK; [reflexivity|]. intros y _ Hy1 Hy2. unfold clean_blocks. rewrite get_remove. teq.
          simpl in Hy1, Hy2. eqdims; tauto.
      + subst q. specialize (Hin (or_introl eq_refl)). destruct (get (Len M) st) as [lM|] eqn:ElM; [inv E; auto|].
        destruct (get (Len m) st) as [lm|] eqn:Elm; [|discriminate]. cbn [obind] in E.
        destruct (view_sub_state _ _ _ st) as [st'|] eqn:Est; [|discriminate]. cbn [obind] in E.
        destruct (length_ t d st') as [nl|] eqn:En; [|discriminate]. inv E.
        destruct (l M) as [xM|] eqn:EM; [contradiction|]. destruct (l m) as [xm|] eqn:Em; [|contradiction].
        apply (dz_vdiv _ _ xm); auto. eapply (HS st' d nl); eauto.
        simpl in Est. rewrite ElM, Elm, Hn in Est. inv Est. exact Hd0.
      + apply Hsub; auto.
        * destruct Hq as [[Hq _]|(k & _ & Hq)]; [exact Hq|]. simpl in Hq. intuition congruence.
        * destruct Hq as [[_ Hq]|(k & _ & Hq)]; simpl in *; intuition congruence.
    - (* dyn *) destruct R as [-> Rn]. apply in_pm in Hq.
      assert (HlM := ag_len _ _ _ Hag M). assert (Hlm := ag_len _ _ _ Hag m).
      assert (HdM := Hld M). assert (Hdm := Hld m).
      assert (Hin : q = M \/ q = m \/ q = pd -> In (d, None) p').
      { intros Hqm. destruct Hq as [[Hq1 Hq2]|(k & Hk & Hq)]; [|rewrite (Rn _ Hk) in Hk; exact Hk].
        exfalso. cbn [view_sig] in Ev. destruct ((M =? m) || _ || _ || _ || _ || _) eqn:Ef in Ev; [discriminate|].
        rewrite !orb_false_iff in Ef. destruct Ef as [[[_ EfM] Efm] Efp].
        pose proof (spath_accept _ _ _ Ep' _ Hq1) as Hac. simpl in Hac, Hq2.
        apply Z.eqb_neq in Hq2. destruct Hqm as [->|[->| ->]]; rewrite Hac, Hq2 in *; discriminate. }
      assert (Hidx : q = M \/ q = m \/ q = pd -> forall iM im, get (Idx M) st = Some iM -> get (Idx m) st = Some im -> dz iM /\ dz im).
      { intros Hqm iM im EiM Eim. specialize (Hin Hqm). split.
        - eapply (HP M None iM); [|exact EiM]. apply in_pm; right; exists None; split; [exact Hin|left; reflexivity].
        - eapply (HP m None im); [|exact Eim]. apply in_pm; right; exists None; split; [exact Hin|right; left; reflexivity]. }
      assert (Hcl : q = M \/ q = m \/ q = pd -> (l M = None \/ l m = None) -> forall cs nl, clean_blocks_dyn d M m pd st = Some cs -> length_ t d cs = Some nl ->
                dz nl).
      { intros Hqm Hnone cs nl Ecs En.
        assert (Hcg : forall tg, get tg cs = get tg (remove [Idx pd] (clean_blocks d M m st))) by (intros tg; eapply clean_dyn_eq; eauto).
        assert (Hd0 : get (Idx d) cs = None).
        { rewrite Hcg. unfold clean_blocks. rewrite !get_remove. teq. rewrite Z.eqb_refl. simpl. destruct (d =? pd); reflexivity. }
        eapply (HL cs d nl); eauto.
        - apply (agree_upd_absent _ _ a); [eapply agree_dyn; [|exact Ecs]; apply (agree_blocks_cs d M m); auto|].
          + destruct Hnone; [left|right]; eapply agree_len_None'; eauto.
          + intros y Hy. cbn [view_asg]. apply fupd_neq. intros ->. apply Hy, Hd0.
        - intros y wy. rewrite Hcg. unfold clean_blocks. rewrite !get_remove. teq. eqdims; apply Hld.
        - intros y _ [<-|[]]. exact Hd0.
        - apply HK; [reflexivity|]. intros y _ Hy1 Hy2. rewrite Hcg. unfold clean_blocks. rewrite !get_remove. teq.
          simpl in Hy1, Hy2. eqdims; tauto. }
      destruct (Z.eqb_spec q pd) as [Eq|Hqp]; [|destruct (Z.eqb_spec q m) as [Eq|Hqm]; [|destruct (Z.eqb_spec q M) as [Eq|HqM]]].
      + subst q. specialize (Hin ltac:(auto)). specialize (Hcl ltac:(auto)). specialize (Hidx ltac:(auto)).
        destruct (get (Idx M) st) as [iM|] eqn:EiM; [|discriminate]. destruct (get (Idx m) st) as [im|] eqn:Eim; [|discriminate].
        cbn [obind] in E. destruct (Hidx _ _ eq_refl eq_refl) as [HiM Him].
        destruct (get (Len m) st) as [lm|] eqn:Elm, (get (Len M) st) as [lM|] eqn:ElM, (l M) as [xM|] eqn:EM, (l m) as [xm|] eqn:Em;
          simpl in HlM, Hlm; try contradiction; try discriminate.
        * inv E. apply dz_vlt; [apply dz_vadd; [apply dz_vmul|]|apply dz_vmul]; auto.
        * destruct (clean_blocks_dyn d M m pd st) as [cs|] eqn:Ecs; [|discriminate]. cbn [obind] in E.
          destruct (length_ t d cs) as [nl|] eqn:En; [|discriminate]. inv E.
          apply dz_vlt; [apply dz_vadd; [apply dz_vmul|]|]; eauto.
        * destruct (clean_blocks_dyn d M m pd st) as [cs|] eqn:Ecs; [|discriminate]. cbn [obind] in E.
          destruct (length_ t d cs) as [nl|] eqn:En; [|discriminate]. inv E.
          apply dz_vlt; [apply dz_vadd; [apply dz_vmul|]|]; eauto. eapply (dz_vceil _ _ xM); eauto. tauto.
      + subst q. specialize (Hin ltac:(auto)). specialize (Hcl ltac:(auto)).
        destruct (get (Len m) st) as [lm|] eqn:Elm; [inv E; auto|].
        destruct (get (Len M) st) as [lM|] eqn:ElM; [|discriminate]. cbn [obind] in E.
        destruct (l M) as [xM|] eqn:EM; [|contradiction]. destruct (l m) as [xm|] eqn:Em; [contradiction|].
        destruct (clean_blocks_dyn d M m pd st) as [cs|] eqn:Ecs; [|discriminate]. cbn [obind] in E.
        destruct (length_ t d cs) as [nl|] eqn:En; [|discriminate]. inv E. eapply (dz_vceil _ _ xM); eauto. tauto.
      + subst q. specialize (Hin ltac:(auto)). specialize (Hcl ltac:(auto)).
        destruct (get (Len M) st) as [lM|] eqn:ElM; [inv E; auto|].
        destruct (get (Len m) st) as [lm|] eqn:Elm; [|discriminate]. cbn [obind] in E.
        destruct (view_sub_state _ _ _ st) as [st'|] eqn:Est; [|discriminate]. cbn [obind] in E.
        destruct (length_ t d st') as [nl|] eqn:En; [|discriminate]. inv E.
        destruct (l M) as [xM|] eqn:EM; [contradiction|]. destruct (l m) as [xm|] eqn:Em; [|contradiction].
        apply (dz_vceil _ _ xm); auto; [|tauto]. simpl in Est.
        destruct (clean_blocks_dyn d M m pd st) as [cs|] eqn:Ecs; [|discriminate]. cbn [obind] in Est.
        rewrite ElM, Elm, Hn in Est. inv Est. eauto.
      + apply Hsub; auto.
        * destruct Hq as [[Hq _]|(k & _ & Hq)]; [exact Hq|]. simpl in Hq. intuition congruence.
        * destruct Hq as [[_ Hq]|(k & _ & Hq)]; simpl in *; intuition congruence.
    - (* static *) destruct R as [-> Rn]. apply in_pm in Hq. apply andb_true_iff in Hw2. destruct Hw2 as [Hml _].
      assert (Hml' : dz ml /\ 0 < vzd ml) by (unfold dz, vzd; destruct (vz ml); [split; [congruence|lia]|discriminate]).
      destruct Hml' as [Hmd Hm0].
      assert (Hin : q = M \/ q = m -> In (d, None) p').
      { intros Hqm. destruct Hq as [[Hq1 Hq2]|(k & Hk & Hq)]; [|rewrite (Rn _ Hk) in Hk; exact Hk].
        exfalso. cbn [view_sig] in Ev. destruct ((b =? M) || _ || _ || _ || _ || _) eqn:Ef in Ev; [discriminate|].
        rewrite !orb_false_iff in Ef. destruct Ef as [[[_ EfM] Efm] Efp].
        pose proof (spath_accept _ _ _ Ep' _ Hq1) as Hac. simpl in Hac, Hq2.
        apply Z.eqb_neq in Hq2. destruct Hqm as [->| ->]; rewrite Hac, Hq2 in *; discriminate. }
      assert (Hcl : q = M \/ q = m -> forall st' nl, view_sub_state (VBlocksSta d b M m ml) (has_length t) (length_ t) st = Some st' ->
                length_ t d st' = Some nl -> dz nl).
      { intros Hqm st' nl Est En. eapply (HS st' d nl); eauto.
        assert (Ecs : clean_blocks_sta d b M m st = Some st').
        { simpl in Est. destruct Hqm as [->| ->]; rewrite Hn in Est; destruct (get (Idx b) st); try exact Est. destruct (get (Idx M) st); exact Est. }
        unfold clean_blocks_sta in Ecs. destruct (_ || _ || _); [discriminate|]. inv Ecs. rewrite get_remove. teq. rewrite Z.eqb_refl. reflexivity. }
      destruct (Z.eqb_spec q b) as [Eq|Hqp]; [inv E; discriminate|].
      destruct (Z.eqb_spec q m) as [Eq|Hqm]; [|destruct (Z.eqb_spec q M) as [Eq|HqM]].
      + destruct (is_body b st) as [[|]|]; cbn [obind] in E; [inv E; auto| |discriminate].
        destruct (view_sub_state _ _ _ st) as [st'|] eqn:Est; [|discriminate]. cbn [obind] in E.
        destruct (length_ t d st') as [nl|] eqn:En; [|discriminate]. inv E.
        apply (dz_vmod _ _ (vzd ml)); auto using vagree_vzd; [|lia]. eapply Hcl; eauto.
      + destruct (is_body b st) as [[|]|]; cbn [obind] in E; [|inv E; discriminate|discriminate].
        destruct (view_sub_state _ _ _ st) as [st'|] eqn:Est; [|discriminate]. cbn [obind] in E.
        destruct (length_ t d st') as [nl|] eqn:En; [|discriminate]. inv E.
        apply (dz_vdiv _ _ (vzd ml)); auto using vagree_vzd; [|lia]. eapply Hcl; eauto.
      + apply Hsub; auto.
        * destruct Hq as [[Hq _]|(k & _ & Hq)]; [exact Hq|]. simpl in Hq. intuition congruence.
        * destruct Hq as [[_ Hq]|(k & _ & Hq)]; simpl in *; intuition congruence.
    - (* merge *)
      destruct (Z.eqb_spec q d) as [Eq|Hqd].
      + subst q. assert (Hgd : get (Len d) st = None) by (eapply agree_len_None'; [exact Hag|apply Hlok]). rewrite Hgd in E.
        assert (HMm : M <> m).
        { intros ->. cbn [view_sig] in Ev. rewrite Z.eqb_refl in Ev. discriminate. }
        assert (HndM : NoDup [M; m]) by (repeat constructor; simpl; intuition congruence).
        assert (Hall : forall y, In y [M; m] -> In (y, None) p').
        { assert (Hlen : List.length (inside [M; m] p') = 2%nat).
          { destruct (peeled_inv _ _ _ _ _ _ _ R Hq) as [(_ & _ & H)|[H1 H2]]; [exact H|].
            exfalso. cbn [view_sig] in Ev. destruct ((M =? m) || _) eqn:Ef in Ev; [discriminate|].
            rewrite !orb_false_iff in Ef. destruct Ef as [_ Ef]. pose proof (spath_accept _ _ _ Ep' _ H1) as Hac. simpl in Hac, H2. rewrite Hac in Ef.
            destruct (Z.eqb_spec d M), (Z.eqb_spec d m); try discriminate; intuition congruence. }
          pose proof (proj1 (inside_all [M; m] p' HndM Hnd) Hlen) as Hall. intros y Hy.
          destruct (fst_in _ _ (Hall y Hy)) as [ky Hky]. destruct R as [_ Rn]. rewrite (Rn _ _ Hky Hy) in Hky. exact Hky. }
        destruct (view_sub_state _ _ _ st) as [st'|] eqn:Est; [|discriminate]. cbn [obind] in E.
        assert (Hst : st' = clean_merge M m d st).
        { simpl in Est. rewrite Hgd, Hn in Est.
          destruct (has_length t m (clean_merge M m d st)) as [hm|]; [|discriminate].
          destruct (has_length t M (clean_merge M m d st)) as [hM|]; [|discriminate]. simpl in Est.
          destruct hm, hM; simpl in Est; try destruct (length_ t _ _); inv Est; reflexivity. }
        assert (Hcs0 : forall y, In y [M; m] -> get (Idx y) st' = None).
        { intros y Hy. rewrite Hst. unfold clean_merge. rewrite get_remove. teq. destruct Hy as [<-|[<-|[]]]; rewrite Z.eqb_refl; simpl; rewrite ?orb_true_r; reflexivity. }
        destruct (length_ t M st') as [nM|] eqn:EM; [|discriminate]. cbn [obind] in E.
        destruct (length_ t m st') as [nm|] eqn:Em; [|discriminate]. inv E.
        apply dz_vmul; [eapply (HS (clean_merge M m d st) M nM)|eapply (HS (clean_merge M m d st) m nm)]; eauto; first [apply Hall|apply Hcs0]; simpl; auto.
      + destruct (peeled_inv _ _ _ _ _ _ _ R Hq) as [(H & _)|[H1 H2]]; [contradiction|]. apply Hsub; auto.
    - (* zcurve *)
      destruct (Z.eqb_spec q d) as [Eq|Hqd].
      + subst q. cbn [view_sig] in Ev. destruct (_ && _ && _ && _ && nodupb ds && _) eqn:Ef in Ev; [|discriminate].
        rewrite !andb_true_iff in Ef. destruct Ef as [[_ Hnds] Hdd]. apply nodupb_NoDup in Hnds.
        assert (Hall : forall y, In y ds -> In (y, None) p').
        { assert (Hlen : List.length (inside ds p') = List.length ds).
          { destruct (peeled_inv _ _ _ _ _ _ _ R Hq) as [(_ & _ & H)|[H1 H2]]; [exact H|].
            exfalso. pose proof (spath_accept _ _ _ Ep' _ H1) as Hac. simpl in Hac, H2. rewrite Hac in Hdd.
            apply H2, mem_In. destruct (mem d ds); [reflexivity|discriminate]. }
          pose proof (proj1 (inside_all ds p' Hnds Hnd) Hlen) as Hall. intros y Hy.
          destruct (fst_in _ _ (Hall y Hy)) as [ky Hky]. destruct R as [_ Rn]. rewrite (Rn _ _ Hky Hy) in Hky. exact Hky. }
        destruct (view_sub_state _ _ _ st) as [st'|] eqn:Est; [|discriminate]. cbn [obind] in E.
        assert (Hst : st' = clean_zcurve d ds st) by (simpl in Est; rewrite Hn in Est; inv Est; reflexivity).
        destruct (omap _ ds) as [ls|] eqn:El; [|discriminate]. cbn [obind] in E.
        assert (Hls : Forall dz ls).
        { apply Forall_forall. intros nl Hnl. destruct (omap_In_back _ _ _ _ El Hnl) as (y & Hy & En).
          eapply (HS st' y nl); eauto. rewrite Hst, get_clean_zcurve_idx. apply mem_In in Hy. rewrite Hy, orb_true_r. reflexivity. }
        destruct ls as [|x ls]; [discriminate|]. inv E. inv Hls. apply dz_fold; assumption.
      + destruct (peeled_inv _ _ _ _ _ _ _ R Hq) as [(H & _)|[H1 H2]]; [contradiction|]. apply Hsub; auto.
    - (* reorder *) apply Hsub; auto. eapply Permutation_in; [exact R|exact Hq].
    - (* hoist *) destruct R as [Hd ->]. apply Hsub; auto. destruct Hq as [Hq|Hq]; [inv Hq; exact Hd|].
      apply in_pm in Hq. destruct Hq as [[Hq _]|(n & _ & [])]. exact Hq.
    - (* rename *) subst p. apply in_map_iff in Hq. destruct Hq as ([x k] & Hqe & Hx). simpl in Hqe. inv Hqe.
      cbn [view_sub_state obind] in E. cbn [view_sig] in Ev. destruct (nodupb (map fst ps) && _ && _) eqn:Er in Ev; [|discriminate].
      rewrite rename_back with (s := s0) in E; [|exact Er|exact (spath_accept _ _ _ Ep' _ Hx)].
      eapply (HS _ x w); [reflexivity|exact Hx| |exact E].
      rewrite !andb_true_iff, !nodupb_NoDup in Er. destruct Er as [[Hf Hs] _].
      rewrite get_rename_state by assumption. unfold ext_name. destruct (mem x (map fst ps)) eqn:Em; [exact Hn|].
      destruct (mem x (map snd ps)); [reflexivity|]. rewrite rename_dim_out in Hn; [exact Hn|apply mem_false, Em].
    - destruct R.
  Qed.
End Sub.

Lemma fold_and {A} (P : A -> Prop) l : fold_right and True (map P l) -> Forall P l.
Proof. induction l; simpl; intros H; constructor; tauto. Qed.

Lemma first_match_in {A} q (l : list (option sig * A)) a : first_match q l = Some (Some a) ->
  exists s, In (Some s, a) l /\ any_accept q s = true.
Proof.
  induction l as [|[[s|] b] l IH]; simpl; intros E; try discriminate.
  destruct (any_accept q s) eqn:Ea; [inv E; eauto|]. destruct (IH E) as (s' & H & H'). eauto.
Qed.

Lemma length_Union ts q st w : length_ (Union ts) q st = Some w ->
  exists t s, In t ts /\ signature t = Some s /\ any_accept q s = true /\ length_ t q st = Some w.
Proof.
  unfold length_. cbn [lenops snd]. unfold guard. destruct (first_match q _) as [[o|]|] eqn:E; try discriminate.
  destruct (fst o q st) as [[|]|]; try discriminate. intros Hw.
  destruct (first_match_in _ _ _ E) as (s & Hin & Ha). apply in_map_iff in Hin. destruct Hin as (t & Et & Ht).
  inv Et. exists t, s. auto.
Qed.

Theorem length_defined s : uswf s = true -> Ddef s.
Proof.
  induction s as [c|d ts IH|d t IH|v t IH|ts IH] using struct_ind'; intros Hw st l a sg p q w Es Ep Hnd Hlk Hl Hg Hag Hld Hid Hn Hq E.
  - discriminate.
  - destruct (signature_Tuple_inv _ _ _ Es) as (ss & F & Hx & ->). simpl in Hw. apply andb_true_iff in Hw.
    destruct Hw as [_ Hw]. pose proof Ep as Ep0. rewrite spath_dep in Ep. destruct (nthz ss (a d)) as [r|] eqn:Er; [|discriminate].
    destruct (spath r a) as [pr|] eqn:Epr; [|discriminate]. injection Ep as <-.
    pose proof (Forall2_nthz _ _ _ (a d) F) as Ht. rewrite Er in Ht.
    destruct (nthz ts (a d)) as [t|] eqn:Et; [|contradiction].
    destruct Hq as [Hq|Hq]; [discriminate|]. cbn [map fst] in Hnd. apply NoDup_cons_iff in Hnd. destruct Hnd as [Hd Hnd].
    assert (Hqd : q <> d) by (intros ->; apply Hd, (in_fst _ _ _ Hq)).
    unfold length_ in E. simpl in E. unfold guard in E. destruct (Z.eqb_spec q d); [contradiction|].
    destruct (has (Idx d) st) eqn:Eh; [|discriminate].
    destruct (get (Idx d) st) as [vi|] eqn:Ei; [|discriminate]. destruct (vstatic vi) as [k|] eqn:Ek; [|discriminate].
    assert (a d = k) as Hk.
    { pose proof (ag_idx _ _ _ Hag _ _ Ei) as Hv. unfold vagree in Hv.
      destruct vi; simpl in *; try discriminate. congruence. }
    rewrite nthz_map in E. rewrite <- Hk, Et in E. simpl in E.
    destruct (fst (lenops t) q (remove [Idx d] st)) as [[|]|]; try discriminate.
    eapply Forall_nthz in IH; [|exact Et]. rewrite forallb_forall in Hw.
    simpl in Hlk. apply lenok_all in Hlk. eapply Forall_nthz in Hlk; [|exact Et].
    eapply (IH (Hw _ (nthz_In _ _ _ Et)) (remove [Idx d] st) l a r pr q w); eauto using good_tuple, agree_remove_idx.
    + intros y wy. rewrite get_remove. teq. apply Hld.
    + intros y wy Hy. rewrite get_remove. teq. destruct (Z.eqb_spec y d) as [->|Hyd]; [discriminate|]. simpl. intros Hwy.
      destruct (Hid y wy ltac:(right; exact Hy) Hwy) as [H1 H2]. split; [exact H1|].
      destruct (fst_in _ _ Hy) as [k' Hk'].
      rewrite (plen_in (Tuple d ts) (SDep d ss) l a ((d, Some (Z.of_nat (List.length ss))) :: pr) y k') in H2; auto.
      * rewrite (plen_in _ _ _ _ _ _ _ Ht Epr Hnd Hk'). cbn [odef] in *. destruct k'; [exact H2|]. cbn [ilen] in H2.
        destruct (Z.eqb_spec y d); [contradiction|]. rewrite nthz_map, Et in H2. exact H2.
      * cbn [map fst]. constructor; assumption.
      * right. exact Hk'.
    + rewrite get_remove. teq. destruct (q =? d); [reflexivity|exact Hn].
  - destruct (signature_Vector_inv _ _ _ Es) as (s0 & E0 & Hd & ->). simpl in Hw. pose proof Ep as Ep0. cbn [spath] in Ep.
    destruct (spath s0 a) as [pr|] eqn:Epr; [|discriminate]. injection Ep as <-.
    unfold length_ in E. simpl in E. unfold guard in E. cbn [map fst] in Hnd. pose proof Hnd as Hnd0. apply NoDup_cons_iff in Hnd. destruct Hnd as [Hd' Hnd].
    destruct (Z.eqb_spec q d) as [->|Hqd].
    + destruct (has (Len d) st && negb (has (Idx d) st)); [|discriminate]. eapply Hld; eauto.
    + destruct Hq as [Hq|Hq]; [congruence|].
      destruct (fst (lenops t) q (remove [Idx d; Len d] st)) as [[|]|]; try discriminate.
      eapply (IH Hw (remove [Idx d; Len d] st) (fupd l d None) a s0 pr q w); eauto using agree_remove_both, lrange_None.
      * intros y wy. rewrite get_remove. teq. destruct (y =? d); [discriminate|]. apply Hld.
      * intros y wy Hy. rewrite get_remove. teq. destruct (Z.eqb_spec y d) as [->|Hyd]; [discriminate|]. simpl. intros Hwy.
        destruct (Hid y wy ltac:(right; exact Hy) Hwy) as [H1 H2]. split; [exact H1|].
        destruct (fst_in _ _ Hy) as [k' Hk'].
        rewrite (plen_in _ _ _ _ _ _ _ Es Ep0 Hnd0 (or_intror Hk')) in H2.
        rewrite (plen_in _ _ _ _ _ _ _ E0 Epr Hnd Hk'). cbn [odef] in *. destruct k'; [exact H2|]. cbn [ilen] in H2.
        destruct (Z.eqb_spec y d); [contradiction|]. exact H2.
      * rewrite get_remove. teq. destruct (q =? d); [reflexivity|exact Hn].
  - destruct (uview_down _ _ _ _ _ l Hw Es Ep) as (s0 & p' & E0 & Ev & Hsn & Ep' & R & Hnd').
    destruct (uswf_view _ _ Hw) as [Hv Ht]. rewrite length_View in E. unfold guard in E.
    destruct (has_length (View v t) q st) as [[|]|]; try discriminate.
    exact (view_length_def v t s0 sg l a p' p st (IH Ht) Hv Ht E0 Ev Ep' Ep R Hnd' Hnd Hlk Hl Hg Hag Hld Hid q w Hn Hq E).
  - destruct (uswf_union _ _ Hw Es) as [Hws Hcase]. rewrite forallb_forall in Hws. rewrite Forall_forall in IH.
    destruct Hg as [Hg Hlen]. simpl in Hlk. apply fold_and in Hlk. apply fold_and in Hg. rewrite Forall_forall in Hlk, Hg, Hlen.
    apply length_Union in E. destruct E as (t & s0 & Ht & E0 & Hacc & E).
    assert (Hpath : exists p0, spath s0 a = Some p0 /\ NoDup (map fst p0) /\ In (q, None) p0 /\ incl p0 p).
    { destruct Hcase as [(t' & -> & Et)|[Hp Hall]].
      - destruct Ht as [<-|[]]. assert (s0 = sg) by congruence. subst. exists p. auto using incl_refl.
      - destruct (Hall _ _ Ht E0) as [Hp0 Hi]. exists (map (fun d => (d, None)) (sdims s0)).
        rewrite (plain_path _ a Hp0). split; [reflexivity|]. split.
        + eapply spath_nodup; [eapply uswf_snodup; [apply Hws, Ht|exact E0]|apply (plain_path s0 a), Hp0].
        + rewrite (plain_path _ a Hp) in Ep. injection Ep as <-. split.
          * apply in_map_iff. exists q. split; [reflexivity|]. apply accept_sdims, Hacc.
          * intros e He. apply in_map_iff in He. destruct He as (x & <- & Hx). apply in_map_iff. exists x. auto. }
    destruct Hpath as (p0 & Ep0 & Hnd0 & Hq0 & Hincl).
    refine (IH t Ht (Hws t Ht) st l a s0 p0 q w E0 Ep0 Hnd0 (Hlk t Ht) Hl (Hg t Ht) Hag Hld _ Hn Hq0 E).
    intros y wy Hy Hwy. destruct (fst_in _ _ Hy) as [k Hk]. destruct (Hid y wy (in_fst _ _ _ (Hincl _ Hk)) Hwy) as [H1 H2].
    split; [exact H1|]. specialize (Hlen t Ht y). rewrite (plen_in t s0 l a p0 y k E0 Ep0 Hnd0 Hk) in Hlen |- *.
    rewrite (plen_in (Union ts) sg l a p y k Es Ep Hnd (Hincl _ Hk)) in Hlen, H2. cbn [on_len odef] in *. lia.
Qed.
