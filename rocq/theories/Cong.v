(** * Structures respond in the same way to states that look the same

    [R] relates values.  All queries of related structures in states whose entries are related for
    the dimensions mentioned in the structure give the same availability and related results.
    With [R] = equality: entries for other dimensions, and the order of the entries, are ignored.
    With [R] = "same type": availability does not depend on run-time values. *)

From Verif Require Export GoodFacts Transfer.

(** ** The dimensions mentioned in a structure *)

Definition view_names (v : view) : list dim :=
  match v with
  | VBcast d | VFix d _ | VSetLength d _ | VShift d _ | VSlice d _ _ | VSpan d _ _ | VStep d _ _
  | VReverse d | VHoist d => [d]
  | VBlocks d M m => [d; M; m]
  | VBlocksDyn d M m p => [d; M; m; p]
  | VBlocksSta d b M m _ => [d; b; M; m]
  | VMerge M m d => [M; m; d]
  | VZCurve _ _ d ds => d :: ds
  | VReorder ds => ds
  | VRename ps => map fst ps ++ map snd ps
  | VJoin a b d => [a; b; d]
  end.

Fixpoint names (s : struct) : list dim :=
  match s with
  | Scalar _ => []
  | Tuple d ts => d :: flat_map names ts
  | Vector d t => d :: names t
  | View v t => view_names v ++ names t
  | Union ts => flat_map names ts
  end.

(** ** Related structures: the same up to [R]-related parameters *)

Inductive view_rel (R : val -> val -> Prop) : view -> view -> Prop :=
| RBcast d : view_rel R (VBcast d) (VBcast d)
| RFix d i i' : R i i' -> view_rel R (VFix d i) (VFix d i')
| RSetLength d n n' : R n n' -> view_rel R (VSetLength d n) (VSetLength d n')
| RShift d s s' : R s s' -> view_rel R (VShift d s) (VShift d s')
| RSlice d s s' n n' : R s s' -> R n n' -> view_rel R (VSlice d s n) (VSlice d s' n')
| RSpan d s s' n n' : R s s' -> R n n' -> view_rel R (VSpan d s n) (VSpan d s' n')
| RStep d s s' n n' : R s s' -> R n n' -> view_rel R (VStep d s n) (VStep d s' n')
| RReverse d : view_rel R (VReverse d) (VReverse d)
| RBlocks d M m : view_rel R (VBlocks d M m) (VBlocks d M m)
| RBlocksDyn d M m p : view_rel R (VBlocksDyn d M m p) (VBlocksDyn d M m p)
| RBlocksSta d b M m n n' : R n n' -> view_rel R (VBlocksSta d b M m n) (VBlocksSta d b M m n')
| RMerge M m d : view_rel R (VMerge M m d) (VMerge M m d)
| RZCurve sl gl d ds : view_rel R (VZCurve sl gl d ds) (VZCurve sl gl d ds)
| RReorder ds : view_rel R (VReorder ds) (VReorder ds)
| RHoist d : view_rel R (VHoist d) (VHoist d)
| RRename ps : view_rel R (VRename ps) (VRename ps)
| RJoin a b d : view_rel R (VJoin a b d) (VJoin a b d).

Inductive struct_rel (R : val -> val -> Prop) : struct -> struct -> Prop :=
| RScalar c : struct_rel R (Scalar c) (Scalar c)
| RTuple d ts ts' : Forall2 (struct_rel R) ts ts' -> struct_rel R (Tuple d ts) (Tuple d ts')
| RVector d t t' : struct_rel R t t' -> struct_rel R (Vector d t) (Vector d t')
| RView v v' t t' : view_rel R v v' -> struct_rel R t t' -> struct_rel R (View v t) (View v' t')
| RUnion ts ts' : Forall2 (struct_rel R) ts ts' -> struct_rel R (Union ts) (Union ts').

Lemma struct_rel_ind' (R : val -> val -> Prop) (P : struct -> struct -> Prop)
  (HS : forall c, P (Scalar c) (Scalar c))
  (HT : forall d ts ts', Forall2 (struct_rel R) ts ts' -> Forall2 P ts ts' -> P (Tuple d ts) (Tuple d ts'))
  (HV : forall d t t', struct_rel R t t' -> P t t' -> P (Vector d t) (Vector d t'))
  (HW : forall v v' t t', view_rel R v v' -> struct_rel R t t' -> P t t' -> P (View v t) (View v' t'))
  (HU : forall ts ts', Forall2 (struct_rel R) ts ts' -> Forall2 P ts ts' -> P (Union ts) (Union ts')) :
  forall s s', struct_rel R s s' -> P s s'.
Proof.
  fix IH 3. intros s s' H. destruct H as [c|d ts ts' H|d t t' H|v v' t t' Hv H|ts ts' H].
  - apply HS.
  - apply HT; [exact H|]. induction H; constructor; auto.
  - apply HV; auto.
  - apply HW; auto.
  - apply HU; [exact H|]. induction H; constructor; auto.
Qed.

Definition orel {A} (R : A -> A -> Prop) (x y : option A) : Prop :=
  match x, y with Some a, Some b => R a b | None, None => True | _, _ => False end.

(** States related on the dimensions [N]. *)
Definition srel (R : val -> val -> Prop) (N : dim -> Prop) (st st' : state) : Prop :=
  forall d, N d -> orel R (get (Idx d) st) (get (Idx d) st') /\ orel R (get (Len d) st) (get (Len d) st').

(** What [R] must respect. *)
Record congruence (R : val -> val -> Prop) : Prop := {
  cg_sta : forall z, R (Sta z) (Sta z);
  cg_static : forall a b, R a b -> vstatic a = vstatic b;
  cg_add : forall a a' b b', R a a' -> R b b' -> R (vadd a b) (vadd a' b');
  cg_sub : forall a a' b b', R a a' -> R b b' -> R (vsub a b) (vsub a' b');
  cg_mul : forall a a' b b', R a a' -> R b b' -> R (vmul a b) (vmul a' b');
  cg_div : forall a a' b b', R a a' -> R b b' -> R (vdiv a b) (vdiv a' b');
  cg_mod : forall a a' b b', R a a' -> R b b' -> R (vmod a b) (vmod a' b');
  cg_lt : forall a a' b b', R a a' -> R b b' -> R (vlt a b) (vlt a' b');
  cg_dmul : forall a a' b b', R a a' -> R b b' -> R (dyn2 Z.mul a b) (dyn2 Z.mul a' b');
  cg_zc : forall sl gl a a' l l', R a a' -> Forall2 R l l' ->
            Forall2 R (zc_indices sl gl a l) (zc_indices sl gl a' l') }.

Section Cong.
Variable R : val -> val -> Prop.
Hypothesis HR : congruence R.
Variable N : dim -> Prop.
Notation sr := (srel R N).

Lemma cg_ceil a a' b b' : R a a' -> R b b' -> R (vceil a b) (vceil a' b').
Proof. intros. unfold vceil. apply (cg_div _ HR); auto. apply (cg_sub _ HR); [|apply (cg_sta _ HR)]. apply (cg_add _ HR); auto. Qed.

Lemma R_arglen a b : R a b -> arglen_of a = arglen_of b.
Proof. intros H. apply (cg_static _ HR) in H. destruct a, b; simpl in *; congruence. Qed.
Lemma R_is_sta n a b : R a b -> is_sta n a = is_sta n b.
Proof. intros H. apply (cg_static _ HR) in H. destruct a, b; simpl in *; try discriminate; congruence. Qed.
Lemma R_arglen_sub l a b : R a b -> arglen_sub l a = arglen_sub l b.
Proof. intros H. apply (cg_static _ HR) in H. destruct l, a, b; simpl in *; try discriminate; congruence. Qed.
Lemma R_code a b : R a b -> val_code a = val_code b.
Proof. intros H. apply (cg_static _ HR) in H. destruct a, b; simpl in *; try discriminate; congruence. Qed.

Lemma sreplace_ext ds f g s : (forall o, f o = g o) -> sreplace ds f s = sreplace ds g s.
Proof.
  intros H. induction s as [c| |d a r IH|d rs IH] using sig_ind'; simpl; auto.
  - rewrite H. destruct (mem d ds); auto. rewrite IH. reflexivity.
  - rewrite H. destruct (mem d ds); auto. replace (omap (sreplace ds f) rs) with (omap (sreplace ds g) rs); auto.
    apply omap_ext_in. intros x Hx. rewrite Forall_forall in IH. symmetry. apply IH, Hx.
Qed.

Lemma view_sig_rel v v' sg : view_rel R v v' -> view_sig v sg = view_sig v' sg.
Proof.
  intros H. destruct H; try reflexivity; cbn [view_sig];
    rewrite ?(R_arglen _ _ H); rewrite ?(R_arglen _ _ H0); try apply sreplace_ext; try intros [c| |q al r|q rs];
    rewrite ?(R_arglen_sub _ _ _ H), ?(R_arglen_sub _ _ _ H0), ?(cg_static _ HR _ _ H); try rewrite ?(cg_static _ HR _ _ H0); try reflexivity.
Qed.

Lemma signature_rel s s' : struct_rel R s s' -> signature s = signature s'.
Proof.
  intros H. induction H as [c|d ts ts' Hs H|d t t' Hs H|v v' t t' Hv Hs H|ts ts' Hs H] using struct_rel_ind'; cbn [signature].
  - reflexivity.
  - replace (omap signature ts') with (omap signature ts); [reflexivity|].
    clear Hs. induction H as [|x y l l' E F IH]; [reflexivity|]. simpl. rewrite E. simpl in IH. rewrite IH. reflexivity.
  - rewrite H. reflexivity.
  - rewrite H. destruct (signature t'); [|reflexivity]. apply view_sig_rel, Hv.
  - replace (omap signature ts') with (omap signature ts); [reflexivity|].
    clear Hs. induction H as [|x y l l' E F IH]; [reflexivity|]. simpl. rewrite E. simpl in IH. rewrite IH. reflexivity.
Qed.

Lemma view_code_rel v v' : view_rel R v v' -> view_code v = view_code v'.
Proof. intros H. destruct H; cbn [view_code]; rewrite ?(R_code _ _ H); try rewrite ?(R_code _ _ H0); reflexivity. Qed.
Lemma view_names_rel v v' : view_rel R v v' -> view_names v = view_names v'.
Proof. intros H. destruct H; reflexivity. Qed.

(** ** States *)

Lemma sr_idx st st' d : sr st st' -> N d -> orel R (get (Idx d) st) (get (Idx d) st').
Proof. intros H Hd. apply H, Hd. Qed.
Lemma sr_len st st' d : sr st st' -> N d -> orel R (get (Len d) st) (get (Len d) st').
Proof. intros H Hd. apply H, Hd. Qed.

Lemma orel_has {A} (S : A -> A -> Prop) x y : orel S x y -> (match x with Some _ => true | None => false end) = (match y with Some _ => true | None => false end).
Proof. destruct x, y; simpl; tauto. Qed.
Lemma sr_has_idx st st' d : sr st st' -> N d -> has (Idx d) st = has (Idx d) st'.
Proof. intros H Hd. apply (orel_has R), H, Hd. Qed.
Lemma sr_has_len st st' d : sr st st' -> N d -> has (Len d) st = has (Len d) st'.
Proof. intros H Hd. apply (orel_has R), H, Hd. Qed.

Lemma sr_remove ts st st' : sr st st' -> sr (remove ts st) (remove ts st').
Proof. intros H d Hd. rewrite !get_remove. destruct (H d Hd). destruct (tag_mem (Idx d) ts), (tag_mem (Len d) ts); simpl; auto. Qed.

Definition items_rel (l l' : list (tag * val)) : Prop := Forall2 (fun a b => fst a = fst b /\ R (snd a) (snd b)) l l'.

Lemma items_get l l' : items_rel l l' -> forall t, orel R (get t l) (get t l').
Proof.
  intros H t. induction H as [|[a x] [b y] l l' [E1 E2] F IH]; simpl; [exact I|]. simpl in E1, E2. subst b.
  destruct (tag_eqb t a); auto.
Qed.

Lemma sr_with l l' st st' : items_rel l l' -> sr st st' -> sr (with_ l st) (with_ l' st').
Proof.
  intros Hi H d Hd. rewrite !get_with. pose proof (items_get _ _ Hi) as Hg. destruct (H d Hd).
  split.
  - specialize (Hg (Idx d)). destruct (get (Idx d) l), (get (Idx d) l'); simpl in Hg; try contradiction; auto.
  - specialize (Hg (Len d)). destruct (get (Len d) l), (get (Len d) l'); simpl in Hg; try contradiction; auto.
Qed.

Lemma sr_rename ps st st' : NoDup (map fst ps) -> NoDup (map snd ps) ->
  (forall d, In d (map snd ps) -> N d) -> sr st st' -> sr (rename_state ps st) (rename_state ps st').
Proof.
  intros Hf Hs Hn H d Hd. rewrite !get_rename_state by assumption. unfold ext_name.
  destruct (mem d (map fst ps)) eqn:E1.
  - apply H. apply Hn. apply mem_In in E1. apply rename_dim_in in E1. apply (in_map snd) in E1. exact E1.
  - destruct (mem d (map snd ps)); [simpl; auto|]. apply H, Hd.
Qed.

Lemma items_combine ds l l' : Forall2 R l l' -> items_rel (combine (map Idx ds) l) (combine (map Idx ds) l').
Proof.
  intros H. revert ds. induction H as [|x y l l' E F IH]; intros [|d ds]; simpl; try constructor; auto. apply IH.
Qed.

Lemma is_body_rel b st st' : N b -> sr st st' -> is_body b st = is_body b st'.
Proof.
  intros Hb H. unfold is_body. pose proof (sr_idx _ _ _ H Hb) as E.
  destruct (get (Idx b) st), (get (Idx b) st'); simpl in E; try contradiction; auto.
  rewrite (cg_static _ HR _ _ E). reflexivity.
Qed.

Lemma orel_bind {A B} (S : A -> A -> Prop) (T : B -> B -> Prop) x y f g :
  orel S x y -> (forall a b, S a b -> orel T (f a) (g b)) -> orel T (obind x f) (obind y g).
Proof. destruct x, y; simpl; try contradiction; auto. Qed.
Lemma orel_bind_eq {A B} (T : B -> B -> Prop) (x y : option A) f g :
  x = y -> (forall a, orel T (f a) (g a)) -> orel T (obind x f) (obind y g).
Proof. intros ->. destruct y; simpl; auto. Qed.

Lemma orel_eq_refl {A} (x : option A) : orel eq x x.
Proof. destruct x; simpl; auto. Qed.
Lemma orel_eq {A} (x y : option A) : orel eq x y -> x = y.
Proof. destruct x, y; simpl; try contradiction; congruence. Qed.

Section Sub.
Variables (hl hl' : hl_t) (ln ln' : ln_t).
Hypothesis Hhl : forall q st st', N q -> sr st st' -> hl q st = hl' q st'.
Hypothesis Hln : forall q st st', N q -> sr st st' -> orel R (ln q st) (ln' q st').

Ltac nm := match goal with
  | H : N ?d |- N ?d => exact H
  | HN : forall d, In d _ -> N d |- N ?d => apply HN; simpl; tauto end.
Ltac rr := match goal with
  | |- R (vadd _ _) (vadd _ _) => apply (cg_add _ HR); rr
  | |- R (vsub _ _) (vsub _ _) => apply (cg_sub _ HR); rr
  | |- R (vmul _ _) (vmul _ _) => apply (cg_mul _ HR); rr
  | |- R (vdiv _ _) (vdiv _ _) => apply (cg_div _ HR); rr
  | |- R (vmod _ _) (vmod _ _) => apply (cg_mod _ HR); rr
  | |- R (vlt _ _) (vlt _ _) => apply (cg_lt _ HR); rr
  | |- R (vceil _ _) (vceil _ _) => apply cg_ceil; rr
  | |- R (Sta _) (Sta _) => apply (cg_sta _ HR)
  | |- R _ _ => assumption
  end.
Ltac ss := match goal with
  | |- sr (with_ _ _) (with_ _ _) => apply sr_with; [repeat (apply Forall2_cons; [split; [reflexivity|cbn [snd]; rr]|]); apply Forall2_nil|ss]
  | |- sr (remove _ _) (remove _ _) => apply sr_remove; ss
  | |- sr (clean_blocks _ _ _ _) _ => unfold clean_blocks; ss
  | |- sr (clean_merge _ _ _ _) _ => unfold clean_merge; ss
  | |- sr (clean_zcurve _ _ _) _ => unfold clean_zcurve; ss
  | |- sr (clean_join _ _ _ _) _ => unfold clean_join; ss
  | |- sr _ _ => assumption
  end.
Ltac dg := match goal with
  | H : sr ?st ?st' |- context [has (Idx ?d) ?st] => rewrite (sr_has_idx st st' d H ltac:(nm))
  | H : sr ?st ?st' |- context [has (Len ?d) ?st] => rewrite (sr_has_len st st' d H ltac:(nm))
  | H : sr ?st ?st' |- context [get (Idx ?d) ?st] =>
      let E := fresh "E" in pose proof (sr_idx st st' d H ltac:(nm)) as E;
      destruct (get (Idx d) st), (get (Idx d) st'); cbn [orel] in E; try contradiction
  | H : sr ?st ?st' |- context [get (Len ?d) ?st] =>
      let E := fresh "E" in pose proof (sr_len st st' d H ltac:(nm)) as E;
      destruct (get (Len d) st), (get (Len d) st'); cbn [orel] in E; try contradiction
  | H : sr ?st ?st' |- context [is_body ?b ?st] => rewrite (is_body_rel b st st' ltac:(nm) H)
  | |- orel sr (Some _) (Some _) => cbn [orel]; ss
  | |- orel R (Some _) (Some _) => cbn [orel]; rr
  | |- orel _ None None => exact I
  | |- orel _ (obind (hl ?q ?x) _) (obind (hl' ?q ?y) _) =>
      apply orel_bind_eq; [apply Hhl; [nm|ss]|intros []]
  | |- orel _ (obind (ln ?q ?x) _) (obind (ln' ?q ?y) _) =>
      apply (orel_bind R); [apply Hln; [nm|ss]|intros ? ? ?]
  | |- orel R (ln ?q ?x) (ln' ?q ?y) => apply Hln; [nm|ss]
  | |- orel _ (obind (is_body _ _) _) (obind (is_body _ _) _) => apply orel_bind_eq; [reflexivity|intros []]
  | |- orel _ (if ?b then _ else _) (if ?b then _ else _) => destruct b
  | |- orel _ (obind (if ?b then _ else _) _) (obind (if ?b then _ else _) _) => destruct b
  | |- orel eq (Some ?b) (Some ?b) => reflexivity
  | |- orel eq (hl ?q ?x) (hl' ?q ?y) => rewrite (Hhl q x y); [apply orel_eq_refl|nm|ss]
  | _ => progress cbn [obind andb orb negb xorb]
  end.

Lemma omap_rel (f g : dim -> option val) ds : (forall q, In q ds -> orel R (f q) (g q)) ->
  orel (Forall2 R) (omap f ds) (omap g ds).
Proof.
  induction ds as [|d ds IH]; intros H; [constructor|]. cbn [omap].
  pose proof (H d (or_introl eq_refl)) as Hd. specialize (IH (fun q Hq => H q (or_intror Hq))).
  destruct (f d), (g d); simpl in Hd; try contradiction; simpl; [|exact I].
  simpl in IH. destruct (omap f ds), (omap g ds); simpl in IH |- *; try contradiction; simpl in *; auto.
Qed.

Definition rename_nodup (v : view) : Prop :=
  match v with VRename ps => NoDup (map fst ps) /\ NoDup (map snd ps) | _ => True end.

Lemma view_sub_state_rel v v' st st' :
  view_rel R v v' -> (forall d, In d (view_names v) -> N d) -> rename_nodup v ->
  sr st st' -> orel sr (view_sub_state v hl ln st) (view_sub_state v' hl' ln' st').
Proof.
  intros Hv HN Hok H. destruct Hv; cbn [view_names] in HN; cbn [view_sub_state]; cbv zeta; unfold clean_blocks_dyn, clean_blocks_sta.
  13: { pose proof (sr_idx st st' d H ltac:(nm)) as E.
    destruct (get (Idx d) st), (get (Idx d) st'); cbn [orel] in E; try contradiction; [|cbn [orel]; ss].
    apply (orel_bind (Forall2 R)).
    - apply omap_rel. intros q Hq. apply Hln; [apply HN; simpl; auto|ss].
    - intros a b Hab. cbn [orel]. apply sr_with; [|ss]. apply items_combine. apply (cg_zc _ HR); auto. }
  15: { cbn [orel]. apply sr_rename; [apply Hok|apply Hok| |exact H]. intros. apply HN. apply in_or_app. auto. }
  all: repeat dg.
Qed.

Lemma oall_rel (f g : dim -> option bool) ds : (forall q, In q ds -> f q = g q) -> oall (map f ds) = oall (map g ds).
Proof. intros H. f_equal. apply map_ext_in, H. Qed.

Lemma orel_oand x x' y y' : orel eq x x' -> orel eq y y' -> orel eq (oand x y) (oand x' y').
Proof. intros H1 H2. apply orel_eq in H1, H2. subst. apply orel_eq_refl. Qed.

Lemma rename_in_N ps q : (forall d, In d (map fst ps ++ map snd ps) -> N d) -> N q -> N (rename_dim (swap_pairs ps) q).
Proof.
  intros HN Hq. destruct (in_dec Z.eq_dec q (map snd ps)) as [Hi|Hi].
  - rewrite <- swap_fst in Hi. apply rename_dim_in in Hi. apply (proj1 (swap_In _ _ _)) in Hi. apply HN, in_or_app. left.
    apply (in_map fst) in Hi. exact Hi.
  - rewrite rename_dim_out by (rewrite swap_fst; exact Hi). exact Hq.
Qed.

Lemma view_has_length_rel v v' sg q st st' :
  view_rel R v v' -> (forall d, In d (view_names v) -> N d) -> rename_nodup v -> N q ->
  sr st st' -> orel eq (view_has_length v sg hl ln q st) (view_has_length v' sg hl' ln' q st').
Proof.
  intros Hv HN Hok Hq H. pose proof (view_sub_state_rel v v' st st' Hv HN Hok H) as Hs.
  assert (Hsub : forall x, N x -> orel eq (do st1 <- view_sub_state v hl ln st; hl x st1) (do st1 <- view_sub_state v' hl' ln' st'; hl' x st1)).
  { intros x Hx. eapply orel_bind; [exact Hs|]. intros a b Hab. rewrite (Hhl x a b Hx Hab). apply orel_eq_refl. }
  assert (Hfull : forall x (c : bool), N x -> orel eq (do h <- (do st1 <- view_sub_state v hl ln st; hl x st1); Some (c && h)) (do h <- (do st1 <- view_sub_state v' hl' ln' st'; hl' x st1); Some (c && h))).
  { intros x c Hx. eapply orel_bind; [apply Hsub, Hx|]. intros a b ->. apply orel_eq_refl. }
  destruct Hv; cbn [view_names] in HN; cbn [view_has_length]; cbv zeta; try apply Hsub; try exact Hq;
    try (eapply rename_in_N; eassumption).
  all: try (destruct sg; [|exact I]; apply orel_oand; [apply orel_eq_refl|apply Hsub, Hq]).
  all: unfold clean_blocks_dyn.
  all: repeat first
    [ apply Hsub; nm | apply Hfull; nm
    | match goal with |- orel eq (obind (view_sub_state _ _ _ _) _) _ => eapply orel_bind; [exact Hs|intros ? ? ?] end
    | apply orel_oand
    | dg
    | match goal with |- orel _ (obind (obind _ _) _) (obind (obind _ _) _) => apply (orel_bind eq); [|intros [] [] ?; try discriminate] end ].
  rewrite (oall_rel (fun x => hl x a) (fun x => hl' x b) ds); [apply orel_eq_refl|].
  intros x Hx. apply Hhl; [apply HN; simpl; auto|assumption].
Qed.

Lemma fold_dmul_rel l l' : Forall2 R l l' -> forall a a', R a a' ->
  R (fold_left (dyn2 Z.mul) l a) (fold_left (dyn2 Z.mul) l' a').
Proof. intros H. induction H; intros a a' Ha; simpl; [exact Ha|]. apply IHForall2. apply (cg_dmul _ HR); auto. Qed.

Lemma view_length_rel v v' q st st' :
  view_rel R v v' -> (forall d, In d (view_names v) -> N d) -> rename_nodup v -> N q ->
  sr st st' -> orel R (view_length v hl ln q st) (view_length v' hl' ln' q st').
Proof.
  intros Hv HN Hok Hq H. pose proof (view_sub_state_rel v v' st st' Hv HN Hok H) as Hs.
  assert (Hsub : forall x, N x -> orel R (do st1 <- view_sub_state v hl ln st; ln x st1) (do st1 <- view_sub_state v' hl' ln' st'; ln' x st1)).
  { intros x Hx. eapply orel_bind; [exact Hs|]. intros a b Hab. apply Hln; auto. }
  destruct Hv; cbn [view_names] in HN; cbn [view_length]; cbv zeta; try apply Hsub; try exact Hq;
    try (eapply rename_in_N; eassumption).
  all: unfold clean_blocks_dyn.
  all: repeat first
    [ apply Hsub; nm
    | match goal with |- orel R (obind (view_sub_state _ _ _ _) _) _ => eapply orel_bind; [exact Hs|intros ? ? ?] end
    | dg
    | match goal with |- orel R (obind (obind _ _) _) (obind (obind _ _) _) => apply (orel_bind R); [|intros ? ? ?] end ].
  apply (orel_bind (Forall2 R)).
  - apply omap_rel. intros x Hx. apply Hln; [apply HN; simpl; auto|assumption].
  - intros x y Hxy. inversion Hxy; subst; simpl; auto. apply fold_dmul_rel; auto.
Qed.

End Sub.

(** ** Structures *)

Definition inN (s : struct) : Prop := forall d, In d (names s) -> N d.

Lemma inN_view v t : inN (View v t) -> (forall d, In d (view_names v) -> N d) /\ inN t.
Proof. intros H. split; intros d Hd; apply H; cbn [names]; apply in_or_app; auto. Qed.
Lemma inN_tuple d ts t : inN (Tuple d ts) -> In t ts -> inN t.
Proof. intros H Ht x Hx. apply H. cbn [names]. right. apply in_flat_map. eauto. Qed.
Lemma inN_union ts t : inN (Union ts) -> In t ts -> inN t.
Proof. intros H Ht x Hx. apply H. cbn [names]. apply in_flat_map. eauto. Qed.
Lemma inN_vector d t : inN (Vector d t) -> N d /\ inN t.
Proof. intros H. split; [apply H; left; reflexivity|]. intros x Hx. apply H. right. exact Hx. Qed.

Lemma rename_nodup_of v t : signature (View v t) <> None -> rename_nodup v.
Proof.
  intros H. destruct v; cbn [rename_nodup]; auto. destruct (signature_view _ _ H) as (sg & _ & E).
  destruct (view_sig (VRename ps) sg) as [s|] eqn:Es; [|congruence]. eapply view_sig_rename_ok, Es.
Qed.

Lemma orel_guard {A} (S : A -> A -> Prop) c c' x y : c = c' -> orel S x y -> orel S (guard c x) (guard c' y).
Proof. intros -> H. destruct c' as [[|]|]; simpl; auto. Qed.

Definition len_rel (s s' : struct) : Prop := forall q st st', N q -> sr st st' ->
  has_length s q st = has_length s' q st' /\ orel R (length_ s q st) (length_ s' q st').

Lemma lenops_rel s s' : struct_rel R s s' -> signature s <> None -> inN s -> len_rel s s'.
Proof.
  intros H. induction H as [c|d ts ts' Hs IH|d t t' Hs IH|v v' t t' Hv Hs IH|ts ts' Hs IH] using struct_rel_ind';
    intros Hsig HN q st st' Hq H.
  - split; [reflexivity|exact I].
  - pose proof (signature_tuple _ _ Hsig) as Hsg. assert (Hd : N d) by (apply HN; left; reflexivity).
    pose proof (sr_idx _ _ _ H Hd) as E. pose proof (sr_has_idx _ _ _ H Hd) as Eh.
    assert (Hlen : List.length ts = List.length ts') by (eapply Forall2_len; eauto).
    assert (Hsub : forall k, match nthz ts k, nthz ts' k with Some t, Some t' => len_rel t t' | None, None => True | _, _ => False end).
    { intros k. destruct (nthz ts k) as [t|] eqn:Et; destruct (nthz ts' k) as [t'|] eqn:Et'; auto.
      - intros q0 s0 s0' Hq0 H0. pose proof (Forall2_nthz _ _ _ k IH) as HF. rewrite Et, Et' in HF.
        apply HF; auto. eapply Forall_nthz in Hsg; eauto. eapply inN_tuple; eauto using nthz_In.
      - pose proof (Forall2_nthz _ _ _ k IH) as HF. rewrite Et, Et' in HF. exact HF.
      - pose proof (Forall2_nthz _ _ _ k IH) as HF. rewrite Et, Et' in HF. exact HF. }
    assert (Hh : has_length (Tuple d ts) q st = has_length (Tuple d ts') q st').
    { unfold has_length. cbn [lenops fst]. rewrite Eh. destruct (q =? d); [reflexivity|].
      destruct (has (Idx d) st'); [|reflexivity].
      destruct (get (Idx d) st) as [x|], (get (Idx d) st') as [y|]; simpl in E; try contradiction; [|reflexivity].
      rewrite (cg_static _ HR _ _ E). destruct (vstatic y) as [k|]; [|reflexivity]. rewrite !nthz_map.
      specialize (Hsub k). destruct (nthz ts k), (nthz ts' k); try contradiction; [|reflexivity].
      cbn [option_map obind]. apply Hsub; auto using sr_remove. }
    split; [exact Hh|]. unfold length_. cbn [lenops snd]. apply orel_guard; [exact Hh|].
    destruct (q =? d); [rewrite Hlen; apply (cg_sta _ HR)|].
    destruct (get (Idx d) st) as [x|], (get (Idx d) st') as [y|]; simpl in E; try contradiction; [|exact I].
    rewrite (cg_static _ HR _ _ E). destruct (vstatic y) as [k|]; [|exact I]. rewrite !nthz_map.
    specialize (Hsub k). destruct (nthz ts k), (nthz ts' k); try contradiction; [|exact I].
    cbn [option_map obind]. apply Hsub; auto using sr_remove.
  - apply signature_vector in Hsig. destruct (inN_vector _ _ HN) as [Hd HN'].
    pose proof (sr_len _ _ _ H Hd) as E. pose proof (sr_has_idx _ _ _ H Hd) as Eh. pose proof (sr_has_len _ _ _ H Hd) as El.
    destruct (IH Hsig HN' q _ _ Hq (sr_remove [Idx d; Len d] _ _ H)) as [I1 I2].
    assert (Hh : has_length (Vector d t) q st = has_length (Vector d t') q st').
    { unfold has_length. cbn [lenops fst]. rewrite Eh, El. destruct (q =? d); [reflexivity|]. exact I1. }
    split; [exact Hh|]. unfold length_. cbn [lenops snd]. apply orel_guard; [exact Hh|].
    destruct (q =? d); [exact E|]. exact I2.
  - destruct (inN_view _ _ HN) as [HNv HNt]. pose proof (rename_nodup_of _ _ Hsig) as Hok.
    destruct (signature_view _ _ Hsig) as (sg & Esg & _). assert (Ht : signature t <> None) by congruence.
    assert (Hhl : forall q st st', N q -> sr st st' -> has_length t q st = has_length t' q st') by (intros; apply (IH Ht HNt); auto).
    assert (Hln : forall q st st', N q -> sr st st' -> orel R (length_ t q st) (length_ t' q st')) by (intros; apply (IH Ht HNt); auto).
    assert (Hh : has_length (View v t) q st = has_length (View v' t') q st').
    { rewrite !has_length_View. rewrite (signature_rel (View v t) (View v' t')) by (constructor; auto).
      apply orel_eq. apply view_has_length_rel; auto. }
    split; [exact Hh|]. rewrite !length_View. apply orel_guard; [exact Hh|]. apply view_length_rel; auto.
  - pose proof (signature_union _ Hsig) as Hsg. clear Hsig.
    assert (Hm : match first_match q (map (fun t => (signature t, lenops t)) ts), first_match q (map (fun t => (signature t, lenops t)) ts') with
      | Some (Some o), Some (Some o') => fst o q st = fst o' q st' /\ orel R (snd o q st) (snd o' q st')
      | Some None, Some None => True | None, None => True | _, _ => False end).
    { induction Hs as [|t t' ts ts' Ht Hts IHl]; [exact I|]. inv IH. inv Hsg. simpl. rewrite <- (signature_rel _ _ Ht).
      destruct (signature t) as [sg|] eqn:Es; [|exact I]. destruct (any_accept q sg).
      - apply H3; auto; try congruence. eapply inN_union; [exact HN|left; reflexivity].
      - apply IHl; auto. intros x Hx. apply HN. cbn [names flat_map]. apply in_or_app. right. exact Hx. }
    unfold has_length, length_. cbn [lenops fst snd].
    destruct (first_match q (map (fun t => (signature t, lenops t)) ts)) as [[o|]|];
    destruct (first_match q (map (fun t => (signature t, lenops t)) ts')) as [[o'|]|]; try contradiction.
    + destruct Hm as [H1 H2]. split; [exact H1|]. apply orel_guard; auto.
    + split; [reflexivity|exact I].
    + split; [reflexivity|exact I].
Qed.

Lemma sub_state_rel v v' t t' st st' : struct_rel R (View v t) (View v' t') -> signature (View v t) <> None -> inN (View v t) ->
  sr st st' -> orel sr (sub_state v t st) (sub_state v' t' st').
Proof.
  intros Hs Hsig HN H. inversion Hs as [| | |v0 v0' t0 t0' Hv Ht|]; subst. destruct (inN_view _ _ HN) as [HNv HNt].
  destruct (signature_view _ _ Hsig) as (sg & Esg & _). assert (Hsgt : signature t <> None) by congruence.
  unfold sub_state. apply view_sub_state_rel; auto.
  - intros; apply (lenops_rel t t'); auto.
  - intros; apply (lenops_rel t t'); auto.
  - eapply rename_nodup_of, Hsig.
Qed.


Lemma oall_map_rel {A B} (f : A -> option bool) (g : B -> option bool) l m :
  Forall2 (fun a b => f a = g b) l m -> oall (map f l) = oall (map g m).
Proof. intros H. induction H; simpl; congruence. Qed.

Lemma Forall2_combine {A B} (P Q : A -> B -> Prop) l m : Forall2 P l m -> Forall2 Q l m -> Forall2 (fun a b => P a b /\ Q a b) l m.
Proof. intros H. induction H; intros H2; inv H2; constructor; auto. Qed.
Lemma Forall2_In_l {A B} (P : A -> B -> Prop) (Q : A -> Prop) l m : Forall2 P l m -> (forall x, In x l -> Q x) -> Forall2 (fun a b => P a b /\ Q a) l m.
Proof. intros H. induction H; intros H2; constructor; [split; [auto|apply H2; left; reflexivity]|]. apply IHForall2. intros; apply H2; right; auto. Qed.
Lemma Forall2_impl' {A B} (P Q : A -> B -> Prop) l m : (forall a b, P a b -> Q a b) -> Forall2 P l m -> Forall2 Q l m.
Proof. intros Hi H. induction H; constructor; auto. Qed.

Lemma view_complete_rel v v' t t' : struct_rel R (View v t) (View v' t') -> view_complete v t = view_complete v' t'.
Proof.
  intros H. inversion H as [| | |v0 v0' t0 t0' Hv Ht|]; subst. destruct Hv; cbn [view_complete]; auto.
  rewrite (signature_rel _ _ H). reflexivity.
Qed.

Lemma tuple_components d ts ts' (P : struct -> struct -> Prop) :
  signature (Tuple d ts) <> None -> inN (Tuple d ts) ->
  Forall2 (fun t t' => signature t <> None -> inN t -> P t t') ts ts' -> Forall2 P ts ts'.
Proof.
  intros Hsig HN IH. apply signature_tuple in Hsig. rewrite Forall_forall in Hsig.
  pose proof (Forall2_In_l _ _ _ _ IH (fun t Ht => conj (Hsig t Ht) (inN_tuple _ _ _ HN Ht))) as H.
  revert H. apply Forall2_impl'. intros a b (H1 & H2 & H3). auto.
Qed.

Lemma has_size_rel s s' : struct_rel R s s' -> signature s <> None -> inN s -> forall st st', sr st st' ->
  has_size s st = has_size s' st'.
Proof.
  intros H. induction H as [c|d ts ts' Hs IH|d t t' Hs IH|v v' t t' Hv Hs IH|ts ts' Hs IH] using struct_rel_ind';
    intros Hsig HN st st' H; cbn [has_size].
  - reflexivity.
  - pose proof (tuple_components d ts ts' _ Hsig HN IH) as IH'. apply oall_map_rel. revert IH'. apply Forall2_impl'.
    intros a b Hab. apply Hab. apply sr_remove, H.
  - destruct (inN_vector _ _ HN) as [Hd HN']. rewrite (sr_has_len _ _ _ H Hd). destruct (has (Len d) st'); [|reflexivity].
    apply IH; auto using sr_remove. eapply signature_vector, Hsig.
  - assert (Hst : struct_rel R (View v t) (View v' t')) by (constructor; auto).
    pose proof (sub_state_rel _ _ _ _ _ _ Hst Hsig HN H) as E. rewrite (view_complete_rel _ _ _ _ Hst).
    destruct (sub_state v t st), (sub_state v' t' st'); simpl in E; try contradiction; [|reflexivity]. cbn [obind].
    f_equal. apply IH; auto; [|apply (inN_view _ _ HN)]. destruct (signature_view _ _ Hsig) as (? & ? & ?). congruence.
  - reflexivity.
Qed.

Lemma same_align_rel l l' : Forall2 (orel R) l l' -> orel R (same_align l) (same_align l').
Proof.
  intros H. induction H as [|x y l l' Hxy H IH]; [exact I|]. destruct H as [|x2 y2 l l' H2 H].
  - exact Hxy.
  - set (r := x2 :: l) in *. set (r' := y2 :: l') in *.
    change (orel R (match x, same_align r with Some (Sta a), Some (Sta b) => if u64 a =? u64 b then Some (Sta a) else None | _, _ => None end)
                   (match y, same_align r' with Some (Sta a), Some (Sta b) => if u64 a =? u64 b then Some (Sta a) else None | _, _ => None end)).
    destruct x as [x|], y as [y|]; simpl in Hxy; try contradiction; [|exact I].
    pose proof (cg_static _ HR _ _ Hxy) as E.
    destruct (same_align r) as [a|], (same_align r') as [b|]; simpl in IH; try contradiction;
      try (destruct x, y; exact I); [].
    pose proof (cg_static _ HR _ _ IH) as E2.
    destruct x, y; simpl in E; try discriminate; try exact I. destruct a, b; simpl in E2; try discriminate; try exact I.
    inv E. inv E2. rewrite H1, H3. destruct (_ =? _); [exact Hxy|exact I].
Qed.

Lemma align_rel s s' : struct_rel R s s' -> signature s <> None -> inN s -> forall st st', sr st st' ->
  orel R (align_ s st) (align_ s' st').
Proof.
  intros H. induction H as [c|d ts ts' Hs IH|d t t' Hs IH|v v' t t' Hv Hs IH|ts ts' Hs IH] using struct_rel_ind';
    intros Hsig HN st st' H.
  - cbn. apply (cg_sta _ HR).
  - assert (Hst : struct_rel R (Tuple d ts) (Tuple d ts')) by (constructor; auto).
    pose proof (tuple_components d ts ts' _ Hsig HN IH) as IH'. cbn [align_].
    apply orel_guard; [exact (has_size_rel _ _ Hst Hsig HN st st' H)|]. apply same_align_rel.
    clear -IH' H. induction IH'; simpl; constructor; auto. apply H0, sr_remove, H.
  - assert (Hst : struct_rel R (Vector d t) (Vector d t')) by (constructor; auto). cbn [align_].
    apply orel_guard; [exact (has_size_rel _ _ Hst Hsig HN st st' H)|].
    destruct (inN_vector _ _ HN) as [Hd HN']. apply IH; auto using sr_remove. eapply signature_vector, Hsig.
  - assert (Hst : struct_rel R (View v t) (View v' t')) by (constructor; auto). cbn [align_].
    apply orel_guard; [exact (has_size_rel _ _ Hst Hsig HN st st' H)|].
    apply (orel_bind sr); [apply sub_state_rel; auto|]. intros a b Hab.
    apply IH; auto; [|apply (inN_view _ _ HN)]. destruct (signature_view _ _ Hsig) as (? & ? & ?). congruence.
  - exact I.
Qed.

Lemma size_acc_rel l l' : Forall2 (orel (fun a b => R (fst a) (fst b) /\ R (snd a) (snd b))) l l' -> forall a b, R a b ->
  orel R (size_acc a l) (size_acc b l').
Proof.
  intros H. induction H as [|x y l l' Hxy H IH]; intros a b Hab; [exact Hab|]. simpl.
  destruct x as [[x1 x2]|], y as [[y1 y2]|]; simpl in Hxy; try contradiction; [|exact I]. destruct Hxy as [H1 H2].
  apply IH. unfold size_step. apply (cg_add _ HR); auto. apply (cg_mul _ HR); auto. apply (cg_div _ HR); auto.
  apply (cg_sub _ HR); [|apply (cg_sta _ HR)]. apply (cg_add _ HR); auto.
Qed.

Lemma size_rel s s' : struct_rel R s s' -> signature s <> None -> inN s -> forall st st', sr st st' ->
  orel R (size_ s st) (size_ s' st').
Proof.
  intros H. induction H as [c|d ts ts' Hs IH|d t t' Hs IH|v v' t t' Hv Hs IH|ts ts' Hs IH] using struct_rel_ind';
    intros Hsig HN st st' H.
  - cbn. apply (cg_sta _ HR).
  - assert (Hst : struct_rel R (Tuple d ts) (Tuple d ts')) by (constructor; auto). cbn [size_].
    apply orel_guard; [exact (has_size_rel _ _ Hst Hsig HN st st' H)|].
    apply size_acc_rel; [|apply (cg_sta _ HR)].
    pose proof (tuple_components d ts ts' _ Hsig HN IH) as IH'.
    assert (IA : Forall2 (fun t t' => forall st st', sr st st' -> orel R (align_ t st) (align_ t' st')) ts ts').
    { apply (tuple_components d ts ts' _ Hsig HN). revert Hs. apply Forall2_impl'. intros; apply align_rel; auto. }
    clear -IH' IA H. induction IH'; inv IA; simpl; constructor; auto.
    pose proof (H0 _ _ (sr_remove [Idx d] _ _ H)) as Hz. pose proof (H4 _ _ (sr_remove [Idx d] _ _ H)) as Ha.
    destruct (align_ x (remove [Idx d] st)), (align_ y (remove [Idx d] st')); simpl in Ha; try contradiction; [|exact I].
    destruct (size_ x (remove [Idx d] st)), (size_ y (remove [Idx d] st')); simpl in Hz; try contradiction; simpl; auto.
  - assert (Hst : struct_rel R (Vector d t) (Vector d t')) by (constructor; auto). cbn [size_].
    apply orel_guard; [exact (has_size_rel _ _ Hst Hsig HN st st' H)|].
    destruct (inN_vector _ _ HN) as [Hd HN']. apply (orel_bind R); [apply sr_len; auto|]. intros a b Hab.
    apply (orel_bind R); [apply IH; auto using sr_remove; eapply signature_vector, Hsig|]. intros x y Hxy.
    apply (cg_mul _ HR); auto.
  - assert (Hst : struct_rel R (View v t) (View v' t')) by (constructor; auto). cbn [size_].
    apply orel_guard; [exact (has_size_rel _ _ Hst Hsig HN st st' H)|].
    apply (orel_bind sr); [apply sub_state_rel; auto|]. intros a b Hab.
    apply IH; auto; [|apply (inN_view _ _ HN)]. destruct (signature_view _ _ Hsig) as (? & ? & ?). congruence.
  - exact I.
Qed.

(** ** Offsets *)

Fixpoint same_types (l m : list struct) : bool :=
  match l, m with [], [] => true | x :: l', y :: m' => same_type x y && same_types l' m' | _, _ => false end.

Lemma same_type_eq a b : same_type a b =
  match a, b with
  | Scalar c, Scalar c' => cty_eqb c c'
  | Tuple d l, Tuple d' l' => (d =? d') && same_types l l'
  | Vector d t, Vector d' t' => (d =? d') && same_type t t'
  | View v t, View v' t' => zlist_eqb (view_code v) (view_code v') && same_type t t'
  | Union l, Union l' => same_types l l'
  | _, _ => false
  end.
Proof.
  destruct a, b; try reflexivity.
Qed.

Lemma same_type_rel s s' : struct_rel R s s' -> forall x, same_type x s = same_type x s'.
Proof.
  intros H. induction H as [c|d ts ts' Hs IH|d t t' Hs IH|v v' t t' Hv Hs IH|ts ts' Hs IH] using struct_rel_ind';
    intros x; rewrite !(same_type_eq x); destruct x; auto.
  - f_equal. clear Hs. revert ts0. induction IH; intros [|z ts0]; simpl; auto. rewrite H, IHIH. reflexivity.
  - rewrite IH. reflexivity.
  - rewrite IH, (view_code_rel _ _ Hv). reflexivity.
  - clear Hs. revert ts0. induction IH; intros [|z ts0]; simpl; auto. rewrite H, IHIH. reflexivity.
Qed.

Lemma tuple_index_rel d st st' : sr st st' -> N d -> tuple_index d st = tuple_index d st'.
Proof.
  intros H Hd. unfold tuple_index. pose proof (sr_idx _ _ _ H Hd) as E.
  destruct (get (Idx d) st), (get (Idx d) st'); simpl in E; try contradiction; [|reflexivity]. apply (cg_static _ HR), E.
Qed.

Lemma has_offset_of_View x v t st : has_offset_of x (View v t) st =
  if same_type x (View v t) then Some true else
  match v with
  | VBlocksDyn d M m p =>
      if has (Idx M) st && has (Idx m) st && has (Idx p) st then
        do st' <- sub_state v t st; has_offset_of x t st' else Some false
  | _ => do st' <- sub_state v t st; oand (Some (view_complete v t)) (has_offset_of x t st') end.
Proof. destruct v; reflexivity. Qed.

Lemma has_offset_of_rel x s s' : struct_rel R s s' -> signature s <> None -> inN s -> forall st st', sr st st' ->
  has_offset_of x s st = has_offset_of x s' st'.
Proof.
  intros H. induction H as [c|d ts ts' Hs IH|d t t' Hs IH|v v' t t' Hv Hs IH|ts ts' Hs IH] using struct_rel_ind';
    intros Hsig HN st st' H.
  - reflexivity.
  - assert (Hst : struct_rel R (Tuple d ts) (Tuple d ts')) by (constructor; auto).
    cbn [has_offset_of]. rewrite (same_type_rel _ _ Hst). destruct (same_type _ _); [reflexivity|].
    assert (Hd : N d) by (apply HN; left; reflexivity). rewrite (sr_has_idx _ _ _ H Hd), (tuple_index_rel _ _ _ H Hd).
    destruct (has (Idx d) st'); [|reflexivity]. destruct (tuple_index d st') as [k|]; [|reflexivity]. cbn [obind].
    rewrite !nthz_map. pose proof (Forall2_nthz _ _ _ k (tuple_components d ts ts' _ Hsig HN IH)) as HF.
    destruct (nthz ts k), (nthz ts' k); try contradiction; [|reflexivity]. cbn [option_map ojoin].
    apply HF, sr_remove, H.
  - assert (Hst : struct_rel R (Vector d t) (Vector d t')) by (constructor; auto).
    cbn [has_offset_of]. rewrite (same_type_rel _ _ Hst). destruct (same_type _ _); [reflexivity|].
    destruct (inN_vector _ _ HN) as [Hd HN']. rewrite (sr_has_idx _ _ _ H Hd), (sr_has_len _ _ _ H Hd).
    destruct (_ && _); [|reflexivity]. apply IH; auto using sr_remove. eapply signature_vector, Hsig.
  - assert (Hst : struct_rel R (View v t) (View v' t')) by (constructor; auto).
    pose proof (sub_state_rel _ _ _ _ _ _ Hst Hsig HN H) as E. destruct (inN_view _ _ HN) as [HNv HNt].
    assert (Ht : signature t <> None) by (destruct (signature_view _ _ Hsig) as (? & ? & ?); congruence).
    rewrite !has_offset_of_View, (same_type_rel _ _ Hst), (view_complete_rel _ _ _ _ Hst).
    destruct (same_type _ _); [reflexivity|].
    assert (Hgen : (do st' <- sub_state v t st; oand (Some (view_complete v' t')) (has_offset_of x t st')) =
                   (do st' <- sub_state v' t' st'; oand (Some (view_complete v' t')) (has_offset_of x t' st'))).
    { destruct (sub_state v t st), (sub_state v' t' st'); simpl in E; try contradiction; [|reflexivity]. cbn [obind].
      f_equal. apply IH; auto. }
    destruct Hv; try exact Hgen.
    cbn [view_names] in HNv.
    rewrite (sr_has_idx _ _ M H), (sr_has_idx _ _ m H), (sr_has_idx _ _ p H) by (apply HNv; simpl; tauto).
    destruct (_ && _); [|reflexivity].
    destruct (sub_state _ t st), (sub_state _ t' st'); simpl in E; try contradiction; [|reflexivity]. cbn [obind]. apply IH; auto.
  - cbn [has_offset_of]. rewrite (same_type_rel (Union ts) (Union ts')) by (constructor; auto). reflexivity.
Qed.

Lemma comp_sizes_rel d ts ts' k st st' : Forall2 (struct_rel R) ts ts' -> signature (Tuple d ts) <> None -> inN (Tuple d ts) -> sr st st' ->
  Forall2 (orel (fun a b => R (fst a) (fst b) /\ R (snd a) (snd b))) (comp_sizes (firstn k ts) st) (comp_sizes (firstn k ts') st').
Proof.
  intros Hs Hsig HN H.
  assert (IA : Forall2 (fun t t' => orel R (align_ t st) (align_ t' st')) ts ts').
  { apply (tuple_components d ts ts' _ Hsig HN). revert Hs. apply Forall2_impl'. intros; apply align_rel; auto. }
  assert (IZ : Forall2 (fun t t' => orel R (size_ t st) (size_ t' st')) ts ts').
  { apply (tuple_components d ts ts' _ Hsig HN). revert Hs. apply Forall2_impl'. intros; apply size_rel; auto. }
  clear Hs Hsig HN. revert k. induction IA as [|t t' ts ts' Ha IA IH]; intros [|k]; simpl; try constructor; inv IZ; auto.
  - destruct (align_ t st), (align_ t' st'); simpl in Ha; try contradiction; [|exact I].
    destruct (size_ t st), (size_ t' st'); simpl in H3; try contradiction; simpl; auto.
Qed.

Lemma offset_of_rel x s s' : struct_rel R s s' -> signature s <> None -> inN s -> forall st st' a b, sr st st' -> R a b ->
  orel R (offset_of x s st a) (offset_of x s' st' b).
Proof.
  intros H. induction H as [c|d ts ts' Hs IH|d t t' Hs IH|v v' t t' Hv Hs IH|ts ts' Hs IH] using struct_rel_ind';
    intros Hsig HN st st' a b H Hab.
  - cbn [offset_of]. apply orel_guard; [reflexivity|]. destruct (same_type x (Scalar c)); simpl; auto.
  - assert (Hst : struct_rel R (Tuple d ts) (Tuple d ts')) by (constructor; auto).
    cbn [offset_of]. apply orel_guard; [exact (has_offset_of_rel x _ _ Hst Hsig HN st st' H)|].
    rewrite (same_type_rel _ _ Hst). destruct (same_type _ _); [exact Hab|]. cbv zeta.
    assert (Hd : N d) by (apply HN; left; reflexivity). rewrite (tuple_index_rel _ _ _ H Hd).
    apply orel_bind_eq; [reflexivity|]. intros k.
    apply (orel_bind R).
    + apply size_acc_rel; [|apply (cg_sta _ HR)]. eapply comp_sizes_rel; eauto using sr_remove.
    + intros u w Huw. rewrite !nthz_map. pose proof (Forall2_nthz _ _ _ k (tuple_components d ts ts' _ Hsig HN IH)) as HF.
      destruct (nthz ts k), (nthz ts' k); try contradiction; [|exact I]. cbn [option_map ojoin].
      apply HF; [apply sr_remove, H|]. apply (cg_add _ HR); auto.
  - assert (Hst : struct_rel R (Vector d t) (Vector d t')) by (constructor; auto).
    cbn [offset_of]. apply orel_guard; [exact (has_offset_of_rel x _ _ Hst Hsig HN st st' H)|].
    rewrite (same_type_rel _ _ Hst). destruct (same_type _ _); [exact Hab|]. cbv zeta.
    destruct (inN_vector _ _ HN) as [Hd HN']. pose proof (signature_vector _ _ Hsig) as Ht.
    apply (orel_bind R); [apply sr_idx; auto|]. intros i j Hij.
    apply (orel_bind R); [apply sr_len; auto|]. intros n m Hnm. rewrite (R_is_sta _ _ _ Hnm).
    destruct (is_sta 1 m); [apply IH; auto using sr_remove|].
    apply (orel_bind R); [apply size_rel; auto using sr_remove|]. intros u w Huw.
    apply IH; auto using sr_remove. apply (cg_add _ HR); auto. apply (cg_mul _ HR); auto.
  - assert (Hst : struct_rel R (View v t) (View v' t')) by (constructor; auto).
    cbn [offset_of]. apply orel_guard; [exact (has_offset_of_rel x _ _ Hst Hsig HN st st' H)|].
    rewrite (same_type_rel _ _ Hst). destruct (same_type _ _); [exact Hab|].
    apply (orel_bind sr); [apply sub_state_rel; auto|]. intros u w Huw.
    apply IH; auto; [|apply (inN_view _ _ HN)]. destruct (signature_view _ _ Hsig) as (? & ? & ?). congruence.
  - assert (Hst : struct_rel R (Union ts) (Union ts')) by (constructor; auto).
    cbn [offset_of]. apply orel_guard; [exact (has_offset_of_rel x _ _ Hst Hsig HN st st' H)|].
    rewrite (same_type_rel _ _ Hst). destruct (same_type _ _); [exact Hab|exact I].
Qed.

Lemma has_state_at_rel x s s' : struct_rel R s s' -> signature s <> None -> inN s -> forall st st', sr st st' ->
  has_state_at x s st = has_state_at x s' st'.
Proof.
  intros H. induction H as [c|d ts ts' Hs IH|d t t' Hs IH|v v' t t' Hv Hs IH|ts ts' Hs IH] using struct_rel_ind';
    intros Hsig HN st st' H.
  - reflexivity.
  - cbn [has_state_at]. rewrite (same_type_rel (Tuple d ts) (Tuple d ts')) by (constructor; auto). reflexivity.
  - cbn [has_state_at]. rewrite (same_type_rel (Vector d t) (Vector d t')) by (constructor; auto). reflexivity.
  - assert (Hst : struct_rel R (View v t) (View v' t')) by (constructor; auto).
    cbn [has_state_at]. rewrite (same_type_rel _ _ Hst). destruct (same_type _ _); [reflexivity|].
    pose proof (sub_state_rel _ _ _ _ _ _ Hst Hsig HN H) as E.
    destruct (sub_state v t st), (sub_state v' t' st'); simpl in E; try contradiction; [|reflexivity]. cbn [obind].
    apply IH; auto; [|apply (inN_view _ _ HN)]. destruct (signature_view _ _ Hsig) as (? & ? & ?). congruence.
  - cbn [has_state_at]. rewrite (same_type_rel (Union ts) (Union ts')) by (constructor; auto). reflexivity.
Qed.

Lemma state_at_rel x s s' : struct_rel R s s' -> signature s <> None -> inN s -> forall st st', sr st st' ->
  orel sr (state_at x s st) (state_at x s' st').
Proof.
  intros H. induction H as [c|d ts ts' Hs IH|d t t' Hs IH|v v' t t' Hv Hs IH|ts ts' Hs IH] using struct_rel_ind';
    intros Hsig HN st st' H; cbn [state_at].
  - apply orel_guard; [reflexivity|]. destruct (same_type _ _); simpl; auto.
  - assert (Hst : struct_rel R (Tuple d ts) (Tuple d ts')) by (constructor; auto).
    apply orel_guard; [exact (has_state_at_rel x _ _ Hst Hsig HN st st' H)|].
    rewrite (same_type_rel _ _ Hst). destruct (same_type _ _); simpl; auto.
  - assert (Hst : struct_rel R (Vector d t) (Vector d t')) by (constructor; auto).
    apply orel_guard; [exact (has_state_at_rel x _ _ Hst Hsig HN st st' H)|].
    rewrite (same_type_rel _ _ Hst). destruct (same_type _ _); simpl; auto.
  - assert (Hst : struct_rel R (View v t) (View v' t')) by (constructor; auto).
    apply orel_guard; [exact (has_state_at_rel x _ _ Hst Hsig HN st st' H)|].
    rewrite (same_type_rel _ _ Hst). destruct (same_type _ _); [exact H|].
    apply (orel_bind sr); [apply sub_state_rel; auto|]. intros u w Huw.
    apply IH; auto; [|apply (inN_view _ _ HN)]. destruct (signature_view _ _ Hsig) as (? & ? & ?). congruence.
  - assert (Hst : struct_rel R (Union ts) (Union ts')) by (constructor; auto).
    apply orel_guard; [exact (has_state_at_rel x _ _ Hst Hsig HN st st' H)|].
    rewrite (same_type_rel _ _ Hst). destruct (same_type _ _); simpl; auto.
Qed.

Lemma sig_get_scalar_rel sg : (forall d, In d (sdims sg) -> N d) -> forall st st', sr st st' ->
  sig_get_scalar sg st = sig_get_scalar sg st'.
Proof.
  induction sg as [c| |d a r IH|d rs IH] using sig_ind'; intros HN st st' H; cbn [sig_get_scalar].
  - reflexivity.
  - reflexivity.
  - apply IH; [intros x Hx; apply HN; right; exact Hx|apply sr_remove, H].
  - pose proof (sr_idx _ _ d H (HN d (or_introl eq_refl))) as E.
    destruct (get (Idx d) st), (get (Idx d) st'); simpl in E; try contradiction; [|reflexivity].
    rewrite (cg_static _ HR _ _ E). destruct (vstatic v0) as [k|]; [|reflexivity]. rewrite !nthz_map.
    destruct (nthz rs k) as [r|] eqn:Er; [|reflexivity]. cbn [option_map ojoin].
    rewrite Forall_forall in IH. apply IH; [eapply nthz_In; eauto| |apply sr_remove, H].
    intros x Hx. apply HN. right. apply in_flat_map. exists r. split; [eapply nthz_In; eauto|exact Hx].
Qed.

End Cong.
