(** * Offsets of parts (C40, C41) *)

From Verif Require Export Access Cong SpecParts.

(** ** Types determine the depth *)

Fixpoint weight (s : struct) : nat :=
  match s with
  | Scalar _ => 1
  | Tuple _ ts => S (list_sum (map weight ts))
  | Vector _ t => S (weight t)
  | View _ t => S (weight t)
  | Union ts => S (list_sum (map weight ts))
  end.

Lemma same_type_weight : forall a b, same_type a b = true -> weight a = weight b.
Proof.
  assert (Hl : forall l, Forall (fun a => forall b, same_type a b = true -> weight a = weight b) l ->
    forall m, same_types l m = true -> list_sum (map weight l) = list_sum (map weight m)).
  { induction 1 as [|a l Ha F IH]; intros [|b m] E; simpl in E; try discriminate; [reflexivity|].
    apply andb_true_iff in E. destruct E as [E1 E2]. simpl. rewrite (Ha b E1), (IH m E2). reflexivity. }
  intros a. induction a as [c|d ts IH|d t IH|v t IH|ts IH] using struct_ind'; intros b E; rewrite same_type_eq in E; destruct b; try discriminate; simpl.
  - reflexivity.
  - apply andb_true_iff in E. rewrite (Hl _ IH _ (proj2 E)). reflexivity.
  - apply andb_true_iff in E. rewrite (IH _ (proj2 E)). reflexivity.
  - apply andb_true_iff in E. rewrite (IH _ (proj2 E)). reflexivity.
  - rewrite (Hl _ IH _ E). reflexivity.
Qed.

Lemma zlist_eqb_refl l : zlist_eqb l l = true.
Proof. induction l; simpl; auto. rewrite Z.eqb_refl. exact IHl. Qed.

Lemma same_type_refl : forall a, same_type a a = true.
Proof.
  assert (Hl : forall l, Forall (fun a => same_type a a = true) l -> same_types l l = true).
  { induction 1; simpl; auto. rewrite H. exact IHForall. }
  intros a. induction a as [c|d ts IH|d t IH|v t IH|ts IH] using struct_ind'; rewrite same_type_eq.
  - destruct c. unfold cty_eqb. rewrite !Z.eqb_refl. reflexivity.
  - rewrite Z.eqb_refl. exact (Hl _ IH).
  - rewrite Z.eqb_refl. exact IH.
  - rewrite zlist_eqb_refl. exact IH.
  - exact (Hl _ IH).
Qed.

Lemma list_sum_In n l : In n l -> (n <= list_sum l)%nat.
Proof. induction l as [|m l IH]; simpl; [tauto|]. intros [->|H]; [lia|]. specialize (IH H). lia. Qed.

Lemma inside_weight s st t st' : part_of s st t st' -> s = t \/ (weight t < weight s)%nat.
Proof.
  induction 1 as [s st|d ts st k u t st' Hk Hu Hi IH|d u st t st' Hi IH|v u st st1 t st' Hs Hi IH]; [left; reflexivity|right|right|right].
  - apply nthz_In in Hu. assert ((weight u <= list_sum (map weight ts))%nat) by (apply list_sum_In, in_map; exact Hu).
    simpl. destruct IH as [->|IH]; lia.
  - simpl. destruct IH as [->|IH]; lia.
  - simpl. destruct IH as [->|IH]; lia.
Qed.

Lemma inside_type s st t st' x : part_of s st t st' -> same_type x t = true -> same_type x s = true -> s = t.
Proof.
  intros Hi H1 H2. destruct (inside_weight _ _ _ _ Hi) as [E|E]; [exact E|].
  apply same_type_weight in H1, H2. lia.
Qed.

(** ** Composition *)

Lemma has_offset_here x s st : same_type x s = true -> has_offset_of x s st = Some true.
Proof. intros H. destruct s; cbn [has_offset_of]; rewrite H; reflexivity. Qed.
Lemma offset_here x s st start : same_type x s = true -> offset_of x s st start = Some start.
Proof. intros H. pose proof (has_offset_here x s st H) as E. destruct s; cbn [offset_of]; rewrite E, H; reflexivity. Qed.

Lemma below_type s st t st1 x st2 : part_of s st t st1 -> part_of t st1 x st2 -> s <> t -> same_type x s = false /\ same_type t s = false.
Proof.
  intros H1 H2 Hn. destruct (inside_weight _ _ _ _ H1) as [E|E]; [congruence|]. destruct (inside_weight _ _ _ _ H2) as [E2|E2].
  - subst x. split; destruct (same_type t s) eqn:Et; auto; apply same_type_weight in Et; lia.
  - split; [destruct (same_type x s) eqn:Et|destruct (same_type t s) eqn:Et]; auto; apply same_type_weight in Et; lia.
Qed.

Lemma has_offset_compose s st t st1 x st2 : part_of s st t st1 -> part_of t st1 x st2 ->
  has_offset_of x s st = Some true <-> has_offset_of t s st = Some true /\ has_offset_of x t st1 = Some true.
Proof.
  intros H1 H2. revert H2. induction H1 as [s st|d ts st k u t st' Hk Hu Hi IH|d u st t st' Hi IH|v u st st1 t st' Hs Hi IH]; intros H2.
  - rewrite (has_offset_here s s st (same_type_refl s)). tauto.
  - destruct (below_type (Tuple d ts) st t st' x st2) as [E1 E2]; [econstructor; eauto|exact H2| |].
    { intros E. apply nthz_In, (in_map weight), list_sum_In in Hu. apply (f_equal weight) in E. simpl in E. destruct (inside_weight _ _ _ _ Hi) as [->|Hw]; lia. }
    cbn [has_offset_of]. rewrite E1, E2. unfold has, tuple_index. rewrite Hk. cbn [vstatic obind]. rewrite !nthz_map, Hu. cbn [option_map ojoin]. auto.
  - destruct (below_type (Vector d u) st t st' x st2) as [E1 E2]; [econstructor; eauto|exact H2| |].
    { intros E. apply (f_equal weight) in E. simpl in E. destruct (inside_weight _ _ _ _ Hi) as [->|Hw]; lia. }
    cbn [has_offset_of]. rewrite E1, E2. destruct (has (Idx d) st && has (Len d) st); [auto|]. split; [discriminate|intros [? _]; discriminate].
  - destruct (below_type (View v u) st t st' x st2) as [E1 E2]; [econstructor; eauto|exact H2| |].
    { intros E. apply (f_equal weight) in E. simpl in E. destruct (inside_weight _ _ _ _ Hi) as [->|Hw]; lia. }
    specialize (IH H2).
    assert (G : forall b, oand b (has_offset_of x u st1) = Some true <-> oand b (has_offset_of t u st1) = Some true /\ has_offset_of x t st' = Some true).
    { intros b. clear -IH. destruct b as [[|]|], (has_offset_of x u st1) as [[|]|], (has_offset_of t u st1) as [[|]|]; simpl; intuition discriminate. }
    cbn [has_offset_of]. rewrite E1, E2, Hs. cbn [obind]. destruct v; auto.
    destruct (has (Idx M) st && has (Idx m) st && has (Idx p) st); [auto|]. split; [discriminate|intros [? _]; discriminate].
Qed.

Lemma guard_true {A} (b : option bool) (e : option A) : b = Some true -> guard b e = e.
Proof. intros ->. reflexivity. Qed.
Lemma guard_not {A} (b : option bool) (e : option A) : b <> Some true -> guard b e = None.
Proof. destruct b as [[|]|]; [congruence|reflexivity|reflexivity]. Qed.

Lemma offset_not x s st start : has_offset_of x s st <> Some true -> offset_of x s st start = None.
Proof. intros H. destruct s; cbn [offset_of]; apply guard_not; exact H. Qed.

(** A step down. *)
Lemma offset_down_tuple x d ts st start k u : get (Idx d) st = Some (Sta k) -> nthz ts (u64 k) = Some u -> same_type x (Tuple d ts) = false ->
  offset_of x (Tuple d ts) st start =
  do before <- size_acc (Sta 0) (comp_sizes (firstn (Z.to_nat (u64 k)) ts) (remove [Idx d] st)); offset_of x u (remove [Idx d] st) (vadd before start).
Proof.
  intros Hk Hu Ht. destruct (has_offset_of x u (remove [Idx d] st)) as [[|]|] eqn:Eh.
  2,3: rewrite (offset_not x (Tuple d ts)); [destruct (size_acc _ _); [|reflexivity]; simpl; symmetry; apply offset_not; congruence|];
       cbn [has_offset_of]; rewrite Ht; unfold has, tuple_index; rewrite Hk; cbn [vstatic obind]; rewrite nthz_map, Hu; cbn [option_map ojoin]; congruence.
  cbn [offset_of]. rewrite guard_true.
  - rewrite Ht. unfold tuple_index. rewrite Hk. cbn [vstatic obind]. destruct (size_acc _ _) as [b|]; [|reflexivity]. cbn [obind].
    rewrite nthz_map, Hu. reflexivity.
  - cbn [has_offset_of]. rewrite Ht. unfold has, tuple_index. rewrite Hk. cbn [vstatic obind]. rewrite nthz_map, Hu. exact Eh.
Qed.

Lemma offset_down_vector x d u st start : same_type x (Vector d u) = false ->
  offset_of x (Vector d u) st start =
  do i <- get (Idx d) st; do l <- get (Len d) st;
  if is_sta 1 l then offset_of x u (remove [Idx d; Len d] st) start
  else do sz <- size_ u (remove [Idx d; Len d] st); offset_of x u (remove [Idx d; Len d] st) (vadd (vmul i sz) start).
Proof.
  intros Ht. cbn [offset_of has_offset_of]. rewrite Ht. unfold has. destruct (get (Idx d) st) as [i|]; [|reflexivity].
  destruct (get (Len d) st) as [l|]; [|reflexivity]. cbn [andb obind].
  destruct (has_offset_of x u (remove [Idx d; Len d] st)) as [[|]|] eqn:Eh; [reflexivity| |];
    cbn [guard]; (destruct (is_sta 1 l); [|destruct (size_ u _); [|reflexivity]; simpl]); symmetry; apply offset_not; congruence.
Qed.

Lemma offset_down_view x v u st st1 start : sub_state v u st = Some st1 -> same_type x (View v u) = false ->
  offset_of x (View v u) st start = guard (has_offset_of x (View v u) st) (offset_of x u st1 start).
Proof. intros Hs Ht. cbn [offset_of]. rewrite Ht, Hs. reflexivity. Qed.

Theorem offset_compose s st t st1 x st2 : part_of s st t st1 -> part_of t st1 x st2 -> forall start,
  offset_of x s st start = do o <- offset_of t s st start; offset_of x t st1 o.
Proof.
  intros H1 H2. pose proof (has_offset_compose _ _ _ _ _ _ H1 H2) as Hh. revert H2 Hh.
  induction H1 as [s st|d ts st k u t st' Hk Hu Hi IH|d u st t st' Hi IH|v u st st1 t st' Hs Hi IH]; intros H2 Hh start.
  - rewrite (offset_here s s st start (same_type_refl s)). reflexivity.
  - destruct (below_type (Tuple d ts) st t st' x st2) as [E1 E2]; [econstructor; eauto|exact H2| |].
    { intros E. apply nthz_In, (in_map weight), list_sum_In in Hu. apply (f_equal weight) in E. simpl in E. destruct (inside_weight _ _ _ _ Hi) as [->|Hw]; lia. }
    rewrite !(offset_down_tuple _ d ts st start k u) by assumption. destruct (size_acc _ _) as [b|]; [|reflexivity]. cbn [obind].
    apply IH; [exact H2|]. exact (has_offset_compose _ _ _ _ _ _ Hi H2).
  - destruct (below_type (Vector d u) st t st' x st2) as [E1 E2]; [econstructor; eauto|exact H2| |].
    { intros E. apply (f_equal weight) in E. simpl in E. destruct (inside_weight _ _ _ _ Hi) as [->|Hw]; lia. }
    rewrite !offset_down_vector by assumption. destruct (get (Idx d) st) as [i|]; [|reflexivity]. destruct (get (Len d) st) as [l|]; [|reflexivity]. cbn [obind].
    pose proof (IH H2 (has_offset_compose _ _ _ _ _ _ Hi H2)) as IH'.
    destruct (is_sta 1 l); [apply IH'|]. destruct (size_ u _) as [sz|]; [|reflexivity]. apply IH'.
  - destruct (below_type (View v u) st t st' x st2) as [E1 E2]; [econstructor; eauto|exact H2| |].
    { intros E. apply (f_equal weight) in E. simpl in E. destruct (inside_weight _ _ _ _ Hi) as [->|Hw]; lia. }
    rewrite !(offset_down_view _ v u st st1 start) by assumption.
    destruct (has_offset_of x (View v u) st) as [[|]|] eqn:Ex.
    + destruct (proj1 Hh eq_refl) as [-> _]. cbn [guard]. apply IH; [exact H2|]. exact (has_offset_compose _ _ _ _ _ _ Hi H2).
    + cbn [guard]. destruct (has_offset_of t (View v u) st) as [[|]|]; try reflexivity. cbn [guard].
      destruct (offset_of t u st1 start) as [o|]; [|reflexivity]. cbn [obind]. symmetry. apply offset_not. intros E.
      assert (Some false = Some true) by (apply Hh; auto). discriminate.
    + cbn [guard]. destruct (has_offset_of t (View v u) st) as [[|]|]; try reflexivity. cbn [guard].
      destruct (offset_of t u st1 start) as [o|]; [|reflexivity]. cbn [obind]. symmetry. apply offset_not. intros E.
      assert (None = Some true) by (apply Hh; auto). discriminate.
Qed.

(** The start is added. *)
Definition plus (n : Z) (a b : val) : Prop := forall y, vz b = Some y -> vz a = Some (u64 (n + y)).

Lemma plus_vadd n c a b : plus n a b -> plus n (vadd c a) (vadd c b).
Proof.
  intros H y E. rewrite vz_vadd in E |- *. destruct (vz c) as [z|]; [|discriminate]. destruct (vz b) as [w|] eqn:Eb; [|discriminate].
  injection E as <-. rewrite (H w Eb). rewrite !u64_add_r. do 2 f_equal. lia.
Qed.

Lemma offset_start x s : forall st a b n, plus n a b ->
  match offset_of x s st a, offset_of x s st b with
  | Some v, Some w => plus n v w
  | None, None => True
  | _, _ => False
  end.
Proof.
  induction s as [c|d ts IH|d t IH|w t IH|ts IH] using struct_ind'; intros st a b n H;
    (match goal with |- context [offset_of x ?s st a] => destruct (same_type x s) eqn:Ht; [rewrite !(offset_here x s) by exact Ht; exact H|] end).
  - cbn [offset_of]. rewrite Ht. destruct (has_offset_of _ _ _) as [[|]|]; exact I.
  - cbn [offset_of]. rewrite Ht. destruct (has_offset_of _ _ _) as [[|]|]; try exact I. cbn [guard].
    destruct (tuple_index d st) as [k|]; [|exact I]. cbn [obind]. destruct (size_acc _ _) as [bf|]; [|exact I]. cbn [obind]. rewrite !nthz_map.
    destruct (nthz ts k) as [u|] eqn:Hu; [|exact I]. cbn [option_map ojoin]. rewrite Forall_forall in IH. apply (IH u (nthz_In _ _ _ Hu)).
    apply plus_vadd. exact H.
  - rewrite !offset_down_vector by exact Ht. destruct (get (Idx d) st) as [i|]; [|exact I]. destruct (get (Len d) st) as [l|]; [|exact I]. cbn [obind].
    destruct (is_sta 1 l); [apply IH; exact H|]. destruct (size_ t _) as [sz|]; [|exact I]. cbn [obind]. apply IH. apply plus_vadd. exact H.
  - cbn [offset_of]. rewrite Ht. destruct (has_offset_of _ _ _) as [[|]|]; try exact I. cbn [guard].
    destruct (sub_state w t st) as [st1|]; [|exact I]. cbn [obind]. apply IH. exact H.
  - cbn [offset_of]. rewrite Ht. destruct (has_offset_of _ _ _) as [[|]|]; exact I.
Qed.

Lemma part_offset s st t st1 x st2 o a b m : part_of s st t st1 -> part_of t st1 x st2 ->
  offset_of t s st (Sta 0) = Some o -> offset_of x t st1 (Sta 0) = Some b -> vz o = Some a -> vz b = Some m ->
  exists v, offset_of x s st (Sta 0) = Some v /\ vz v = Some (u64 (a + m)).
Proof.
  intros H1 H2 Eo Eb Va Vm. rewrite (offset_compose _ _ _ _ _ _ H1 H2), Eo. cbn [obind].
  assert (Hp : plus a o (Sta 0)).
  { intros y Ey. cbn [vz] in Ey. injection Ey as <-. rewrite Va. rewrite u64_add_r, Z.add_0_r. f_equal. symmetry. apply u64_small. exact (vz_range _ _ Va). }
  pose proof (offset_start x t st1 o (Sta 0) a Hp) as H. rewrite Eb in H. destruct (offset_of x t st1 o) as [v|]; [|destruct H].
  exists v. split; [reflexivity|]. exact (H m Vm).
Qed.

(** [state_at] *)
Lemma state_at_inside t s : forall st st', state_at t s st = Some st' -> exists u, part_of s st u st' /\ same_type t u = true /\
  (forall start o, offset_of u s st start = Some o -> o = start).
Proof.
  assert (Hhere : forall s st st', same_type t s = true -> state_at t s st = Some st' -> exists u, part_of s st u st' /\ same_type t u = true /\
    (forall start o, offset_of u s st start = Some o -> o = start)).
  { intros s0 st st' Ht E. assert (st = st').
    { destruct s0; cbn [state_at] in E; unfold guard in E; rewrite Ht in E; destruct (has_state_at _ _ _) as [[|]|]; congruence. }
    subst st'. exists s0. split; [constructor|]. split; [exact Ht|]. intros start o Eo. rewrite offset_here in Eo by apply same_type_refl. congruence. }
  induction s as [c|d ts IH|d u IH|w u IH|ts IH] using struct_ind'; intros st st' E;
    (match goal with |- context [part_of ?s st _ _] => destruct (same_type t s) eqn:Ht; [exact (Hhere s st st' Ht E)|] end);
    cbn [state_at] in E; unfold guard in E; rewrite Ht in E; destruct (has_state_at _ _ _) as [[|]|]; try discriminate.
  destruct (sub_state w u st) as [st1|] eqn:Es; [|discriminate]. cbn [obind] in E. destruct (IH _ _ E) as (z & Hi & Hz & Ho).
  exists z. split; [econstructor; eassumption|]. split; [exact Hz|]. intros start o Eo.
  destruct (same_type z (View w u)) eqn:Hv.
  - rewrite offset_here in Eo by exact Hv. congruence.
  - rewrite (offset_down_view _ _ _ _ _ _ Es Hv) in Eo. destruct (has_offset_of z (View w u) st) as [[|]|]; try discriminate. exact (Ho _ _ Eo).
Qed.

Lemma state_at_offset t s st st' : state_at t s st = Some st' -> exists u, part_of s st u st' /\ same_type t u = true /\
  forall x st2 v, part_of u st' x st2 -> offset_of x s st (Sta 0) = Some v -> offset_of x u st' (Sta 0) = Some v.
Proof.
  intros E. destruct (state_at_inside _ _ _ _ E) as (u & Hi & Ht & Ho). exists u. split; [exact Hi|]. split; [exact Ht|].
  intros x st2 v Hx Ev. rewrite (offset_compose _ _ _ _ _ _ Hi Hx) in Ev. destruct (offset_of u s st (Sta 0)) as [o|] eqn:Eo; [|discriminate].
  rewrite (Ho _ _ Eo) in Ev. exact Ev.
Qed.

(** ** Components of tuples *)

Lemma total_firstn l ts : Forall (fun t => 0 < ialign t < W /\ W mod ialign t = 0) ts -> forall x k t, nthz ts k = Some t ->
  total x (szs l (firstn (Z.to_nat k) ts)) + isize t l <= total x (szs l (firstn (Z.to_nat (k + 1)) ts)).
Proof.
  induction 1 as [|u ts Hu F IH]; intros x k t E; [discriminate|]. simpl in E. destruct (Z.eqb_spec k 0) as [->|Hk].
  - injection E as ->. simpl. unfold pad_up. pose proof (Z.div_mod (x + ialign t - 1) (ialign t) ltac:(lia)).
    pose proof (Z.mod_pos_bound (x + ialign t - 1) (ialign t) ltac:(lia)). lia.
  - pose proof (nthz_Some_range _ _ _ E) as Hr.
    replace (Z.to_nat k) with (S (Z.to_nat (k - 1))) by lia. replace (Z.to_nat (k + 1)) with (S (Z.to_nat (k - 1 + 1))) by lia.
    cbn [firstn]. simpl. apply IH. exact E.
Qed.

Lemma total_le l ts i j : Forall sz_ok (szs l ts) -> (i <= j)%nat -> total 0 (szs l (firstn i ts)) <= total 0 (szs l (firstn j ts)).
Proof.
  intros F Hij. unfold szs. rewrite <- !firstn_map. fold (szs l ts).
  assert (E : firstn j (szs l ts) = firstn i (szs l ts) ++ firstn (j - i) (skipn i (szs l ts))).
  { rewrite <- (firstn_skipn i (szs l ts)) at 1. rewrite firstn_app, firstn_firstn.
    replace (Init.Nat.min j i) with i by lia. destruct (Nat.le_gt_cases i (List.length (szs l ts))).
    - rewrite firstn_length_le by assumption. reflexivity.
    - rewrite skipn_all2 by lia. rewrite !firstn_nil. reflexivity. }
  rewrite E, total_app. apply total_ge. apply Forall_forall. intros e He. rewrite Forall_forall in F. apply F.
  assert (H : In e (skipn i (szs l ts))).
  { rewrite <- (firstn_skipn (j - i) (skipn i (szs l ts))). apply in_or_app. left. exact He. }
  rewrite <- (firstn_skipn i (szs l ts)). apply in_or_app. right. exact H.
Qed.

Lemma lens_agree st st' : same_lengths st st' -> agree st' (lenv_of st) (asg_of st').
Proof.
  intros H. destruct (agree_of st') as [H1 H2]. split; [|exact H2]. intros d. specialize (H1 d). unfold lenv_of in *. rewrite (H d). exact H1.
Qed.

Section Component.
  Variables (d : dim) (ts : list struct) (st : state).
  Hypothesis Hw : swf (Tuple d ts) = true.
  Hypothesis Hs : signature (Tuple d ts) <> None.
  Hypothesis Hlk : lenok (Tuple d ts) (lenv_of st).
  Hypothesis Hd : forall q v, get (Len q) st = Some v -> vz v <> None.
  Hypothesis Hf : fits (Tuple d ts) st.

  Let l := lenv_of st.

  Lemma comp_ok : Forall (fun t => 0 < ialign t < W /\ W mod ialign t = 0) ts.
  Proof.
    pose proof (signature_tuple _ _ Hs) as Hss. pose proof (swf_tuple _ _ Hw) as Hws.
    rewrite forallb_forall in Hws. rewrite Forall_forall in Hss |- *. intros t Ht. apply ialign_range; auto.
  Qed.

  Lemma comp_szs : Forall sz_ok (szs l ts).
  Proof.
    destruct (signature (Tuple d ts)) as [sg|] eqn:Es; [|congruence]. destruct (signature_Tuple_inv _ _ _ Es) as (ss & F & _).
    exact (szs_ok l ts ss (swf_tuple _ _ Hw) (lrange_of st) F).
  Qed.

  Lemma total_bound k : 0 <= total 0 (szs l (firstn k ts)) <= isize (Tuple d ts) l.
  Proof.
    split.
    - change 0 with (total 0 (szs l (firstn 0 ts))). apply total_le; [exact comp_szs|lia].
    - change (isize (Tuple d ts) l) with (total 0 (szs l ts)). rewrite <- (firstn_all ts) at 2.
      destruct (Nat.le_gt_cases k (List.length ts)); [apply total_le; [exact comp_szs|exact H]|]. rewrite firstn_all2 by lia. rewrite firstn_all. lia.
  Qed.

  Lemma lendef_same st' : same_lengths st st' -> lendef st'.
  Proof. intros H q w E. rewrite <- (H q) in E. exact (Hd _ _ E). Qed.

  Lemma comp_size k t st' n : same_lengths st st' -> nthz ts k = Some t -> size_ t st' = Some n -> vz n = Some (isize t l) /\ 0 <= isize t l.
  Proof.
    intros H Et En. pose proof (nthz_In _ _ _ Et) as Hin.
    pose proof (swf_tuple _ _ Hw) as Hws. rewrite forallb_forall in Hws. pose proof (signature_tuple _ _ Hs) as Hss. rewrite Forall_forall in Hss.
    simpl in Hlk. apply lenok_all in Hlk. rewrite Forall_forall in Hlk.
    assert (Hn : 0 <= isize t l) by (apply isize_nonneg; auto; apply lrange_of).
    split; [|exact Hn]. rewrite (size_spec t (Hws _ Hin) (Hss _ Hin) st' l _ n (Hlk _ Hin) (lens_agree _ _ H) (lendef_same _ H) En).
    f_equal. apply u64_small. split; [exact Hn|]. pose proof (total_firstn l ts comp_ok 0 k t Et). pose proof (total_bound (Z.to_nat k)).
    pose proof (total_bound (Z.to_nat (k + 1))). unfold fits in Hf. fold l in Hf. lia.
  Qed.

  Lemma comp_start k t o : 0 <= k < W -> nthz ts k = Some t -> offset_of t (Tuple d ts) (with_ [(Idx d, Sta k)] st) (Sta 0) = Some o ->
    vz o = Some (total 0 (szs l (firstn (Z.to_nat k) ts))).
  Proof.
    intros Hk Et E. rewrite (offset_down_tuple t d ts _ _ k t) in E.
    - destruct (size_acc _ _) as [b|] eqn:Eb; [|discriminate]. cbn [obind] in E. rewrite offset_here in E by apply same_type_refl. injection E as <-.
      set (st' := remove [Idx d] (with_ [(Idx d, Sta k)] st)) in *.
      assert (Hsl : same_lengths st st').
      { intros q. unfold st'. rewrite get_remove, get_with. reflexivity. }
      rewrite u64_small in Eb by exact Hk.
      assert (Hb : vz b = Some (u64 (total 0 (szs l (firstn (Z.to_nat k) ts))))).
      { apply (size_acc_spec l (comp_sizes (firstn (Z.to_nat k) ts) st') (firstn (Z.to_nat k) ts)) with (st := Sta 0) (x := 0); [| |reflexivity|exact Eb].
        - unfold comp_sizes. pose proof (swf_tuple _ _ Hw) as Hws. rewrite forallb_forall in Hws. pose proof (signature_tuple _ _ Hs) as Hss. rewrite Forall_forall in Hss.
          simpl in Hlk. apply lenok_all in Hlk. rewrite Forall_forall in Hlk.
          assert (Hsub : forall u, In u (firstn (Z.to_nat k) ts) -> In u ts).
          { intros u Hu. rewrite <- (firstn_skipn (Z.to_nat k) ts). apply in_or_app. left. exact Hu. }
          clear -Hws Hss Hlk Hsub Hsl Hd. induction (firstn (Z.to_nat k) ts) as [|u us IH]; constructor; [|apply IH; intros x Hx; apply Hsub; right; exact Hx].
          pose proof (Hsub u (or_introl eq_refl)) as Hin.
          destruct (align_ u st') as [al|] eqn:Ea; [|exact I]. destruct (size_ u st') as [sz|] eqn:Ez; [|exact I].
          split; [destruct (align_spec u (Hws _ Hin) (Hss _ Hin) _ _ Ea) as (y & -> & Hy); simpl; congruence|].
          exact (size_spec u (Hws _ Hin) (Hss _ Hin) st' l _ sz (Hlk _ Hin) (lens_agree _ _ Hsl) (lendef_same _ Hsl) Ez).
        - pose proof comp_ok as C. rewrite Forall_forall in C |- *. intros u Hu. apply C.
          rewrite <- (firstn_skipn (Z.to_nat k) ts). apply in_or_app. left. exact Hu. }
      rewrite vz_vadd, Hb. cbn [vz]. rewrite u64_add_l, u64_add_r, Z.add_0_r. f_equal. apply u64_small.
      pose proof (total_bound (Z.to_nat k)). unfold fits in Hf. fold l in Hf. lia.
    - rewrite get_with. simpl. rewrite Z.eqb_refl. reflexivity.
    - rewrite u64_small by exact Hk. exact Et.
    - destruct (same_type t (Tuple d ts)) eqn:Ht; [|reflexivity]. apply same_type_weight in Ht.
      apply nthz_In, (in_map weight), list_sum_In in Et. simpl in Ht. lia.
  Qed.

  Lemma components_disjoint j k tj tk oj ok sj sk n : 0 <= j < k -> k < W -> nthz ts j = Some tj -> nthz ts k = Some tk ->
    offset_of tj (Tuple d ts) (with_ [(Idx d, Sta j)] st) (Sta 0) = Some oj ->
    offset_of tk (Tuple d ts) (with_ [(Idx d, Sta k)] st) (Sta 0) = Some ok ->
    size_ tj (remove [Idx d] st) = Some sj -> size_ tk (remove [Idx d] st) = Some sk -> size_ (Tuple d ts) st = Some n ->
    exists a x b y m, vz oj = Some a /\ vz sj = Some x /\ vz ok = Some b /\ vz sk = Some y /\ vz n = Some m /\ a + x <= b /\ b + y <= m.
  Proof.
    intros Hjk Hk Etj Etk Eoj Eok Esj Esk En.
    assert (Hsl : same_lengths st (remove [Idx d] st)) by (intros q; rewrite get_remove; reflexivity).
    destruct (comp_size j tj _ sj Hsl Etj Esj) as [Vj Nj]. destruct (comp_size k tk _ sk Hsl Etk Esk) as [Vk Nk].
    pose proof (comp_start j tj oj ltac:(lia) Etj Eoj) as Sj. pose proof (comp_start k tk ok ltac:(lia) Etk Eok) as Sk.
    assert (Hn : vz n = Some (isize (Tuple d ts) l)).
    { rewrite (size_spec _ Hw Hs st l _ n Hlk (agree_of st) (lendef_same st (fun _ => eq_refl)) En). f_equal. apply u64_small.
      pose proof (total_bound 0). unfold fits in Hf. fold l in Hf. lia. }
    do 5 eexists. split; [exact Sj|]. split; [exact Vj|]. split; [exact Sk|]. split; [exact Vk|]. split; [exact Hn|].
    pose proof (total_firstn l ts comp_ok 0 j tj Etj). pose proof (total_firstn l ts comp_ok 0 k tk Etk).
    pose proof (total_le l ts (Z.to_nat (j + 1)) (Z.to_nat k) comp_szs ltac:(lia)). pose proof (total_bound (Z.to_nat (k + 1))). lia.
  Qed.
End Component.
