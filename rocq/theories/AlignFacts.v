(** * Facts about alignment *)

From Verif Require Import Bytes SpecAlign.

(** ** Divisors of 2^64 *)

Lemma pow2_divisor n : forall a, 0 < a -> (a | 2 ^ Z.of_nat n) -> exists k, 0 <= k /\ a = 2 ^ k.
Proof.
  induction n as [|n IH]; intros a Ha D.
  - exists 0. split; [lia|]. change (2 ^ Z.of_nat 0) with 1 in D. apply Z.divide_1_r_nonneg in D; lia.
  - destruct (Z.Even_or_Odd a) as [[b Hb]|Ho].
    + destruct (IH b) as (k & Hk & E); [lia| |].
      * rewrite Nat2Z.inj_succ, Z.pow_succ_r in D by lia. rewrite Hb in D. apply Z.mul_divide_cancel_l in D; [exact D|lia].
      * exists (k + 1). split; [lia|]. rewrite Z.pow_add_r, <- E by lia. lia.
    + apply IH; [exact Ha|]. rewrite Nat2Z.inj_succ, Z.pow_succ_r in D by lia.
      apply (Z.gauss a 2); [exact D|]. destruct Ho as [b Hb].
      apply Z.bezout_1_gcd. exists 1, (- b). lia.
Qed.

Lemma W_pow : W = 2 ^ Z.of_nat 64.
Proof. reflexivity. Qed.

Lemma pow2_chain a b : 0 < a -> 0 < b -> (a | W) -> (b | W) -> (a | b) \/ (b | a).
Proof.
  intros Ha Hb Da Db. rewrite W_pow in Da, Db. destruct (pow2_divisor _ _ Ha Da) as (k & Hk & ->).
  destruct (pow2_divisor _ _ Hb Db) as (l & Hl & ->). destruct (Z_le_gt_dec k l).
  - left. exists (2 ^ (l - k)). rewrite <- Z.pow_add_r by lia. f_equal. lia.
  - right. exists (2 ^ (k - l)). rewrite <- Z.pow_add_r by lia. f_equal. lia.
Qed.

Lemma mod0 a b : 0 < b -> a mod b = 0 <-> (b | a).
Proof. intros H. apply Z.mod_divide. lia. Qed.

(** ** Multiples of a divisor of 2^64 *)

Section Multiple.
  Variable A : Z.
  Hypothesis HA : 0 < A.
  Hypothesis HW : (A | W).

  Lemma u64_multiple x : (A | x) -> (A | u64 x).
  Proof. intros H. unfold u64. rewrite Z.mod_eq by (rewrite W_pow; lia). apply Z.divide_sub_r; [exact H|]. apply Z.divide_mul_l. exact HW. Qed.

  (** Defined values are multiples. *)
  Definition multiple (v : val) : Prop := forall x, vz v = Some x -> (A | x).

  Lemma multiple_0 : multiple (Sta 0).
  Proof. intros x E. cbn in E. inv E. exists 0. reflexivity. Qed.

  Lemma multiple_vadd a b : multiple a -> multiple b -> multiple (vadd a b).
  Proof.
    intros Ha Hb x E. rewrite vz_vadd in E. destruct (vz a) as [y|] eqn:Ea; [|discriminate]. destruct (vz b) as [z|] eqn:Eb; [|discriminate].
    inv E. apply u64_multiple. apply Z.divide_add_r; auto.
  Qed.

  Lemma multiple_vmul a b : multiple b -> multiple (vmul a b).
  Proof.
    intros Hb x E.
    destruct (vz b) as [z|] eqn:Eb.
    - destruct (vz a) as [y|] eqn:Ea.
      + rewrite (vz_vmul' a b y z Ea Eb) in E. inv E. apply u64_multiple. apply Z.divide_mul_r. auto.
      + destruct a; try discriminate. unfold vmul in E. cbn [is_sta] in E.
        destruct b; cbn in E; repeat match type of E with context [if ?c then _ else _] => destruct c end; cbn in E; inv E; try discriminate; exists 0; reflexivity.
    - destruct b; try discriminate. unfold vmul in E.
      destruct a; cbn in E; repeat match type of E with context [if ?c then _ else _] => destruct c end; cbn in E; inv E; try discriminate; exists 0; reflexivity.
  Qed.

  (** Rounding up to a power of two. *)
  Lemma round_up x a : 0 <= x < W -> 0 < a -> (a | W) -> (A | x) -> (A | u64 (u64 (u64 (x + a) - 1) / a * a)).
  Proof.
    intros Hx Ha Da Dx. apply u64_multiple. destruct (pow2_chain A a HA Ha HW Da) as [D|D].
    - apply Z.divide_mul_r. exact D.
    - assert (Hd : (a | x)) by (eapply Z.divide_trans; eauto). destruct Hd as [q ->]. destruct Da as [w Hw].
      assert (Hqw : q < w) by nia.
      assert (E : u64 (u64 (q * a + a) - 1) = q * a + (a - 1)).
      { rewrite u64_sub_l. replace (q * a + a - 1) with (q * a + (a - 1)) by lia. apply u64_small. nia. }
      rewrite E. rewrite Z.add_comm, Z.div_add by lia. rewrite (Z.div_small (a - 1)) by lia. exact Dx.
  Qed.

  Lemma multiple_step start a sz : multiple start -> multiple sz -> 0 < a -> (a | W) -> a < W -> multiple (size_step start (Sta a) sz).
  Proof.
    intros Hs Hz Ha Da Hl. unfold size_step. apply multiple_vadd; [|exact Hz]. intros x E.
    destruct (vz start) as [s|] eqn:Es.
    - assert (Ea : vz (Sta a) = Some a) by (cbn; rewrite u64_small by lia; reflexivity).
      rewrite (vz_vmul' _ _ _ _ (vz_vdiv _ _ _ _ (vz_vsub' _ _ _ _ (vz_vadd' _ _ _ _ Es Ea) (eq_refl : vz (Sta 1) = Some (u64 1))) Ea ltac:(lia)) Ea) in E.
      change (u64 1) with 1 in E. injection E as <-. apply round_up; auto. eapply vz_range; eauto.
    - destruct start; try discriminate. exfalso.
      assert (E1 : vadd Undef (Sta a) = Undef) by (unfold vadd, dyn2; cbn; destruct (u64 a =? 0); reflexivity).
      rewrite E1 in E. change (vsub Undef (Sta 1)) with Undef in E. change (vdiv Undef (Sta a)) with Undef in E.
      unfold vmul, dyn2 in E. cbn in E. rewrite u64_small in E by lia. destruct (Z.eqb_spec a 0); [lia|].
      destruct (a =? 1); discriminate.
  Qed.

  Lemma multiple_acc l : forall start, multiple start ->
    Forall (fun o => forall a sz, o = Some (a, sz) -> multiple sz /\ exists n, a = Sta n /\ 0 < n < W /\ (n | W)) l ->
    forall r, size_acc start l = Some r -> multiple r.
  Proof.
    induction l as [|[[a sz]|] l IH]; intros start Hs F r E; cbn [size_acc] in E; try discriminate; [inv E; exact Hs|].
    inv F. destruct (H1 a sz eq_refl) as (Hz & n & -> & Hn & Dn). eapply IH; [|exact H2|exact E].
    apply multiple_step; auto; lia.
  Qed.
End Multiple.

(** ** Alignments and sizes of structures *)

Lemma guard_inv {A} b (x : option A) y : guard b x = Some y -> x = Some y.
Proof. unfold guard. destruct b as [[|]|]; congruence. Qed.

Lemma cty_ok_div c : cty_ok c = true -> 0 < ct_align c < W /\ (ct_align c | W).
Proof. intros H. apply cty_ok_spec in H. split; [lia|]. apply mod0; lia. Qed.

Lemma forallb_flat {X Y} (f : Y -> bool) (g : X -> list Y) l : forallb f (flat_map g l) = forallb (fun x => forallb f (g x)) l.
Proof. induction l; cbn; [reflexivity|]. rewrite forallb_app, IHl. reflexivity. Qed.

Lemma align_real s : real_types s = true -> forall st v, align_ s st = Some v -> exists n, v = Sta n /\ 0 < n < W /\ (n | W).
Proof.
  induction s as [c|d ts IH|d t IH|v t IH|ts IH] using struct_ind'; intros Hr st w E; cbn [align_] in E; apply guard_inv in E.
  - inv E. unfold real_types in Hr. cbn in Hr. rewrite andb_true_r in Hr. destruct (cty_ok_div _ Hr). eauto.
  - unfold real_types in *. cbn [scalars] in Hr. rewrite forallb_flat in Hr.
    destruct ts as [|t ts]; [discriminate|]. inv IH. cbn [forallb] in Hr. apply andb_true_iff in Hr. destruct Hr as [Hr _].
    cbn [map same_align] in E. destruct ts as [|t2 ts]; cbn [map] in E; [eauto|].
    destruct (align_ t (remove [Idx d] st)) as [[x| |]|] eqn:Ea; try discriminate.
    match type of E with match ?m with _ => _ end = _ => destruct m as [[y| |]|]; try discriminate end.
    destruct (u64 x =? u64 y); [|discriminate]. inv E. eauto.
  - eauto.
  - destruct (sub_state v t st); [|discriminate]. cbn in E. eauto.
  - discriminate.
Qed.

Section Offsets.
  Variable A : Z.
  Hypothesis HA : 0 < A.
  Hypothesis HW : (A | W).

  Lemma size_multiple s : real_types s = true -> sizes_by A s = true -> forall st v, size_ s st = Some v -> multiple A v.
  Proof.
    induction s as [c|d ts IH|d t IH|v t IH|ts IH] using struct_ind'; intros Hr Hz st w E; cbn [size_] in E; apply guard_inv in E.
    - inv E. intros x Ex. cbn in Ex. inv Ex. unfold sizes_by in Hz. cbn in Hz. apply u64_multiple; auto. apply mod0; lia.
    - eapply multiple_acc; [exact HA|exact HW|apply multiple_0| |exact E].
      unfold real_types, sizes_by in *. cbn [scalars] in Hr, Hz. rewrite forallb_flat in Hr, Hz. rewrite forallb_forall in Hr, Hz.
      apply Forall_forall. intros o Ho. apply in_map_iff in Ho. destruct Ho as (t & Ho & Ht). rewrite Forall_forall in IH.
      intros a sz ->. destruct (align_ t (remove [Idx d] st)) eqn:Ea; [|discriminate]. destruct (size_ t (remove [Idx d] st)) eqn:Ez; [|discriminate].
      inv Ho. split; [eapply (IH t Ht); [apply Hr|apply Hz|]; eauto|]. eapply align_real; [|exact Ea]. unfold real_types. auto.
    - destruct (get (Len d) st); [|discriminate]. cbn in E. destruct (size_ t (remove [Idx d; Len d] st)) eqn:Ez; [|discriminate]. cbn in E. inv E.
      apply multiple_vmul; auto. eapply IH; eauto.
    - destruct (sub_state v t st); [|discriminate]. cbn in E. eauto.
    - discriminate.
  Qed.

  Lemma before_multiple ts st r : forallb real_types ts = true -> forallb (sizes_by A) ts = true ->
    size_acc (Sta 0) (comp_sizes ts st) = Some r -> multiple A r.
  Proof.
    intros Hr Hz E. rewrite forallb_forall in Hr, Hz. eapply multiple_acc; [exact HA|exact HW|apply multiple_0| |exact E].
    apply Forall_forall. intros o Ho. apply in_map_iff in Ho. destruct Ho as (t & Ho & Ht).
    intros a sz ->. destruct (align_ t st) eqn:Ea; [|discriminate]. destruct (size_ t st) eqn:Ez; [|discriminate].
    inv Ho. split; [eapply size_multiple; [| |exact Ez]; auto|]. eapply align_real; [|exact Ea]. auto.
  Qed.
End Offsets.

Lemma nthz_map_inv {X Y} (f : X -> Y) l : forall k y, nthz (map f l) k = Some y -> exists x, nthz l k = Some x /\ f x = y.
Proof. intros k y. rewrite nthz_map. destruct (nthz l k); cbn; intros E; inv E; eauto. Qed.

Lemma real_flat ts : forallb cty_ok (flat_map scalars ts) = forallb real_types ts.
Proof. apply forallb_flat. Qed.

Lemma forallb_firstn {X} (f : X -> bool) l n : forallb f l = true -> forallb f (firstn n l) = true.
Proof. rewrite !forallb_forall. intros H x Hx. apply H. revert Hx. clear. revert l. induction n; intros [|y l]; cbn; tauto || (intros [->|H]; [left; reflexivity|right; auto]). Qed.

(** Every part begins at a multiple. *)
Lemma offset_multiple A x s : 0 < A -> (A | W) -> real_types s = true -> sizes_by A s = true -> forall st start o,
  multiple A start -> offset_of x s st start = Some o -> multiple A o.
Proof.
  intros HA HW. induction s as [c|d ts IH|d t IH|v t IH|ts IH] using struct_ind'; intros Hr Hz st start o Hst E; cbn [offset_of] in E; apply guard_inv in E;
    match type of E with (if ?b then _ else _) = _ => destruct b; [inv E; exact Hst|] end; try discriminate.
  - destruct (tuple_index d st) as [k|]; [|discriminate]. cbn [obind] in E.
    destruct (size_acc (Sta 0) (comp_sizes (firstn (Z.to_nat k) ts) (remove [Idx d] st))) as [b|] eqn:Eb; [|discriminate]. cbn [obind] in E.
    destruct (nthz (map (fun t => offset_of x t (remove [Idx d] st) (vadd b start)) ts) k) as [y|] eqn:En; [|discriminate]. cbn in E. subst y.
    apply nthz_map_inv in En. destruct En as (t & En & Et). apply nthz_In in En.
    unfold real_types, sizes_by in *. cbn [scalars] in Hr, Hz. rewrite forallb_flat in Hr, Hz.
    assert (Hb : multiple A b).
    { eapply before_multiple; [exact HA|exact HW| | |exact Eb]; apply forallb_firstn; assumption. }
    rewrite forallb_forall in Hr, Hz. rewrite Forall_forall in IH. eapply (IH t En); [apply Hr|apply Hz| |exact Et]; auto.
    apply multiple_vadd; auto.
  - destruct (get (Idx d) st) as [i|]; [|discriminate]. cbn [obind] in E. destruct (get (Len d) st) as [l|]; [|discriminate]. cbn [obind] in E.
    destruct (is_sta 1 l); [eapply IH; eauto|].
    destruct (size_ t (remove [Idx d; Len d] st)) as [sz|] eqn:Ez; [|discriminate]. cbn [obind] in E.
    eapply IH; [exact Hr|exact Hz| |exact E]. apply multiple_vadd; auto. apply multiple_vmul; auto. exact (size_multiple A HA HW t Hr Hz _ _ Ez).
  - destruct (sub_state v t st) as [st'|]; [|discriminate]. cbn [obind] in E. eauto.
Qed.

(** ** The alignment of the element itself *)

Lemma same_scalar c s : same_type (Scalar c) s = true -> exists c', s = Scalar c' /\ cty_eqb c c' = true.
Proof. destruct s; cbn; try discriminate. eauto. Qed.

Lemma cty_eqb_align c c' : cty_eqb c c' = true -> ct_align c = ct_align c'.
Proof. unfold cty_eqb. lia. Qed.

(** A part that is found is one of the scalars. *)
Lemma offset_scalar c s : forall st start o, offset_of (Scalar c) s st start = Some o -> exists c', In c' (scalars s) /\ ct_align c' = ct_align c.
Proof.
  induction s as [c0|d ts IH|d t IH|v t IH|ts IH] using struct_ind'; intros st start o E; cbn [offset_of] in E; apply guard_inv in E;
    match type of E with (if ?b then _ else _) = _ => destruct b eqn:Eb end; try discriminate.
  - apply same_scalar in Eb. destruct Eb as (c' & E1 & E2). inv E1. exists c'. split; [left; reflexivity|]. symmetry. apply cty_eqb_align. exact E2.
  - destruct (tuple_index d st) as [k|]; [|discriminate]. cbn [obind] in E.
    match type of E with obind ?m _ = _ => destruct m as [b|]; [|discriminate] end. cbn [obind] in E.
    match type of E with ojoin (nthz ?m k) = _ => destruct (nthz m k) as [y|] eqn:En; [|discriminate] end. cbn in E. subst y.
    apply nthz_map_inv in En. destruct En as (t & En & Et). apply nthz_In in En.
    rewrite Forall_forall in IH. destruct (IH t En _ _ _ Et) as (c' & Hc & Ha). exists c'. split; [|exact Ha]. cbn [scalars]. apply in_flat_map. eauto.
  - destruct (get (Idx d) st) as [i|]; [|discriminate]. cbn [obind] in E. destruct (get (Len d) st) as [l|]; [|discriminate]. cbn [obind] in E.
    destruct (is_sta 1 l); [eapply IH; eauto|].
    destruct (size_ t (remove [Idx d; Len d] st)) as [sz|]; [|discriminate]. cbn [obind] in E. eapply IH; eauto.
  - destruct (sub_state v t st) as [st'|]; [|discriminate]. cbn [obind] in E. eapply IH; eauto.
Qed.

Lemma follows_by t u c : follows t u = true -> In c (scalars u) -> sizes_by (ct_align c) t = true.
Proof. unfold follows. rewrite forallb_forall. auto. Qed.

Lemma in_order_before ts : in_order ts = true -> forall k t, nthz ts k = Some t -> forallb (fun u => follows u t) (firstn (Z.to_nat k) ts) = true.
Proof.
  induction ts as [|u ts IH]; intros Ho k t E; cbn in *; [discriminate|].
  apply andb_true_iff in Ho. destruct Ho as [H1 H2]. destruct (Z.eqb_spec k 0) as [->|N]; [reflexivity|].
  pose proof (nthz_Some_range _ _ _ E) as Hk. replace (Z.to_nat k) with (S (Z.to_nat (k - 1))) by lia. cbn.
  rewrite forallb_forall in H1. rewrite (H1 t) by (eapply nthz_In; eauto). cbn. apply IH; auto.
Qed.

(** The alignment [A] of the element: it divides the start, whatever the start of the structure is. *)
Lemma own_alignment c s : real_types s = true -> laid_out s = true -> forall st start o,
  (forall c', In c' (scalars s) -> multiple (ct_align c') start) ->
  offset_of (Scalar c) s st start = Some o -> multiple (ct_align c) o.
Proof.
  induction s as [c0|d ts IH|d t IH|v t IH|ts IH] using struct_ind'; intros Hr Hl st start o Hst E; pose proof E as E0; cbn [offset_of] in E; apply guard_inv in E;
    match type of E with (if ?b then _ else _) = _ => destruct b eqn:Eb end; try discriminate.
  - inv E. apply same_scalar in Eb. destruct Eb as (c' & E1 & E2). inv E1. rewrite (cty_eqb_align _ _ E2). apply Hst. left; reflexivity.
  - destruct (tuple_index d st) as [k|]; [|discriminate]. cbn [obind] in E.
    match type of E with obind ?m _ = _ => destruct m as [b|] eqn:Ebf; [|discriminate] end. cbn [obind] in E.
    match type of E with ojoin (nthz ?m k) = _ => destruct (nthz m k) as [y|] eqn:En; [|discriminate] end. cbn in E. subst y.
    apply nthz_map_inv in En. destruct En as (t & En & Et).
    cbn [laid_out] in Hl. apply andb_true_iff in Hl. destruct Hl as [Ho Hl].
    pose proof (in_order_before _ Ho _ _ En) as Hf. apply nthz_In in En. rewrite Forall_forall in IH.
    unfold real_types in Hr. cbn [scalars] in Hr. rewrite real_flat in Hr.
    pose proof Hr as Hr'. rewrite forallb_forall in Hr', Hl. eapply (IH t En); [apply Hr'; exact En|apply Hl; exact En| |exact Et].
    intros c' Hc. pose proof (Hr' t En) as Ht. unfold real_types in Ht. rewrite forallb_forall in Ht. destruct (cty_ok_div _ (Ht c' Hc)) as [Ha Hd].
    apply multiple_vadd; [exact Hd| |apply Hst; cbn; apply in_flat_map; eauto].
    eapply before_multiple; [| | | |exact Ebf]; [lia|exact Hd|apply forallb_firstn; exact Hr|].
    rewrite forallb_forall in *. intros u Hu. eapply follows_by; eauto.
  - destruct (get (Idx d) st) as [i|]; [|discriminate]. cbn [obind] in E. destruct (get (Len d) st) as [l|]; [|discriminate]. cbn [obind] in E.
    cbn [laid_out] in Hl. apply andb_true_iff in Hl. destruct Hl as [Ho Hl].
    destruct (is_sta 1 l); [eapply (IH Hr Hl); eauto|].
    destruct (size_ t (remove [Idx d; Len d] st)) as [sz|] eqn:Ez; [|discriminate]. cbn [obind] in E.
    eapply (IH Hr Hl); [|exact E]. intros c' Hc. pose proof Hr as Ht. unfold real_types in Ht. cbn [scalars] in Ht. rewrite forallb_forall in Ht.
    destruct (cty_ok_div _ (Ht c' Hc)) as [Ha Hd].
    apply multiple_vadd; [exact Hd| |apply Hst; exact Hc]. apply multiple_vmul; [exact Hd|]. eapply size_multiple; [| | | |exact Ez]; auto; [lia|].
    eapply follows_by; eauto.
  - destruct (sub_state v t st) as [st'|]; [|discriminate]. cbn [obind] in E. eapply (IH Hr Hl); eauto.
Qed.

(** ** All scalars alike *)

Lemma uniform_spec A s : uniform A s = true -> forall c, In c (scalars s) -> ct_align c = A /\ ct_size c mod A = 0.
Proof. unfold uniform. rewrite forallb_forall. intros H c Hc. specialize (H c Hc). apply andb_true_iff in H. destruct H as [H1 H2]. apply Z.eqb_eq in H1. rewrite H1 in H2. lia. Qed.

Lemma uniform_follows A t u : uniform A t = true -> uniform A u = true -> follows t u = true.
Proof.
  intros Ht Hu. unfold follows, sizes_by. apply forallb_forall. intros c Hc. apply forallb_forall. intros b Hb.
  destruct (uniform_spec _ _ Hu c Hc) as [-> _]. destruct (uniform_spec _ _ Ht b Hb) as [_ H]. lia.
Qed.

Lemma uniform_flat A d ts : uniform A (Tuple d ts) = true -> forallb (uniform A) ts = true.
Proof. unfold uniform. cbn [scalars]. rewrite forallb_flat. auto. Qed.

Lemma uniform_laid_out A s : nounion s = true -> uniform A s = true -> laid_out s = true.
Proof.
  induction s as [c|d ts IH|d t IH|v t IH|ts IH] using struct_ind'; intros Hn Hu; cbn [laid_out nounion] in *; auto.
  - pose proof (uniform_flat _ _ _ Hu) as Hf. apply andb_true_iff. split.
    + clear IH Hn Hu. induction ts as [|t r IHr]; cbn in *; [reflexivity|]. apply andb_true_iff in Hf. destruct Hf as [H1 H2].
      apply andb_true_iff. split; [|auto]. rewrite forallb_forall in *. intros u Hin. apply (uniform_follows A); auto.
    + rewrite forallb_forall in *. rewrite Forall_forall in IH. auto.
  - apply andb_true_iff. split; [apply (uniform_follows A); assumption|]. auto.
Qed.

(** ** Striped structures *)

Lemma some_inj {X} (a b : X) : Some a = Some b -> a = b.
Proof. congruence. Qed.

Section Striped.
  Variable A : Z.
  Hypothesis HA : 0 < A.
  Hypothesis HW : (A | W).

  Lemma multiple_vmod a b : multiple A a -> multiple A b -> multiple A (vmod a b).
  Proof.
    intros Ha Hb x E.
    assert (G : forall y z, (A | y) -> (A | z) -> (A | u64 (y mod z))).
    { intros y z Dy Dz. apply u64_multiple; [exact HW|]. destruct (Z.eq_dec z 0) as [->|N]; [rewrite Zmod_0_r; exact Dy|].
      rewrite Z.mod_eq by exact N. apply Z.divide_sub_r; [exact Dy|]. apply Z.divide_mul_l. exact Dz. }
    assert (N : forall f, dyn2nz f a b = Undef \/ exists y z, vz a = Some y /\ vz b = Some z /\ dyn2nz f a b = Dyn (u64 (f y z))).
    { intros f. unfold dyn2nz. destruct (vz a) as [y|]; auto. destruct (vz b) as [z|]; auto. destruct (z =? 0); auto. right. exists y, z. auto. }
    assert (R : forall x, vz (if is_sta 0 a then Sta 0 else dyn2nz Z.modulo a b) = Some x -> (A | x)).
    { clear x E. intros x E. destruct (is_sta 0 a); [cbn in E; inv E; exists 0; reflexivity|].
      destruct (N Z.modulo) as [H|(y & z & Ey & Ez & H)]; rewrite H in E; cbn in E; [discriminate|]. injection E as <-.
      apply u64_multiple; [exact HW|]. apply G; auto. }
    destruct a as [p| |], b as [q| |]; try exact (R x E). cbn [vmod] in E. destruct (u64 q =? 0); [discriminate|]. cbn [vz] in E. injection E as <-.
    apply u64_multiple; [exact HW|]. apply G; [apply Ha|apply Hb]; reflexivity.
  Qed.

  Lemma pad_self x m : (A | m) -> (A | pad_to_multiple x m).
  Proof. intros H. unfold pad_to_multiple. apply u64_multiple; [exact HW|]. apply Z.divide_mul_r. exact H. Qed.

  Lemma striped_multiple p w tid st v : real_types (sp_sub p) = true -> sizes_by A (sp_sub p) = true ->
    real_types (sp_elem p) = true -> sizes_by A (sp_elem p) = true ->
    0 < sp_width p -> (sp_width p | W) -> (A | sp_banks p * sp_width p) -> (A | sp_banks p / sp_num p * sp_width p) ->
    widths_of p = Some w -> striped_offset p tid st = Some v -> multiple A v.
  Proof.
    intros Hr Hz Hre Hze Hw0 HwW Hb Ht Ew E. unfold striped_offset in E. rewrite Ew in E. cbn [obind] in E.
    destruct (scalar_t (sp_sub p) st) as [c|]; [|discriminate]. cbn [obind] in E.
    destruct (offset_of (Scalar c) (sp_sub p) (stripe_sub_state st) (Sta 0)) as [o|] eqn:Eo; [|discriminate]. cbn [obind] in E.
    assert (Ho : multiple A o) by (eapply offset_multiple; [exact HA|exact HW|exact Hr|exact Hz| |exact Eo]; apply multiple_0).
    unfold widths_of in Ew. destruct (size_ (sp_elem p) []) as [e|] eqn:Ee; [|discriminate]. cbn [obind] in Ew.
    destruct (vstatic e) as [E0|] eqn:Es; [|discriminate]. cbn [obind] in Ew.
    assert (HE : vz e = Some E0) by (destruct e; cbn in *; congruence).
    assert (DE : (A | E0)) by (exact (size_multiple A HA HW _ Hre Hze _ _ Ee _ HE)).
    pose proof (vz_range _ _ HE) as RE.
    destruct ((sp_num p =? 0) || (E0 =? 0) || (u64 (sp_banks p * sp_width p) =? 0)); [discriminate|]. injection Ew as Ew.
    assert (Dp : (A | w_padded w)).
    { subst w. cbn [w_padded]. destruct (u64 (sp_banks p / sp_num p * sp_width p) <? E0).
      - unfold pad_to_multiple. apply round_up; auto.
      - apply u64_multiple; auto. }
    assert (Ds : (A | w_stripe w)).
    { subst w. cbn [w_stripe]. apply u64_multiple; [exact HW|]. apply Z.divide_mul_r. exact DE. }
    assert (Dt : (A | w_total w)).
    { subst w. cbn [w_total]. apply pad_self. apply u64_multiple; auto. }
    clear Ew.
    assert (K : forall k, (A | k) -> multiple A (Sta k)) by (intros k Hk x Ex; cbn in Ex; injection Ex as <-; apply u64_multiple; auto).
    assert (I : forall per start, multiple A start -> multiple A (offset_inner p w tid st per start)).
    { intros per start Hs. unfold offset_inner. apply multiple_vadd; [exact HW| |exact Hs]. apply multiple_vadd; [exact HW|apply multiple_vmul; auto|].
      destruct (get stripe_tag st); [apply multiple_vmul; auto|]. intros x Ex. cbn in Ex. injection Ex as <-. repeat (apply u64_multiple; [exact HW|]). apply Z.divide_mul_r. exact Dp. }
    destruct (same_type (Scalar c) (sp_elem p) && (w_elems w =? 1)); apply some_inj in E; rewrite <- E; apply I; [apply multiple_0|].
    apply multiple_vadd; [exact HW|apply multiple_0|]. apply multiple_vmod; auto.
  Qed.
End Striped.

(** ** With remainders *)

Lemma mod_div A : 0 < A -> W mod A = 0 -> (A | W).
Proof. intros H. apply mod0. exact H. Qed.

Lemma part_by A s x st o y : 0 < A -> W mod A = 0 -> real_types s = true -> sizes_by A s = true ->
  offset_of x s st (Sta 0) = Some o -> vz o = Some y -> y mod A = 0.
Proof.
  intros HA HW Hr Hz E Ey. apply mod0; [exact HA|].
  exact (offset_multiple A x s HA (mod_div A HA HW) Hr Hz st (Sta 0) o (multiple_0 A) E y Ey).
Qed.

Lemma size_by A s st o y : 0 < A -> W mod A = 0 -> real_types s = true -> sizes_by A s = true ->
  size_ s st = Some o -> vz o = Some y -> y mod A = 0.
Proof.
  intros HA HW Hr Hz E Ey. apply mod0; [exact HA|]. exact (size_multiple A HA (mod_div A HA HW) s Hr Hz st o E y Ey).
Qed.

Lemma element_aligned s st c o y base : real_types s = true -> laid_out s = true ->
  scalar_t s st = Some c -> offset s st = Some o -> vz o = Some y -> base mod ct_align c = 0 -> (base + y) mod ct_align c = 0.
Proof.
  intros Hr Hl Ec E Ey Hb. unfold offset in E. rewrite Ec in E. cbn [obind] in E.
  assert (HA : 0 < ct_align c).
  { destruct (offset_scalar _ _ _ _ _ E) as (c' & Hc & <-). unfold real_types in Hr. rewrite forallb_forall in Hr. destruct (cty_ok_div _ (Hr _ Hc)). lia. }
  apply mod0; [exact HA|]. apply Z.divide_add_r; [apply mod0; assumption|].
  exact (own_alignment c s Hr Hl st (Sta 0) o (fun c' _ => multiple_0 (ct_align c')) E y Ey).
Qed.

Lemma striped_by A p tid st v y : 0 < A -> W mod A = 0 -> real_types (sp_sub p) = true -> sizes_by A (sp_sub p) = true ->
  real_types (sp_elem p) = true -> sizes_by A (sp_elem p) = true -> 0 < sp_width p -> W mod sp_width p = 0 ->
  (sp_banks p * sp_width p) mod A = 0 -> (sp_banks p / sp_num p * sp_width p) mod A = 0 ->
  striped_offset p tid st = Some v -> vz v = Some y -> y mod A = 0.
Proof.
  intros HA HW Hr Hz Hre Hze Hw HwW Hb Ht E Ey. apply mod0; [exact HA|].
  destruct (widths_of p) as [w|] eqn:Ew; [|unfold striped_offset in E; rewrite Ew in E; discriminate].
  refine (striped_multiple A HA (mod_div A HA HW) p w tid st v Hr Hz Hre Hze Hw (mod_div _ Hw HwW) _ _ Ew E y Ey); apply mod0; assumption.
Qed.
