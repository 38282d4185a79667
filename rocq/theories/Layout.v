(** * Elements of a structure lie inside it and do not overlap

    The integer-level facts behind the in-bounds and no-aliasing properties. *)

From Verif Require Export ViewBij.

(** The element type an assignment leads to. *)
Fixpoint leaf (s : struct) (l : lenv) (a : asg) : option cty :=
  match s with
  | Scalar c => Some c
  | Tuple d ts => ojoin (nthz (map (fun t => leaf t l a) ts) (a d))
  | Vector d t => leaf t (fupd l d None) a
  | View v t => leaf t (view_lenv v l) (view_asg v (ilen t) l a)
  | Union _ => None
  end.

(** No broadcast anywhere: a broadcast lets many indices share an element. *)
Fixpoint nobcast (s : struct) : bool :=
  match s with
  | Scalar _ => true
  | Tuple _ ts => forallb nobcast ts
  | Vector _ t => nobcast t
  | View v t => negb (is_bcast v) && nobcast t
  | Union _ => false
  end.

(** ** Padding *)

Lemma pad_up_ge x a : 0 < a -> x <= pad_up x a.
Proof.
  intros Ha. unfold pad_up. pose proof (Z.div_mod (x + a - 1) a ltac:(lia)).
  pose proof (Z.mod_pos_bound (x + a - 1) a Ha). lia.
Qed.

Definition szs (l : lenv) (ts : list struct) : list (Z * Z) := map (fun t => (ialign t, isize t l)) ts.

Definition sz_ok (e : Z * Z) : Prop := 0 < fst e /\ 0 <= snd e.

Lemma total_ge x s : Forall sz_ok s -> x <= total x s.
Proof.
  revert x. induction s as [|[a z] s IH]; intros x H; simpl; [lia|]. inv H. destruct H2 as [Ha Hz]. simpl in *.
  specialize (IH (pad_up x a + z) H3). pose proof (pad_up_ge x a Ha). lia.
Qed.

Lemma total_app x s r : total x (s ++ r) = total (total x s) r.
Proof. revert x. induction s as [|[a z] s IH]; intros x; simpl; auto. Qed.

(** A component ends before the next one starts. *)
Lemma total_next x s e : total x (s ++ [e]) = pad_up (total x s) (fst e) + snd e.
Proof. rewrite total_app. destruct e. reflexivity. Qed.

Lemma nthz_split {A} (ts : list A) k t : nthz ts k = Some t ->
  ts = firstn (Z.to_nat k) ts ++ t :: skipn (S (Z.to_nat k)) ts /\ 0 <= k.
Proof.
  rewrite nthz_nth_error. destruct (0 <=? k) eqn:E; [|discriminate]. intros H. split; [|lia].
  apply nth_error_split in H. destruct H as (l1 & l2 & -> & <-).
  replace (skipn (S (List.length l1)) (l1 ++ t :: l2)) with l2.
  - rewrite firstn_app, Nat.sub_diag, firstn_all. simpl. rewrite app_nil_r. reflexivity.
  - clear. induction l1; simpl; auto.
Qed.

Lemma cty_ok_spec c : cty_ok c = true ->
  0 <= ct_size c /\ 0 < ct_align c < W /\ W mod ct_align c = 0.
Proof.
  unfold cty_ok. rewrite !andb_true_iff, Z.leb_le, !Z.ltb_lt, Z.eqb_eq. tauto.
Qed.

Lemma ialign_pos s : swf s = true -> signature s <> None -> 0 < ialign s.
Proof.
  induction s as [c|d ts IH|d t IH|v t IH|ts IH] using struct_ind'; intros H Hs; simpl in *.
  - apply cty_ok_spec in H. tauto.
  - destruct ts as [|t ts]; [lia|]. inv IH. simpl in *. rewrite !andb_true_iff in H. apply H2; [tauto|].
    destruct (signature t); congruence.
  - apply IH; [exact H|]. destruct (signature t); congruence.
  - apply andb_true_iff in H. apply IH; [tauto|]. destruct (signature t); congruence.
  - discriminate.
Qed.

Lemma isize_nonneg s l : swf s = true -> signature s <> None -> lrange l -> 0 <= isize s l.
Proof.
  revert l. induction s as [c|d ts IH|d t IH|v t IH|ts IH] using struct_ind'; intros l H Hs Hl.
  - simpl in *. apply cty_ok_spec in H. tauto.
  - cbn [isize]. apply total_ge. apply Forall_forall. intros e He. apply in_map_iff in He. destruct He as (t & <- & Ht).
    destruct (signature (Tuple d ts)) as [sg|] eqn:E; [|congruence].
    destruct (signature_Tuple_inv _ _ _ E) as (ss & F & _).
    assert (Est : signature t <> None).
    { clear -F Ht. induction F; destruct Ht; subst; [congruence|auto]. }
    simpl in H. apply andb_true_iff in H. destruct H as [_ H]. rewrite forallb_forall in H. rewrite Forall_forall in IH.
    split; simpl; [apply ialign_pos; auto|auto].
  - cbn [isize]. apply Z.mul_nonneg_nonneg; [pose proof (odef_range l d Hl); lia|].
    apply IH; [exact H| |apply lrange_None, Hl]. simpl in Hs. destruct (signature t); congruence.
  - cbn [isize]. destruct (swf_view _ _ H) as [_ Ht]. apply IH; [exact Ht| |apply view_lrange, Hl].
    simpl in Hs. destruct (signature t); congruence.
  - discriminate.
Qed.

Lemma szs_ok l ts ss : forallb swf ts = true -> lrange l ->
  Forall2 (fun (t : struct) (s : sig) => signature t = Some s) ts ss -> Forall sz_ok (szs l ts).
Proof.
  intros H Hl F. induction F as [|t s ts ss Es F IH]; simpl; constructor; simpl in H; apply andb_true_iff in H.
  - split; simpl; [apply ialign_pos|apply isize_nonneg]; (tauto || congruence).
  - apply IH; tauto.
Qed.

Lemma swf_tuple d ts : swf (Tuple d ts) = true -> forallb swf ts = true.
Proof. simpl. rewrite andb_true_iff. tauto. Qed.

(** Position of a tuple component. *)
Lemma comp_fits l ts ss k t : forallb swf ts = true -> lrange l ->
  Forall2 (fun (t : struct) (s : sig) => signature t = Some s) ts ss -> nthz ts k = Some t ->
  0 <= total 0 (szs l (firstn (Z.to_nat k) ts)) /\
  total 0 (szs l (firstn (Z.to_nat k) ts)) + isize t l <= total 0 (szs l (firstn (S (Z.to_nat k)) ts)) /\
  (forall j, (k < j) -> total 0 (szs l (firstn (S (Z.to_nat k)) ts)) <= total 0 (szs l (firstn (Z.to_nat j) ts))) /\
  total 0 (szs l (firstn (S (Z.to_nat k)) ts)) <= total 0 (szs l ts).
Proof.
  intros Hw Hl F Hk. pose proof (szs_ok _ _ _ Hw Hl F) as Hok. destruct (nthz_split _ _ _ Hk) as [E Hk0].
  set (n := Z.to_nat k) in *.
  assert (Hsub : forall m, Forall sz_ok (szs l (firstn m ts))).
  { intros m. pose proof Hok as H. unfold szs in *. rewrite <- (firstn_skipn m ts), map_app in H.
    apply Forall_app in H. tauto. }
  assert (Hmono : forall m j, (m <= j)%nat -> total 0 (szs l (firstn m ts)) <= total 0 (szs l (firstn j ts))).
  { intros m j Hj. rewrite <- (firstn_skipn m (firstn j ts)). rewrite firstn_firstn, Nat.min_l by lia.
    unfold szs at 2. rewrite map_app, total_app. apply total_ge.
    specialize (Hsub j). rewrite <- (firstn_skipn m (firstn j ts)) in Hsub. unfold szs in Hsub.
    rewrite map_app in Hsub. apply Forall_app in Hsub. tauto. }
  assert (Hnext : firstn (S n) ts = firstn n ts ++ [t]).
  { rewrite E at 1. rewrite firstn_app. assert (Hlen : List.length (firstn n ts) = n).
    { apply firstn_length_le. apply (f_equal (@List.length _)) in E. rewrite app_length in E. simpl in E.
      rewrite firstn_length in E. lia. }
    rewrite Hlen. replace (S n - n)%nat with 1%nat by lia. rewrite firstn_firstn, Nat.min_r by lia. reflexivity. }
  split; [apply total_ge, Hsub|]. split; [|split].
  - rewrite Hnext. unfold szs at 2. rewrite map_app. cbn [map]. rewrite total_next. cbn [fst snd].
    pose proof (pad_up_ge (total 0 (szs l (firstn n ts))) (ialign t)). unfold szs in *.
    assert (Ha : 0 < ialign t).
    { rewrite Forall_forall in Hok. destruct (Hok (ialign t, isize t l)); [|assumption].
      apply in_map_iff. exists t. split; [reflexivity|]. rewrite E. apply in_or_app. simpl. auto. }
    specialize (H Ha). lia.
  - intros j Hj. apply Hmono. lia.
  - rewrite <- (firstn_all ts) at 2. destruct (Nat.le_gt_cases (S n) (List.length ts)); [apply Hmono; lia|].
    rewrite (firstn_all2 ts (n := S n)) by lia. rewrite firstn_all. lia.
Qed.

(** Validity with its path exposed. *)
Definition pvalid (s : struct) (l : lenv) (a : asg) (sg : sig) (p : path) : Prop :=
  signature s = Some sg /\ spath sg a = Some p /\ Forall (in_range s l a) p.

Lemma pvalid_vector d t l a sg p : pvalid (Vector d t) l a sg p ->
  0 <= a d < odef (l d) /\ exists s0 p0, sg = SFun d ADyn s0 /\ p = (d, None) :: p0 /\
    any_accept d s0 = false /\ pvalid t (fupd l d None) a s0 p0.
Proof.
  intros (Es & Ep & R). destruct (signature_Vector_inv _ _ _ Es) as (s0 & E0 & Hd & ->). simpl in Ep.
  destruct (spath s0 a) as [p0|] eqn:E1; [|discriminate]. simpl in Ep. inv Ep. inv R.
  unfold in_range in H1. simpl in H1. rewrite Z.eqb_refl in H1. split; [exact H1|].
  exists s0, p0. repeat split; auto. rewrite Forall_forall in *. intros [x n] Hx. specialize (H2 _ Hx).
  unfold in_range in *. simpl in *. destruct n; [exact H2|].
  pose proof (spath_accept _ _ _ E1 _ Hx) as Hacc. simpl in Hacc.
  destruct (Z.eqb_spec x d); [subst; congruence|exact H2].
Qed.

Lemma pvalid_tuple d ts l a sg p : pvalid (Tuple d ts) l a sg p ->
  exists ss t s0 p0, sg = SDep d ss /\ Forall2 (fun (t : struct) (s : sig) => signature t = Some s) ts ss /\
    existsb (any_accept d) ss = false /\
    nthz ts (a d) = Some t /\ nthz ss (a d) = Some s0 /\ p = (d, Some (Z.of_nat (List.length ts))) :: p0 /\
    any_accept d s0 = false /\ pvalid t l a s0 p0.
Proof.
  intros (Es & Ep & R). destruct (signature_Tuple_inv _ _ _ Es) as (ss & F & Hd & ->). simpl in Ep.
  rewrite nthz_map in Ep. destruct (nthz ss (a d)) as [s0|] eqn:En; [|discriminate]. simpl in Ep.
  destruct (spath s0 a) as [p0|] eqn:E1; [|discriminate]. simpl in Ep. inv Ep. inv R.
  assert (Ht : exists t, nthz ts (a d) = Some t /\ signature t = Some s0).
  { pose proof (Forall2_nthz _ _ _ (a d) F) as H. rewrite En in H. destruct (nthz ts (a d)) as [t|]; [eauto|contradiction]. }
  destruct Ht as (t & Et & E0). exists ss, t, s0, p0.
  assert (Hda : any_accept d s0 = false).
  { destruct (any_accept d s0) eqn:Ex; [|reflexivity]. rewrite <- Hd. symmetry. apply existsb_exists. exists s0.
    split; [eapply nthz_In; eauto|exact Ex]. }
  rewrite <- (Forall2_len _ _ _ F).
  repeat split; auto. rewrite Forall_forall in *. intros [x n] Hx. specialize (H2 _ Hx).
  unfold in_range in *. simpl in *. destruct n; [exact H2|].
  pose proof (spath_accept _ _ _ E1 _ Hx) as Hacc. simpl in Hacc.
  destruct (Z.eqb_spec x d); [subst; congruence|]. rewrite nthz_map, Et in H2. exact H2.
Qed.

Lemma pvalid_view v t l a sg p : uswf (View v t) = true -> lrange l ->
  view_good v (plen t (view_lenv v l) (view_asg v (ilen t) l a)) l -> pvalid (View v t) l a sg p ->
  exists s0 p', view_sig v s0 = Some sg /\ prel v p' p /\ snodup s0 = true /\ NoDup (map fst p') /\
    pvalid t (view_lenv v l) (view_asg v (ilen t) l a) s0 p'.
Proof.
  intros Hw Hl Hg (Es & Ep & R). destruct (uswf_view _ _ Hw) as [Hv Ht].
  destruct (uview_down _ _ _ _ _ l Hw Es Ep) as (s0 & p' & E0 & Ev & Hsn & Ep' & Hr & Hnd).
  exists s0, p'. repeat split; auto. eapply view_transfer; eauto. apply uswf_loc, Ht.
Qed.

Lemma good_tuple d ts l a t : good (Tuple d ts) l a -> nthz ts (a d) = Some t -> good t l a.
Proof. simpl. rewrite nthz_map. intros H E. rewrite E in H. exact H. Qed.

(** ** In bounds *)

Theorem int_in_bounds s l a sg p : swf s = true -> lrange l -> good s l a -> pvalid s l a sg p ->
  exists c, leaf s l a = Some c /\ 0 <= ct_size c /\ 0 <= ioff s l a /\ ioff s l a + ct_size c <= isize s l.
Proof.
  revert l a sg p. induction s as [c|d ts IH|d t IH|v t IH|ts IH] using struct_ind'; intros l a sg p Hw Hl Hg Hv.
  - exists c. simpl in *. apply cty_ok_spec in Hw. split; [reflexivity|lia].
  - destruct (pvalid_tuple _ _ _ _ _ _ Hv) as (ss & t & s0 & p0 & -> & F & Hd & Et & En & -> & _ & Hv').
    pose proof (swf_tuple _ _ Hw) as Hws. pose proof (comp_fits l _ _ _ _ Hws Hl F Et) as (H1 & H2 & _ & H4).
    pose proof Hws as Hws'. rewrite forallb_forall in Hws'. rewrite Forall_forall in IH.
    destruct (IH t (nthz_In _ _ _ Et) l a s0 p0) as (c & Ec & Hc & Ho & Hs); auto.
    + apply Hws'. eapply nthz_In; eauto.
    + eapply good_tuple; eauto.
    + exists c. cbn [leaf ioff isize]. rewrite !nthz_map, Et. simpl ojoin. simpl option_map.
      unfold szs in *. split; [exact Ec|]. lia.
  - destruct (pvalid_vector _ _ _ _ _ _ Hv) as (Hi & s0 & p0 & -> & -> & _ & Hv').
    destruct (IH (fupd l d None) a s0 p0) as (c & Ec & Hc & Ho & Hs); auto.
    + apply lrange_None, Hl.
    + exists c. cbn [leaf ioff isize]. split; [exact Ec|]. nia.
  - destruct Hg as (Hg1 & Hg2 & _). destruct (pvalid_view _ _ _ _ _ _ (swf_uswf _ Hw) Hl Hg1 Hv) as (s0 & p' & _ & _ & _ & _ & Hv').
    destruct (swf_view _ _ Hw) as [_ Ht]. destruct (IH _ _ s0 p' Ht (view_lrange v _ Hl) Hg2 Hv') as (c & H).
    exists c. exact H.
  - discriminate.
Qed.

(** ** No overlap *)

Definition apart (s : struct) (l : lenv) (a b : asg) : Prop :=
  exists ca cb, leaf s l a = Some ca /\ leaf s l b = Some cb /\
    (ioff s l a + ct_size ca <= ioff s l b \/ ioff s l b + ct_size cb <= ioff s l a).

Lemma apart_sym s l a b : apart s l a b -> apart s l b a.
Proof. intros (ca & cb & H1 & H2 & H). exists cb, ca. tauto. Qed.

Lemma plen_same t l a b sg p : uswf t = true -> signature t = Some sg -> spath sg a = Some p -> NoDup (map fst p) ->
  (forall x, In x (map fst p) -> a x = b x) ->
  spath sg b = Some p /\ forall x, In x (map fst p) -> plen t l a x = plen t l b x.
Proof.
  intros Hw Es Ep Hnd H. assert (Eb : spath sg b = Some p).
  { eapply spath_ext; [exact Ep|]. intros d n Hn. symmetry. apply H. eapply in_fst; eauto. }
  split; [exact Eb|]. intros x Hx. destruct (fst_in _ _ Hx) as [n Hn].
  rewrite (plen_in _ _ _ _ _ _ _ Es Ep Hnd Hn), (plen_in _ _ _ _ _ _ _ Es Eb Hnd Hn).
  destruct n; [reflexivity|]. f_equal. symmetry. eapply (uswf_loc t Hw l sg a b p x Es Ep Hn).
  intros y _ Hy. symmetry. apply H, Hy.
Qed.

Theorem int_no_alias s l a b sg pa pb : swf s = true -> nobcast s = true -> lrange l ->
  good s l a -> good s l b -> pvalid s l a sg pa -> pvalid s l b sg pb ->
  (pa = pb /\ forall x, In x (map fst pa) -> a x = b x) \/ apart s l a b.
Proof.
  revert l a b sg pa pb.
  induction s as [c|d ts IH|d t IH|v t IH|ts IH] using struct_ind'; intros l a b sg pa pb Hw Hb Hl Ga Gb Va Vb.
  - left. destruct Va as (Es & Ea & _), Vb as (_ & Eb & _). simpl in Es. inv Es. simpl in *. inv Ea. inv Eb.
    split; [reflexivity|]. intros x [].
  - pose proof Va as Va0. pose proof Vb as Vb0.
    destruct (pvalid_tuple _ _ _ _ _ _ Va) as (ss & ta & sa & qa & -> & F & Hd & Eta & Ena & -> & Hda & Va').
    destruct (pvalid_tuple _ _ _ _ _ _ Vb) as (ss' & tb & sb & qb & Ess & F' & Hd' & Etb & Enb & -> & Hdb & Vb').
    inv Ess. pose proof (swf_tuple _ _ Hw) as Hws. pose proof Hws as Hws'. rewrite forallb_forall in Hws'.
    pose proof (good_tuple _ _ _ _ _ Ga Eta) as Ga'. pose proof (good_tuple _ _ _ _ _ Gb Etb) as Gb'.
    destruct (int_in_bounds _ _ _ _ _ (Hws' _ (nthz_In _ _ _ Eta)) Hl Ga' Va') as (ca & Eca & Hca & Hoa & Hsa).
    destruct (int_in_bounds _ _ _ _ _ (Hws' _ (nthz_In _ _ _ Etb)) Hl Gb' Vb') as (cb & Ecb & Hcb & Hob & Hsb).
    pose proof (comp_fits l _ _ _ _ Hws Hl F Eta) as (A1 & A2 & A3 & _).
    pose proof (comp_fits l _ _ _ _ Hws Hl F Etb) as (B1 & B2 & B3 & _).
    destruct (Z.lt_trichotomy (a d) (b d)) as [Hlt|[Heq|Hgt]].
    + right. exists ca, cb. cbn [leaf ioff]. rewrite !nthz_map, Eta, Etb. cbn [option_map ojoin]. specialize (A3 _ Hlt).
      unfold szs in *. repeat split; auto. left. lia.
    + assert (ta = tb) by congruence. subst tb. assert (sa = sb) by congruence. subst sb.
      rewrite Forall_forall in IH. simpl in Hb. rewrite forallb_forall in Hb.
      destruct (IH ta (nthz_In _ _ _ Eta) l a b sa qa qb) as [[-> H]|H]; auto.
      * apply Hws'. eapply nthz_In; eauto.
      * apply Hb. eapply nthz_In; eauto.
      * left. split; [reflexivity|]. intros x [<-|Hx]; [exact Heq|auto].
      * right. destruct H as (ca' & cb' & H1 & H2 & H3). exists ca', cb'. cbn [leaf ioff]. rewrite !nthz_map, Eta, Etb.
        cbn [option_map ojoin]. rewrite Heq. repeat split; auto. lia.
    + right. exists ca, cb. cbn [leaf ioff]. rewrite !nthz_map, Eta, Etb. cbn [option_map ojoin]. specialize (B3 _ Hgt).
      unfold szs in *. repeat split; auto. right. lia.
  - destruct (pvalid_vector _ _ _ _ _ _ Va) as (Hia & s0 & qa & -> & -> & _ & Va').
    destruct (pvalid_vector _ _ _ _ _ _ Vb) as (Hib & s0' & qb & Ess & -> & _ & Vb'). inv Ess.
    pose proof (lrange_None l d Hl) as Hl'.
    destruct (int_in_bounds t _ _ _ _ Hw Hl' Ga Va') as (ca & Eca & Hca & Hoa & Hsa).
    destruct (int_in_bounds t _ _ _ _ Hw Hl' Gb Vb') as (cb & Ecb & Hcb & Hob & Hsb).
    destruct (Z.lt_trichotomy (a d) (b d)) as [Hlt|[Heq|Hgt]].
    + right. exists ca, cb. cbn [leaf ioff]. repeat split; auto. left. nia.
    + destruct (IH _ a b s0' qa qb Hw Hb Hl' Ga Gb Va' Vb') as [[-> H]|H].
      * left. split; [reflexivity|]. intros x [<-|Hx]; [exact Heq|auto].
      * right. destruct H as (ca' & cb' & H1 & H2 & H3). exists ca', cb'. cbn [leaf ioff]. rewrite Heq.
        repeat split; auto. lia.
    + right. exists ca, cb. cbn [leaf ioff]. repeat split; auto. right. nia.
  - simpl in Hb. apply andb_true_iff in Hb. destruct Hb as [Hnb Hb]. apply negb_true_iff in Hnb.
    destruct Ga as (Ga1 & Ga2 & _), Gb as (Gb1 & Gb2 & _). destruct (swf_view _ _ Hw) as [Hvw Ht].
    destruct (pvalid_view _ _ _ _ _ _ (swf_uswf _ Hw) Hl Ga1 Va) as (s0 & p' & Ev & Ra & Hsn & Hnd & Va').
    destruct (pvalid_view _ _ _ _ _ _ (swf_uswf _ Hw) Hl Gb1 Vb) as (s0' & q' & Ev' & Rb & Hsn' & Hnd' & Vb').
    assert (s0' = s0) by (destruct Va' as (E1 & _), Vb' as (E2 & _); congruence). subst s0'.
    destruct (IH _ _ _ s0 p' q' Ht Hb (view_lrange v _ Hl) Ga2 Gb2 Va' Vb') as [[<- H]|H]; [left|right; exact H].
    destruct Va' as (E0 & Epa & Fa), Vb' as (_ & Epb & Fb).
    destruct (plen_same _ (view_lenv v l) _ _ _ _ (swf_uswf _ Ht) E0 Epa Hnd H) as [_ HL].
    assert (Hx : forall x, In x (map fst pa) -> a x = b x).
    { eapply (view_same v t s0 sg l a b p' pa (Lof v t l a) (Lof v t l b)); eauto.
      - intros x Hx. unfold Lof. rewrite HL; auto.
      - destruct Va as (_ & _ & Fpa). eapply (vfacts_ok v t s0 sg l a p' pa); eauto using swf_uswf. apply swf_loc, Ht.
      - destruct Vb as (_ & _ & Fpb). eapply (vfacts_ok v t s0 sg l b p' pb); eauto using swf_uswf. apply swf_loc, Ht. }
    split; [|exact Hx]. destruct Va as (Es & Ea & _), Vb as (_ & Eb & _).
    assert (spath sg b = Some pa); [|congruence]. eapply spath_ext; [exact Ea|]. intros x n Hn. symmetry. apply Hx.
    eapply in_fst; eauto.
  - discriminate.
Qed.
