(** * Foreign dimensions and run-time values: proofs *)

From Verif Require Export Cong Spec.

(** ** Signatures only mention names of the structure *)

Lemma view_accept v s s' q : view_sig v s = Some s' -> any_accept q s' = true ->
  any_accept q s = true \/ In q (view_names v).
Proof.
  intros Es Hq.
  destruct v as [d|d i|d n|d st|d st len|d st en|d st sr|d|d M m|d M m pd|d b M m ml|M m d|sl gl d ds|ds|d|ps|xa xb d];
    cbn [view_names].
  - inv Es. simpl in Hq. apply orb_true_iff in Hq. destruct Hq as [Hq|Hq]; [right; left; lia|auto].
  - simpl in Es. revert Es Hq. apply (sreplace_accept [d] _ _ _ (fun q => In q [d])).
    intros o o' Ho Hf Hq. left. one_dim Ho.
    + inv Hf. simpl. rewrite Hq. apply orb_true_r.
    + destruct (vstatic i); [|discriminate]. simpl. apply orb_true_iff. right. apply existsb_exists.
      exists o'. split; [eapply nthz_In, Hf|exact Hq].
  - simpl in Es. revert Es Hq. apply (sreplace_accept [d] _ _ _ (fun q => In q [d])).
    intros o o' Ho Hf Hq. left. one_dim Ho; [|discriminate]. inv Hf. exact Hq.
  - simpl in Es. revert Es Hq. apply (sreplace_accept [d] _ _ _ (fun q => In q [d])).
    intros o o' Ho Hf Hq. left. one_dim Ho; [inv Hf; exact Hq|].
    destruct (vstatic st); [|discriminate]. destruct (pick_sigs _ _ _) as [ss|] eqn:Ess; [|discriminate]. inv Hf.
    eapply pick_accept; eauto.
  - simpl in Es. revert Es Hq. apply (sreplace_accept [d] _ _ _ (fun q => In q [d])).
    intros o o' Ho Hf Hq. left. one_dim Ho; [inv Hf; exact Hq|].
    destruct (vstatic st); [|discriminate]. destruct (vstatic len); [|discriminate].
    destruct (pick_sigs _ _ _) as [ss|] eqn:Ess; [|discriminate]. inv Hf. eapply pick_accept; eauto.
  - simpl in Es. revert Es Hq. apply (sreplace_accept [d] _ _ _ (fun q => In q [d])).
    intros o o' Ho Hf Hq. left. one_dim Ho; [inv Hf; exact Hq|].
    destruct (vstatic st); [|discriminate]. destruct (vstatic en); [|discriminate].
    destruct (pick_sigs _ _ _) as [ss|] eqn:Ess; [|discriminate]. inv Hf. eapply pick_accept; eauto.
  - simpl in Es. revert Es Hq. apply (sreplace_accept [d] _ _ _ (fun q => In q [d])).
    intros o o' Ho Hf Hq. left. one_dim Ho; [inv Hf; exact Hq|].
    destruct (vstatic st); [|discriminate]. destruct (vstatic sr); [|discriminate]. destruct (_ =? 0); [discriminate|].
    destruct (pick_sigs _ _ _) as [ss|] eqn:Ess; [|discriminate]. inv Hf. eapply pick_accept; eauto.
  - simpl in Es. revert Es Hq. apply (sreplace_accept [d] _ _ _ (fun q => In q [d])).
    intros o o' Ho Hf Hq. left. one_dim Ho; [inv Hf; exact Hq|]. inv Hf. simpl in Hq |- *.
    destruct (d =? q); [reflexivity|]. simpl in *. apply existsb_exists in Hq. destruct Hq as (r & Hr & Hq).
    apply existsb_exists. exists r. split; [apply in_rev, Hr|exact Hq].
  - simpl in Es. destruct (_ || _); [discriminate|]. revert Es Hq. apply (sreplace_accept [d] _ _ _ (fun q => In q [d; M; m])).
    intros o o' Ho Hf Hq. one_dim Ho; [|discriminate]. inv Hf. simpl in *.
    apply orb_true_iff in Hq. destruct Hq as [Hq|Hq]; [right; right; left; lia|].
    apply orb_true_iff in Hq. destruct Hq as [Hq|Hq]; [right; right; right; left; lia|left; rewrite Hq; apply orb_true_r].
  - simpl in Es. destruct (_ || _); [discriminate|]. revert Es Hq. apply (sreplace_accept [d] _ _ _ (fun q => In q [d; M; m; pd])).
    intros o o' Ho Hf Hq. one_dim Ho; [|discriminate]. inv Hf. simpl in *.
    apply orb_true_iff in Hq. destruct Hq as [Hq|Hq]; [right; right; left; lia|].
    apply orb_true_iff in Hq. destruct Hq as [Hq|Hq]; [right; right; right; left; lia|].
    apply orb_true_iff in Hq. destruct Hq as [Hq|Hq]; [right; do 3 right; left; lia|left; rewrite Hq; apply orb_true_r].
  - simpl in Es. destruct (_ || _); [discriminate|]. revert Es Hq. apply (sreplace_accept [d] _ _ _ (fun q => In q [d; b; M; m])).
    intros o o' Ho Hf Hq. one_dim Ho; [|discriminate]. destruct (arglen_divmod _ _) as [[quo rem]|]; [|discriminate]. inv Hf. simpl in *.
    rewrite !orb_true_iff in *.
    destruct Hq as [Hq|[[Hq|[Hq|Hq]]|[[Hq|[Hq|Hq]]|Hq]]]; try discriminate; auto; right;
      [right; left; lia|right; right; left; lia|do 3 right; left; lia|right; right; left; lia|do 3 right; left; lia].
  - apply merge_peel in Es. destruct (peel_accept _ _ _ _ _ _ Es Hq) as [H|H]; [auto|right; subst; simpl; auto].
  - apply zcurve_peel in Es. destruct (peel_accept _ _ _ _ _ _ Es Hq) as [H|H]; [auto|right; subst; simpl; auto].
  - right. eapply build_accept; eauto.
  - simpl in Es. destruct (sig_find_dim d [] s) as [[| |x al r|]|]; try discriminate.
    destruct (sreplace _ _ s) as [r'|] eqn:Er; [|discriminate]. inv Es. simpl in Hq.
    apply orb_true_iff in Hq. destruct Hq as [Hq|Hq]; [right; left; lia|]. revert Er Hq. apply (sreplace_accept [d] _ _ _ (fun q => In q [d])).
    intros o o' Ho Hf Hq. left. one_dim Ho; [|discriminate]. inv Hf. simpl. rewrite Hq. apply orb_true_r.
  - simpl in Es. destruct (_ && _); [|discriminate]. inv Es. apply rename_accept in Hq. destruct Hq as (x & Hx & <-).
    destruct (in_dec Z.eq_dec x (map fst ps)) as [Hi|Hi].
    + right. apply in_or_app. right. apply rename_dim_in in Hi. apply (in_map snd) in Hi. exact Hi.
    + left. rewrite rename_dim_out by exact Hi. exact Hx.
  - simpl in Es. destruct (_ || _); [discriminate|].
    destruct (sig_find_dim xa [] s) as [[| |x1 al1 r1|]|]; try discriminate.
    destruct (sig_find_dim xb [] s) as [[| |x2 al2 r2|]|]; try discriminate.
    destruct (arglen_eqb _ _); [|discriminate]. destruct (sreplace _ _ s) as [r'|] eqn:Er; [|discriminate]. inv Es. simpl in Hq.
    apply orb_true_iff in Hq. destruct Hq as [Hq|Hq]; [right; do 2 right; left; lia|].
    revert Er Hq. apply (sreplace_accept [xa; xb] _ _ _ (fun q => In q [xa; xb; d])).
    intros o o' [(q0 & al & r & _ & ->)|(q0 & rs & _ & ->)] Hf Hq; [|discriminate]. left. inv Hf. simpl. rewrite Hq. apply orb_true_r.
Qed.

Lemma Forall2_In_r {A B} (P : A -> B -> Prop) l m y : Forall2 P l m -> In y m -> exists x, In x l /\ P x y.
Proof.
  induction 1 as [|a b l m Hab _ IH]; simpl; [contradiction|]. intros [<-|H]; [eauto|].
  destruct (IH H) as (x & Hx & Hp). eauto.
Qed.

Lemma signature_names s : forall sg q, signature s = Some sg -> In q (sdims sg) -> In q (names s).
Proof.
  induction s as [c|d ts IH|d t IH|v t IH|ts IH] using struct_ind'; intros sg q E Hq; rewrite <- accept_sdims in Hq.
  - inv E. discriminate.
  - destruct (signature_Tuple_inv _ _ _ E) as (ss & Ess & _ & ->). simpl in Hq. apply orb_true_iff in Hq.
    cbn [names]. destruct Hq as [Hq|Hq]; [left; lia|right]. apply existsb_exists in Hq. destruct Hq as (r & Hr & Hq).
    destruct (Forall2_In_r _ _ _ r Ess Hr) as (t & Ht & Et). apply in_flat_map. exists t. split; [exact Ht|].
    rewrite Forall_forall in IH. apply (IH t Ht r q Et). apply accept_sdims, Hq.
  - destruct (signature_Vector_inv _ _ _ E) as (s & Et & _ & ->). simpl in Hq. apply orb_true_iff in Hq.
    cbn [names]. destruct Hq as [Hq|Hq]; [left; lia|right]. apply (IH s q Et). apply accept_sdims, Hq.
  - destruct (signature_View_inv _ _ _ E) as (s & Et & Ev). cbn [names]. apply in_or_app.
    destruct (view_accept _ _ _ _ Ev Hq) as [H|H]; [right|auto]. apply (IH s q Et). apply accept_sdims, H.
  - cbn [signature] in E. destruct (omap signature ts) as [[|s0 ss]|] eqn:Ess; try discriminate.
    destruct (union_accept _ _ _ _ E Hq) as (x & Hx & Hq'). apply (omap_Some_In _ _ _ Ess) in Hx.
    destruct Hx as (t & Ht & Et). cbn [names]. apply in_flat_map. exists t. split; [exact Ht|].
    rewrite Forall_forall in IH. apply (IH t Ht x q Et). apply accept_sdims, Hq'.
Qed.

(** ** Instances *)

Lemma congruence_eq : congruence eq.
Proof.
  split; intros; subst; auto. f_equal. replace l' with l; [|].
  - clear. induction (zc_indices sl gl a' l); constructor; auto.
  - induction H0; congruence.
Qed.

(** Two values of the same C++ type: equal constants, or both run-time values. *)
Definition same_vtype (a b : val) : Prop := vstatic a = vstatic b.

Lemma same_vtype_inv a b : same_vtype a b ->
  (exists x y, a = Sta x /\ b = Sta y /\ u64 x = u64 y) \/ (vstatic a = None /\ vstatic b = None).
Proof.
  unfold same_vtype. destruct a, b; simpl; intros H; try discriminate; auto. left. inv H. eauto.
Qed.

Lemma u64_cong2 (f : Z -> Z -> Z) a a' b b' : (forall x y, u64 (f x y) = u64 (f (u64 x) (u64 y))) ->
  u64 a = u64 a' -> u64 b = u64 b' -> u64 (f a b) = u64 (f a' b').
Proof. intros H Ea Eb. rewrite H, Ea, Eb. symmetry. apply H. Qed.

Lemma vstatic_dyn2 f a b : vstatic (dyn2 f a b) = None.
Proof. unfold dyn2. destruct (vz a), (vz b); reflexivity. Qed.
Lemma vstatic_dyn2nz f a b : vstatic (dyn2nz f a b) = None.
Proof. unfold dyn2nz. destruct (vz a), (vz b); try reflexivity. destruct (_ =? 0); reflexivity. Qed.
Lemma is_sta_static k a : is_sta k a = match vstatic a with Some x => x =? k | None => false end.
Proof. destruct a; reflexivity. Qed.

Lemma zc_indices_dyn sl gl i l : Forall (fun v => vstatic v = None) (zc_indices sl gl i l).
Proof.
  unfold zc_indices. destruct (vz i); [destruct (omap vz l)|]; apply Forall_forall; intros v Hv; apply in_map_iff in Hv;
    destruct Hv as (k & <- & _); try reflexivity.
  destruct (zc_special _ _ _); [|reflexivity]. destruct (_ <? _); reflexivity.
Qed.

Lemma zc_indices_length sl gl i l : List.length (zc_indices sl gl i l) = List.length l.
Proof. unfold zc_indices. destruct (vz i); [destruct (omap vz l)|]; rewrite map_length, ?seq_length; reflexivity. Qed.

Ltac vt := match goal with
  | H : same_vtype _ _ |- _ => apply same_vtype_inv in H; destruct H as [(? & ? & -> & -> & ?)|[? ?]]; vt
  | _ => idtac end.
Ltac dynv := repeat match goal with H : vstatic ?a = None |- _ => destruct a; simpl in H; try discriminate H; clear H end.

Lemma congruence_same_vtype : congruence same_vtype.
Proof.
  split.
  - reflexivity.
  - intros a b H. exact H.
  - intros a a' b b' Ha Hb. vt; unfold same_vtype.
    + simpl. f_equal. rewrite !u64_u64. apply (u64_cong2 Z.add); auto. intros; rewrite u64_add_l, u64_add_r; reflexivity.
    + dynv; unfold vadd, is_sta; rewrite ?H; destruct (u64 _ =? 0); rewrite ?vstatic_dyn2; reflexivity.
    + dynv; unfold vadd, is_sta; rewrite ?H1; destruct (u64 _ =? 0); rewrite ?vstatic_dyn2; reflexivity.
    + dynv; reflexivity.
  - intros a a' b b' Ha Hb. vt; unfold same_vtype.
    + simpl. f_equal. rewrite !u64_u64. apply (u64_cong2 Z.sub); auto. intros; rewrite u64_sub_l, u64_sub_r; reflexivity.
    + dynv; unfold vsub, is_sta; rewrite ?H; destruct (u64 _ =? 0); rewrite ?vstatic_dyn2; reflexivity.
    + dynv; unfold vsub, is_sta; rewrite ?H1; destruct (u64 _ =? 0); rewrite ?vstatic_dyn2; reflexivity.
    + dynv; reflexivity.
  - intros a a' b b' Ha Hb. vt; unfold same_vtype.
    + simpl. f_equal. rewrite !u64_u64. apply (u64_cong2 Z.mul); auto. intros; rewrite u64_mul_l, u64_mul_r; reflexivity.
    + dynv; unfold vmul, is_sta; rewrite ?H; try destruct (u64 _ =? 0); rewrite ?vstatic_dyn2; reflexivity.
    + dynv; unfold vmul, is_sta; rewrite ?H1; try destruct (u64 _ =? 0); rewrite ?vstatic_dyn2; reflexivity.
    + dynv; reflexivity.
  - intros a a' b b' Ha Hb. vt; unfold same_vtype.
    + simpl. rewrite H, H0. destruct (_ =? 0); reflexivity.
    + dynv; unfold vdiv, is_sta; rewrite ?H; try destruct (u64 _ =? 0); rewrite ?vstatic_dyn2nz; reflexivity.
    + dynv; unfold vdiv, is_sta; rewrite ?H1; try destruct (u64 _ =? 0); rewrite ?vstatic_dyn2nz; reflexivity.
    + dynv; unfold vdiv, is_sta; rewrite ?H1; try destruct (u64 _ =? 0); rewrite ?vstatic_dyn2nz; reflexivity.
  - intros a a' b b' Ha Hb. vt; unfold same_vtype.
    + simpl. rewrite H, H0. destruct (_ =? 0); reflexivity.
    + dynv; unfold vmod, is_sta; rewrite ?H; try destruct (u64 _ =? 0); rewrite ?vstatic_dyn2nz; reflexivity.
    + dynv; unfold vmod, is_sta; rewrite ?H1; try destruct (u64 _ =? 0); rewrite ?vstatic_dyn2nz; reflexivity.
    + dynv; unfold vmod, is_sta; rewrite ?H1; try destruct (u64 _ =? 0); rewrite ?vstatic_dyn2nz; reflexivity.
  - intros a a' b b' _ _. unfold same_vtype, vlt. destruct (vz a), (vz b), (vz a'), (vz b'); reflexivity.
  - intros a a' b b' _ _. unfold same_vtype. rewrite !vstatic_dyn2. reflexivity.
  - intros sl gl a a' l l' _ Hl. apply Forall2_len in Hl.
    pose proof (zc_indices_dyn sl gl a l) as A. pose proof (zc_indices_dyn sl gl a' l') as B.
    pose proof (zc_indices_length sl gl a l) as La. pose proof (zc_indices_length sl gl a' l') as Lb.
    rewrite Hl, <- Lb in La. revert A B La. generalize (zc_indices sl gl a l) (zc_indices sl gl a' l').
    clear. induction l as [|x l IH]; intros [|y m] A B E; simpl in E; try discriminate; constructor.
    + inv A. inv B. unfold same_vtype. congruence.
    + inv A. inv B. auto.
Qed.

(** ** Statements *)

(** The states have the same entries for the dimensions in [P]. *)
Definition same_entries (P : dim -> Prop) (st st' : state) : Prop :=
  forall d, P d -> get (Idx d) st = get (Idx d) st' /\ get (Len d) st = get (Len d) st'.

(** The entries for the dimensions in [P] have the same types. *)
Definition same_entry_types (P : dim -> Prop) (st st' : state) : Prop :=
  forall d, P d -> orel same_vtype (get (Idx d) st) (get (Idx d) st') /\ orel same_vtype (get (Len d) st) (get (Len d) st').

(** The structure is written with the dimension name [d]. *)
Definition mentions (s : struct) (d : dim) : Prop := In d (names s).

Lemma struct_rel_refl (R : val -> val -> Prop) : (forall x, R x x) -> forall s, struct_rel R s s.
Proof.
  intros HR. induction s as [c|d ts IH|d t IH|v t IH|ts IH] using struct_ind'; constructor; auto.
  - induction IH; constructor; auto.
  - destruct v; constructor; auto.
  - induction IH; constructor; auto.
Qed.

Lemma eq_rel_eq {A} (x y : option A) : x = y -> orel eq x y.
Proof. intros ->. apply orel_eq_refl. Qed.

Lemma scalar_t_rel R N s s' st st' : congruence R -> struct_rel R s s' -> inN N s -> srel R N st st' -> scalar_t s st = scalar_t s' st'.
Proof.
  intros HR Hs HN H. unfold scalar_t. rewrite <- (signature_rel R HR s s' Hs).
  destruct (signature s) as [sg|] eqn:E; [|reflexivity]. cbn [obind].
  apply (sig_get_scalar_rel R HR N); [|exact H]. intros d Hd. apply HN. eapply signature_names; eauto.
Qed.

Section Answers.
  Variable R : val -> val -> Prop.
  Hypothesis HR : congruence R.
  Variables s s' : struct.
  Hypothesis Hs : struct_rel R s s'.
  Hypothesis Hc : signature s <> None.
  Variables st st' : state.
  Hypothesis He : srel R (mentions s) st st'.

  Lemma in_mentions : inN (mentions s) s. Proof. intros d Hd. exact Hd. Qed.

  Lemma ans_length q : srel R (eq q) st st' -> has_length s q st = has_length s' q st' /\ orel R (length_ s q st) (length_ s' q st').
  Proof.
    intros Hq. apply (lenops_rel R HR (fun d => mentions s d \/ q = d)); auto.
    - intros d Hd. left. exact Hd.
    - intros d [H|H]; [apply He, H|apply Hq, H].
  Qed.
  Lemma ans_has_size : has_size s st = has_size s' st'.
  Proof. apply (has_size_rel R HR (mentions s)); auto using in_mentions. Qed.
  Lemma ans_size : orel R (size_ s st) (size_ s' st').
  Proof. apply (size_rel R HR (mentions s)); auto using in_mentions. Qed.
  Lemma ans_align : orel R (align_ s st) (align_ s' st').
  Proof. apply (align_rel R HR (mentions s)); auto using in_mentions. Qed.
  Lemma ans_has_offset_of x : has_offset_of x s st = has_offset_of x s' st'.
  Proof. apply (has_offset_of_rel R HR (mentions s)); auto using in_mentions. Qed.
  Lemma ans_offset_of x : orel R (offset_of x s st (Sta 0)) (offset_of x s' st' (Sta 0)).
  Proof. apply (offset_of_rel R HR (mentions s)); auto using in_mentions. apply (cg_sta R HR). Qed.
  Lemma ans_has_offset : has_offset s st = has_offset s' st'.
  Proof.
    unfold has_offset. rewrite (scalar_t_rel R (mentions s) s s' st st' HR Hs in_mentions He). destruct (scalar_t s' st'); [|reflexivity].
    apply ans_has_offset_of.
  Qed.
  Lemma ans_offset : orel R (offset s st) (offset s' st').
  Proof.
    unfold offset. rewrite (scalar_t_rel R (mentions s) s s' st st' HR Hs in_mentions He). destruct (scalar_t s' st'); [|exact I].
    apply ans_offset_of.
  Qed.
End Answers.

Lemma same_entries_srel P st st' : same_entries P st st' -> srel eq P st st'.
Proof. intros H d Hd. destruct (H d Hd) as [E1 E2]. split; apply eq_rel_eq; assumption. Qed.

Theorem foreign_ignored s st st' : signature s <> None -> same_entries (mentions s) st st' ->
  has_size s st = has_size s st' /\ size_ s st = size_ s st' /\ align_ s st = align_ s st' /\
  has_offset s st = has_offset s st' /\ offset s st = offset s st' /\
  (forall x, has_offset_of x s st = has_offset_of x s st' /\ offset_of x s st (Sta 0) = offset_of x s st' (Sta 0)) /\
  (forall q, same_entries (eq q) st st' -> has_length s q st = has_length s q st' /\ length_ s q st = length_ s q st').
Proof.
  intros Hc He. pose proof congruence_eq as HR. pose proof (struct_rel_refl eq (fun x => eq_refl) s) as Hs.
  apply same_entries_srel in He.
  refine (conj _ (conj _ (conj _ (conj _ (conj _ (conj _ _)))))).
  - eapply ans_has_size; eauto.
  - apply orel_eq. eapply ans_size; eauto.
  - apply orel_eq. eapply ans_align; eauto.
  - eapply ans_has_offset; eauto.
  - apply orel_eq. eapply ans_offset; eauto.
  - intros x. split; [eapply ans_has_offset_of; eauto|apply orel_eq; eapply ans_offset_of; eauto].
  - intros q Hq. destruct (ans_length eq HR s s Hs Hc st st' He q (same_entries_srel _ _ _ Hq)) as [A B].
    split; [exact A|apply orel_eq, B].
Qed.

Theorem compile_time s s' st st' : struct_rel same_vtype s s' -> signature s <> None -> same_entry_types (mentions s) st st' ->
  has_size s st = has_size s' st' /\ orel same_vtype (size_ s st) (size_ s' st') /\ orel same_vtype (align_ s st) (align_ s' st') /\
  has_offset s st = has_offset s' st' /\ orel same_vtype (offset s st) (offset s' st') /\
  (forall x, has_offset_of x s st = has_offset_of x s' st' /\ orel same_vtype (offset_of x s st (Sta 0)) (offset_of x s' st' (Sta 0))) /\
  (forall q, same_entry_types (eq q) st st' -> has_length s q st = has_length s' q st' /\ orel same_vtype (length_ s q st) (length_ s' q st')).
Proof.
  intros Hs Hc He. pose proof congruence_same_vtype as HR.
  refine (conj _ (conj _ (conj _ (conj _ (conj _ (conj _ _)))))).
  - eapply ans_has_size; eauto.
  - eapply ans_size; eauto.
  - eapply ans_align; eauto.
  - eapply ans_has_offset; eauto.
  - eapply ans_offset; eauto.
  - intros x. split; [eapply ans_has_offset_of; eauto|eapply ans_offset_of; eauto].
  - intros q Hq. eapply ans_length; eauto.
Qed.

Lemma with_other t v st u : t <> u -> get u (with_ [(t, v)] st) = get u st.
Proof.
  intros H. rewrite get_with. simpl. destruct (tag_eqb_spec u t); [congruence|].
  reflexivity.
Qed.

Theorem add_foreign s st d v : signature s <> None -> ~ mentions s d ->
  offset s (with_ [(Idx d, v)] st) = offset s st /\ offset s (with_ [(Len d, v)] st) = offset s st /\
  size_ s (with_ [(Idx d, v)] st) = size_ s st /\ size_ s (with_ [(Len d, v)] st) = size_ s st.
Proof.
  intros Hc Hd.
  assert (H : forall t, t = Idx d \/ t = Len d -> same_entries (mentions s) (with_ [(t, v)] st) st).
  { intros t Ht x Hx. split; apply with_other; destruct Ht; subst t; congruence. }
  pose proof (foreign_ignored s _ _ Hc (H (Idx d) (or_introl eq_refl))) as A.
  pose proof (foreign_ignored s _ _ Hc (H (Len d) (or_intror eq_refl))) as B. tauto.
Qed.
