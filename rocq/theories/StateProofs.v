(** * Proofs about states (C01-C05) *)

From Verif Require Export StateFacts.

(** A state is defined if no entry has an undefined value. *)
Definition defined (st : state) : Prop := forall t v, get t st = Some v -> vz v <> None.
(** A state is dynamic if every entry is a run-time number. *)
Definition dynamic (st : state) : Prop := forall t v, get t st = Some v -> exists z, v = Dyn z.
(** Reading a tag as a number, an absent tag as 0. *)
Definition rd0 (t : tag) (st : state) : option Z :=
  match get t st with Some v => vz v | None => Some 0 end.

Lemma st_and_assoc a b c : st_and a (st_and b c) ≡ st_and (st_and a b) c.
Proof. intros t. rewrite !get_st_and. destruct (get t c); reflexivity. Qed.
Lemma st_and_idem a : st_and a a ≡ a.
Proof. intros t. rewrite !get_st_and. destruct (get t a); reflexivity. Qed.
Lemma st_and_empty_l a : st_and [] a ≡ a.
Proof. intros t. rewrite !get_st_and. destruct (get t a); reflexivity. Qed.
Lemma st_and_empty_r a : st_and a [] ≡ a.
Proof. intros t. rewrite !get_st_and. reflexivity. Qed.

(** ** Comparison *)

Lemma forallb_tags (p : tag -> bool) st :
  forallb (fun q => p (fst q)) st = true <-> (forall t, has t st = true -> p t = true).
Proof.
  rewrite forallb_forall. split.
  - intros H t Ht. apply has_In in Ht. apply in_map_iff in Ht. destruct Ht as (q & <- & Hq). auto.
  - intros H q Hq. apply H, has_In, in_map, Hq.
Qed.

Lemma st_eqb_spec a b :
  st_eqb a b = true <->
  (forall t, has t a = has t b) /\
  (forall t x, get t a = Some x -> exists y n, get t b = Some y /\ vz x = Some n /\ vz y = Some n).
Proof.
  unfold st_eqb. rewrite !andb_true_iff.
  rewrite (forallb_tags (fun t => has t b)), (forallb_tags (fun t => has t a)),
    (forallb_tags (fun t => get_rel veqb a b t)).
  split.
  - intros [[H1 H2] H3]. split.
    + intros t. specialize (H1 t). specialize (H2 t). destruct (has t a), (has t b); auto.
      symmetry; auto.
    + intros t x Hx. specialize (H3 t). unfold get_rel, has in H3. rewrite Hx in H3.
      specialize (H3 eq_refl). destruct (get t b) as [y|] eqn:Ey; [|discriminate].
      unfold veqb in H3. destruct (vz x) as [n|] eqn:En; [|discriminate].
      destruct (vz y) as [m|] eqn:Em; [|discriminate]. apply Z.eqb_eq in H3. subst m.
      exists y, n. auto.
  - intros [H1 H2]. repeat split.
    + intros t Ht. rewrite <- H1. exact Ht.
    + intros t Ht. rewrite H1. exact Ht.
    + intros t Ht. apply has_true in Ht. destruct Ht as [x Hx].
      destruct (H2 t x Hx) as (y & n & Hy & Hn & Hm).
      unfold get_rel. rewrite Hx, Hy. unfold veqb. rewrite Hn, Hm. apply Z.eqb_refl.
Qed.

Lemma st_leb_spec a b :
  st_leb a b = true <->
  (forall t x, get t a = Some x ->
     exists y n m, get t b = Some y /\ vz x = Some n /\ vz y = Some m /\ n <= m).
Proof.
  unfold st_leb. rewrite !andb_true_iff.
  rewrite (forallb_tags (fun t => has t b)), (forallb_tags (fun t => get_rel vleb a b t)).
  split.
  - intros [H1 H3] t x Hx. specialize (H3 t). unfold get_rel, has in H3. rewrite Hx in H3.
    specialize (H3 eq_refl). destruct (get t b) as [y|] eqn:Ey; [|discriminate].
    unfold vleb in H3. destruct (vz x) as [n|] eqn:En; [|discriminate].
    destruct (vz y) as [m|] eqn:Em; [|discriminate]. apply Z.leb_le in H3.
    exists y, n, m. auto.
  - intros H2. split.
    + intros t Ht. apply has_true in Ht. destruct Ht as [x Hx].
      destruct (H2 t x Hx) as (y & n & m & Hy & _). apply has_true. eauto.
    + intros t Ht. apply has_true in Ht. destruct Ht as [x Hx].
      destruct (H2 t x Hx) as (y & n & m & Hy & Hn & Hm & Hle).
      unfold get_rel. rewrite Hx, Hy. unfold vleb. rewrite Hn, Hm. apply Z.leb_le, Hle.
Qed.

Lemma st_eqb_refl a : defined a -> st_eqb a a = true.
Proof.
  intros Hd. apply st_eqb_spec. split; [reflexivity|]. intros t x Hx.
  specialize (Hd t x Hx). destruct (vz x) as [n|] eqn:E; [|contradiction]. exists x, n. auto.
Qed.

Lemma st_eqb_sym a b : st_eqb a b = true -> st_eqb b a = true.
Proof.
  rewrite !st_eqb_spec. intros [H1 H2]. split; [intros t; symmetry; apply H1|].
  intros t y Hy. assert (Ha : has t a = true) by (rewrite H1; apply has_true; eauto).
  apply has_true in Ha. destruct Ha as [x Hx]. destruct (H2 t x Hx) as (y' & n & Hy' & Hn & Hm).
  rewrite Hy in Hy'. inv Hy'. exists x, n. auto.
Qed.

Lemma st_eqb_trans a b c : st_eqb a b = true -> st_eqb b c = true -> st_eqb a c = true.
Proof.
  rewrite !st_eqb_spec. intros [H1 H2] [H3 H4]. split; [intros t; rewrite H1; apply H3|].
  intros t x Hx. destruct (H2 t x Hx) as (y & n & Hy & Hn & Hm).
  destruct (H4 t y Hy) as (z & n' & Hz & Hn' & Hm'). exists z, n. repeat split; auto; congruence.
Qed.

Lemma st_leb_refl a : defined a -> st_leb a a = true.
Proof.
  intros Hd. apply st_leb_spec. intros t x Hx.
  specialize (Hd t x Hx). destruct (vz x) as [n|] eqn:E; [|contradiction]. exists x, n, n. auto using Z.le_refl.
Qed.

Lemma st_leb_trans a b c : st_leb a b = true -> st_leb b c = true -> st_leb a c = true.
Proof.
  rewrite !st_leb_spec. intros H2 H4 t x Hx. destruct (H2 t x Hx) as (y & n & m & Hy & Hn & Hm & Hle).
  destruct (H4 t y Hy) as (z & n' & m' & Hz & Hn' & Hm' & Hle').
  rewrite Hm in Hn'. inv Hn'. exists z, n, m'. repeat split; auto. lia.
Qed.

Lemma st_leb_antisym a b : st_leb a b = true -> st_leb b a = true -> st_eqb a b = true.
Proof.
  rewrite !st_leb_spec, st_eqb_spec. intros H2 H4. split.
  - intros t. destruct (get t a) as [x|] eqn:Ea; destruct (get t b) as [y|] eqn:Eb;
      unfold has; rewrite Ea, Eb; auto.
    + destruct (H2 t x Ea) as (y & n & m & Hy & _). congruence.
    + destruct (H4 t y Eb) as (x & n & m & Hx & _). congruence.
  - intros t x Hx. destruct (H2 t x Hx) as (y & n & m & Hy & Hn & Hm & Hle).
    destruct (H4 t y Hy) as (x' & n' & m' & Hx' & Hn' & Hm' & Hle').
    rewrite Hx in Hx'. inv Hx'. rewrite Hn in Hm'. inv Hm'. rewrite Hm in Hn'. inv Hn'.
    assert (m' = n') by lia. subst. exists y, n'. auto.
Qed.

(** ** Arithmetic on dynamic states *)

Lemma items_restrict_get kept st r t :
  items_restrict kept st = Some r ->
  get t r = match get t kept, get t st with
            | Some old, Some v => Some (as_type_of old v)
            | _, _ => None
            end.
Proof.
  revert r. induction kept as [|[t' old] kept IH]; intros r; simpl.
  - intros E; inv E. reflexivity.
  - destruct (get t' st) as [v|] eqn:Ev; [|discriminate].
    destruct (items_restrict kept st) as [r'|]; [|discriminate]. intros E; inv E. simpl.
    destruct (tag_eqb_spec t t') as [->|Hne]; [rewrite Ev; reflexivity|]. apply IH. reflexivity.
Qed.

Lemma items_restrict_ok kept st :
  (forall t, has t kept = true -> has t st = true) -> exists r, items_restrict kept st = Some r.
Proof.
  intros H. assert (H' : forall p, In p kept -> has (fst p) st = true).
  { intros p Hp. apply H, has_In, in_map, Hp. }
  clear H. induction kept as [|[t old] kept IH]; simpl; [eauto|].
  destruct IH as [r ->]; [intros p Hp; apply H'; right; exact Hp|].
  specialize (H' (t, old) (or_introl eq_refl)). apply has_true in H'. destruct H' as [v Hv].
  simpl in Hv. rewrite Hv. eauto.
Qed.

Lemma binop_same_get f a b t :
  get t (st_binop_same f a b) =
  match get t a with
  | Some old => Some (as_type_of old (match get t b with Some y => f old y | None => Undef end))
  | None => None
  end.
Proof.
  unfold st_binop_same.
  assert (Hgen : forall l, (forall t, get t l <> None -> get t l = get t a) \/ True ->
     get t (map (fun p => (fst p, as_type_of (snd p)
                  (match get (fst p) a, get (fst p) b with
                   | Some x, Some y => f x y | _, _ => Undef end))) l) =
     match get t l with
     | Some old => Some (as_type_of old (match get t a, get t b with
                   | Some x, Some y => f x y | _, _ => Undef end))
     | None => None end).
  { induction l as [|[t' v] l IH]; intros Hl; simpl; [reflexivity|].
    destruct (tag_eqb_spec t t') as [->|]; [reflexivity|]. apply IH. right; exact I. }
  rewrite Hgen by (right; exact I). destruct (get t a); reflexivity.
Qed.

Lemma st_neg_get a t :
  get t (st_neg a) = match get t a with Some v => Some (as_type_of v (vneg v)) | None => None end.
Proof.
  unfold st_neg.
  assert (Hgen : forall l, get t (map (fun p => (fst p, as_type_of (snd p)
                          (match get (fst p) a with Some v => vneg v | None => Undef end))) l) =
     match get t l with
     | Some old => Some (as_type_of old (match get t a with Some v => vneg v | None => Undef end))
     | None => None end).
  { induction l as [|[t' v] l IH]; simpl; [reflexivity|].
    destruct (tag_eqb_spec t t') as [->|]; [reflexivity|exact IH]. }
  rewrite Hgen. destruct (get t a); reflexivity.
Qed.

Lemma vz_as_dyn z v : vz (as_type_of (Dyn z) v) = vz v.
Proof. apply vz_vdyn. Qed.

Lemma same_type_has a b : same_state_type a b = true -> forall t, has t a = has t b.
Proof.
  revert b. induction a as [|[t1 v1] a IH]; intros [|[t2 v2] b]; simpl; try discriminate; [reflexivity|].
  rewrite andb_true_iff. intros [H1 H2] t. unfold same_item_type in H1. simpl in H1.
  apply andb_true_iff in H1. destruct H1 as [H1 _]. destruct (tag_eqb_spec t1 t2) as [->|]; [|discriminate].
  specialize (IH b H2 t). unfold has in *. simpl. destruct (tag_eqb t t2); [reflexivity|exact IH].
Qed.

Section Binop.
  (* a pointwise binary operation: [f] on values, [g] on numbers; [nb] prepares the right operand *)
  Variables (f : val -> val -> val) (g : Z -> Z -> Z) (nb : state -> state).
  Hypothesis f_vz : forall a b, vz (f a b) =
    match vz a, vz b with Some x, Some y => Some (u64 (g x y)) | _, _ => None end.
  Hypothesis nb_has : forall st t, has t (nb st) = has t st.
  Hypothesis nb_vz : forall st t v, dynamic st -> get t st = Some v ->
    exists v' x, get t (nb st) = Some v' /\ vz v = Some x /\ vz v' = Some (u64 (g 0 x)).
  Hypothesis g_0 : forall x, 0 <= x < W -> u64 (g x 0) = x.

  Lemma dyn_vz st t v : dynamic st -> get t st = Some v -> exists x, vz v = Some x.
  Proof. intros Hd Hv. destruct (Hd t v Hv) as [z ->]. simpl. eauto. Qed.

  Lemma binop_same_ok a b :
    dynamic a -> (forall t, has t a = has t b) ->
    forall t, has t (st_binop_same f a b) = has t a || has t b /\
      (forall x y, rd0 t a = Some x -> rd0 t b = Some y -> rd0 t (st_binop_same f a b) = Some (u64 (g x y))).
  Proof using f_vz g_0. clear nb nb_has nb_vz.
    intros Ha Hab t. split.
    - rewrite <- Hab, orb_diag. unfold has. rewrite binop_same_get. destruct (get t a); reflexivity.
    - intros x y Hx Hy. specialize (Hab t). unfold rd0, has in *. rewrite binop_same_get.
      destruct (get t a) as [va|] eqn:Ea.
      + destruct (Ha t va Ea) as [z ->]. destruct (get t b) as [vb|]; [|discriminate].
        rewrite vz_as_dyn, f_vz, Hx, Hy. reflexivity.
      + destruct (get t b); [discriminate|]. inv Hx. inv Hy. rewrite g_0; [reflexivity|]. pose proof W_pos; lia.
  Qed.

  Lemma binop_gen_ok a b :
    dynamic a -> dynamic b ->
    exists c, st_binop_gen f nb a b = Some c /\
      forall t, has t c = has t a || has t b /\
      (forall x y, rd0 t a = Some x -> rd0 t b = Some y -> rd0 t c = Some (u64 (g x y))).
  Proof.
    intros Ha Hb. unfold st_binop_gen.
    destruct (items_restrict_ok (remove (map fst b) a) a) as [a' Ea'].
    { intros t. rewrite has_remove. intros H. apply andb_true_iff in H. tauto. }
    destruct (items_restrict_ok (remove (map fst a) b) b) as [b' Eb'].
    { intros t. rewrite has_remove. intros H. apply andb_true_iff in H. tauto. }
    rewrite Ea', Eb'.
    assert (Tm : forall t st, tag_mem t (map fst st) = has t st).
    { intros t st. apply eq_true_iff_eq. rewrite tag_mem_In, has_In. reflexivity. }
    assert (Ga' : forall t, get t a' = if has t b then None else
        match get t a with Some v => Some (vdyn v) | None => None end).
    { intros t. rewrite (items_restrict_get _ _ _ t Ea'), get_remove, Tm.
      destruct (has t b); [reflexivity|]. destruct (get t a) as [v|] eqn:E; [|reflexivity].
      destruct (Ha t v E) as [z ->]. reflexivity. }
    assert (Gb' : forall t, get t b' = if has t a then None else
        match get t b with Some v => Some (vdyn v) | None => None end).
    { intros t. rewrite (items_restrict_get _ _ _ t Eb'), get_remove, Tm.
      destruct (has t a); [reflexivity|]. destruct (get t b) as [v|] eqn:E; [|reflexivity].
      destruct (Hb t v E) as [z ->]. reflexivity. }
    assert (Db' : dynamic b').
    { intros t v. rewrite Gb'. destruct (has t a); [discriminate|].
      destruct (get t b) as [w|] eqn:E; [|discriminate]. destruct (Hb t w E) as [z ->].
      intros E'. injection E' as <-. exists (u64 z). reflexivity. }
    set (base := st_and a' (nb b')).
    assert (Hbase : forall t, has t base = xorb (has t a) (has t b)).
    { intros t. unfold base. unfold has at 1. rewrite get_st_and.
      pose proof (nb_has b' t) as Hn. unfold has in *. specialize (Ga' t). specialize (Gb' t).
      unfold has in *. destruct (get t a), (get t b); rewrite Ga' in *; rewrite Gb' in Hn;
        destruct (get t (nb b')); try discriminate; reflexivity. }
    set (common := remove (map fst base) a).
    assert (Gc : forall t, get t common = if has t b then get t a else None).
    { intros t. unfold common. rewrite get_remove, Tm, Hbase. unfold has.
      destruct (get t a), (get t b); reflexivity. }
    destruct (items_restrict_ok common a) as [ca Eca].
    { intros t. unfold has at 1. rewrite Gc. destruct (has t b); [|discriminate].
      unfold has. destruct (get t a); auto. }
    destruct (items_restrict_ok common b) as [cb Ecb].
    { intros t. unfold has at 1. rewrite Gc. destruct (has t b); [reflexivity|discriminate]. }
    rewrite Eca, Ecb. eexists; split; [reflexivity|]. intros t.
    assert (Gcomm : forall t, get t (st_binop_same f ca cb) =
        match get t a, get t b with
        | Some x, Some y => Some (vdyn (f (vdyn x) (vdyn y)))
        | _, _ => None end).
    { intros u. rewrite binop_same_get.
      rewrite (items_restrict_get _ _ _ u Eca), (items_restrict_get _ _ _ u Ecb), Gc.
      unfold has. destruct (get u a) as [va|] eqn:Eua; destruct (get u b) as [vb|] eqn:Eub; auto.
      destruct (Ha u va Eua) as [z ->]. reflexivity. }
    split.
    - unfold has at 1. rewrite get_st_and, Gcomm. specialize (Hbase t).
      unfold has in *. destruct (get t a), (get t b), (get t base); try discriminate; reflexivity.
    - intros x y Hx Hy. unfold rd0 in *. rewrite get_st_and, Gcomm.
      unfold base. rewrite get_st_and. pose proof (nb_has b' t) as Hn. unfold has in Hn.
      rewrite Ga'. rewrite Gb' in Hn. unfold has in *.
      destruct (get t a) as [va|] eqn:Eta; destruct (get t b) as [vb|] eqn:Etb.
      + destruct (get t (nb b')); [discriminate|].
        rewrite vz_vdyn, f_vz, !vz_vdyn, Hx, Hy. reflexivity.
      + destruct (get t (nb b')); [discriminate|]. inv Hy.
        rewrite vz_vdyn, Hx, g_0; [reflexivity|]. eapply vz_range, Hx.
      + inv Hx. destruct (nb_vz b' t (vdyn vb) Db') as (v' & x & Hv' & Hx & Hz).
        { rewrite Gb'. unfold has. rewrite Eta, Etb. reflexivity. }
        rewrite Hv', Hz. rewrite vz_vdyn, Hy in Hx. inv Hx. reflexivity.
      + destruct (get t (nb b')); [discriminate|]. inv Hx. inv Hy.
        rewrite g_0; [reflexivity|]. pose proof W_pos; lia.
  Qed.
End Binop.

Lemma nb_id_vz : forall st t v, dynamic st -> get t st = Some v ->
    exists v' x, get t ((fun s : state => s) st) = Some v' /\ vz v = Some x /\ vz v' = Some (u64 (Z.add 0 x)).
Proof.
  intros st t v Hd Hv. destruct (Hd t v Hv) as [z ->]. exists (Dyn z), (u64 z).
  repeat split; auto. simpl. rewrite u64_u64. reflexivity.
Qed.

Lemma nb_neg_vz : forall st t v, dynamic st -> get t st = Some v ->
    exists v' x, get t (st_neg st) = Some v' /\ vz v = Some x /\ vz v' = Some (u64 (Z.sub 0 x)).
Proof.
  intros st t v Hd Hv. destruct (Hd t v Hv) as [z ->]. rewrite st_neg_get, Hv.
  eexists _, (u64 z). repeat split. rewrite vz_as_dyn, vz_vneg. simpl vz. reflexivity.
Qed.

Lemma st_neg_has st t : has t (st_neg st) = has t st.
Proof. unfold has. rewrite st_neg_get. destruct (get t st); reflexivity. Qed.

(** Specification of pointwise combination of two states. *)
Definition pointwise (g : Z -> Z -> Z) (a b c : state) : Prop :=
  forall t, has t c = has t a || has t b /\
    forall x y, rd0 t a = Some x -> rd0 t b = Some y -> rd0 t c = Some (u64 (g x y)).

Lemma rd0_range t st x : rd0 t st = Some x -> 0 <= x < W.
Proof.
  unfold rd0. destruct (get t st); [apply vz_range|]. intros E; inv E. pose proof W_pos; lia.
Qed.

Lemma st_add_pointwise a b :
  dynamic a -> dynamic b -> exists c, st_add a b = Some c /\ pointwise Z.add a b c.
Proof.
  intros Ha Hb.
  assert (G0 : forall x, 0 <= x < W -> u64 (x + 0) = x).
  { intros x Hx. rewrite Z.add_0_r. apply u64_small, Hx. }
  pose proof (binop_gen_ok vadd Z.add (fun x => x) vz_vadd (fun _ _ => eq_refl) nb_id_vz G0 a b Ha Hb) as Hgen.
  pose proof (binop_same_ok vadd Z.add vz_vadd G0 a b Ha) as Hsame.
  unfold st_add. destruct b as [|pb b].
  { exists a. split; [destruct a; reflexivity|]. intros t. rewrite orb_false_r. split; [reflexivity|].
    intros x y Hx Hy. inv Hy. rewrite Z.add_0_r, u64_small; [exact Hx|eapply rd0_range, Hx]. }
  destruct a as [|pa a].
  { exists (pb :: b). split; [reflexivity|]. intros t. split; [reflexivity|].
    intros x y Hx Hy. inv Hx. rewrite Z.add_0_l, u64_small; [exact Hy|eapply rd0_range, Hy]. }
  destruct (same_state_type (pa :: a) (pb :: b)) eqn:E; [|exact Hgen].
  eexists; split; [reflexivity|]. exact (Hsame (same_type_has _ _ E)).
Qed.

Lemma st_sub_pointwise a b :
  dynamic a -> dynamic b -> exists c, st_sub a b = Some c /\ pointwise Z.sub a b c.
Proof.
  intros Ha Hb.
  assert (G0 : forall x, 0 <= x < W -> u64 (x - 0) = x).
  { intros x Hx. rewrite Z.sub_0_r. apply u64_small, Hx. }
  pose proof (binop_gen_ok vsub Z.sub st_neg vz_vsub st_neg_has nb_neg_vz G0 a b Ha Hb) as Hgen.
  pose proof (binop_same_ok vsub Z.sub vz_vsub G0 a b Ha) as Hsame.
  unfold st_sub. destruct b as [|pb b].
  { exists a. split; [destruct a; reflexivity|]. intros t. rewrite orb_false_r. split; [reflexivity|].
    intros x y Hx Hy. inv Hy. rewrite Z.sub_0_r, u64_small; [exact Hx|eapply rd0_range, Hx]. }
  destruct a as [|pa a].
  { exists (st_neg (pb :: b)). split; [reflexivity|]. intros t. split; [apply st_neg_has|].
    intros x y Hx Hy. inv Hx. unfold rd0 in *.
    destruct (get t (pb :: b)) as [v|] eqn:Ev.
    - destruct (nb_neg_vz (pb :: b) t v Hb Ev) as (v' & x & Hv' & Hx & Hz). rewrite Hv', Hz.
      rewrite Hy in Hx. inv Hx. reflexivity.
    - rewrite st_neg_get, Ev. inv Hy. reflexivity. }
  destruct (same_state_type (pa :: a) (pb :: b)) eqn:E; [|exact Hgen].
  eexists; split; [reflexivity|]. exact (Hsame (same_type_has _ _ E)).
Qed.

Lemma st_neg_pointwise a :
  dynamic a -> forall t, has t (st_neg a) = has t a /\
    forall x, rd0 t a = Some x -> rd0 t (st_neg a) = Some (u64 (- x)).
Proof.
  intros Ha t. split; [apply st_neg_has|]. intros x Hx. unfold rd0 in *. rewrite st_neg_get.
  destruct (get t a) as [v|] eqn:Ev.
  - destruct (Ha t v Ev) as [z ->]. rewrite vz_as_dyn, vz_vneg, Hx. reflexivity.
  - inv Hx. reflexivity.
Qed.

Lemma dynamic_rd0 st t : dynamic st -> exists x, rd0 t st = Some x.
Proof.
  intros H. unfold rd0. destruct (get t st) as [v|] eqn:E; [|eauto].
  destruct (H t v E) as [z ->]. simpl. eauto.
Qed.

(** Adding and subtracting the same state gives back the left operand, numerically. *)
Lemma add_sub_cancel a b c d :
  dynamic a -> dynamic b -> st_add a b = Some c -> dynamic c -> st_sub c b = Some d ->
  forall t, rd0 t d = rd0 t a.
Proof.
  intros Ha Hb Hc Dc Hd t.
  destruct (st_add_pointwise a b Ha Hb) as (c' & Ec & Pc). rewrite Hc in Ec. inv Ec.
  destruct (st_sub_pointwise c' b Dc Hb) as (d' & Ed & Pd). rewrite Hd in Ed. inv Ed.
  destruct (dynamic_rd0 a t Ha) as [x Hx]. destruct (dynamic_rd0 b t Hb) as [y Hy].
  destruct (Pc t) as [_ Pc']. destruct (Pd t) as [_ Pd']. specialize (Pc' x y Hx Hy).
  rewrite (Pd' _ _ Pc' Hy), Hx. f_equal. rewrite u64_sub_l.
  replace (x + y - y) with x by lia. apply u64_small. eapply rd0_range, Hx.
Qed.

(** ** Lemmas in the exact form of the properties *)

Lemma lC01_with_get : forall t v st, get t (with_ [(t, v)] st) = Some v.
Proof.
  intros t v st. rewrite get_with. simpl. rewrite tag_eqb_refl. reflexivity.
Qed.

Lemma lC01_with_other : forall t t' v st, t' <> t -> get t' (with_ [(t, v)] st) = get t' st.
Proof.
  intros t t' v st H. rewrite get_with. simpl. destruct (tag_eqb_spec t' t); [contradiction|reflexivity].
Qed.

Lemma lC01_with_many : forall items st t,
  NoDup (map fst items) ->
  (forall v, In (t, v) items -> get t (with_ items st) = Some v) /\
  (~ In t (map fst items) -> get t (with_ items st) = get t st).
Proof.
  intros items st t Hnd. split.
  - intros v Hin. rewrite get_with, (In_get_nodup t v items Hnd Hin). reflexivity.
  - intros Hni. apply get_None in Hni. rewrite get_with, Hni. reflexivity.
Qed.

Lemma lC01_remove : forall ts st t,
  (In t ts -> get t (remove ts st) = None) /\
  (~ In t ts -> get t (remove ts st) = get t st).
Proof.
  intros ts st t. rewrite get_remove. split; intros H; [apply tag_mem_In in H|apply tag_mem_false in H]; rewrite H; reflexivity.
Qed.

Lemma lC01_filter : forall ts st t,
  (In t ts -> get t (filter_tags ts st) = get t st) /\
  (~ In t ts -> get t (filter_tags ts st) = None).
Proof.
  intros ts st t. rewrite get_filter_tags. split; intros H; [apply tag_mem_In in H|apply tag_mem_false in H]; rewrite H; reflexivity.
Qed.

Lemma lC02_right_biased : forall a b t,
  (forall v, get t b = Some v -> get t (st_and a b) = Some v) /\
  (get t b = None -> get t (st_and a b) = get t a).
Proof.
  intros a b t. rewrite get_st_and. split; [intros v H|intros H]; rewrite H; reflexivity.
Qed.

Lemma lC03_lt : forall a b, st_ltb a b = true <-> st_leb a b = true /\ st_eqb a b = false.
Proof.
  intros a b. unfold st_ltb. rewrite andb_true_iff, negb_true_iff. reflexivity.
Qed.

Lemma lC05_add : forall a b x y, vz a = Some x -> vz b = Some y -> vz (vadd a b) = Some ((x + y) mod 2 ^ 64).
Proof.
  intros a b x y Ha Hb. rewrite vz_vadd, Ha, Hb. reflexivity.
Qed.

Lemma lC05_sub : forall a b x y, vz a = Some x -> vz b = Some y -> vz (vsub a b) = Some ((x - y) mod 2 ^ 64).
Proof.
  intros a b x y Ha Hb. rewrite vz_vsub, Ha, Hb. reflexivity.
Qed.

(** Decidable forms used by the examples. *)
Lemma defined_check st :
  forallb (fun p => match vz (snd p) with Some _ => true | None => false end) st = true -> defined st.
Proof.
  intros H t v Hv. rewrite forallb_forall in H. specialize (H _ (get_Some_In _ _ _ Hv)). simpl in H.
  destruct (vz v); [discriminate|discriminate H].
Qed.

Lemma dynamic_check st :
  forallb (fun p => match snd p with Dyn _ => true | _ => false end) st = true -> dynamic st.
Proof.
  intros H t v Hv. rewrite forallb_forall in H. specialize (H _ (get_Some_In _ _ _ Hv)). simpl in H.
  destruct v; [discriminate|eauto|discriminate].
Qed.
