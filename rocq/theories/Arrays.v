(** * Arrays and structures with lengths like those of another one (C52) *)

From Verif Require Export StateTools Like Parts Views.

Lemma remove_absent ts : forall st, (forall g, In g ts -> get g st = None) -> remove ts st = st.
Proof.
  induction st as [|[g v] r IH]; [reflexivity|]. intros H. simpl in H |- *.
  assert (E : tag_mem g ts = false).
  { apply not_true_is_false. intros E. apply existsb_exists in E as (h & Hh & E). specialize (H h Hh).
    rewrite (tag_eqb_sym g h) in E. rewrite E in H. discriminate. }
  rewrite E. simpl. f_equal. apply IH. intros h Hh. specialize (H h Hh). destruct (tag_eqb h g); [discriminate|exact H].
Qed.

Lemma remove_with_len d n st : remove [Idx d; Len d] (with_ [(Len d, n)] st) = remove [Idx d; Len d] st.
Proof.
  unfold with_. unfold remove at 1. rewrite filter_app. simpl. rewrite Z.eqb_refl. simpl. rewrite app_nil_r.
  induction st as [|[g v] r IH]; [reflexivity|]. simpl. destruct (tag_eqb g (Len d)) eqn:E; simpl.
  - rewrite orb_true_r. simpl. exact IH.
  - rewrite E. destruct (tag_eqb g (Idx d)); simpl; [exact IH|]. f_equal. exact IH.
Qed.

Section Array.
  Variables (d : dim) (n : Z) (t : struct) (st : state).
  Hypotheses (Hi : get (Idx d) st = None) (Hl : get (Len d) st = None).

  Lemma remove_with_absent : remove [Idx d; Len d] (with_ [(Len d, Sta n)] st) = st.
  Proof. rewrite remove_with_len. apply remove_absent. intros g [<-|[<-|[]]]; assumption. Qed.

  Lemma array_length : length_ (apply (p_array d n) t) d st = Some (Sta n).
  Proof.
    unfold length_, apply. simpl. rewrite Z.eqb_refl, !has_with, get_with. unfold has. rewrite Hi. simpl. rewrite Z.eqb_refl. reflexivity.
  Qed.

  Lemma array_size z k : get_size t st = Some z -> vz z = Some k ->
    exists z', get_size (apply (p_array d n) t) st = Some z' /\ vz z' = Some (u64 (n * k)) /\ (vstatic z = Some k -> vstatic z' = Some (u64 (n * k))).
  Proof.
    intros E Ez. unfold get_size, apply in *. cbn [fold_left p_array apply_layer size_ has_size].
    replace (sub_state (VSetLength d (Sta n)) (Vector d t) st) with (Some (with_ [(Len d, Sta n)] st)) by reflexivity.
    cbn [obind]. rewrite remove_with_absent. 
    assert (G : get (Len d) (with_ [(Len d, Sta n)] st) = Some (Sta n)) by (rewrite get_with; simpl; rewrite Z.eqb_refl; reflexivity).
    assert (H : has (Len d) (with_ [(Len d, Sta n)] st) = true) by (unfold has; rewrite G; reflexivity).
    rewrite H, G. assert (Hs : has_size t st = Some true).
    { destruct (has_size t st) as [[|]|] eqn:Eh; [reflexivity| |]; exfalso; destruct t; cbn [size_] in E; rewrite Eh in E; discriminate. }
    rewrite Hs. cbn [view_complete oand guard obind]. rewrite E. cbn [obind]. eexists. split; [reflexivity|].
    assert (V : vz (vmul (Sta n) z) = Some (u64 (n * k))) by (rewrite (vz_vmul' (Sta n) z (u64 n) k eq_refl Ez), u64_mul_l; reflexivity).
    split; [exact V|]. intros S. destruct z as [z|z|]; try discriminate. exact V.
  Qed.

  Lemma array_offset i k z y o x : 0 <= n < W -> signature (apply (p_array d n) t) <> None -> vz i = Some k -> 0 <= k < n ->
    get_size t st = Some z -> vz z = Some y -> offset t st = Some o -> vz o = Some x ->
    exists o', offset (apply (p_array d n) t) ((Idx d, i) :: st) = Some o' /\ vz o' = Some (u64 (k * y + x)).
  Proof.
    intros Hn Hs Ek Hk Ez Ey Eo Ex. unfold offset, scalar_t in *. unfold apply in *. cbn [fold_left p_array apply_layer signature] in *.
    destruct (signature t) as [sg|]; [|discriminate]. cbn [obind] in Eo. destruct (any_accept d sg) eqn:Ea; [congruence|].
    cbn [view_sig sreplace mem existsb]. rewrite Z.eqb_refl. cbn [orb obind sig_get_scalar].
    assert (R : remove [Idx d; Len d] ((Idx d, i) :: st) = st).
    { unfold remove. simpl. rewrite Z.eqb_refl. simpl. apply (remove_absent [Idx d; Len d]). intros g [<-|[<-|[]]]; assumption. }
    rewrite R. destruct (sig_get_scalar sg st) as [c|]; [|discriminate]. cbn [obind] in *.
    cbn [offset_of has_offset_of same_type].
    replace (sub_state (VSetLength d (Sta n)) (Vector d t) ((Idx d, i) :: st)) with (Some (with_ [(Len d, Sta n)] ((Idx d, i) :: st))) by reflexivity.
    cbn [obind]. rewrite remove_with_len, R.
    assert (G : get (Len d) (with_ [(Len d, Sta n)] ((Idx d, i) :: st)) = Some (Sta n)) by (rewrite get_with; simpl; rewrite Z.eqb_refl; reflexivity).
    assert (I : get (Idx d) (with_ [(Len d, Sta n)] ((Idx d, i) :: st)) = Some i) by (rewrite get_with; simpl; rewrite Z.eqb_refl; reflexivity).
    assert (HG : has (Len d) (with_ [(Len d, Sta n)] ((Idx d, i) :: st)) = true) by (unfold has; rewrite G; reflexivity).
    assert (HI : has (Idx d) (with_ [(Len d, Sta n)] ((Idx d, i) :: st)) = true) by (unfold has; rewrite I; reflexivity).
    rewrite G, I, HG, HI. rewrite (offset_of_has _ _ _ _ _ Eo). cbn [andb view_complete oand guard obind is_sta].
    unfold get_size in Ez. rewrite Ez. cbn [obind].
    destruct (Z.eqb_spec (u64 n) 1) as [E1|_].
    - rewrite (u64_small n) in E1 by exact Hn. assert (k = 0) by lia. subst k. exists o. split; [exact Eo|].
      rewrite Ex. f_equal. simpl. symmetry. apply u64_small. exact (vz_range _ _ Ex).
    - pose proof (offset_start (Scalar c) t st (vadd (vmul i z) (Sta 0)) (Sta 0) (k * y)) as P.
      rewrite Eo in P. destruct (offset_of (Scalar c) t st (vadd (vmul i z) (Sta 0))) as [o'|].
      + exists o'. split; [reflexivity|]. apply P; [|exact Ex]. intros w Ew.
        rewrite (vz_vadd' _ _ _ _ (vz_vmul' _ _ _ _ Ek Ey) Ew). rewrite u64_add_l. reflexivity.
      + exfalso. apply P. intros w Ew. rewrite (vz_vadd' _ _ _ _ (vz_vmul' _ _ _ _ Ek Ey) Ew). rewrite u64_add_l. reflexivity.
  Qed.
End Array.

(** [vectors<Dims...>()] in a state with the lengths. *)
Fixpoint open_rows (c : cty) (ds : list dim) : struct := match ds with [] => Scalar c | d :: r => Vector d (open_rows c r) end.

Lemma vectors0_rows c ds : apply (p_vectors0 ds) (Scalar c) = open_rows c (rev ds).
Proof.
  unfold p_vectors0. rewrite <- (rev_involutive ds) at 1. induction (rev ds) as [|d r IH]; [reflexivity|].
  simpl rev. rewrite map_app, apply_app, IH. reflexivity.
Qed.

Definition sized (st : state) (l : list (dim * val)) : Prop := Forall (fun x => get (Len (fst x)) st = Some (snd x)) l.

Lemma open_same x c l : NoDup (map fst l) -> forall st, sized st l ->
  has_size (open_rows c (map fst l)) st = has_size (rows c l) st /\ size_ (open_rows c (map fst l)) st = size_ (rows c l) st /\
  has_offset_of (Scalar x) (open_rows c (map fst l)) st = has_offset_of (Scalar x) (rows c l) st /\
  forall a, offset_of (Scalar x) (open_rows c (map fst l)) st a = offset_of (Scalar x) (rows c l) st a.
Proof.
  induction l as [|[d n] l IH]; intros Hnd st Hs; [repeat split|]. inv Hnd. inv Hs. cbn [fst snd] in *.
  assert (S : sized (remove [Idx d; Len d] st) l).
  { apply Forall_forall. intros y Hy. unfold sized in H4. rewrite Forall_forall in H4. rewrite get_remove. simpl.
    destruct (Z.eqb_spec (fst y) d) as [E|_]; [|simpl; apply H4, Hy]. exfalso. apply H1. rewrite <- E. apply in_map, Hy. }
  destruct (IH H2 _ S) as (A & B & C & D). cbn [map fst open_rows rows vec has_size size_ has_offset_of offset_of same_type].
  replace (sub_state (VSetLength d n) (Vector d (rows c l)) st) with (Some (with_ [(Len d, n)] st)) by reflexivity.
  cbn [obind view_complete]. rewrite remove_with_len.
  assert (G : get (Len d) (with_ [(Len d, n)] st) = Some n) by (rewrite get_with; simpl; rewrite Z.eqb_refl; reflexivity).
  assert (I : get (Idx d) (with_ [(Len d, n)] st) = get (Idx d) st) by (rewrite get_with; reflexivity).
  unfold has. rewrite G, I, H3, A, B, C.
  assert (GG : forall b, oand (Some true) b = b) by (intros [[|]|]; reflexivity).
  assert (G2 : forall b (v : option val), guard b (guard b v) = guard b v) by (intros [[|]|] v; reflexivity).
  rewrite !GG. split; [reflexivity|]. split; [rewrite G2; reflexivity|]. split; [reflexivity|]. intros a. rewrite G2.
  f_equal. destruct (get (Idx d) st) as [i|]; [|reflexivity]. cbn [obind]. destruct (is_sta 1 n); [apply D|].
  destruct (size_ (rows c l) _); [|reflexivity]. cbn [obind]. apply D.
Qed.

Fixpoint osig (c : cty) (ds : list dim) : sig := match ds with [] => SScalar c | d :: r => SFun d ADyn (osig c r) end.
Lemma open_signature c ds : NoDup ds -> signature (open_rows c ds) = Some (osig c ds) /\ (forall d, any_accept d (osig c ds) = true -> In d ds).
Proof.
  induction ds as [|d r IH]; intros H; [split; [reflexivity|discriminate]|]. inv H. destruct (IH H3) as [E A]. split.
  - simpl. rewrite E. destruct (any_accept d (osig c r)) eqn:X; [apply A in X; contradiction|reflexivity].
  - intros q. simpl. rewrite orb_true_iff. intros [X|X]; [left; lia|right; auto].
Qed.
Lemma osig_scalar c ds : forall st, sig_get_scalar (osig c ds) st = Some c.
Proof. induction ds as [|d r IH]; intros st; simpl; auto. Qed.

Lemma vectors0_same c l st : NoDup (map fst l) -> sized st l ->
  get_size (apply (p_vectors0 (map fst l)) (Scalar c)) st = get_size (apply (p_vectors l) (Scalar c)) st /\
  offset (apply (p_vectors0 (map fst l)) (Scalar c)) st = offset (apply (p_vectors l) (Scalar c)) st.
Proof.
  intros Hnd Hs. rewrite vectors0_rows, vectors_rows, <- map_rev. unfold offset, scalar_t, get_size.
  assert (Hnd' : NoDup (map fst (rev l))) by (rewrite map_rev; apply NoDup_rev, Hnd).
  assert (Hs' : sized st (rev l)) by (apply Forall_forall; intros y Hy; apply in_rev in Hy; unfold sized in Hs; rewrite Forall_forall in Hs; apply Hs, Hy).
  rewrite (rows_signature c (rev l) Hnd'), (proj1 (open_signature c _ Hnd')). cbn [obind]. rewrite rsig_scalar, osig_scalar. cbn [obind].
  destruct (open_same c c (rev l) Hnd' st Hs') as (_ & A & _ & B). split; [exact A|apply B].
Qed.

Lemma vectors0_offset c l st : NoDup (map fst l) -> sized st l -> indexed st l -> 0 <= ct_size c -> volume (lens l) * ct_size c < W ->
  exists o, offset (apply (p_vectors0 (map fst l)) (Scalar c)) st = Some o /\ vz o = Some (position (pairs st l) * ct_size c).
Proof. intros Hnd Hs Hi Hc Hv. rewrite (proj2 (vectors0_same c l st Hnd Hs)). apply vectors_offset; assumption. Qed.

Lemma vectors0_size c l st : NoDup (map fst l) -> sized st l -> Forall (fun x => vz (snd x) <> None) l -> 0 <= ct_size c -> volume (lens l) * ct_size c < W ->
  exists n, get_size (apply (p_vectors0 (map fst l)) (Scalar c)) st = Some n /\ vz n = Some (volume (lens l) * ct_size c).
Proof. intros Hnd Hs Hi Hc Hv. rewrite (proj1 (vectors0_same c l st Hnd Hs)). apply vectors_size; assumption. Qed.

(** [length_like], [vectors_like]. *)
Lemma length_like_length d s st t p st' : get (Idx d) st' = None -> p_length_like d s st = Some p ->
  length_ (apply p (Vector d t)) d st' = length_ s d st.
Proof.
  intros Hi E. unfold p_length_like in E. destruct (length_ s d st) as [n|]; [|discriminate]. injection E as <-.
  unfold length_, apply. simpl. rewrite Z.eqb_refl, !has_with, get_with. unfold has. rewrite Hi. simpl. rewrite Z.eqb_refl. reflexivity.
Qed.

Lemma vectors_like_some ds s st : (forall d, In d ds -> length_ s d st <> None) <-> p_vectors_like ds s st <> None.
Proof.
  unfold p_vectors_like. induction ds as [|d r IH]; simpl; [split; [discriminate|contradiction]|].
  unfold p_vector_like at 1. destruct (length_ s d st) as [n|] eqn:E; cbn [obind].
  - destruct (omap _ r) as [ps|]; cbn [obind] in *; split; intros H; try discriminate.
    + intros q [<-|Hq]; [congruence|]. apply IH; [discriminate|exact Hq].
    + exfalso. apply (proj1 IH); [|reflexivity]. intros q Hq. apply H. right. exact Hq.
    + exfalso; apply H; reflexivity.
  - split; intros H; exfalso; [apply (H d); auto|apply H; reflexivity].
Qed.

Lemma vectors_like_lengths ds s st p c : NoDup ds -> p_vectors_like ds s st = Some p ->
  (forall d, In d ds -> length_ (apply p (Scalar c)) d [] = length_ s d st) /\
  exists l, p = p_vectors l /\ map fst l = ds.
Proof.
  intros Hn E. destruct (p_vectors_like_inv _ _ _ _ E) as (l & -> & <- & F). split; [|exists l; auto].
  intros d Hd. apply in_map_iff in Hd as ([d' n] & <- & Hd). simpl fst in *. rewrite Forall_forall in F. specialize (F _ Hd). simpl in F. rewrite F.
  rewrite vectors_rows. unfold length_. destruct (rows_length c (rev l) d' [] eq_refl) as [_ ->].
  apply Like.alook_In; [rewrite map_rev; apply NoDup_rev, Hn|]. apply -> in_rev. exact Hd.
Qed.

Lemma lengths_like_some ds s st : (ds <> [] /\ forall d, In d ds -> length_ s d st <> None) <-> p_lengths_like ds s st <> None.
Proof.
  assert (H : (forall d, In d ds -> length_ s d st <> None) <-> omap (fun d => p_length_like d s st) ds <> None).
  { induction ds as [|d r IH]; simpl; [split; [discriminate|contradiction]|].
    unfold p_length_like at 1. destruct (length_ s d st) as [n|] eqn:E; cbn [obind].
    - destruct (omap _ r) as [ps|]; cbn [obind] in *; split; intros H; try discriminate.
      + intros q [<-|Hq]; [congruence|]. apply IH; [discriminate|exact Hq].
      + exfalso. apply (proj1 IH); [|reflexivity]. intros q Hq. apply H. right. exact Hq.
      + exfalso. apply H. reflexivity.
    - split; intros H; exfalso; [apply (H d); auto|apply H; reflexivity]. }
  unfold p_lengths_like. destruct ds as [|d r]; [intuition congruence|].
  destruct (omap _ (d :: r)); cbn [obind]; split; intros; try discriminate; intuition congruence.
Qed.
