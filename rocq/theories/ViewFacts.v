(** * Indices passed down by a view, and back *)

From Verif Require Export Transfer.

(** ** What an index in range means for the indices passed down *)

(** [L d] is the length of dimension [d] of the sub-structure (on the chosen path [p']). *)
Definition vfacts (v : view) (L : dim -> Z) (l : lenv) (a a' : asg) (p' : path) : Prop :=
  match v with
  | VFix d i => forall k, In (d, k) p' -> a' d = vzd i /\ 0 <= a' d < L d
  | VShift d s => forall k, In (d, k) p' -> a' d = a d + vzd s /\ 0 <= a d /\ a' d < L d
  | VSlice d s n => forall k, In (d, k) p' -> a' d = a d + vzd s /\ 0 <= a d < vzd n /\ a' d < L d
  | VSpan d s e => forall k, In (d, k) p' -> a' d = a d + vzd s /\ 0 <= a d /\ a' d < vzd e /\ a' d < L d
  | VStep d s r => forall k, In (d, k) p' -> a' d = a d * vzd r + vzd s /\ 0 <= a d /\ a' d < L d
  | VReverse d => forall k, In (d, k) p' -> a' d = L d - 1 - a d /\ 0 <= a d < L d
  | VBlocks d M m => forall k, In (d, k) p' ->
      let n := minor_len l M m (L d) in
      a' d = a M * n + a m /\ 0 <= a M /\ 0 <= a m < n /\ a' d < L d
  | VBlocksDyn d M m pd => forall k, In (d, k) p' ->
      let n := minor_len_up l M m (L d) in
      a' d = a M * n + a m /\ 0 <= a M /\ 0 <= a m < n /\ a' d < L d /\ a pd = 0
  | VBlocksSta d b M m ml => forall k, In (d, k) p' ->
      let n := vzd ml in
      0 < n /\ 0 <= a m /\
      ((a b = 0 /\ 0 <= a M < L d / n /\ a m < n /\ a' d = a M * n + a m /\ a' d < L d / n * n)
       \/ (a b = 1 /\ a M = 0 /\ a m < L d mod n /\ a' d = L d / n * n + a m /\ L d / n * n <= a' d < L d))
  | VMerge M m d => In (M, None) p' -> In (m, None) p' ->
      0 <= a d < L M * L m /\ 0 < L m /\ a' M = a d / L m /\ a' m = a d mod L m
  | VZCurve sl gl d ds => (forall x, In x ds -> In (x, None) p') ->
      let ls := map L ds in
      0 <= a d < prodl ls /\ zc_good sl gl ls /\ Forall (fun x => 0 < x < W) ls /\ map a' ds = zc_f sl gl ls (a d)
  | _ => True
  end.

Lemma omap_all {A B} (f : A -> option B) (g : A -> B) l :
  (forall x, In x l -> f x = Some (g x)) -> omap f l = Some (map g l).
Proof.
  induction l as [|x l IH]; intros H; [reflexivity|]. cbn [omap map]. rewrite (H x) by (left; reflexivity). simpl.
  rewrite IH; [reflexivity|]. intros y Hy. apply H. right. exact Hy.
Qed.

Lemma map_fupds_combine (f : dim -> Z) ds xs : NoDup ds -> List.length xs = List.length ds ->
  map (fupds f (combine ds xs)) ds = xs.
Proof.
  revert xs. induction ds as [|d ds IH]; intros [|x xs] Hn E; simpl in E; try lia; [reflexivity|].
  apply NoDup_cons_iff in Hn. destruct Hn as [Hd Hn]. cbn [combine fupds map]. rewrite fupd_eq. f_equal.
  rewrite <- (IH xs Hn) at 2 by lia. apply map_ext_in. intros q Hq. apply fupd_neq. congruence.
Qed.

Lemma Forall2_map_In {A B C} (R : B -> C -> Prop) (f : A -> B) (g : A -> C) ds :
  Forall2 R (map f ds) (map g ds) -> forall x, In x ds -> R (f x) (g x).
Proof. induction ds as [|d ds IH]; simpl; intros H x []; inv H; auto. Qed.

Section Facts.
  Variables (v : view) (t : struct) (s0 sg : sig) (l : lenv) (a : asg) (p' p : path).
  Hypothesis Hloc : loc t.
  Hypothesis Hw : view_swf v t = true.
  Hypothesis Ht : uswf t = true.
  Hypothesis E0 : signature t = Some s0.
  Hypothesis Ev : view_sig v s0 = Some sg.
  Hypothesis Ep' : spath s0 (view_asg v (ilen t) l a) = Some p'.
  Hypothesis R : prel v p' p.
  Hypothesis Hnd : NoDup (map fst p').
  Hypothesis Hl : lrange l.
  Hypothesis Hg : view_good v (plen t (view_lenv v l) (view_asg v (ilen t) l a)) l.
  Hypothesis Hp : Forall (in_range (View v t) l a) p.

  Definition Lof (d : dim) : Z := odef (plen t (view_lenv v l) (view_asg v (ilen t) l a) d).

  Lemma Lof_fun d : In (d, None) p' -> Lof d = ilen t (view_lenv v l) (view_asg v (ilen t) l a) d.
  Proof. intros H. unfold Lof. erewrite plen_fun; eauto. Qed.

  Lemma Lof_in d k : In (d, k) p' -> plen t (view_lenv v l) (view_asg v (ilen t) l a) d = Some (Lof d).
  Proof. intros H. unfold Lof. erewrite plen_in; eauto. Qed.

  Lemma Lof_dep d k : In (d, Some k) p' -> Lof d = k.
  Proof. intros H. unfold Lof. rewrite (plen_dep _ _ _ _ _ _ _ E0 Ep' Hnd H). reflexivity. Qed.

  Lemma Lof_range d k : In (d, k) p' -> 0 <= Lof d < W.
  Proof.
    intros H. destruct k as [k|].
    - rewrite (Lof_dep _ _ H). eapply spath_count; eauto.
    - rewrite (Lof_fun _ H). apply ilen_range, view_lrange, Hl.
  Qed.

  Lemma loc_at b d : In (d, None) p' ->
    (forall x, In x (ldeps t d) -> In x (map fst p') -> b x = view_asg v (ilen t) l a x) ->
    ilen t (view_lenv v l) b d = Lof d.
  Proof. intros H Hx. rewrite Lof_fun by exact H. eapply Hloc; eauto. Qed.

  Lemma rng_fun x : In (x, None) p -> 0 <= a x < view_ilen v (ilen t) l a x.
  Proof. intros H. rewrite Forall_forall in Hp. apply (Hp _ H). Qed.
  Lemma rng_dep x n : In (x, Some n) p -> 0 <= a x < n.
  Proof. intros H. rewrite Forall_forall in Hp. apply (Hp _ H). Qed.

  (** The dimension changed by the view keeps its kind and has an index below its new length. *)
  Lemma rng_pm d (f : option Z -> option Z) k n :
    p = pm (fun n => [(d, f n)]) d p' -> In (d, k) p' -> f k = n ->
    match n with Some n => 0 <= a d < n | None => 0 <= a d < view_ilen v (ilen t) l a d end.
  Proof.
    intros E Hk <-. assert (H : In (d, f k) p) by (subst p; apply in_pm; right; exists k; split; [exact Hk|left; reflexivity]).
    destruct (f k); [apply (rng_dep _ _ H)|apply (rng_fun _ H)].
  Qed.

  Lemma vfacts_ok : vfacts v Lof l a (view_asg v (ilen t) l a) p'.
  Proof.
    pose proof rng_fun as Hrf. pose proof rng_dep as Hrd. pose proof Lof_range as HLr. pose proof Lof_in as HLi.
    pose proof loc_at as Hla. pose proof Lof_dep as HLd. pose proof Lof_fun as HLf. pose proof rng_pm as Hpm.
    pose proof (fun b q => ilen_range t (view_lenv v l) b q (view_lrange v l Hl)) as Hir.
    set (L := Lof) in *. clearbody L.
    unfold view_swf in Hw. rewrite E0 in Hw. unfold view_good in Hg.
    destruct v as [d|d i|d n|d st|d st len|d st en|d st sr|d|d M m|d M m pd|d b M m ml|M m d|sl gl d ds|ds|d|ps|xa xb d];
      cbn [vfacts prel] in *; try exact I.
    - (* fix *) intros k Hk. rewrite (HLi _ _ Hk) in Hg. simpl in Hg. cbn [view_asg]. rewrite fupd_eq.
      pose proof (vzd_range i). lia.
    - (* shift *) intros k Hk. rewrite (HLi _ _ Hk) in Hg. simpl in Hg. specialize (HLr _ _ Hk).
      pose proof (vzd_range st). cbn [view_asg]. rewrite fupd_eq.
      specialize (Hpm d _ k _ R Hk eq_refl). destruct k as [k|]; cbn [option_map view_ilen] in Hpm.
      + rewrite (HLd _ _ Hk) in Hg, HLr |- *. assert (vzd st <= k) by (destruct (l d) eqn:E; [specialize (Hl _ _ E); lia|lia]).
        rewrite u64_small in Hpm by lia. rewrite u64_small by lia. lia.
      + rewrite Z.eqb_refl in Hpm. destruct (l d) as [x|].
        * rewrite u64_small by lia. lia.
        * rewrite <- (HLf d Hk) in Hpm. rewrite u64_small in Hpm by lia. rewrite u64_small by lia. lia.
    - (* slice *) intros k Hk. rewrite (HLi _ _ Hk) in Hg. simpl in Hg. specialize (HLr _ _ Hk).
      pose proof (vzd_range st). cbn [view_asg]. rewrite fupd_eq.
      specialize (Hpm d _ k _ R Hk eq_refl). destruct k as [k|]; cbn [option_map view_ilen] in Hpm.
      + rewrite u64_small by lia. lia.
      + rewrite Z.eqb_refl in Hpm. rewrite u64_small by lia. lia.
    - (* span *) intros k Hk. rewrite (HLi _ _ Hk) in Hg. simpl in Hg. specialize (HLr _ _ Hk).
      pose proof (vzd_range st). pose proof (vzd_range en). cbn [view_asg]. rewrite fupd_eq.
      specialize (Hpm d _ k _ R Hk eq_refl). rewrite u64_small in Hpm by lia. destruct k as [k|]; cbn [option_map view_ilen] in Hpm.
      + rewrite u64_small by lia. lia.
      + rewrite Z.eqb_refl in Hpm. rewrite u64_small in Hpm by lia. rewrite u64_small by lia. lia.
    - (* step *) intros k Hk. rewrite (HLi _ _ Hk) in Hg. simpl in Hg. specialize (HLr _ _ Hk).
      pose proof (vzd_range st). cbn [view_asg]. rewrite fupd_eq. apply andb_true_iff in Hw. destruct Hw as [Hr Hd].
      apply negb_true_iff, mem_false in Hd. destruct (vz st) as [zs|] eqn:Es; [|discriminate].
      destruct (vz sr) as [zr|] eqn:Er; [|discriminate]. assert (Hr' : 0 < vzd sr) by (unfold vzd; rewrite Er; lia).
      assert (Hd2 : 0 <= a d < (L d + vzd sr - vzd st - 1) / vzd sr).
      { specialize (Hpm d _ k _ R Hk eq_refl). destruct k as [k|]; cbn [option_map view_ilen] in Hpm.
        - rewrite (HLd _ _ Hk) in *. rewrite u64_small in Hpm by lia. exact Hpm.
        - rewrite Z.eqb_refl in Hpm. rewrite (Hla a d) in Hpm; [rewrite u64_small in Hpm by lia; exact Hpm|exact Hk|].
          intros x Hx _. cbn [view_asg]. rewrite fupd_neq; [reflexivity|congruence]. }
      assert (a d * vzd sr + vzd st < L d).
      { pose proof (Z.mul_div_le (L d + vzd sr - vzd st - 1) (vzd sr) Hr'). nia. }
      rewrite u64_small by nia. nia.
    - (* reverse *) intros k Hk. apply andb_true_iff in Hw. destruct Hw as [Hd Hq]. apply negb_true_iff, mem_false in Hd.
      assert (k = None) as -> by (destruct k; [exfalso; apply Hd; eapply spath_sdep; eauto|reflexivity]).
      subst p. pose proof (Hrf d Hk) as Hr. cbn [view_ilen] in Hr. cbn [view_asg]. rewrite fupd_eq.
      specialize (HLr _ _ Hk).
      assert (E : ilen t (view_lenv (VReverse d) l) a d = L d).
      { apply Hla; [exact Hk|]. intros x Hx _. cbn [view_asg]. rewrite fupd_neq; [reflexivity|]. intros ->.
        rewrite forallb_forall in Hq. pose proof (spath_accept _ _ _ Ep' _ Hk) as Hac. simpl in Hac.
        apply accept_sdims in Hac. specialize (Hq _ Hac). apply negb_true_iff, mem_false in Hq. contradiction. }
      rewrite E in *. rewrite u64_small by lia. lia.
    - (* blocks *) destruct R as [R' Hf]. intros k Hk. pose proof (Hf _ Hk). subst k. apply negb_true_iff, mem_false in Hw.
      specialize (HLr _ _ Hk). rewrite (HLi _ _ Hk) in Hg.
      cbn [view_sig] in Ev. destruct ((M =? m) || _ || _) eqn:Ef in Ev; [discriminate|].
      apply orb_false_iff in Ef. destruct Ef as [Ef _]. apply orb_false_iff in Ef. destruct Ef as [EMm _].
      assert (HM : In (M, None) p) by (subst p; apply in_pm; right; exists None; split; [exact Hk|simpl; auto]).
      assert (Hm : In (m, None) p) by (subst p; apply in_pm; right; exists None; split; [exact Hk|simpl; auto]).
      apply Hrf in HM, Hm. cbn [view_ilen] in HM, Hm. rewrite EMm, Z.eqb_refl in HM. rewrite Z.eqb_refl in Hm.
      assert (E : ilen t (view_lenv (VBlocks d M m) l) a d = L d).
      { apply Hla; [exact Hk|]. intros x Hx _. cbn [view_asg]. rewrite fupd_neq; [reflexivity|congruence]. }
      cbn [view_asg]. rewrite fupd_eq. rewrite E in *.
      assert (a M * minor_len l M m (L d) + a m < L d).
      { unfold minor_len in *. destruct (l M) as [x|] eqn:EM, (l m) as [y|] eqn:Em; simpl in *.
        - nia.
        - pose proof (Hl _ _ EM). pose proof (Z.mul_div_le (L d) x ltac:(lia)). nia.
        - pose proof (Hl _ _ Em). pose proof (Z.mul_div_le (L d) y ltac:(lia)). nia.
        - lia. }
      assert (0 <= a M * minor_len l M m (L d)) by nia.
      rewrite u64_small by nia. lia.
    - (* blocks dynamic *) destruct R as [R' Hf]. intros k Hk. pose proof (Hf _ Hk). subst k. apply negb_true_iff, mem_false in Hw.
      specialize (HLr _ _ Hk). rewrite (HLi _ _ Hk) in Hg.
      cbn [view_sig] in Ev. destruct ((M =? m) || _ || _ || _ || _ || _) eqn:Ef in Ev; [discriminate|].
      rewrite !orb_false_iff in Ef. destruct Ef as [[[[[EMm EMp] Emp] _] _] _].
      assert (HM : In (M, None) p) by (subst p; apply in_pm; right; exists None; split; [exact Hk|simpl; auto]).
      assert (Hm : In (m, None) p) by (subst p; apply in_pm; right; exists None; split; [exact Hk|simpl; auto]).
      assert (Hpd : In (pd, None) p) by (subst p; apply in_pm; right; exists None; split; [exact Hk|simpl; auto]).
      apply Hrf in HM, Hm, Hpd. cbn [view_ilen] in HM, Hm, Hpd.
      rewrite EMm, EMp, Z.eqb_refl in HM. rewrite Emp, Z.eqb_refl in Hm. rewrite Z.eqb_refl in Hpd.
      assert (E : ilen t (view_lenv (VBlocksDyn d M m pd) l) a d = L d).
      { apply Hla; [exact Hk|]. intros x Hx _. cbn [view_asg]. rewrite fupd_neq; [reflexivity|congruence]. }
      cbn [view_asg]. rewrite fupd_eq. rewrite E in *.
      set (n := minor_len_up l M m (L d)) in *.
      assert (Hwrap : 0 <= a M * n + a m < W).
      { subst n. unfold minor_len_up in *. destruct (l M) as [x|] eqn:EM, (l m) as [y|] eqn:Em; simpl in *.
        - pose proof (Hl _ _ EM). nia.
        - pose proof (Hl _ _ EM). rewrite u64_small in * by lia.
          pose proof (Z.mul_div_le (L d + x - 1) x ltac:(lia)). nia.
        - pose proof (Hl _ _ Em). rewrite u64_small in HM by lia.
          pose proof (Z.mul_div_le (L d + y - 1) y ltac:(lia)). nia.
        - lia. }
      rewrite u64_small in * by exact Hwrap.
      assert (Hfull : match l m, l M with Some b, Some a0 => u64 (b * a0) | _, _ => L d end <= L d).
      { destruct (l M) as [x|] eqn:EM, (l m) as [y|] eqn:Em; simpl in *; try lia.
        pose proof (Hl _ _ EM). pose proof (Hl _ _ Em). rewrite u64_small by nia. nia. }
      destruct (Z.ltb_spec (a M * n + a m) (match l m, l M with Some b, Some a0 => u64 (b * a0) | _, _ => L d end)); lia.
    - (* blocks static *) destruct R as [R' Hf]. intros k Hk. pose proof (Hf _ Hk). subst k.
      apply andb_true_iff in Hw. destruct Hw as [Hn Hd]. apply negb_true_iff, mem_false in Hd.
      destruct (vz ml) as [zn|] eqn:En; [|discriminate]. assert (Hn' : 0 < vzd ml) by (unfold vzd; rewrite En; lia).
      specialize (HLr _ _ Hk).
      cbn [view_sig] in Ev. destruct ((b =? M) || _ || _ || _ || _ || _) eqn:Ef in Ev; [discriminate|].
      rewrite !orb_false_iff in Ef. destruct Ef as [[[[[EbM Ebm] EMm] _] _] _].
      assert (Hb : In (b, Some 2) p) by (subst p; apply in_pm; right; exists None; split; [exact Hk|simpl; auto]).
      assert (HM : In (M, None) p) by (subst p; apply in_pm; right; exists None; split; [exact Hk|simpl; auto]).
      assert (Hm : In (m, None) p) by (subst p; apply in_pm; right; exists None; split; [exact Hk|simpl; auto]).
      apply Hrf in HM, Hm. apply Hrd in Hb. cbn [view_ilen] in HM, Hm.
      rewrite Z.eqb_sym in EbM, Ebm. rewrite EMm, EbM, Z.eqb_refl in HM. rewrite Ebm, Z.eqb_refl in Hm.
      assert (E : ilen t (view_lenv (VBlocksSta d b M m ml) l) a d = L d).
      { apply Hla; [exact Hk|]. intros x Hx _. cbn [view_asg]. rewrite fupd_neq; [reflexivity|congruence]. }
      cbn [view_asg]. rewrite fupd_eq. rewrite E in *. set (n := vzd ml) in *.
      pose proof (Z.div_mod (L d) n ltac:(lia)). pose proof (Z.mod_pos_bound (L d) n Hn').
      pose proof (Z.div_pos (L d) n ltac:(lia) Hn').
      split; [exact Hn'|]. destruct (Z.eqb_spec (a b) 0) as [Eb|Eb].
      + assert (a M * n + a m < L d / n * n) by nia. rewrite u64_small by nia. split; [lia|]. left. lia.
      + rewrite u64_small by nia. split; [lia|]. right. nia.
    - (* merge *) intros HM Hm. rewrite (HLi _ _ HM), (HLi _ _ Hm) in Hg.
      apply andb_true_iff in Hw. destruct Hw as [Hdis _]. rewrite disjointb_spec in Hdis.
      assert (HMm : M <> m) by (cbn [view_sig] in Ev; intros ->; rewrite Z.eqb_refl in Ev; discriminate).
      assert (HND : NoDup [M; m]) by (repeat constructor; simpl; intuition congruence).
      assert (Hd : In (d, None) p).
      { eapply peeled_new; [exact R|]. apply (inside_all [M; m] p' HND Hnd). intros x [<-|[<-|[]]]; eapply in_fst; eauto. }
      apply Hrf in Hd. cbn [view_ilen] in Hd. rewrite Z.eqb_refl in Hd.
      assert (E : forall x, In x [M; m] -> ilen t (view_lenv (VMerge M m d) l) (fupds a [(M, 0); (m, 0)]) x = L x).
      { intros x Hx. apply Hla; [simpl in Hx; destruct Hx as [<-|[<-|[]]]; assumption|].
        intros y Hy _. assert (~ In y [M; m]).
        { intros Hin. apply (Hdis y Hin). apply in_or_app. simpl in Hx. destruct Hx as [<-|[<-|[]]]; auto. }
        cbn [view_asg]. rewrite !fupds_out by assumption. reflexivity. }
      rewrite !E in Hd by (simpl; auto). cbn [view_asg]. rewrite !E by (simpl; auto). cbn [fupds]. rewrite fupd_eq.
      rewrite fupd_neq by congruence. rewrite fupd_eq.
      pose proof (HLr _ _ HM). pose proof (HLr _ _ Hm). rewrite u64_small in Hd by nia.
      split; [lia|]. split; [nia|]. auto.
    - (* zcurve *) intros Hin. rewrite !andb_true_iff in Hw. destruct Hw as [[[[Hdis H2] H32] Hsl] Htog].
      rewrite disjointb_spec in Hdis.
      rewrite (omap_all _ L ds) in Hg by (intros q Hq; exact (HLi _ _ (Hin q Hq))).
      cbn [view_sig] in Ev. destruct (_ && _ && _ && _ && nodupb ds && _) eqn:Ef in Ev; [|discriminate].
      rewrite !andb_true_iff in Ef. destruct Ef as [[[[[Hsg Hgl] _] _] HND] Hdd]. apply nodupb_NoDup in HND.
      assert (Hz0 : map fst (map (fun q : dim => (q, 0)) ds) = ds) by apply map_fst_const.
      assert (Hlen : forall w ls, List.length ls = List.length ds ->
                map fst (combine ds (map vzd (zc_indices sl gl w ls))) = ds).
      { intros w ls E. apply map_fst_combine. rewrite map_length, zc_indices_length. exact E. }
      assert (Hd : In (d, None) p).
      { eapply peeled_new; [exact R|]. apply (inside_all ds p' HND Hnd). intros x Hx. eapply in_fst; eauto. }
      apply Hrf in Hd. cbn [view_ilen] in Hd. rewrite Z.eqb_refl in Hd.
      assert (E : forall x, In x ds -> ilen t (view_lenv (VZCurve sl gl d ds) l) (fupds a (map (fun q => (q, 0)) ds)) x = L x).
      { intros x Hx. apply Hla; [apply Hin, Hx|]. intros y Hy _. assert (Hym : ~ In y ds).
        { intros Hyd. apply (Hdis y Hyd). apply in_flat_map. eauto. }
        cbn [view_asg]. rewrite !fupds_out; rewrite ?Hz0, ?Hlen; rewrite ?map_length; auto. }
      rewrite (map_ext_in _ _ _ E) in Hd. rewrite prodl_fold_left, Z.mul_1_l in Hd.
      assert (Hnn : Forall (fun x => 0 <= x) (map L ds)).
      { apply Forall_forall. intros x Hx. apply in_map_iff in Hx. destruct Hx as (q & <- & Hq). apply (HLr _ _ (Hin q Hq)). }
      pose proof (prodl_nonneg _ Hnn) as Hpn. destruct Hg as (G1 & G2 & G3). rewrite u64_small in Hd by lia.
      split; [exact Hd|]. split; [split; [exact G1|split; [exact G2|exact G3]]|]. split.
      + pose proof (prodl_pos_all _ Hnn ltac:(lia)) as Hpos. rewrite Forall_forall in *. intros x Hx. split; [auto|].
        apply in_map_iff in Hx. destruct Hx as (q & <- & Hq). apply (HLr _ _ (Hin q Hq)).
      + cbn [view_asg]. rewrite (map_ext_in _ (fun q => Dyn (L q)) ds) by (intros q Hq; rewrite E by exact Hq; reflexivity).
        rewrite map_fupds_combine; [unfold zc_f; rewrite map_map; reflexivity|exact HND|].
        rewrite map_length, zc_indices_length, map_length. reflexivity.
  Qed.

  (** A valid element of the view is passed down to a valid element of the sub-structure. *)
  Theorem view_transfer : Forall (in_range t (view_lenv v l) (view_asg v (ilen t) l a)) p'.
  Proof.
    apply Forall_forall. intros [x [n|]] Hx; unfold in_range; cbn [fst snd]; [eapply spath_dep_range; eauto|].
    rewrite <- (Lof_fun x Hx).
    pose proof rng_fun as Hrf. pose proof vfacts_ok as VF. pose proof Lof_fun as HLf. pose proof loc_at as Hla.
    assert (Hfr : forall d y, negb (y =? d) && any_accept y s0 = false -> forall q, In q (map fst p') -> q <> d -> q <> y).
    { intros d y Hf q Hq Hqd ->. destruct (fst_in _ _ Hq) as [k Hk]. pose proof (spath_accept _ _ _ Ep' _ Hk) as Ha.
      simpl in Ha. rewrite Ha in Hf. destruct (Z.eqb_spec y d); [contradiction|discriminate]. }
    set (L := Lof) in *. clearbody L.
    unfold view_swf in Hw. rewrite E0 in Hw.
    destruct v as [d|d i|d n|d st|d st len|d st en|d st sr|d|d M m|d M m pd|d b M m ml|M m d|sl gl d ds|ds|d|ps|xa xb d];
      cbn [vfacts prel] in VF, R.
    - (* bcast *) assert (Hxp : In (x, None) p) by (subst p; right; exact Hx).
      apply Hrf in Hxp. cbn [view_ilen] in Hxp. rewrite HLf by exact Hx. destruct (Z.eqb_spec x d) as [E|Hne]; [|exact Hxp].
      subst x. apply negb_true_iff in Hw. pose proof (spath_accept _ _ _ Ep' _ Hx). simpl in *. congruence.
    - (* fix *) destruct (Z.eq_dec x d) as [E|Hne]; [subst x; apply (VF _ Hx)|]. assert (Hxp : In (x, None) p) by (subst p; apply in_pm; left; auto).
      apply Hrf in Hxp. rewrite HLf by exact Hx. cbn [view_ilen view_asg] in *. rewrite fupd_neq by exact Hne. exact Hxp.
    - destruct R as [-> _]. rewrite HLf by exact Hx. apply Hrf, Hx.
    - destruct (Z.eq_dec x d) as [E|Hne]; [subst x; pose proof (VF _ Hx); pose proof (vzd_range st); lia|]. assert (Hxp : In (x, None) p) by (subst p; apply in_pm; left; auto).
      apply Hrf in Hxp. rewrite HLf by exact Hx. cbn [view_ilen view_asg] in *. rewrite fupd_neq by exact Hne.
      destruct (Z.eqb_spec x d); [contradiction|exact Hxp].
    - destruct (Z.eq_dec x d) as [E|Hne]; [subst x; pose proof (VF _ Hx); pose proof (vzd_range st); lia|]. assert (Hxp : In (x, None) p) by (subst p; apply in_pm; left; auto).
      apply Hrf in Hxp. rewrite HLf by exact Hx. cbn [view_ilen view_asg] in *. rewrite fupd_neq by exact Hne.
      destruct (Z.eqb_spec x d); [contradiction|exact Hxp].
    - destruct (Z.eq_dec x d) as [E|Hne]; [subst x; pose proof (VF _ Hx); pose proof (vzd_range st); lia|]. assert (Hxp : In (x, None) p) by (subst p; apply in_pm; left; auto).
      apply Hrf in Hxp. rewrite HLf by exact Hx. cbn [view_ilen view_asg] in *. rewrite fupd_neq by exact Hne.
      destruct (Z.eqb_spec x d); [contradiction|exact Hxp].
    - destruct (Z.eq_dec x d) as [E|Hne]; [subst x; pose proof (VF _ Hx); pose proof (vzd_range st); pose proof (vzd_range sr); nia|]. assert (Hxp : In (x, None) p) by (subst p; apply in_pm; left; auto).
      apply Hrf in Hxp. rewrite HLf by exact Hx. cbn [view_ilen view_asg] in *. rewrite fupd_neq by exact Hne.
      destruct (Z.eqb_spec x d); [contradiction|exact Hxp].
    - (* reverse *) destruct (Z.eq_dec x d) as [E|Hne]; [subst x; pose proof (VF _ Hx); lia|].
      subst p. pose proof (Hrf x Hx) as Hxp. cbn [view_ilen view_asg] in *. rewrite fupd_neq by exact Hne.
      rewrite Hla in Hxp; [exact Hxp|exact Hx|]. intros y Hy _. rewrite fupd_neq; [reflexivity|]. intros ->.
      apply andb_true_iff in Hw. destruct Hw as [_ Hq].
      rewrite forallb_forall in Hq. pose proof (spath_accept _ _ _ Ep' _ Hx) as Hac. simpl in Hac.
      apply accept_sdims in Hac. specialize (Hq _ Hac). apply negb_true_iff, mem_false in Hq. contradiction.
    - (* blocks *) destruct R as [R' Hf].
      destruct (Z.eq_dec x d) as [E|Hne]; [subst x; pose proof (VF _ Hx); nia|].
      cbn [view_sig] in Ev. destruct ((M =? m) || _ || _) eqn:Ef in Ev; [discriminate|].
      rewrite !orb_false_iff in Ef. destruct Ef as [[_ EfM] Efm].
      assert (Hxp : In (x, None) p) by (subst p; apply in_pm; left; auto). apply Hrf in Hxp.
      rewrite HLf by exact Hx. cbn [view_ilen view_asg] in *. rewrite fupd_neq by exact Hne.
      pose proof (Hfr d M EfM x (in_fst _ _ _ Hx) Hne). pose proof (Hfr d m Efm x (in_fst _ _ _ Hx) Hne).
      destruct (Z.eqb_spec x m), (Z.eqb_spec x M); try contradiction. exact Hxp.
    - (* blocks dynamic *) destruct R as [R' Hf].
      destruct (Z.eq_dec x d) as [E|Hne]; [subst x; pose proof (VF _ Hx); nia|].
      cbn [view_sig] in Ev. destruct ((M =? m) || _ || _ || _ || _ || _) eqn:Ef in Ev; [discriminate|].
      rewrite !orb_false_iff in Ef. destruct Ef as [[[_ EfM] Efm] Efp].
      assert (Hxp : In (x, None) p) by (subst p; apply in_pm; left; auto). apply Hrf in Hxp.
      rewrite HLf by exact Hx. cbn [view_ilen view_asg] in *. rewrite fupd_neq by exact Hne.
      pose proof (Hfr d M EfM x (in_fst _ _ _ Hx) Hne). pose proof (Hfr d m Efm x (in_fst _ _ _ Hx) Hne).
      pose proof (Hfr d pd Efp x (in_fst _ _ _ Hx) Hne).
      destruct (Z.eqb_spec x pd), (Z.eqb_spec x m), (Z.eqb_spec x M); try contradiction. exact Hxp.
    - (* blocks static *) destruct R as [R' Hf].
      destruct (Z.eq_dec x d) as [E|Hne].
      { subst x. destruct (VF _ Hx) as (Hn & H0 & [(H1 & H2 & H3 & H4 & H5)|(H1 & H2 & H3 & H4 & H5)]).
        - pose proof (Z.mul_div_le (L d) (vzd ml) Hn). nia.
        - pose proof (ilen_range t (view_lenv (VBlocksSta d b M m ml) l) (view_asg (VBlocksSta d b M m ml) (ilen t) l a) d (view_lrange _ l Hl)) as Hr.
          rewrite <- HLf in Hr by exact Hx. pose proof (Z.div_pos (L d) (vzd ml) ltac:(lia) Hn). nia. }
      cbn [view_sig] in Ev. destruct ((b =? M) || _ || _ || _ || _ || _) eqn:Ef in Ev; [discriminate|].
      rewrite !orb_false_iff in Ef. destruct Ef as [[[_ EfM] Efm] Efp].
      assert (Hxp : In (x, None) p) by (subst p; apply in_pm; left; auto). apply Hrf in Hxp.
      rewrite HLf by exact Hx. cbn [view_ilen view_asg] in *. rewrite fupd_neq by exact Hne.
      pose proof (Hfr d M EfM x (in_fst _ _ _ Hx) Hne). pose proof (Hfr d m Efm x (in_fst _ _ _ Hx) Hne).
      pose proof (Hfr d b Efp x (in_fst _ _ _ Hx) Hne).
      destruct (Z.eqb_spec x b), (Z.eqb_spec x m), (Z.eqb_spec x M); try contradiction. exact Hxp.
    - (* merge *)
      apply andb_true_iff in Hw. destruct Hw as [Hdis Htog]. pose proof R as [_ Hfun].
      assert (HMm : M <> m) by (cbn [view_sig] in Ev; intros ->; rewrite Z.eqb_refl in Ev; discriminate).
      assert (HND : NoDup [M; m]) by (repeat constructor; simpl; intuition congruence).
      destruct (in_dec Z.eq_dec x [M; m]) as [Hin|Hout].
      + assert (Hall : forall y, In y [M; m] -> In (y, None) p').
        { destruct (together_path _ _ _ _ HND Hnd Htog Ep') as [H|H]; [|exfalso; eapply H; eauto using in_fst].
          intros y Hy. destruct (fst_in _ _ (H y Hy)) as [k Hk]. rewrite <- (Hfun y k Hk Hy). exact Hk. }
        destruct (VF (Hall M ltac:(simpl; auto)) (Hall m ltac:(simpl; auto))) as (H1 & H2 & H3 & H4).
        destruct Hin as [<-|[<-|[]]].
        * rewrite H3. split; [apply Z.div_pos; lia|]. apply Z.div_lt_upper_bound; lia.
        * rewrite H4. apply Z.mod_pos_bound. exact H2.
      + assert (Hxp : In (x, None) p).
        { destruct R as [HP _]. eapply Permutation_in; [apply Permutation_sym, HP|]. apply in_or_app. right.
          apply filter_In. split; [exact Hx|]. apply negb_true_iff, mem_false, Hout. }
        apply Hrf in Hxp. rewrite HLf by exact Hx. cbn [view_ilen view_asg] in *.
        rewrite fupds_out by exact Hout. destruct (Z.eqb_spec x d) as [E|]; [|exact Hxp]. subst x. exfalso.
        cbn [view_sig] in Ev. destruct ((M =? m) || _) eqn:Ef in Ev; [discriminate|].
        rewrite !orb_false_iff in Ef. destruct Ef as [_ Ef]. pose proof (spath_accept _ _ _ Ep' _ Hx) as Ha. simpl in Ha.
        rewrite Ha in Ef. simpl in Hout. destruct (Z.eqb_spec d M), (Z.eqb_spec d m); try discriminate; intuition congruence.
    - (* zcurve *)
      rewrite !andb_true_iff in Hw. destruct Hw as [[[[Hdis H2] H32] Hsl] Htog]. pose proof R as [_ Hfun].
      cbn [view_sig] in Ev. destruct (_ && _ && _ && _ && nodupb ds && _) eqn:Ef in Ev; [|discriminate].
      rewrite !andb_true_iff in Ef. destruct Ef as [[[[[Hsg Hgl] _] _] HND] Hdd]. apply nodupb_NoDup in HND.
      destruct (in_dec Z.eq_dec x ds) as [Hin|Hout].
      + assert (Hall : forall y, In y ds -> In (y, None) p').
        { destruct (together_path _ _ _ _ HND Hnd Htog Ep') as [H|H]; [|exfalso; eapply H; eauto using in_fst].
          intros y Hy. destruct (fst_in _ _ (H y Hy)) as [k Hk]. rewrite <- (Hfun y k Hk Hy). exact Hk. }
        destruct (VF Hall) as (H1 & H3 & H4 & H5).
        apply Nat.leb_le in H2, H32, Hsg. apply Nat.ltb_lt in Hsl, Hgl.
        assert (HF : Forall2 (fun r y => 0 <= r < y) (map (view_asg (VZCurve sl gl d ds) (ilen t) l a) ds) (map L ds)).
        { rewrite H5. apply zc_f_range; rewrite ?map_length; auto. }
        exact (Forall2_map_In _ _ _ _ HF x Hin).
      + assert (Hxp : In (x, None) p).
        { destruct R as [HP _]. eapply Permutation_in; [apply Permutation_sym, HP|]. apply in_or_app. right.
          apply filter_In. split; [exact Hx|]. apply negb_true_iff, mem_false, Hout. }
        apply Hrf in Hxp. rewrite HLf by exact Hx. cbn [view_ilen view_asg] in *.
        rewrite fupds_out; [|rewrite map_fst_combine; [exact Hout|rewrite map_length, zc_indices_length, map_length; reflexivity]].
        destruct (Z.eqb_spec x d) as [E|]; [|exact Hxp]. subst x. exfalso.
        pose proof (spath_accept _ _ _ Ep' _ Hx) as Ha. simpl in Ha. rewrite Ha in Hdd. apply Hout, mem_In.
        destruct (mem d ds); [reflexivity|discriminate].
    - assert (Hxp : In (x, None) p) by (eapply Permutation_in; [apply Permutation_sym, R|exact Hx]).
      apply Hrf in Hxp. rewrite HLf by exact Hx. exact Hxp.
    - destruct R as [Hd ->]. assert (Hxp : In (x, None) ((d, None) :: pm (fun _ => []) d p')).
      { destruct (Z.eq_dec x d) as [E|Hne]; [subst x; left; reflexivity|]. right. apply in_pm. left. auto. }
      apply Hrf in Hxp. rewrite HLf by exact Hx. exact Hxp.
    - (* rename *) assert (Hxp : In (rename_dim ps x, None) p).
      { subst p. apply in_map_iff. exists (x, None). auto. }
      apply Hrf in Hxp. rewrite HLf by exact Hx. cbn [view_ilen view_asg] in *.
      cbn [view_sig] in Ev. destruct (nodupb (map fst ps) && _ && _) eqn:Er in Ev; [|discriminate].
      rewrite rename_back with (s := s0) in Hxp; [exact Hxp|exact Er|exact (spath_accept _ _ _ Ep' _ Hx)].
    - destruct R.
  Qed.
End Facts.
