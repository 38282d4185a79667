(** * From an element of a view to an element of its sub-structure *)

From Verif Require Export GoodFacts ZCurveFacts.

(** ** The Z-curve on integers *)

Lemma prodn_prodl ls : prodn (nthd ls) (seq 0 (List.length ls)) = prodl ls.
Proof.
  induction ls as [|x ls IH]; [reflexivity|]. cbn [List.length seq]. unfold prodn in *. cbn [fold_right].
  change (nthd (x :: ls) 0) with x. cbn [prodl fold_right]. fold (prodl ls). rewrite <- IH. f_equal.
  rewrite <- seq_shift. clear. induction (seq 0 (List.length ls)) as [|j r IH]; simpl; [reflexivity|].
  rewrite IH. reflexivity.
Qed.

Lemma prodl_app a b : prodl (a ++ b) = prodl a * prodl b.
Proof. induction a as [|x a IH]; cbn [app prodl fold_right]; [fold (prodl b); lia|]. fold (prodl (a ++ b)) (prodl a). rewrite IH. ring. Qed.

Lemma prodl_fold_left ls x : fold_left Z.mul ls x = x * prodl ls.
Proof. revert x. induction ls as [|y ls IH]; intros x; simpl; [lia|]. rewrite IH. unfold prodl. simpl. ring. Qed.

Lemma prodl_pos_all ls : Forall (fun x => 0 <= x) ls -> 0 < prodl ls -> Forall (fun x => 0 < x) ls.
Proof.
  induction 1 as [|x ls Hx _ IH]; [constructor|]. unfold prodl in *. simpl. intros H.
  assert (0 <= fold_right Z.mul 1 ls \/ fold_right Z.mul 1 ls < 0) as [Hp|Hp] by lia; [|nia].
  constructor; [nia|]. apply IH. nia.
Qed.

Lemma prodl_nonneg ls : Forall (fun x => 0 <= x) ls -> 0 <= prodl ls.
Proof. unfold prodl. induction 1; simpl; nia. Qed.

Lemma split_nthd (ls : list Z) i : (i < List.length ls)%nat ->
  exists a b, ls = a ++ nthd ls i :: b /\ List.length a = i.
Proof.
  intros H. destruct (nth_split ls 0 H) as (a & b & E & L). exists a, b. split; [exact E|exact L].
Qed.

Lemma Forall_nthd (P : Z -> Prop) ls j : Forall P ls -> (j < List.length ls)%nat -> P (nthd ls j).
Proof. intros H Hj. rewrite Forall_forall in H. apply H. apply nth_In, Hj. Qed.

Lemma Forall2_nthd (R : Z -> Z -> Prop) xs ys : List.length xs = List.length ys ->
  (forall j, (j < List.length ys)%nat -> R (nthd xs j) (nthd ys j)) -> Forall2 R xs ys.
Proof.
  revert ys. induction xs as [|x xs IH]; intros [|y ys] E H; simpl in E; try lia; constructor.
  - apply (H 0%nat). simpl. lia.
  - apply IH; [lia|]. intros j Hj. apply (H (S j)). simpl. lia.
Qed.

Lemma Forall2_nthd_inv (R : Z -> Z -> Prop) xs ys : Forall2 R xs ys ->
  List.length xs = List.length ys /\ forall j, (j < List.length ys)%nat -> R (nthd xs j) (nthd ys j).
Proof.
  induction 1 as [|x y xs ys H _ [IH1 IH2]]; simpl; [split; [reflexivity|lia]|]. split; [lia|].
  intros [|j] Hj; [exact H|]. apply IH2. lia.
Qed.

Lemma omap_vz_Dyn ls : Forall (fun x => 0 <= x < W) ls -> omap vz (map Dyn ls) = Some ls.
Proof.
  induction 1 as [|x ls Hx _ IH]; [reflexivity|]. cbn [map omap]. fold (omap vz (map Dyn ls)).
  simpl. fold (omap vz (map Dyn ls)). rewrite IH. simpl. rewrite u64_small by lia. reflexivity.
Qed.

(** The index computation of the Z-curve as a function on integers. *)
Definition zc_f (sl gl : nat) (ls : list Z) (z : Z) : list Z :=
  map vzd (zc_indices sl gl (Dyn z) (map Dyn ls)).

Section ZLink.
  Variables (sl gl : nat) (ls : list Z).
  Let N := List.length ls.
  Hypothesis HN : (2 <= N <= 32)%nat.
  Hypothesis Hsg : (sl <= gl < 64)%nat.
  Hypothesis Hs : (sl * N < 32)%nat.
  Hypothesis Hg : zc_good sl gl ls.
  Hypothesis Hpos : Forall (fun x => 0 < x < W) ls.

  Let Hs32 : Z.of_nat N * Z.of_nat sl < 32.
  Proof. lia. Qed.

  Let Hl : forall j, (j < N)%nat ->
    0 < nthd ls j < W /\ (2 ^ Z.of_nat sl | nthd ls j) /\ nthd ls j <= 2 ^ Z.of_nat gl.
  Proof.
    intros j Hj. destruct Hg as [H1 _]. pose proof (Forall_nthd _ _ _ H1 Hj) as [Hm Hle].
    pose proof (Forall_nthd _ _ _ Hpos Hj). split; [assumption|]. split; [|exact Hle].
    apply Z.mod_divide; [|exact Hm]. pose proof (Z.pow_pos_nonneg 2 (Z.of_nat sl)). lia.
  Qed.

  Let sizes := map (fun x => Z.shiftr x (Z.of_nat sl)) ls.

  Let Hcap : forall i, (i < N)%nat ->
    prodn (at1 (nthd sizes) i) (seq 0 N) * 2 ^ (Z.of_nat (gl - sl) - 1) < W.
  Proof.
    intros i Hi. destruct (split_nthd ls i Hi) as (a & b & E & La). destruct Hg as (_ & _ & Hc).
    specialize (Hc _ _ _ E). replace (prodn (at1 (nthd sizes) i) (seq 0 N)) with
      (prodl (map (fun y => y / 2 ^ Z.of_nat sl) (a ++ b))); [exact Hc|].
    assert (Es : sizes = map (fun y => y / 2 ^ Z.of_nat sl) ls).
    { unfold sizes. apply map_ext. intros x. apply Z.shiftr_div_pow2. lia. }
    assert (HN' : N = List.length (map (fun y => y / 2 ^ Z.of_nat sl) a ++ 1 :: map (fun y => y / 2 ^ Z.of_nat sl) b)).
    { unfold N. rewrite E, !app_length. simpl. rewrite !map_length. reflexivity. }
    rewrite map_app, prodl_app.
    transitivity (prodl (map (fun y => y / 2 ^ Z.of_nat sl) a ++ 1 :: map (fun y => y / 2 ^ Z.of_nat sl) b)).
    { rewrite prodl_app. unfold prodl at 4. cbn [fold_right]. fold (prodl (map (fun y => y / 2 ^ Z.of_nat sl) b)). ring. }
    rewrite <- prodn_prodl, <- HN'. apply prodn_ext. intros j Hj. unfold at1. rewrite Es, E, map_app. cbn [map].
    unfold nthd. destruct (Nat.eqb_spec j i) as [Eji|Hne].
    - subst j. rewrite app_nth2; rewrite map_length, La; [|lia]. rewrite Nat.sub_diag. reflexivity.
    - destruct (Nat.lt_ge_cases j i) as [Hlt|Hge].
      + rewrite !app_nth1 by (rewrite map_length; lia). reflexivity.
      + rewrite !app_nth2 by (rewrite map_length; lia). rewrite map_length, La.
        destruct (j - i)%nat eqn:Ej; [lia|]. reflexivity.
  Qed.

  Let HprodW : prodn (nthd ls) (seq 0 N) < W.
  Proof. unfold N. rewrite prodn_prodl. apply Hg. Qed.

  Lemma zc_f_ix z : 0 <= z < prodl ls -> zc_f sl gl ls z = zc_ix ls sl gl z.
  Proof.
    intros Hz. assert (HzW : 0 <= z < W) by (destruct Hg as (_ & Hp & _); lia).
    assert (HW : forall j, (j < N)%nat -> nthd ls j < W) by (intros j Hj; apply Hl, Hj).
    rewrite <- prodn_prodl in Hz. fold N in Hz.
    assert (Hb : forall k, (k < N)%nat -> 0 <= nthd (zc_ix ls sl gl z) k < nthd ls k).
    { apply (zc_ix_range ls sl gl HN Hsg Hs32 Hl Hcap z Hz). }
    unfold zc_f, zc_indices. rewrite omap_vz_Dyn by (eapply Forall_impl; [|exact Hpos]; simpl; lia).
    rewrite map_length. cbn [vz]. rewrite u64_small by exact HzW. rewrite map_map. fold N.
    unfold zc_ix. fold N. fold sizes. apply map_ext_in. intros k Hk. apply in_seq in Hk.
    specialize (Hb k ltac:(lia)).
    destruct (zc_ix_at ls sl gl HN Hsg Hs32 Hl Hcap z k ltac:(lia) ltac:(lia)) as (r & Er & Ei & Hr & _).
    fold N in Er, Ei. fold sizes in Ei. rewrite Er.
    destruct (Z.ltb_spec (Z.of_nat sl * Z.of_nat N) 32) as [_|]; [|lia].
    unfold vzd. cbn [vz]. rewrite Z.shiftl_mul_pow2 by lia. rewrite Ei in Hb.
    assert (HG : 0 <= nthd (zc_general (gl - sl) (Z.shiftr z (Z.of_nat sl * Z.of_nat N)) sizes) k * 2 ^ Z.of_nat sl).
    { pose proof (Z.pow_pos_nonneg 2 (Z.of_nat sl)).
      destruct (zc_gen ls sl gl HN Hsg Hl Hcap) as (G & _ & _).
      destruct (G _ (shift_range ls sl gl HN Hsg Hl Hcap z Hz)) as [_ Hgn]. specialize (Hgn k ltac:(lia)).
      fold N sizes in Hgn. nia. }
    specialize (HW k ltac:(lia)).
    set (g := nthd (zc_general _ _ _) k) in *. rewrite (u64_small (g * 2 ^ Z.of_nat sl)) by lia.
    rewrite !(u64_small (g * 2 ^ Z.of_nat sl + r)) by lia. reflexivity.
  Qed.

  Lemma zc_f_range z : 0 <= z < prodl ls -> Forall2 (fun r x => 0 <= r < x) (zc_f sl gl ls z) ls.
  Proof.
    intros Hz. rewrite zc_f_ix by exact Hz. rewrite <- prodn_prodl in Hz.
    destruct (zc_ix_range ls sl gl HN Hsg Hs32 Hl Hcap z Hz) as [L H].
    apply Forall2_nthd; [exact L|exact H].
  Qed.

  Lemma zc_f_inj z1 z2 : 0 <= z1 < prodl ls -> 0 <= z2 < prodl ls ->
    zc_f sl gl ls z1 = zc_f sl gl ls z2 -> z1 = z2.
  Proof.
    intros H1 H2. rewrite !zc_f_ix by assumption. rewrite <- prodn_prodl in H1, H2.
    exact (zc_ix_inj ls sl gl HN Hsg Hs32 Hl Hcap z1 z2 H1 H2).
  Qed.

  Lemma zc_f_surj rf : Forall2 (fun r x => 0 <= r < x) rf ls ->
    exists z, 0 <= z < prodl ls /\ zc_f sl gl ls z = rf.
  Proof.
    intros H. destruct (Forall2_nthd_inv _ _ _ H) as [L Hr].
    destruct (zc_ix_surj ls sl gl HN Hsg Hs32 Hl Hcap rf L Hr) as (z & Hz & E).
    fold N in Hz. unfold N in Hz. rewrite prodn_prodl in Hz. exists z. split; [exact Hz|].
    rewrite zc_f_ix by exact Hz. exact E.
  Qed.
End ZLink.

(** ** Lengths and component counts fit a machine word *)

Definition lrange (l : lenv) : Prop := forall d x, l d = Some x -> 0 <= x < W.

Lemma lrange_fupd l d o : lrange l -> (forall x, o = Some x -> 0 <= x < W) -> lrange (fupd l d o).
Proof. intros H Ho q x. unfold fupd. destruct (q =? d); [apply Ho|apply H]. Qed.

Lemma lrange_None l d : lrange l -> lrange (fupd l d None).
Proof. intros H. apply lrange_fupd; [exact H|discriminate]. Qed.

Lemma view_lrange v l : lrange l -> lrange (view_lenv v l).
Proof.
  intros H. destruct v; cbn [view_lenv fupds]; auto using lrange_None.
  - apply lrange_fupd; [exact H|]. intros x E. injection E as <-. apply vzd_range.
  - apply lrange_fupd; [exact H|]. destruct (l d); simpl; intros x E; [injection E as <-; apply u64_range|discriminate].
  - apply lrange_fupd; [auto using lrange_None|]. destruct (l M), (l m); try discriminate. intros x E. injection E as <-. apply u64_range.
  - apply lrange_fupd; [auto using lrange_None|]. destruct (l M), (l m); try discriminate. intros x E. injection E as <-. apply u64_range.
  - induction ds as [|q ds IH]; simpl; auto using lrange_None.
  - intros q x. destruct (mem q (map fst ps)); [apply H|]. destruct (mem q (map snd ps)); [discriminate|apply H].
  - apply lrange_fupd; [apply lrange_fupd; [auto using lrange_None|]|]; apply H.
Qed.

Lemma odef_range l d : lrange l -> 0 <= odef (l d) < W.
Proof. intros H. destruct (l d) eqn:E; simpl; [eauto|rewrite W_eq; lia]. Qed.

Lemma div_range x y : 0 <= x < W -> 0 <= y -> 0 <= x / y < W.
Proof.
  intros Hx Hy. destruct (Z.eq_dec y 0) as [->|]; [rewrite Zdiv_0_r; lia|].
  split; [apply Z.div_pos; lia|]. apply Z.le_lt_trans with x; [|lia]. apply Z.div_le_upper_bound; nia.
Qed.

Lemma minor_len_range l M m L : lrange l -> 0 <= L < W -> 0 <= minor_len l M m L < W.
Proof.
  intros H HL. unfold minor_len. destruct (l m) eqn:E; [eauto|]. destruct (l M) eqn:E'; [|rewrite W_eq; lia].
  apply div_range; [lia|]. apply (H _ _ E').
Qed.
Lemma minor_len_up_range l M m L : lrange l -> 0 <= minor_len_up l M m L < W.
Proof.
  intros H. unfold minor_len_up. destruct (l m) eqn:E; [eauto|]. destruct (l M) eqn:E'; [|rewrite W_eq; lia].
  apply div_range; [apply u64_range|]. apply (H _ _ E').
Qed.

Lemma view_ilen_range v il l a q :
  (forall b x, 0 <= il (view_lenv v l) b x < W) -> lrange l -> 0 <= view_ilen v il l a q < W.
Proof.
  intros HL Hl. assert (H0 : 0 <= 0 < W /\ 0 <= 1 < W /\ 0 <= 2 < W) by (rewrite W_eq; lia).
  destruct v as [d|d i|d n|d st|d st len|d st en|d st sr|d|d M m|d M m pd|d b M m ml|M m d|sl gl d ds|ds|d|ps|xa xb d];
    cbn [view_ilen]; try apply HL;
    repeat match goal with |- context [if ?q =? ?d then _ else _] => destruct (q =? d) end; try apply HL;
    auto using odef_range, vzd_range, u64_range, minor_len_range, minor_len_up_range; try apply H0.
  - destruct (l d) eqn:E; [eapply Hl, E|apply u64_range].
  - apply div_range; [apply u64_range|apply vzd_range].
  - destruct (l M) eqn:E; [eapply Hl, E|]. apply div_range; [apply HL|apply odef_range, Hl].
  - match goal with |- context [if ?c then 1 else 0] => destruct c end; apply H0.
  - destruct (l M) eqn:E; [eapply Hl, E|]. apply div_range; [apply u64_range|apply odef_range, Hl].
  - specialize (HL a d). pose proof (vzd_range ml). destruct (Z.eq_dec (vzd ml) 0) as [->|]; [rewrite Zmod_0_r; lia|].
    pose proof (Z.mod_pos_bound (il (view_lenv (VBlocksSta d b M m ml) l) a d) (vzd ml)). lia.
  - apply div_range; [apply HL|apply vzd_range].
Qed.

Theorem ilen_range s l a q : lrange l -> 0 <= ilen s l a q < W.
Proof.
  revert l a q. induction s as [c|d ts IH|d t IH|v t IH|ts IH] using struct_ind'; intros l a q Hl; simpl.
  - rewrite W_eq. lia.
  - destruct (q =? d); [apply u64_range|]. destruct (nthz _ (a d)) as [n|] eqn:E; [|rewrite W_eq; lia].
    apply nthz_map_inv in E. destruct E as (t & Et & ->). apply (Forall_nthz _ _ _ _ IH Et). exact Hl.
  - destruct (q =? d); [apply odef_range, Hl|]. apply IH, lrange_None, Hl.
  - apply view_ilen_range; [intros; apply IH, view_lrange, Hl|exact Hl].
  - destruct (first_match q _) as [[n|]|] eqn:E; try (rewrite W_eq; lia).
    apply first_match_In in E. destruct E as (sg & Hin & _). apply in_map_iff in Hin. destruct Hin as (t & Et & Hin).
    inv Et. rewrite Forall_forall in IH. apply IH; assumption.
Qed.

Lemma Forall2_len {A B} (R : A -> B -> Prop) l r : Forall2 R l r -> List.length l = List.length r.
Proof. induction 1; simpl; congruence. Qed.

Lemma spath_count s sg a p d n :
  uswf s = true -> signature s = Some sg -> spath sg a = Some p -> In (d, Some n) p -> 0 <= n < W.
Proof.
  revert sg a p d n. induction s as [c|d' ts IH|d' t IH|v t IH|ts IH] using struct_ind'; intros sg a p d n Hw Es Ep Hin.
  - inv Es. inv Ep. destruct Hin.
  - destruct (signature_Tuple_inv _ _ _ Es) as (ss & F & Hx & ->). simpl in Hw. apply andb_true_iff in Hw.
    destruct Hw as [HW Hw]. rewrite spath_dep in Ep. destruct (nthz ss (a d')) as [r|] eqn:Er; [|discriminate].
    destruct (spath r a) as [pr|] eqn:Epr; [|discriminate]. injection Ep as <-.
    destruct Hin as [Hin|Hin].
    + inv Hin. rewrite <- (Forall2_len _ _ _ F). lia.
    + pose proof (Forall2_nthz _ _ _ (a d') F) as Ht. rewrite Er in Ht.
      destruct (nthz ts (a d')) as [t|] eqn:Et; [|contradiction]. rewrite forallb_forall in Hw.
      eapply (Forall_nthz _ _ _ _ IH Et); eauto using nthz_In.
  - destruct (signature_Vector_inv _ _ _ Es) as (s0 & E0 & Hd & ->). simpl in Hw. cbn [spath] in Ep.
    destruct (spath s0 a) as [pr|] eqn:Epr; [|discriminate]. injection Ep as <-.
    destruct Hin as [Hin|Hin]; [discriminate|]. eauto.
  - destruct (uview_down _ _ _ _ _ (fun _ => None) Hw Es Ep) as (s0 & p' & E0 & Ev & Hn & Ep' & R & Hnd).
    destruct (uswf_view _ _ Hw) as [Hv Ht].
    assert (IH' : forall x k, In (x, Some k) p' -> 0 <= k < W) by (intros x k Hk; eapply IH; eauto). clear IH.
    destruct v as [xd|xd i|xd xn|xd st|xd st len|xd st en|xd st sr|xd|xd M m|xd M m pd|xd b M m ml|M m xd|sl gl xd ds|ds|xd|ps|xa xb xd];
      cbn [prel] in R; try (match type of R with _ /\ _ => destruct R as [R R2] end); try subst p; eauto;
      try (apply in_pm in Hin; destruct Hin as [[Hin _]|(k & Hk & Hin)]; [solve [eauto]|]; simpl in Hin).
    + destruct Hin as [Hin|Hin]; [discriminate|eauto].
    + destruct Hin.
    + destruct Hin as [Hin|[]]. inv Hin. destruct k; [|discriminate]. inv H1. apply u64_range.
    + destruct Hin as [Hin|[]]. inv Hin. destruct k; [|discriminate]. inv H1. apply vzd_range.
    + destruct Hin as [Hin|[]]. inv Hin. destruct k; [|discriminate]. inv H1. apply u64_range.
    + destruct Hin as [Hin|[]]. inv Hin. destruct k; [|discriminate]. inv H1. apply div_range; [apply u64_range|apply vzd_range].
    + destruct Hin as [Hin|[Hin|[]]]; discriminate.
    + destruct Hin as [Hin|[Hin|[Hin|[]]]]; discriminate.
    + destruct Hin as [Hin|[Hin|[Hin|[]]]]; inv Hin. rewrite W_eq. lia.
    + eapply peeled_inv in Hin; [|exact R]. destruct Hin as [(_ & H & _)|[Hin _]]; [discriminate|eauto].
    + eapply peeled_inv in Hin; [|exact R]. destruct Hin as [(_ & H & _)|[Hin _]]; [discriminate|eauto].
    + eapply IH', Permutation_in; eauto.
    + destruct Hin as [Hin|Hin]; [discriminate|]. apply in_pm in Hin. destruct Hin as [[Hin _]|(k & _ & [])]. eauto.
    + apply in_map_iff in Hin. destruct Hin as ([x k] & E & Hin). simpl in E. inv E. eauto.
    + destruct R.
  - destruct (uswf_union _ _ Hw Es) as [Hw' [(t & -> & Et)|[Hp _]]].
    + inv IH. cbn [forallb] in Hw'. apply andb_true_iff in Hw'. eapply H1; eauto; tauto.
    + rewrite (plain_path sg a Hp) in Ep. inv Ep. apply in_map_iff in Hin. destruct Hin as (x & Hx & _). discriminate.
Qed.

(** ** Lengths on a path *)

Lemma find_path (p : path) d n : NoDup (map fst p) -> In (d, n) p -> find (fun e => fst e =? d) p = Some (d, n).
Proof.
  intros Hn H. destruct (find (fun e => fst e =? d) p) as [[d' n']|] eqn:E.
  - apply find_some in E. destruct E as [H' E']. simpl in E'. apply Z.eqb_eq in E'. subst d'.
    rewrite (nodup_fst_eq _ _ _ _ Hn H H'). reflexivity.
  - exfalso. apply (find_none _ _ E) in H. simpl in H. rewrite Z.eqb_refl in H. discriminate.
Qed.

Lemma plen_fun t sg l a p d : signature t = Some sg -> spath sg a = Some p -> NoDup (map fst p) ->
  In (d, None) p -> plen t l a d = Some (ilen t l a d).
Proof. intros Es Ep Hn H. unfold plen. rewrite Es, Ep, (find_path _ _ _ Hn H). reflexivity. Qed.

Lemma plen_dep t sg l a p d n : signature t = Some sg -> spath sg a = Some p -> NoDup (map fst p) ->
  In (d, Some n) p -> plen t l a d = Some n.
Proof. intros Es Ep Hn H. unfold plen. rewrite Es, Ep, (find_path _ _ _ Hn H). reflexivity. Qed.

Lemma plen_in t sg l a p d n : signature t = Some sg -> spath sg a = Some p -> NoDup (map fst p) ->
  In (d, n) p -> plen t l a d = Some (match n with Some k => k | None => ilen t l a d end).
Proof. destruct n; [apply plen_dep|apply plen_fun]. Qed.
