(** * Ranges, iterators and strided workers cover the traversal *)

From Verif Require Export SpecRange RangeFacts.

Section Parts.
  Variables (t : trav) (d : dim) (al : arglen) (r : sig).
  Local Notation S := (top_struct t).
  Local Notation sg := (SFun d al r).
  Local Notation part := (part t d al r).
  Local Notation tv v := (order t [LView v]).

  Lemma part_concat ls : forall x, part (concat ls) = Done x -> exists xs, Forall2 (fun a y => part a = Done y) ls xs /\ x = concat xs.
  Proof using.
    induction ls as [|a ls IH]; intros x H; simpl in *.
    - unfold RangeFacts.part in H. simpl in H. injection H as <-. exists []. split; [constructor|reflexivity].
    - apply part_app in H. destruct H as (y & z & Hy & Hz & ->). destruct (IH z Hz) as (xs & F & ->). exists (y :: xs). split; [constructor; auto|reflexivity].
  Qed.

  Lemma part_perm a b x : Permutation a b -> part a = Done x -> exists y, part b = Done y /\ Permutation x y.
  Proof using.
    intros H. revert x. unfold RangeFacts.part. induction H as [|i a b _ IH|i j a|a b c _ IH1 _ IH2]; intros x Hx.
    - exists x. auto.
    - simpl in *. destruct (fe_run _ _ _ _) as [| |y]; try discriminate. simpl in *.
      destruct (out_cat (map _ a)) as [| |z]; try discriminate. injection Hx as <-. destruct (IH z eq_refl) as (w & -> & Hw).
      exists (y ++ w). split; [reflexivity|]. apply Permutation_app_head, Hw.
    - simpl in *. destruct (fe_run _ _ _ [(Idx d, Dyn i)]) as [| |y]; try (destruct (fe_run _ _ _ [(Idx d, Dyn j)]); discriminate).
      destruct (fe_run _ _ _ [(Idx d, Dyn j)]) as [| |z]; try discriminate. simpl in *.
      destruct (out_cat _) as [| |w]; try discriminate. simpl in *. injection Hx as <-. eexists. split; [reflexivity|].
      rewrite !app_assoc. apply Permutation_app_tail, Permutation_app_comm.
    - destruct (IH1 x Hx) as (y & Hy & P1). destruct (IH2 y Hy) as (z & Hz & P2). exists z. split; [exact Hz|]. eapply Permutation_trans; eauto.
  Qed.

  Hypothesis Hx : forall v u, tr_struct t <> View v u.
  Hypothesis Hs : signature S = Some sg.
  Hypothesis Hn : snodup sg = true.

  Lemma collect vs : forall idxss sts, Forall2 (restricts t d al r) vs idxss -> Forall (fun v => compiles (tv v)) vs ->
    part (concat idxss) = Done sts -> (forall e, In e sts -> state_at (tr_struct t) S e <> None) ->
    exists ls, Forall2 (fun v l => for_each (tv v) [] = Done l) vs ls /\ Forall2 (matches t) sts (concat ls).
  Proof using Hx Hs Hn.
    intros idxss sts HF. revert sts. induction HF as [|v idxs vs idxss Hv HF IH]; intros sts Hc Hp Hst.
    - unfold RangeFacts.part in Hp. simpl in Hp. injection Hp as <-. exists []. split; constructor.
    - simpl in Hp. apply part_app in Hp. destruct Hp as (y & z & Hy & Hz & ->). inversion Hc as [|? ? Hc1 Hc2]; subst.
      destruct (IH z Hc2 Hz) as (ls & F1 & F2); [intros e He; apply Hst, in_or_app; right; exact He|].
      destruct (restrict_conv t d al r Hx Hs Hn v idxs y Hv Hc1 Hy) as (l & Hl); [intros e He; apply Hst, in_or_app; left; exact He|].
      destruct (restrict_each t d al r Hx Hs Hn v idxs l Hv Hl) as (y' & Hy' & Fy). assert (y' = y) by congruence. subst y'.
      exists (l :: ls). split; [constructor; assumption|]. simpl. apply Forall2_app; assumption.
  Qed.

  Lemma matches_some sts l : Forall2 (matches t) sts l -> forall e, In e sts -> state_at (tr_struct t) S e <> None.
  Proof using. intros F e He. destruct (Forall2_in1 _ _ _ _ F He) as (s & _ & s' & E & _). congruence. Qed.

  (** Views that split [idxs] among them. *)
  Lemma cover_in_order idxs vs idxss sts l : part idxs = Done sts -> Forall2 (matches t) sts l ->
    Forall2 (restricts t d al r) vs idxss -> compiles t -> (compiles t -> Forall (fun v => compiles (tv v)) vs) -> concat idxss = idxs ->
    calls_in_order (map (fun v => tv v) vs) l.
  Proof using Hx Hs Hn.
    intros Hp Hm HF Hc Hcv E. rewrite <- E in Hp. destruct (collect vs idxss sts HF (Hcv Hc) Hp (matches_some _ _ Hm)) as (ls & F1 & F2).
    exists ls. split; [|eapply matches_all; eauto]. clear -F1. induction F1; simpl; constructor; auto.
  Qed.

  Lemma cover_once idxs vs idxss sts l : part idxs = Done sts -> Forall2 (matches t) sts l ->
    Forall2 (restricts t d al r) vs idxss -> compiles t -> (compiles t -> Forall (fun v => compiles (tv v)) vs) -> Permutation idxs (concat idxss) ->
    calls_once (map (fun v => tv v) vs) l.
  Proof using Hx Hs Hn.
    intros Hp Hm HF Hc Hcv HP. destruct (part_perm _ _ _ HP Hp) as (sts' & Hp' & P').
    destruct (perm_Forall2 _ _ _ _ P' Hm) as (l' & Pl & Hm').
    destruct (collect vs idxss sts' HF (Hcv Hc) Hp' (matches_some _ _ Hm')) as (ls & F1 & F2).
    exists ls, l'. split; [clear -F1; induction F1; simpl; constructor; auto|]. split; [exact Pl|]. eapply matches_all; eauto.
  Qed.
End Parts.

Lemma order_not_view ss p : forall v u, tr_struct (order (traverser ss) p) <> View v u.
Proof. intros v u H. discriminate. Qed.

Lemma range_inv t r : distinct_dims (top_struct t) -> range_of t = Done r ->
  exists al rs len n, signature (top_struct t) = Some (SFun (rg_dim r) al rs) /\ snodup (SFun (rg_dim r) al rs) = true /\
    length_ (top_struct t) (rg_dim r) [] = Some len /\ vz len = Some n /\ 0 <= n < W /\ r = {| rg_dim := rg_dim r; rg_trav := t; rg_begin := 0; rg_end := n |}.
Proof.
  unfold range_of, top_dim, range_of_dim, distinct_dims. intros Hd H. destruct (signature (top_struct t)) as [[c| |d al rs|]|]; try discriminate.
  destruct (length_ (top_struct t) d []) as [len|] eqn:El; [|discriminate]. destruct (vz len) as [n|] eqn:En; [|discriminate]. injection H as <-.
  exists al, rs, len, n. cbn [rg_dim]. repeat (split; [assumption || reflexivity|]). split; [exact (vz_range _ _ En)|reflexivity].
Qed.

Definition interval (b e : Z) : list Z := map (fun k => u64 (k + b)) (zseq (u64 (e - b))).

Lemma interval_zseq b e : 0 <= b <= e -> e < W -> interval b e = map (fun k => k + b) (zseq (e - b)).
Proof.
  intros H1 H2. unfold interval. rewrite u64_small by lia. apply map_ext_in. intros k Hk. apply TravFacts.zseq_In in Hk. apply u64_small. lia.
Qed.

Lemma zseq_app a b : 0 <= a -> 0 <= b -> zseq (a + b) = zseq a ++ map (fun k => k + a) (zseq b).
Proof.
  intros Ha Hb. unfold zseq. rewrite Z2Nat.inj_add by assumption. rewrite seq_app, map_app. f_equal. simpl.
  rewrite map_map. replace (seq (Z.to_nat a) (Z.to_nat b)) with (map (fun k => (k + Z.to_nat a)%nat) (seq 0 (Z.to_nat b))).
  - rewrite map_map. apply map_ext. intros k. lia.
  - assert (H : forall n s m, map (fun k => (k + m)%nat) (seq s n) = seq (s + m) n).
    { intros n. induction n as [|n IH]; intros s m; simpl; [reflexivity|]. f_equal. apply (IH (S s) m). }
    rewrite H. reflexivity.
Qed.

Lemma interval_app b m e : 0 <= b <= m -> m <= e -> e < W -> interval b m ++ interval m e = interval b e.
Proof.
  intros H1 H2 H3. rewrite !interval_zseq by lia. replace (e - b) with ((m - b) + (e - m)) by lia.
  rewrite (zseq_app (m - b) (e - m)), map_app, map_map by lia. f_equal. apply map_ext. intros k. lia.
Qed.

Lemma interval_whole n : 0 <= n < W -> interval 0 n = zseq n.
Proof. intros H. rewrite interval_zseq by lia. rewrite Z.sub_0_r. rewrite <- (map_id (zseq n)) at 2. apply map_ext. intros k. lia. Qed.

Lemma interval_nil b : interval b b = [].
Proof. unfold interval. rewrite Z.sub_diag. reflexivity. Qed.

Definition slice_of (r : range) : view := VSlice (rg_dim r) (Dyn (rg_begin r)) (Dyn (rg_size r)).

(** Ranges that follow one another. *)
Fixpoint follows (b : Z) (rs : list range) (e : Z) : Prop :=
  match rs with [] => b = e | x :: rs' => rg_begin x = b /\ b <= rg_end x /\ follows (rg_end x) rs' e end.

Lemma follows_le rs : forall b e, follows b rs e -> b <= e.
Proof. induction rs as [|x rs IH]; simpl; intros b e H; [lia|]. destruct H as (_ & H1 & H2). apply IH in H2. lia. Qed.
Lemma follows_app rs qs : forall b m e, follows b rs m -> follows m qs e -> follows b (rs ++ qs) e.
Proof. induction rs as [|x rs IH]; simpl; intros b m e H1 H2; [congruence|]. destruct H1 as (A & B & C). eauto. Qed.

Lemma follows_intervals rs : forall b e, 0 <= b -> e < W -> follows b rs e -> concat (map (fun x => interval (rg_begin x) (rg_end x)) rs) = interval b e.
Proof.
  induction rs as [|x rs IH]; intros b e Hb He H.
  - simpl in H. rewrite H, interval_nil. reflexivity.
  - destruct H as (E & Hle & H). cbn [map concat]. rewrite (IH (rg_end x) e); auto; [|lia]. rewrite E.
    apply interval_app; auto. eapply follows_le; eauto.
Qed.

Theorem follows_calls t r rs b e l : (forall v u, tr_struct t <> View v u) -> distinct_dims (top_struct t) -> range_of t = Done r ->
  for_each t [] = Done l -> 0 <= b -> b <= e <= rg_end r -> follows b rs e -> (forall x, In x rs -> x = rg_set r (rg_begin x) (rg_end x)) ->
  exists lm, rg_for_each (rg_set r b e) = Done lm /\ calls_in_order (map as_traverser rs) lm /\ (b = 0 -> e = rg_end r -> Forall2 same_get l lm).
Proof.
  intros Hx Hd Hr Hl Hb He Hf Hrs. destruct (range_inv t r Hd Hr) as (al & sgr & len & n & Hs & Hn & Hlen & Hvz & Hn0 & Er).
  pose proof (each_compiles t l Hl) as Hc.
  destruct (whole_each t (rg_dim r) al sgr Hx Hs Hn len n l Hlen Hvz Hl) as (sts & Hp & Hm).
  assert (Ee : rg_end r = n) by (rewrite Er; reflexivity). assert (Et : rg_trav r = t) by (rewrite Er; reflexivity).
  assert (Hne : length_ (top_struct t) (rg_dim r) [] <> None) by congruence.
  rewrite <- (interval_whole n Hn0) in Hp. rewrite <- (interval_app 0 b n), <- (interval_app b e n) in Hp by lia.
  apply part_app in Hp. destruct Hp as (s1 & s2 & _ & Hp & ->). apply part_app in Hp. destruct Hp as (s3 & s4 & Hp & _ & ->).
  pose proof (matches_some t _ _ Hm) as Hsome.
  assert (Hres : forall b e, restricts t (rg_dim r) al sgr (slice_of (rg_set r b e)) (interval b e)).
  { intros b' e'. apply restrict_slice; auto. cbn [rg_size rg_end rg_begin rg_set]. apply u64_range. }
  destruct (restrict_conv t _ al sgr Hx Hs Hn _ _ s3 (Hres b e)) as (lm & Hlm); auto.
  { apply (compiles_slice t _ al sgr Hx Hs Hn); exact Hc. }
  { intros e0 He0. apply Hsome. apply in_or_app. right. apply in_or_app. left. exact He0. }
  exists lm. split; [unfold rg_for_each, as_traverser; cbn [rg_set rg_trav]; rewrite Et; exact Hlm|].
  destruct (restrict_each t _ al sgr Hx Hs Hn _ _ lm (Hres b e) Hlm) as (s3' & Hp' & Hm3). assert (s3' = s3) by congruence. subst s3'. split.
  - replace (map as_traverser rs) with (map (fun v => order t [LView v]) (map slice_of rs)).
    + apply (cover_in_order t _ al sgr Hx Hs Hn (interval b e) _ (map (fun x => interval (rg_begin x) (rg_end x)) rs) s3 lm); auto.
      * clear -Hrs Hres. induction rs as [|x rs IH]; simpl; constructor; [|apply IH; intros; apply Hrs; right; assumption].
        rewrite (Hrs x (or_introl eq_refl)). apply Hres.
      * intros _. clear -Hrs Hc Hx Hs Hn. apply Forall_forall. intros v Hv. apply in_map_iff in Hv. destruct Hv as (x & <- & Hin).
        rewrite (Hrs x Hin). apply (compiles_slice t _ al sgr Hx Hs Hn); exact Hc.
      * apply follows_intervals; auto. lia.
    + rewrite map_map. apply map_ext_in. intros x Hin. rewrite (Hrs x Hin). unfold as_traverser. cbn [rg_set rg_trav]. rewrite Et. reflexivity.
  - intros E0 E1. rewrite E1, Ee in *. rewrite E0 in *.
    destruct (whole_each t (rg_dim r) al sgr Hx Hs Hn len n l Hlen Hvz Hl) as (sts & Hp2 & Hm2). rewrite <- (interval_whole n Hn0) in Hp2.
    assert (sts = s3) by congruence. subst sts. exact (matches_all t _ _ _ Hm2 Hm3).
Qed.

(** ** Cutting and splitting *)

Lemma cut_follows r es : forall b, ascending b es (rg_end r) -> follows b (cut r b es) (rg_end r) /\ (forall x, In x (cut r b es) -> x = rg_set r (rg_begin x) (rg_end x)).
Proof.
  induction es as [|e es IH]; intros b H; simpl in *.
  - split; [auto|]. intros x [<-|[]]. reflexivity.
  - destruct H as [H1 H2]. destruct (IH e H2) as [F G]. split; [auto|]. intros x [<-|Hx]; [reflexivity|auto].
Qed.

Lemma split_follows tr : forall r, 0 <= rg_begin r -> rg_begin r <= rg_end r -> rg_end r < W ->
  follows (rg_begin r) (pieces tr r) (rg_end r) /\ (forall x, In x (pieces tr r) -> x = rg_set r (rg_begin x) (rg_end x)).
Proof.
  induction tr as [|a IHa b IHb]; intros r H0 H1 H2; simpl.
  - split; [auto|]. intros x [<-|[]]. destruct r; reflexivity.
  - destruct (rg_divisible r) eqn:Ed; [|split; [simpl; auto|]; intros x [<-|[]]; destruct r; reflexivity].
    unfold rg_split. cbn [fst snd].
    assert (Hm : rg_begin r <= rg_mid r <= rg_end r).
    { unfold rg_mid, rg_size. rewrite (u64_small (rg_end r - rg_begin r)) by lia.
      assert (0 <= (rg_end r - rg_begin r) / 2 <= rg_end r - rg_begin r) by (split; [apply Z.div_pos; lia|apply Z.div_le_upper_bound; lia]).
      rewrite u64_small by lia. lia. }
    destruct (IHa (rg_set r (rg_begin r) (rg_mid r))) as [F1 G1]; cbn [rg_set rg_begin rg_end]; try lia.
    destruct (IHb (rg_set r (rg_mid r) (rg_end r))) as [F2 G2]; cbn [rg_set rg_begin rg_end]; try lia.
    split; [eapply follows_app; eauto|]. intros x Hx. apply in_app_or in Hx. destruct Hx as [Hx|Hx]; [apply G1 in Hx|apply G2 in Hx]; exact Hx.
Qed.

(** ** The elements of a range *)

Theorem elements_calls t r b e l : (forall v u, tr_struct t <> View v u) -> distinct_dims (top_struct t) -> range_of t = Done r ->
  for_each t [] = Done l -> 0 <= b -> b <= e <= rg_end r ->
  exists lm, rg_for_each (rg_set r b e) = Done lm /\ calls_in_order (map (rg_nth (rg_set r b e)) (zseq (rg_size (rg_set r b e)))) lm.
Proof.
  intros Hx Hd Hr Hl Hb He. destruct (range_inv t r Hd Hr) as (al & sgr & len & n & Hs & Hn & Hlen & Hvz & Hn0 & Er).
  pose proof (each_compiles t l Hl) as Hc. assert (Ee : rg_end r = n) by (rewrite Er; reflexivity). assert (Et : rg_trav r = t) by (rewrite Er; reflexivity).
  destruct (follows_calls t r [rg_set r b e] b e l Hx Hd Hr Hl Hb He) as (lm & Hlm & _ & _).
  { simpl. lia. } { intros x [<-|[]]. reflexivity. }
  exists lm. split; [exact Hlm|].
  assert (Hlm' : for_each (order t [LView (slice_of (rg_set r b e))]) [] = Done lm).
  { revert Hlm. unfold rg_for_each, as_traverser. cbn [rg_set rg_trav]. rewrite Et. auto. }
  destruct (restrict_each t (rg_dim r) al sgr Hx Hs Hn (slice_of (rg_set r b e)) (interval b e) lm) as (sts & Hp & Hm); [|exact Hlm'|].
  { assert (Hne : length_ (top_struct t) (rg_dim r) [] <> None) by congruence. apply restrict_slice; auto. cbn [rg_size rg_end rg_begin rg_set]. apply u64_range. }
  set (vs := map (fun k => VFix (rg_dim r) (Dyn (u64 (b + k)))) (zseq (rg_size (rg_set r b e)))).
  replace (map (rg_nth (rg_set r b e)) (zseq (rg_size (rg_set r b e)))) with (map (fun v => order t [LView v]) vs).
  2: { unfold vs. rewrite map_map. apply map_ext. intros k. unfold rg_nth. cbn [rg_set rg_trav rg_dim rg_begin]. rewrite Et. reflexivity. }
  apply (cover_in_order t _ al sgr Hx Hs Hn (interval b e) vs (map (fun k => [u64 (b + k)]) (zseq (rg_size (rg_set r b e)))) sts lm); auto.
  - unfold vs. clear -Hs Hn. induction (zseq _) as [|k ks IH]; simpl; constructor; auto. apply restrict_fix; assumption.
  - intros _. unfold vs. apply Forall_forall. intros v Hv. apply in_map_iff in Hv. destruct Hv as (k & <- & _).
    apply (compiles_fix t _ al sgr Hx Hs Hn _ Hc).
  - unfold interval, rg_size. cbn [rg_set rg_begin rg_end]. induction (zseq _) as [|k ks IH]; simpl; [reflexivity|]. rewrite IH. f_equal. f_equal. lia.
Qed.

(** ** Strided workers *)

Lemma step_count n m k x : 0 < m -> 0 <= k < m -> 0 <= n ->
  (exists j, 0 <= j < (n + m - k - 1) / m /\ x = j * m + k) <-> 0 <= x < n /\ x mod m = k.
Proof.
  intros Hm Hk Hn. split.
  - intros (j & Hj & ->). assert (H : (n + m - k - 1) / m * m <= n + m - k - 1) by (rewrite Z.mul_comm; apply Z.mul_div_le; lia).
    split; [nia|]. rewrite Z.add_comm, Z.mod_add by lia. apply Z.mod_small. lia.
  - intros [Hx E]. exists (x / m). pose proof (Z.div_mod x m ltac:(lia)) as D. rewrite E in D. split; [|lia]. split; [apply Z.div_pos; lia|].
    apply Z.lt_le_trans with (x / m + 1); [lia|]. apply Z.div_le_lower_bound; [lia|]. lia.
Qed.

Lemma NoDup_map_inj {A B} (f : A -> B) l : (forall x y, In x l -> In y l -> f x = f y -> x = y) -> NoDup l -> NoDup (map f l).
Proof.
  intros Hf H. induction H as [|x l Hx H IH]; simpl; constructor.
  - intros Hin. apply in_map_iff in Hin. destruct Hin as (y & E & Hy). apply Hx. rewrite <- (Hf y x); auto; [right; exact Hy|left; reflexivity].
  - apply IH. intros. apply Hf; auto; right; assumption.
Qed.

Lemma strided_perm n m : 0 < m -> 0 <= n ->
  Permutation (zseq n) (concat (map (fun k => map (fun j => j * m + k) (zseq ((n + m - k - 1) / m))) (zseq m))).
Proof.
  intros Hm Hn. apply NoDup_Permutation.
  - apply Lib.zseq_NoDup.
  - rewrite <- flat_map_concat_map. rewrite <- (map_id (flat_map _ _)).
    apply (nodup_flat (fun x => x)); [apply Lib.zseq_NoDup| |].
    + intros k Hk. rewrite map_id. apply NoDup_map_inj; [intros; nia|apply Lib.zseq_NoDup].
    + intros k k' x y Hk Hk' Hx Hy E. apply TravFacts.zseq_In in Hk, Hk'. apply in_map_iff in Hx, Hy.
      destruct Hx as (j & <- & Hj), Hy as (j' & <- & Hj').
      assert (E1 : (j * m + k) mod m = k) by (rewrite Z.add_comm, Z.mod_add by lia; apply Z.mod_small; lia).
      assert (E2 : (j' * m + k') mod m = k') by (rewrite Z.add_comm, Z.mod_add by lia; apply Z.mod_small; lia). congruence.
  - intros x. rewrite TravFacts.zseq_In, in_concat. split.
    + intros Hx. exists (map (fun j => j * m + x mod m) (zseq ((n + m - x mod m - 1) / m))). pose proof (Z.mod_pos_bound x m Hm) as Hk. split.
      * apply in_map_iff. exists (x mod m). split; [reflexivity|]. apply TravFacts.zseq_In. exact Hk.
      * apply in_map_iff. destruct (proj2 (step_count n m (x mod m) x Hm Hk Hn) (conj Hx eq_refl)) as (j & Hj & E). exists j. split; [auto|].
        apply TravFacts.zseq_In. exact Hj.
    + intros (l & Hl & Hx). apply in_map_iff in Hl. destruct Hl as (k & <- & Hk). apply in_map_iff in Hx. destruct Hx as (j & E & Hj).
      apply TravFacts.zseq_In in Hk, Hj. apply (proj1 (step_count n m k x Hm Hk Hn)). exists j. split; [exact Hj|auto].
Qed.

Theorem workers_calls t r m l : (forall v u, tr_struct t <> View v u) -> distinct_dims (top_struct t) -> range_of t = Done r ->
  for_each t [] = Done l -> 0 < m < W -> rg_end r + m <= W ->
  calls_once (map (fun k => order t [LView (VStep (rg_dim r) (Dyn k) (Dyn m))]) (zseq m)) l.
Proof.
  intros Hx Hd Hr Hl Hm Hw. destruct (range_inv t r Hd Hr) as (al & sgr & len & n & Hs & Hn & Hlen & Hvz & Hn0 & Er).
  pose proof (each_compiles t l Hl) as Hc. assert (Ee : rg_end r = n) by (rewrite Er; reflexivity).
  destruct (whole_each t (rg_dim r) al sgr Hx Hs Hn len n l Hlen Hvz Hl) as (sts & Hp & Hma).
  replace (map (fun k => order t [LView (VStep (rg_dim r) (Dyn k) (Dyn m))]) (zseq m)) with
    (map (fun v => order t [LView v]) (map (fun k => VStep (rg_dim r) (Dyn k) (Dyn m)) (zseq m))) by (rewrite map_map; reflexivity).
  apply (cover_once t _ al sgr Hx Hs Hn (zseq n) _ (map (fun k => map (fun j => j * m + k) (zseq ((n + m - k - 1) / m))) (zseq m)) sts l); auto.
  - assert (H : forall k, In k (zseq m) -> 0 <= k < m) by (intros k Hk; apply TravFacts.zseq_In in Hk; exact Hk). revert H.
    generalize (zseq m) as ks. induction ks as [|k ks IH]; intros H; simpl; constructor; [|apply IH; intros; apply H; right; assumption].
    apply (restrict_step t _ al sgr Hs Hn k m len n); auto; [apply H; left; reflexivity|lia].
  - intros _. apply Forall_forall. intros v Hv. apply in_map_iff in Hv. destruct Hv as (k & <- & _). apply (compiles_step t _ al sgr Hx Hs Hn _ _ Hc).
  - apply strided_perm; lia.
Qed.

(** Splitting makes progress. *)
Theorem split_parts r : 0 <= rg_begin r <= rg_end r -> rg_end r < W ->
  (rg_divisible r = true <-> 2 <= rg_size r) /\
  (rg_divisible r = true -> rg_empty (fst (rg_split r)) = false /\ rg_empty (snd (rg_split r)) = false /\
     rg_size (fst (rg_split r)) < rg_size r /\ rg_size (snd (rg_split r)) < rg_size r /\
     rg_size (fst (rg_split r)) + rg_size (snd (rg_split r)) = rg_size r /\ Z.abs (rg_size (fst (rg_split r)) - rg_size (snd (rg_split r))) <= 1).
Proof.
  intros H1 H2. unfold rg_divisible. split; [rewrite Z.ltb_lt; lia|]. intros Hd. apply Z.ltb_lt in Hd.
  unfold rg_split, rg_empty. cbn [fst snd rg_set rg_begin rg_end].
  assert (Es : rg_size r = rg_end r - rg_begin r) by (unfold rg_size; apply u64_small; lia). rewrite Es in Hd.
  pose proof (Z.div_mod (rg_end r - rg_begin r) 2 ltac:(lia)) as Hm. pose proof (Z.mod_pos_bound (rg_end r - rg_begin r) 2 ltac:(lia)) as Hb.
  set (h := (rg_end r - rg_begin r) / 2) in *.
  assert (Em : rg_mid r = rg_begin r + h) by (unfold rg_mid; rewrite Es; fold h; apply u64_small; lia).
  unfold rg_size. cbn [rg_set rg_begin rg_end]. rewrite Em. rewrite !u64_small by lia. rewrite !Z.eqb_neq. lia.
Qed.
