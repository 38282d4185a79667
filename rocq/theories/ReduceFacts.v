(** * Reductions in parallel *)

From Verif Require Export Reduce RangeThms SpecReduce.

Section Monoid.
  Variables (V : Type) (op : V -> V -> V) (e : V).
  Hypothesis Hm : comm_monoid op e.

  Definition sum (l : list V) : V := fold_right op e l.

  Lemma sum_app a b : sum (a ++ b) = op (sum a) (sum b).
  Proof using Hm.
    destruct Hm as (Ha & Hc & He). induction a as [|x a IH]; simpl; [rewrite Hc, He; reflexivity|]. rewrite IH, Ha. reflexivity.
  Qed.
  Lemma sum_perm a b : Permutation a b -> sum a = sum b.
  Proof using Hm.
    destruct Hm as (Ha & Hc & He). induction 1; simpl; congruence.
  Qed.
  Lemma sum_concat ls : sum (concat ls) = sum (map sum ls).
  Proof using Hm. induction ls as [|l ls IH]; simpl; [reflexivity|]. rewrite sum_app, IH. reflexivity. Qed.

  Variables (f_neut f_acc : state -> buffer V -> buffer V) (f_join : state -> buffer V -> buffer V -> buffer V).
  Variables (place : state -> Z) (outs : list state) (adds : state -> Z -> V).
  Hypothesis Hr : reduces op e place outs adds f_neut f_acc f_join.

  Definition slot (x : Z) : Prop := In x (map place outs).

  Lemma acc_calls sts x : slot x -> forall m, all_calls f_acc sts m x = op (m x) (sum (map (fun st => adds st x) sts)).
  Proof using Hm Hr.
    intros Hx. destruct Hm as (Ha & Hc & He). induction sts as [|st sts IH]; intros m; unfold all_calls in *; simpl; [rewrite He; reflexivity|].
    rewrite IH. rewrite (rd_acc _ _ _ _ _ _ _ _ Hr) by exact Hx. rewrite Ha. reflexivity.
  Qed.

  Lemma neut_calls x sts : forall m, In x (map place sts) -> (forall s, In s sts -> In s outs) -> all_calls f_neut sts m x = e.
  Proof using Hr.
    induction sts as [|st sts IH] using rev_ind; intros m Hx Hs; [destruct Hx|]. unfold all_calls in *. rewrite fold_left_app. simpl.
    rewrite (rd_neut _ _ _ _ _ _ _ _ Hr) by (apply Hs, in_or_app; right; left; reflexivity). destruct (Z.eqb_spec x (place st)); [reflexivity|].
    apply IH; [|intros; apply Hs, in_or_app; left; assumption]. rewrite map_app in Hx. apply in_app_or in Hx. destruct Hx as [Hx|[Hx|[]]]; [exact Hx|congruence].
  Qed.

  Lemma join_calls sts b : NoDup (map place sts) -> (forall s, In s sts -> In s outs) ->
    forall x a, fold_left (fun m st => f_join st m b) sts a x = if existsb (Z.eqb x) (map place sts) then op (a x) (b x) else a x.
  Proof using Hr.
    induction sts as [|st sts IH]; intros Hn Hs x a; simpl in *; [reflexivity|]. inversion Hn as [|? ? Hni Hn']; subst.
    rewrite IH by (auto; intros; apply Hs; right; assumption). rewrite (rd_join _ _ _ _ _ _ _ _ Hr) by (apply Hs; left; reflexivity).
    destruct (Z.eqb_spec x (place st)) as [E|]; simpl; [|reflexivity].
    destruct (existsb (Z.eqb x) (map place sts)) eqn:Ex; [|reflexivity]. exfalso. apply existsb_exists in Ex. destruct Ex as (y & Hy & Ey).
    apply Z.eqb_eq in Ey. apply Hni. congruence.
  Qed.

  Lemma thread_value g works x : slot x -> thread_result f_neut f_acc outs g works x = sum (map (fun st => adds st x) (concat works)).
  Proof using Hm Hr.
    intros Hx. unfold thread_result. destruct Hm as (Ha & Hc & He).
    assert (H : forall m, fold_left (fun m w => all_calls f_acc w m) works m x = op (m x) (sum (map (fun st => adds st x) (concat works)))).
    { induction works as [|w works IH]; intros m; simpl; [rewrite He; reflexivity|]. rewrite IH, acc_calls by exact Hx.
      rewrite map_app, sum_app, Ha. reflexivity. }
    rewrite H, neut_calls; auto. rewrite Hc, He. reflexivity.
  Qed.

  Lemma private_value threads x : slot x -> NoDup (map place outs) -> forall out,
    reduce_private f_neut f_acc f_join outs threads out x = op (out x) (sum (map (fun st => adds st x) (concat (concat (map snd threads))))).
  Proof using Hm Hr.
    intros Hx Hn. destruct Hm as (Ha & Hc & He). unfold reduce_private. induction threads as [|th threads IH]; intros out; simpl; [rewrite He; reflexivity|].
    rewrite IH. unfold join_into. rewrite join_calls by auto.
    assert (Ex : existsb (Z.eqb x) (map place outs) = true) by (apply existsb_exists; exists x; split; [exact Hx|apply Z.eqb_refl]).
    rewrite Ex, thread_value by exact Hx. rewrite concat_app, map_app, sum_app, Ha. reflexivity.
  Qed.

  Lemma sum_same l l' x : respects adds -> Forall2 same_get l l' -> sum (map (fun st => adds st x) l) = sum (map (fun st => adds st x) l').
  Proof using. intros Hp F. induction F as [|a b l l' Hab _ IH]; simpl; [reflexivity|]. rewrite IH, (Hp a b x Hab). reflexivity. Qed.

  Lemma perm_concat_works (works works' : list (list state)) : Permutation works works' -> Permutation (concat works) (concat works').
  Proof using.
    induction 1; simpl; auto; [apply Permutation_app_head; assumption| |eapply Permutation_trans; eauto].
    rewrite !app_assoc. apply Permutation_app_tail, Permutation_app_comm.
  Qed.

  Theorem private_sequential l works threads out x : respects adds -> Forall2 same_get l (concat works) ->
    Permutation (concat (map snd threads)) works -> NoDup (map place outs) -> slot x ->
    reduce_private f_neut f_acc f_join outs threads out x = all_calls f_acc l out x.
  Proof using Hm Hr.
    intros Hp F P Hn Hx. rewrite private_value, acc_calls by assumption. f_equal. rewrite (sum_same l (concat works) x Hp F).
    apply sum_perm, Permutation_map, perm_concat_works, P.
  Qed.

  Theorem shared_sequential l works calls out x : respects adds -> Forall2 same_get l (concat works) ->
    Permutation calls (concat works) -> slot x -> reduce_shared f_acc calls out x = all_calls f_acc l out x.
  Proof using Hm Hr.
    intros Hp F P Hx. unfold reduce_shared. rewrite !acc_calls by assumption. f_equal. rewrite (sum_same l (concat works) x Hp F).
    apply sum_perm, Permutation_map, P.
  Qed.
End Monoid.

(** The calls on the pieces, one after another, are the calls of the traversal. *)
Lemma pieces_calls t r tr l works : (forall v u, tr_struct t <> View v u) -> distinct_dims (top_struct t) -> range_of t = Done r ->
  for_each t [] = Done l -> Forall2 (fun piece w => rg_for_each piece = Done w) (pieces tr r) works -> Forall2 same_get l (concat works).
Proof.
  intros Hx Hd Hr Hl Hw. destruct (range_inv t r Hd Hr) as (_ & _ & _ & n & _ & _ & _ & _ & Hn & Er).
  assert (Hb : rg_begin r = 0) by (rewrite Er; reflexivity). assert (He : rg_end r = n) by (rewrite Er; reflexivity).
  destruct (split_follows tr r) as [F G]; try lia. rewrite Hb in F.
  destruct (follows_calls t r (pieces tr r) 0 (rg_end r) l Hx Hd Hr Hl) as (lm & _ & (ls & F1 & F2) & F3); auto; try lia.
  assert (ls = works).
  { clear -F1 Hw. revert ls F1. induction Hw as [|x w xs ws Hxw _ IH]; intros ls F1; inversion F1 as [|? y ? ys H1 H2]; subst; [reflexivity|].
    unfold rg_for_each in Hxw. f_equal; [congruence|]. apply IH. exact H2. }
  subst ls. specialize (F3 eq_refl eq_refl). clear -F2 F3. revert F2. generalize (concat works) as w. induction F3 as [|a b l lm Hab _ IH]; intros w F2;
    inversion F2 as [|? c ? w' H1 H2]; subst; constructor; [|auto]. eapply same_get_trans; eauto.
Qed.

Theorem reduce_private_correct V op e (f_neut f_acc : state -> buffer V -> buffer V) f_join adds place t r tr outs l works threads buf x :
  comm_monoid op e -> reduces op e place outs adds f_neut f_acc f_join -> respects adds -> NoDup (map place outs) ->
  (forall v u, tr_struct t <> View v u) -> distinct_dims (top_struct t) -> range_of t = Done r -> for_each t [] = Done l ->
  Forall2 (fun piece w => rg_for_each piece = Done w) (pieces tr r) works -> Permutation (concat (map snd threads)) works ->
  In x (map place outs) -> reduce_private f_neut f_acc f_join outs threads buf x = all_calls f_acc l buf x.
Proof.
  intros Hm Hr Hp Hn Hx Hd Hrg Hl Hw P Hin.
  exact (private_sequential V op e Hm f_neut f_acc f_join place outs adds Hr l works threads buf x Hp (pieces_calls t r tr l works Hx Hd Hrg Hl Hw) P Hn Hin).
Qed.

Theorem reduce_shared_correct V op e (f_neut f_acc : state -> buffer V -> buffer V) f_join adds place t r tr outs l works calls buf x :
  comm_monoid op e -> reduces op e place outs adds f_neut f_acc f_join -> respects adds ->
  (forall v u, tr_struct t <> View v u) -> distinct_dims (top_struct t) -> range_of t = Done r -> for_each t [] = Done l ->
  Forall2 (fun piece w => rg_for_each piece = Done w) (pieces tr r) works -> Permutation calls (concat works) ->
  In x (map place outs) -> reduce_shared f_acc calls buf x = all_calls f_acc l buf x.
Proof.
  intros Hm Hr Hp Hx Hd Hrg Hl Hw P Hin.
  exact (shared_sequential V op e Hm f_neut f_acc f_join place outs adds Hr l works calls buf x Hp (pieces_calls t r tr l works Hx Hd Hrg Hl Hw) P Hin).
Qed.

(** ** The forms stated in the property file *)

Lemma cut_calls ss p r es l : let t := order (traverser ss) p in
  distinct_dims (top_struct t) -> range_of t = Done r -> for_each t [] = Done l -> ascending 0 es (rg_end r) ->
  calls_in_order (map as_traverser (cut r 0 es)) l.
Proof.
  intros t Hd Hr Hl Ha. pose proof (order_not_view ss p) as Hx. fold t in Hx.
  destruct (range_inv t r Hd Hr) as (_ & _ & _ & n & _ & _ & _ & _ & Hn & Er). assert (He : rg_end r = n) by (rewrite Er; reflexivity).
  destruct (cut_follows r es 0 Ha) as [F G].
  destruct (follows_calls t r (cut r 0 es) 0 (rg_end r) l Hx Hd Hr Hl) as (lm & _ & (ls & F1 & F2) & F3); auto; try lia.
  exists ls. split; [exact F1|]. specialize (F3 eq_refl eq_refl). clear -F2 F3. revert F2. generalize (concat ls) as w.
  induction F3 as [|a b l lm Hab _ IH]; intros w F2; inversion F2 as [|? c ? w' H1 H2]; subst; constructor; [|auto]. eapply same_get_trans; eauto.
Qed.

Lemma split_calls ss p r tr b e l : let t := order (traverser ss) p in
  distinct_dims (top_struct t) -> range_of t = Done r -> for_each t [] = Done l -> 0 <= b -> b <= e <= rg_end r ->
  exists lm, rg_for_each (rg_set r b e) = Done lm /\ calls_in_order (map as_traverser (pieces tr (rg_set r b e))) lm /\
    (b = 0 -> e = rg_end r -> Forall2 same_get l lm).
Proof.
  intros t Hd Hr Hl Hb He. pose proof (order_not_view ss p) as Hx. fold t in Hx.
  destruct (range_inv t r Hd Hr) as (_ & _ & _ & n & _ & _ & _ & _ & Hn & Er). assert (Ee : rg_end r = n) by (rewrite Er; reflexivity).
  destruct (split_follows tr (rg_set r b e)) as [F G]; cbn [rg_set rg_begin rg_end] in *; try lia.
  apply (follows_calls t r (pieces tr (rg_set r b e)) b e l Hx Hd Hr Hl Hb He F). intros x Hin. rewrite (G x Hin) at 1. reflexivity.
Qed.

Lemma element_calls ss p r b e l : let t := order (traverser ss) p in
  distinct_dims (top_struct t) -> range_of t = Done r -> for_each t [] = Done l -> 0 <= b -> b <= e <= rg_end r ->
  exists lm, rg_for_each (rg_set r b e) = Done lm /\ calls_in_order (map (rg_nth (rg_set r b e)) (zseq (rg_size (rg_set r b e)))) lm.
Proof. intros t Hd Hr Hl Hb He. exact (elements_calls t r b e l (order_not_view ss p) Hd Hr Hl Hb He). Qed.

Lemma strided_calls ss p r n l : let t := order (traverser ss) p in
  distinct_dims (top_struct t) -> range_of t = Done r -> for_each t [] = Done l -> 0 < n < W -> rg_end r + n <= W ->
  calls_once (map (fun k => order t [LView (VStep (rg_dim r) (Dyn k) (Dyn n))]) (zseq n)) l.
Proof. intros t Hd Hr Hl Hn Hw. exact (workers_calls t r n l (order_not_view ss p) Hd Hr Hl Hn Hw). Qed.

(** ** Iterators *)

Lemma W_half : W = 2 * (W / 2) /\ 0 < W / 2.
Proof. rewrite W_eq. split; reflexivity. Qed.

Definition it_wf (a : iter) : Prop := 0 <= it_idx a < W.

Lemma iter_arith a k : it_wf a -> 0 <= it_idx a + k < W ->
  it_idx (it_plus a k) = it_idx a + k /\ it_wf (it_plus a k) /\ it_minus (it_plus a k) k = a /\ it_nth a k = it_deref (it_plus a k) /\
  (- (W / 2) <= k < W / 2 -> it_diff (it_plus a k) a = k).
Proof.
  intros Ha Hk. unfold it_plus, it_minus, it_at, it_nth, it_deref, it_wf, it_diff. cbn [it_idx it_dim it_trav]. rewrite (u64_small (it_idx a + k)) by exact Hk.
  split; [reflexivity|]. split; [exact Hk|]. split.
  - replace (it_idx a + k - k) with (it_idx a) by lia. rewrite u64_small by exact Ha. destruct a; reflexivity.
  - split; [reflexivity|]. intros Hs. replace (it_idx a + k - it_idx a) with k by lia. unfold to_signed.
    destruct W_half as [HW HW0].
    destruct (Z.ltb_spec k 0).
    + replace (u64 k) with (k + W). 2: { unfold u64. rewrite <- (Z.mod_add k 1 W) by lia. rewrite Z.mul_1_l. symmetry. apply Z.mod_small. lia. }
      destruct (Z.ltb_spec (k + W) (W / 2)); lia.
    + rewrite u64_small by lia. destruct (Z.ltb_spec k (W / 2)); lia.
Qed.

Lemma iter_order a b : it_dim a = it_dim b -> it_trav a = it_trav b ->
  (it_eq a b = true <-> a = b) /\ it_compare a b = (it_idx a ?= it_idx b).
Proof.
  intros Hd Ht. split; [|reflexivity]. unfold it_eq. rewrite Z.eqb_eq. split; [|intros ->; reflexivity]. destruct a, b; simpl in *. congruence.
Qed.

Lemma iter_range r : 0 <= rg_begin r <= rg_end r -> rg_end r < W ->
  rg_size r = rg_end r - rg_begin r /\ it_plus (rg_begin_it r) (rg_size r) = rg_end_it r /\
  (forall k, 0 <= k < rg_size r -> it_compare (it_plus (rg_begin_it r) k) (rg_end_it r) = Lt /\ it_deref (it_plus (rg_begin_it r) k) = rg_nth r k /\
     top_struct (rg_nth r k) = View (VFix (rg_dim r) (Dyn (rg_begin r + k))) (top_struct (rg_trav r))).
Proof.
  intros H1 H2. unfold rg_size. rewrite u64_small by lia. split; [reflexivity|]. split.
  - unfold it_plus, it_at, rg_begin_it, rg_end_it. cbn [it_idx it_dim it_trav]. rewrite u64_small by lia. f_equal. lia.
  - intros k Hk. unfold it_plus, it_at, rg_begin_it, rg_end_it, it_compare, it_deref, rg_nth. cbn [it_idx it_dim it_trav]. rewrite u64_small by lia.
    split; [apply Z.compare_lt_iff; lia|]. split; [reflexivity|]. apply (top_tv (rg_trav r) (VFix (rg_dim r) (Dyn (rg_begin r + k)))).
Qed.

Lemma begin_end t r : range_of t = Done r -> begin_of t = Done (rg_begin_it r) /\ end_of t = Done (rg_end_it r).
Proof.
  unfold begin_of, end_of. intros H. rewrite H. cbn [out_map]. unfold range_of, range_of_dim in H. destruct (top_dim (top_struct t)) as [d|]; [|discriminate].
  destruct (length_ _ _ _) as [v|]; [|discriminate]. destruct (vz v) as [n|]; [|discriminate]. injection H as <-. split; reflexivity.
Qed.
