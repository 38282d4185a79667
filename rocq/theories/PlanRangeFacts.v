(** * Planners over the parts and the elements of a range *)

From Verif Require Import PlanSec PlanRun Ext RangeThms Select.
From Verif Require Export SpecPlanRange.
From Verif Require Import ReduceFacts.

Lemma over_hands_ext u s l l' : eqf l l' -> over hands_on u s l -> over hands_on u s l'.
Proof.
  intros Hl H. revert l' Hl. induction H as [l H|v t l H Ho IH]; intros l' Hl.
  - apply over_base. intros d. rewrite <- (Hl d). apply H.
  - apply over_view; [destruct v; exact H|]. apply IH. apply view_lenv_ext. exact Hl.
Qed.

Lemma over_fix u s d i : over hands_on u s nolens -> over hands_on u (View (VFix d i) s) nolens.
Proof.
  intros H. apply over_view; [exact I|]. revert H. apply over_hands_ext. intros q. cbn [view_lenv]. unfold fupd, nolens. destruct (q =? d); reflexivity.
Qed.
Lemma over_slice u s d i n : over hands_on u s nolens -> over hands_on u (View (VSlice d i n) s) nolens.
Proof. intros H. apply over_view; [exact I|exact H]. Qed.

Lemma uswf_fix s d i : signature s <> None -> vz i <> None -> uswf s = true -> uswf (View (VFix d i) s) = true.
Proof. intros Hs Hi Hw. cbn [uswf]. rewrite Hw. unfold view_swf. destruct (signature s); [|congruence]. destruct (vz i); [reflexivity|congruence]. Qed.
Lemma uswf_slice s d i n : signature s <> None -> vz i <> None -> vz n <> None -> uswf s = true -> uswf (View (VSlice d i n) s) = true.
Proof. intros Hs Hi Hn Hw. cbn [uswf]. rewrite Hw. unfold view_swf. destruct (signature s); [|congruence]. destruct (vz i); [|congruence]. destruct (vz n); [reflexivity|congruence]. Qed.

Lemma pl_order_order p o o' : pl_order (pl_order p o) o' = pl_order p (o ++ o').
Proof. unfold pl_order, order. cbn [pl_trav pl_endings tr_struct tr_order]. rewrite app_assoc. reflexivity. Qed.

Lemma top_order t v : top_struct (order t [LView v]) = View v (top_struct t).
Proof. unfold top_struct, order. cbn [tr_order tr_struct]. rewrite apply_app. reflexivity. Qed.

Lemma order_twice t o o' : order (order t o) o' = order t (o ++ o').
Proof. unfold order. cbn [tr_order tr_struct]. rewrite app_assoc. reflexivity. Qed.

Lemma pl_for_each_trav p f q : pl_for_each p f = Some q -> pl_trav q = pl_trav p.
Proof. unfold pl_for_each. destruct (pl_endings p); [|discriminate]. destruct (signature _); [|discriminate]. intros H. injection H as <-. reflexivity. Qed.

Lemma add_sections_trav secs : forall p q, add_sections p secs = Some q -> pl_trav q = pl_trav p.
Proof.
  induction secs as [|[ds g] secs IH]; intros p q H; cbn [add_sections] in H; [injection H as <-; reflexivity|].
  destruct (pl_for_sections p ds g) as [p'|] eqn:E; [|discriminate]. cbn [obind] in H. rewrite (IH _ _ H). revert E. unfold pl_for_sections.
  destruct (signature _) as [sg|]; [|discriminate]. cbn [obind]. destruct (view_sig _ sg); [|discriminate]. cbn [obind]. destruct (endings_ok _); [|discriminate]. intros E. injection E as <-. reflexivity.
Qed.

(** The range of a planner is that of its traverser. *)
Lemma pl_range_inv p r : pl_range p = Done r -> exists r', range_of (pl_trav p) = Done r' /\ pr_dim r = rg_dim r' /\ pr_plan r = p /\ pr_begin r = 0 /\ pr_end r = rg_end r'.
Proof.
  unfold pl_range, range_of. destruct (top_dim (top_struct (pl_trav p))) as [d|]; [|discriminate]. unfold pl_range_dim. destruct (range_of_dim (pl_trav p) d) as [| |r'] eqn:E; try discriminate.
  cbn [out_map]. intros H. injection H as <-. exists r'. auto.
Qed.

Lemma inner_planners_inv p ps : inner_planners p = Done ps -> distinct_dims (top_struct (pl_trav p)) ->
  exists r', range_of (pl_trav p) = Done r' /\ 0 <= rg_end r' < W /\ rg_trav r' = pl_trav p /\ rg_begin r' = 0 /\
    ps = map (fun k => pl_order p [LView (VFix (rg_dim r') (Dyn k))]) (zseq (rg_end r')).
Proof.
  unfold inner_planners, pl_begin, pl_end. intros H Hd. destruct (top_dim (top_struct (pl_trav p))) as [d|] eqn:Et; [|discriminate]. cbn [out_bind] in H.
  destruct (pl_range p) as [| |r] eqn:Er; try discriminate. cbn [out_map pi_idx] in H. injection H as <-.
  destruct (pl_range_inv _ _ Er) as (r' & Er' & Ed & Ep & Eb & Ee). destruct (range_inv _ _ Hd Er') as (al & rs & len & n & Hs & _ & _ & _ & Hn & E).
  exists r'. split; [exact Er'|]. assert (Hr : rg_end r' = n) by (rewrite E; reflexivity). split; [lia|]. split; [rewrite E; reflexivity|]. split; [rewrite E; reflexivity|].
  rewrite Ee, Hr, Z.sub_0_r, u64_small by lia. apply map_ext_in. intros k Hk. apply zseq_In in Hk. unfold pi_deref, pi_plus, pi_at. cbn [pi_dim pi_plan pi_idx]. rewrite Z.add_0_l, u64_small by lia.
  unfold top_dim in Et. rewrite Hs in Et. injection Et as <-. reflexivity.
Qed.

Section Inner.
  Variables (ss : list struct) (o : proto) (f : Z) (p : planner) (l : list state).
  Notation t := (order (traverser ss) o).
  Hypothesis Hov : over hands_on (Union ss) (top_struct t) nolens.
  Hypothesis Hw : uswf (top_struct t) = true.
  Hypothesis Hp : pl_for_each (plan ss) f = Some p.
  Hypothesis Hl : for_each t [] = Done l.

  Lemma inner_distinct : distinct_dims (top_struct t).
  Proof. apply uswf_distinct; [exact Hw|]. eapply for_each_signature. exact Hl. Qed.

  Lemma p_trav : pl_trav p = traverser ss.
  Proof. rewrite (pl_for_each_trav _ _ _ Hp). reflexivity. Qed.

  Lemma fix_over d k : over hands_on (Union ss) (top_struct (order (traverser ss) (o ++ [LView (VFix d (Dyn k))]))) nolens.
  Proof. rewrite <- order_twice, top_order. apply over_fix. exact Hov. Qed.
  Lemma fix_uswf d k : uswf (top_struct (order (traverser ss) (o ++ [LView (VFix d (Dyn k))]))) = true.
  Proof. rewrite <- order_twice, top_order. apply uswf_fix; [eapply for_each_signature; exact Hl|discriminate|exact Hw]. Qed.

  (** The elements of the range make the calls of the traversal. *)
  Lemma inner_each r' : range_of t = Done r' -> exists ls,
    Forall2 (fun k x => for_each (order (traverser ss) (o ++ [LView (VFix (rg_dim r') (Dyn k))])) [] = Done x) (zseq (rg_end r')) ls /\ Forall2 same_get l (concat ls).
  Proof.
    intros Er. destruct (range_inv _ _ inner_distinct Er) as (al & rs & len & n & Hs & _ & _ & _ & Hn & E).
    destruct (element_calls ss o r' 0 (rg_end r') l inner_distinct Er Hl) as (lm & Hlm & (ls & F & Fl)); [lia|rewrite E; cbn [rg_end]; lia|].
    assert (Hset : rg_set r' 0 (rg_end r') = r') by (rewrite E; reflexivity). rewrite Hset in *.
    destruct (split_calls ss o r' Keep 0 (rg_end r') l inner_distinct Er Hl) as (lm' & Hlm' & _ & Hsame); [lia|rewrite E; cbn [rg_end]; lia|]. rewrite Hset in Hlm'.
    assert (lm' = lm) by congruence. subst lm'. specialize (Hsame eq_refl eq_refl).
    exists ls. split.
    - assert (Hsz : rg_size r' = rg_end r') by (rewrite E; cbn [rg_size rg_end rg_begin]; unfold rg_size; cbn [rg_end rg_begin]; rewrite Z.sub_0_r; apply u64_small; lia).
      rewrite Hsz in F. clear - F E Hn. assert (Hk : forall k, In k (zseq (rg_end r')) -> 0 <= k < W) by (intros k Hk; apply zseq_In in Hk; rewrite E in Hk; cbn [rg_end] in Hk; lia).
      remember (zseq (rg_end r')) as ks. clear Heqks. revert ls F. induction ks as [|k ks IH]; intros ls F; cbn [map] in F; inversion F as [|? ? ? ? A B]; subst; constructor.
      + unfold rg_nth in A. rewrite E in A. cbn [rg_trav rg_dim rg_begin] in A. rewrite Z.add_0_l, u64_small in A by (apply Hk; left; reflexivity). rewrite order_twice in A. exact A.
      + apply IH; [intros q Hq; apply Hk; right; exact Hq|exact B].
    - clear - Hsame Fl. revert Hsame Fl. generalize (concat ls). intros l' H1. revert l'. induction H1 as [|x y l lm Hxy F IH]; intros l' H2; inversion H2 as [|? z ? ? A B]; subst; constructor; [|apply IH; exact B].
      intros d. destruct (Hxy d), (A d). split; congruence.
  Qed.

  Theorem inner_calls ps : inner_planners (pl_order p o) = Done ps -> (forall q, In q ps -> execute q <> Rejected) ->
    exists ls, Forall2 (fun q c => execute q = Done (map (CallBody f) c)) ps ls /\ Forall2 same_get l (concat ls).
  Proof.
    intros Hps Hok. assert (Et : pl_trav (pl_order p o) = t) by (cbn [pl_order pl_trav]; rewrite p_trav; reflexivity).
    destruct (inner_planners_inv _ _ Hps) as (r' & Er & _ & _ & _ & ->); [rewrite Et; exact inner_distinct|]. rewrite Et in Er.
    destruct (inner_each r' Er) as (ls & F & Fl). exists ls. split; [|exact Fl]. clear - F Hok Hov Hw Hp Hl.
    induction F as [|k x ks ls A F IH]; cbn [map]; constructor; [|apply IH; intros q Hq; apply Hok; right; exact Hq].
    rewrite pl_order_order. rewrite (plan_for_each ss (o ++ [LView (VFix (rg_dim r') (Dyn k))]) f p (fix_over _ _) (fix_uswf _ _) Hp).
    - rewrite A. reflexivity.
    - rewrite <- pl_order_order. apply Hok. left. reflexivity.
  Qed.

  Theorem inner_sections secs q n ps evss : add_sections p secs = Some q -> inner_planners (pl_order q o) = Done ps ->
    Forall2 (fun x evs => execute_all n x = Done evs) ps evss -> exists l', body_calls (concat evss) = map (pair f) l' /\ Forall2 same_get l l'.
  Proof.
    intros Hq Hps Fe. assert (Et : pl_trav (pl_order q o) = t) by (cbn [pl_order pl_trav]; rewrite (add_sections_trav _ _ _ Hq), p_trav; reflexivity).
    destruct (inner_planners_inv _ _ Hps) as (r' & Er & _ & _ & _ & E); [rewrite Et; exact inner_distinct|]. subst ps. rewrite Et in Er.
    destruct (inner_each r' Er) as (ls & F & Fl). exists (concat ls). split; [|exact Fl]. clear - F Fe Hov Hw Hp Hq Hl.
    revert evss Fe. induction F as [|k x ks ls A F IH]; intros evss Fe; cbn [map] in Fe; inversion Fe as [|? evs ? evss' B C]; subst; [reflexivity|].
    cbn [concat]. unfold body_calls in *. rewrite flat_map_app, map_app. f_equal; [|apply IH; exact C].
    rewrite pl_order_order in B. exact (plan_calls ss _ f p secs q n evs x (fix_over _ _) (fix_uswf _ _) Hp Hq A B).
  Qed.

  Theorem part_planner r b e : pl_range (pl_order p o) = Done r -> 0 <= b -> b <= e <= pr_end r -> execute (as_planner (pr_set r b e)) <> Rejected ->
    exists r' lm, range_of t = Done r' /\ rg_dim r' = pr_dim r /\ rg_end r' = pr_end r /\ rg_for_each (rg_set r' b e) = Done lm /\ execute (as_planner (pr_set r b e)) = Done (map (CallBody f) lm).
  Proof.
    intros Hr Hb He Hok. assert (Et : pl_trav (pl_order p o) = t) by (cbn [pl_order pl_trav]; rewrite p_trav; reflexivity).
    destruct (pl_range_inv _ _ Hr) as (r' & Er & Ed & Ep & Eb & Ee). rewrite Et in Er.
    destruct (range_inv _ _ inner_distinct Er) as (al & rs & len & n & Hs & _ & _ & _ & Hn & E).
    destruct (element_calls ss o r' b e l inner_distinct Er Hl) as (lm & Hlm & _); [lia|lia|].
    exists r', lm. split; [exact Er|]. split; [congruence|]. split; [congruence|]. split; [exact Hlm|].
    unfold as_planner in *. cbn [pr_set pr_plan pr_dim pr_begin] in *. rewrite Ep, Ed, pl_order_order in *.
    assert (H1 : over hands_on (Union ss) (top_struct (order (traverser ss) (o ++ [LView (VSlice (rg_dim r') (Dyn b) (Dyn (pr_size (pr_set r b e))))]))) nolens)
      by (rewrite <- order_twice, top_order; apply over_slice; exact Hov).
    assert (H2 : uswf (top_struct (order (traverser ss) (o ++ [LView (VSlice (rg_dim r') (Dyn b) (Dyn (pr_size (pr_set r b e))))]))) = true)
      by (rewrite <- order_twice, top_order; apply uswf_slice; [eapply for_each_signature; exact Hl|discriminate|discriminate|exact Hw]).
    unfold pr_set in Hok, H1, H2 |- *. rewrite (plan_for_each ss _ f p H1 H2 Hp Hok).
    revert Hlm. unfold rg_for_each, as_traverser. cbn [rg_set rg_trav rg_dim rg_begin]. assert (Etr : rg_trav r' = t) by (rewrite E; reflexivity). rewrite Etr, order_twice.
    intros Hx. unfold pr_size, rg_size, rg_set in *. cbn [pr_begin pr_end rg_begin rg_end] in *. rewrite Hx. reflexivity.
  Qed.
End Inner.

(** ** Iterators *)

Theorem iter_same a b k : as_iter (pi_plus a k) = it_plus (as_iter a) k /\ as_iter (pi_minus a k) = it_minus (as_iter a) k /\
  pi_diff a b = it_diff (as_iter a) (as_iter b) /\ pi_eq a b = it_eq (as_iter a) (as_iter b) /\ pi_compare a b = it_compare (as_iter a) (as_iter b) /\
  pl_trav (pi_deref a) = it_deref (as_iter a) /\ pl_trav (pi_nth a k) = it_nth (as_iter a) k /\ pl_endings (pi_deref a) = pl_endings (pi_plan a) /\ pl_endings (pi_nth a k) = pl_endings (pi_plan a).
Proof. repeat split. Qed.

Theorem range_same r k : as_iter (pr_begin_it r) = rg_begin_it (as_range r) /\ as_iter (pr_end_it r) = rg_end_it (as_range r) /\
  pr_size r = rg_size (as_range r) /\ pr_empty r = rg_empty (as_range r) /\ pr_divisible r = rg_divisible (as_range r) /\
  pl_trav (pr_nth r k) = rg_nth (as_range r) k /\ pl_trav (as_planner r) = as_traverser (as_range r) /\ pl_endings (pr_nth r k) = pl_endings (pr_plan r) /\ pl_endings (as_planner r) = pl_endings (pr_plan r).
Proof. repeat split. Qed.

Theorem planner_begin_end p : out_map as_range (pl_range p) = range_of (pl_trav p) /\ out_map as_iter (pl_begin p) = begin_of (pl_trav p) /\ out_map as_iter (pl_end p) = end_of (pl_trav p).
Proof.
  unfold pl_range, pl_begin, pl_end, begin_of, end_of, range_of. destruct (top_dim (top_struct (pl_trav p))) as [d|] eqn:Et; [|unfold pl_range; rewrite Et; repeat split].
  unfold pl_range. rewrite Et. unfold pl_range_dim, range_of_dim. destruct (length_ (top_struct (pl_trav p)) d []) as [v|]; [|repeat split]. destruct (vz v); repeat split.
Qed.
