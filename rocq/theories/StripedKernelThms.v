(** * Stripes as private copies: the result *)

From Verif Require Import SpecStripedKernel.
From Verif Require Export StripedKernelFacts.
From Verif Require Import SpecStripedKernel.

(** ** Adding up *)
Section Collect.
  Variables (P : bytes -> Prop) (f : bytes -> bytes -> bytes) (e : bytes).
  Hypothesis Hf : collects P f e.

  Lemma collect_closed xs : Forall P xs -> forall v, P v -> P (fold_left f xs v).
  Proof using Hf. induction 1 as [|x xs Hx F IH]; intros v Hv; [exact Hv|]. cbn [fold_left]. apply IH, (co_closed _ _ _ Hf); assumption. Qed.

  Lemma collect_apart xs : Forall P xs -> forall v u, P v -> P u -> fold_left f xs (f v u) = f v (fold_left f xs u).
  Proof using Hf.
    induction 1 as [|x xs Hx F IH]; intros v u Hv Hu; [reflexivity|]. cbn [fold_left]. rewrite (co_group _ _ _ Hf) by assumption. apply IH; [exact Hv|]. apply (co_closed _ _ _ Hf); assumption.
  Qed.

  Lemma collect_start xs v : Forall P xs -> P v -> f v (fold_left f xs e) = fold_left f xs v.
  Proof using Hf. intros F Hv. rewrite <- collect_apart by (auto; apply (co_start _ _ _ Hf)). rewrite (co_neutral _ _ _ Hf) by exact Hv. reflexivity. Qed.

  Lemma collect_lists ls : Forall (Forall P) ls -> forall v, P v -> fold_left f (map (fun xs => fold_left f xs e) ls) v = fold_left f (concat ls) v.
  Proof using Hf.
    induction 1 as [|xs ls Hx F IH]; intros v Hv; [reflexivity|]. cbn [map fold_left concat]. rewrite fold_left_app, collect_start by assumption. apply IH, collect_closed; assumption.
  Qed.

  Lemma collect_perm xs ys : Permutation xs ys -> Forall P xs -> forall v, P v -> fold_left f xs v = fold_left f ys v.
  Proof using Hf.
    induction 1 as [|x xs ys H IH|x y xs|xs ys zs H1 IH1 H2 IH2]; intros F v Hv; cbn [fold_left].
    - reflexivity.
    - inversion F; subst. apply IH; [assumption|]. apply (co_closed _ _ _ Hf); assumption.
    - inversion F as [|? ? Fy F']; subst. inversion F' as [|? ? Fx F'']; subst. f_equal. rewrite !(co_group _ _ _ Hf) by assumption. f_equal. apply (co_swap _ _ _ Hf); assumption.
    - rewrite IH1 by assumption. apply IH2; [|exact Hv]. eapply Permutation_Forall; eauto.
  Qed.
End Collect.

Lemma concat_apart {A B} (G F : A -> list B) is : Permutation (concat (map (fun i => G i ++ F i) is)) (concat (map G is) ++ concat (map F is)).
Proof.
  induction is as [|i is IH]; [constructor|]. cbn [map concat]. rewrite IH. rewrite <- !app_assoc. apply Permutation_app_head. rewrite !app_assoc. apply Permutation_app_tail, Permutation_app_comm.
Qed.

Lemma concat_one {B} (k : Z) (a : B) is : NoDup is -> In k is -> concat (map (fun i => if k =? i then [a] else []) is) = [a].
Proof.
  induction is as [|i is IH]; intros Hn Hin; [destruct Hin|]. inversion Hn as [|? ? H1 H2]; subst. cbn [map concat]. destruct (Z.eqb_spec k i) as [->|Hne].
  - assert (H : concat (map (fun j => if i =? j then [a] else []) is) = []); [|rewrite H; reflexivity]. clear - H1. induction is as [|j is IH]; [reflexivity|]. cbn [map concat].
    destruct (Z.eqb_spec i j) as [->|_]; [exfalso; apply H1; left; reflexivity|]. cbn [app]. apply IH. intros H. apply H1. right. exact H.
  - destruct Hin as [->|Hin]; [congruence|]. cbn [app]. auto.
Qed.

Lemma stripes_all (p : striped) (q : update -> bool) us : (forall u, In u us -> exists i, in_stripe_no p (up_thread u) (up_state u) i) ->
  Permutation (concat (map (fun i => map up_value (filter (fun u => stripe_is p i (up_thread u) (up_state u) && q u) us)) (zseq (sp_num p)))) (map up_value (filter q us)).
Proof.
  induction us as [|u us IH]; intros H.
  - cbn [filter map]. induction (zseq (sp_num p)) as [|i is IHi]; [constructor|exact IHi].
  - cbn [filter]. destruct (q u) eqn:Eq.
    2:{ rewrite (map_ext _ (fun i => map up_value (filter (fun u => stripe_is p i (up_thread u) (up_state u) && q u) us))); [apply IH; intros y Hy; apply H; right; exact Hy|].
        intros i. rewrite andb_false_r. reflexivity. }
    destruct (H u (or_introl eq_refl)) as (k & Ek & Hk).
    rewrite (map_ext _ (fun i => (if k =? i then [up_value u] else []) ++ map up_value (filter (fun u => stripe_is p i (up_thread u) (up_state u) && q u) us))).
    2:{ intros i. rewrite andb_true_r. unfold stripe_is at 1. rewrite Ek. destruct (k =? i); reflexivity. }
    rewrite concat_apart, concat_one; [|apply zseq_NoDup|apply Lib.zseq_In; lia]. cbn [map app]. constructor. apply IH. intros y Hy. apply H. right. exact Hy.
Qed.

(** ** Clearing *)

Lemma f2_in {A B} (R : A -> B -> Prop) l m a : Forall2 R l m -> In a l -> exists b, In b m /\ R a b.
Proof. induction 1 as [|x y l m H F IH]; intros Hin; [destruct Hin|]. destruct Hin as [->|Hin]; [exists y; split; [left; reflexivity|exact H]|]. destruct (IH Hin) as (b & Hb & Hr). exists b. split; [right; exact Hb|exact Hr]. Qed.

Lemma Forall2_map_l {A B C} (g : A -> B) (R : B -> C -> Prop) l m : Forall2 R (map g l) m <-> Forall2 (fun a => R (g a)) l m.
Proof.
  split; revert m; induction l as [|a l IH]; intros m H; inversion H; subst; constructor; auto.
Qed.

Section Fill.
  Variables (ss : list struct) (o : proto) (p : striped) (l : list (dim * Z)) (r : range) (block : Z) (calls : list state) (cs : list (Z * state)).
  Let t := order (traverser ss) o.
  Hypothesis Hnum : 0 < sp_num p.
  Hypothesis Hc : cube (sp_sub p) l.
  Hypothesis Hl : loops rearranges ss o l.
  Hypothesis Hdd : distinct_dims (top_struct t).
  Hypothesis Hr : range_of t = Done r.
  Hypothesis E : for_each t [] = Done calls.
  Hypothesis Hb : sp_num p <= block < W.
  Hypothesis HW : rg_end r + block <= W.
  Hypothesis Ec : fill_calls t (rg_dim r) p block = Done cs.

  Lemma calls_named c : In c calls -> named (sp_sub p) (asg_of c) c /\ in_box l (asg_of c).
  Proof using Hc Hl E.
    destruct (loops_documented _ _ _ Hl) as (H1 & H2 & H3 & H4 & H5). intros Hin.
    refine (call_named ss o l calls H1 H2 H3 H4 E (fun r => H5 calls r E) (sp_sub p) l c Hc _ Hin). intros q n Hq. exists n. split; [exact Hq|lia].
  Qed.

  Lemma fill_in tid st : In (tid, st) cs <-> 0 <= tid < block /\ exists sts, fill_states t (rg_dim r) p block tid = Done sts /\ In st sts.
  Proof using Ec.
    unfold fill_calls in Ec. apply out_cat_Done in Ec. destruct Ec as (xs & F & ->). clear Ec. apply Forall2_map_l in F. rewrite in_concat. split.
    - intros (x & Hx & Hin). destruct (Forall2_In_r _ _ _ _ F Hx) as (k & Hk & Ek). apply Lib.zseq_In in Hk. unfold out_map in Ek. destruct (fill_states t (rg_dim r) p block k) as [| |sts] eqn:Es; try discriminate.
      injection Ek as <-. apply in_map_iff in Hin. destruct Hin as (st' & Eq & Hin). injection Eq as -> ->. split; [lia|]. exists sts. auto.
    - intros (Ht & sts & Es & Hin). apply Lib.zseq_In in Ht. destruct (f2_in _ _ _ _ F Ht) as (x & Hx & Ex). rewrite Es in Ex. cbn [out_map] in Ex. injection Ex as <-.
      exists (map (pair tid) sts). split; [exact Hx|]. apply in_map, Hin.
  Qed.

  Lemma threads_small i : 0 <= i < sp_num p -> 0 < stripe_threads p i block <= block.
  Proof using Hnum Hb.
    intros Hi. unfold stripe_threads, current_stripe. rewrite Z.mod_small by lia. split.
    - apply Z.div_str_pos. lia.
    - assert (H : (block + sp_num p - i - 1) / sp_num p < block + 1); [|lia]. apply Z.div_lt_upper_bound; [lia|]. nia.
  Qed.

  Lemma stripe_group i : 0 <= i < sp_num p -> exists ls l', Permutation calls l' /\ Forall2 same_get l' (concat ls) /\
    Forall2 (fun k x => fill_states t (rg_dim r) p block (k * sp_num p + i) = Done x) (zseq (stripe_threads p i block)) ls.
  Proof using Hnum Hdd Hr E Hb HW.
    intros Hi. pose proof (threads_small i Hi) as Hn. destruct (group ss o r (stripe_threads p i block) calls Hdd Hr E ltac:(lia) ltac:(lia)) as [(ls & l' & F & Hp & Fs) _].
    exists ls, l'. split; [exact Hp|]. split; [exact Fs|]. apply Forall2_map_l in F.
    destruct (stripe_threads_spec p block i Hnum ltac:(lia)) as (_ & _ & _ & Hk). assert (Hcur : current_stripe p i = i) by (unfold current_stripe; apply Z.mod_small; lia). rewrite Hcur in Hk.
    assert (Hin : forall k, In k (zseq (stripe_threads p i block)) -> 0 <= k < stripe_threads p i block) by (intros k Hk'; apply Lib.zseq_In in Hk'; lia).
    revert Hin F. generalize ls. generalize (zseq (stripe_threads p i block)). intros ks. induction ks as [|k ks IH]; intros ms Hin F; inversion F as [|? x ? ms' Hx F']; subst; constructor.
    - destruct (Hk k (Hin k (or_introl eq_refl))) as (_ & _ & Erk & Eth). unfold fill_states. rewrite Erk, Eth. exact Hx.
    - apply IH; [|exact F']. intros j Hj. apply Hin. right. exact Hj.
  Qed.

  Lemma fill_fine tid st : In (tid, st) cs -> in_stripe_no p tid st (tid mod sp_num p) /\ named (sp_sub p) (asg_of st) st /\ in_box l (asg_of st).
  Proof using Hnum Hc Hl Hdd Hr E Hb HW Ec.
    intros Hin. apply fill_in in Hin. destruct Hin as (Ht & sts & Es & Hst). pose proof (Z.mod_pos_bound tid (sp_num p) Hnum) as Hm. pose proof (Z.div_mod tid (sp_num p) ltac:(lia)) as Hdm.
    set (i := tid mod sp_num p) in *. destruct (stripe_group i Hm) as (ls & l' & Hp & Fs & F).
    destruct (stripe_threads_spec p block tid Hnum Ht) as (_ & Hk & _ & _). assert (Eth : stripe_threads p tid block = stripe_threads p i block).
    { unfold stripe_threads, current_stripe. fold i. rewrite (Z.mod_small i) by lia. reflexivity. }
    assert (Hkin : In (stripe_rank p tid) (zseq (stripe_threads p i block))) by (apply Lib.zseq_In; lia).
    destruct (f2_in _ _ _ _ F Hkin) as (x & Hx & Ex). assert (x = sts).
    { replace (stripe_rank p tid * sp_num p + i) with tid in Ex by (unfold stripe_rank; lia). congruence. }
    subst x. assert (Hcc : In st (concat ls)) by (apply in_concat; exists sts; auto). destruct (Forall2_In_r _ _ _ _ Fs Hcc) as (c & Hcl & Hg).
    destruct (calls_named c) as [N B]; [eapply Permutation_in; [symmetry; exact Hp|exact Hcl]|]. pose proof (asg_same_get _ _ Hg) as Ha. split.
    - split; [|exact Hm]. unfold stripe_of. unfold stripe_tag. rewrite (only_get st 1 (calls_only _ _ _ _ Es Hst)). reflexivity.
    - split; [|intros q n Hq; rewrite <- Ha; apply (B q n Hq)]. apply (named_get _ _ c st Hg). eapply named_same; [|exact N]. intros d _. symmetry. apply Ha.
  Qed.

  Lemma fill_covers i x : 0 <= i < sp_num p -> in_box l x -> exists tid st, In (tid, st) cs /\ in_stripe_no p tid st i /\ agrees (map fst l) x (asg_of st) = true.
  Proof using Hnum Hc Hl Hdd Hr E Hb HW Ec.
    intros Hi Hx. destruct (stripe_group i Hi) as (ls & l' & Hp & Fs & F). destruct (loops_documented _ _ _ Hl) as (H1 & H2 & H3 & H4 & H5).
    pose proof (calls_box ss o l calls H1 H2 H3 H4 E (fun r => H5 calls r E) (proj1 (proj2 (proj2 (proj2 Hl))))) as Hbox.
    pose proof (Permutation_in _ (Permutation_sym Hbox) (box_in l x Hx)) as Hk. apply in_map_iff in Hk. destruct Hk as (c & Ek & Hcin).
    destruct (f2_in _ _ _ _ Fs (Permutation_in _ Hp Hcin)) as (st & Hst & Hg). apply in_concat in Hst. destruct Hst as (y & Hy & Hst).
    destruct (Forall2_In_r _ _ _ _ F Hy) as (k & Hk & Ey). apply Lib.zseq_In in Hk.
    destruct (stripe_threads_spec p block i Hnum ltac:(lia)) as (_ & _ & _ & Hth). assert (Hcur : current_stripe p i = i) by (unfold current_stripe; apply Z.mod_small; lia). rewrite Hcur in Hth.
    destruct (Hth k ltac:(lia)) as (Htb & Hcs & _). exists (k * sp_num p + i), st.
    assert (Hin : In (k * sp_num p + i, st) cs) by (apply fill_in; split; [exact Htb|exists y; auto]). split; [exact Hin|]. split.
    - destruct (fill_fine _ _ Hin) as [Hs _]. unfold current_stripe in Hcs. rewrite Hcs in Hs. exact Hs.
    - apply agrees_all. intros d Hd. rewrite <- (asg_same_get _ _ Hg). unfold key in Ek. clear - Ek Hd. induction (map fst l) as [|q ds IH]; [destruct Hd|].
      cbn [map] in Ek. injection Ek as E1 E2. destruct Hd as [->|Hd]; [exact E1|auto].
  Qed.
End Fill.

(** ** The result *)

Section Result.
  Variables (P : bytes -> Prop) (f : bytes -> bytes -> bytes) (e : bytes).
  Variables (p : striped) (w : widths) (l : list (dim * Z)) (shm : bytes).
  Variables (ss : list struct) (o : proto) (r : range) (block : Z) (calls : list state) (cs fills : list (Z * state)).
  Variables (ss' : list struct) (o' : proto) (calls' sts : list state) (us : list update) (tid : Z) (out : bag).
  Let t := order (traverser ss) o.
  Hypothesis Hf : collects P f e.
  Hypothesis Hu : striped_use p w l shm.
  Hypothesis Hl : loops rearranges ss o l.
  Hypothesis Hdd : distinct_dims (top_struct t).
  Hypothesis Hr : range_of t = Done r.
  Hypothesis E : for_each t [] = Done calls.
  Hypothesis Hb : sp_num p <= block < W.
  Hypothesis HW : rg_end r + block <= W.
  Hypothesis Ec : fill_calls t (rg_dim r) p block = Done cs.
  Hypothesis Hfp : Permutation cs fills.
  Hypothesis Hus : forall u, In u us -> fine_update p l u /\ P (up_value u).
  Hypothesis Hl' : loops rearranges ss' o' l.
  Hypothesis E' : for_each (order (traverser ss') o') [] = Done calls'.
  Hypothesis Hsp : Permutation calls' sts.
  Hypothesis Hout : good_bag out l.
  Hypothesis Hnb : nobcast (bg_struct out) = true.

  Let Hw : striped_well p w := su_well _ _ _ _ Hu.
  Let Hc : cube (sp_sub p) l := su_cube _ _ _ _ Hu.
  Let Hnum : 0 < sp_num p := proj1 (sw_params _ _ Hw).

  Let fill_us := map (fun c => {| up_thread := fst c; up_state := snd c; up_value := e |}) fills.

  Lemma fill_us_fine u : In u fill_us -> fine_update p l u.
  Proof.
    intros H. apply in_map_iff in H. destruct H as ([t0 s0] & <- & Hin). apply (Permutation_in _ (Permutation_sym Hfp)) in Hin.
    destruct (fill_fine ss o p l r block calls cs Hnum Hc Hl Hdd Hr E Hb HW Ec t0 s0 Hin) as (H1 & H2 & H3). split; [eexists; exact H1|]. split; assumption.
  Qed.

  Lemma sts_named s st : cube s l -> In st sts -> named s (asg_of st) st /\ in_box l (asg_of st).
  Proof.
    intros Hcs Hin. destruct (loops_documented _ _ _ Hl') as (H1 & H2 & H3 & H4 & H5). apply (Permutation_in _ (Permutation_sym Hsp)) in Hin.
    refine (call_named ss' o' l calls' H1 H2 H3 H4 E' (fun r => H5 calls' r E') s l st Hcs _ Hin). intros q n Hq. exists n. split; [exact Hq|lia].
  Qed.

  Lemma sts_one x : in_box l x -> exists st, In st sts /\ agrees (map fst l) x (asg_of st) = true /\ filter (fun st => agrees (map fst l) x (asg_of st)) sts = [st].
  Proof.
    intros Hx. destruct (loops_documented _ _ _ Hl') as (H1 & H2 & H3 & H4 & H5).
    pose proof (calls_box ss' o' l calls' H1 H2 H3 H4 E' (fun r => H5 calls' r E') (proj1 (proj2 (proj2 (proj2 Hl'))))) as Hbox.
    assert (Hn : NoDup (map (key l) sts)).
    { eapply Permutation_NoDup; [apply Permutation_map; exact Hsp|]. eapply Permutation_NoDup; [symmetry; exact Hbox|apply box_NoDup]. }
    assert (Hk : In (map x (map fst l)) (map (key l) sts)).
    { eapply Permutation_in; [apply Permutation_map; exact Hsp|]. eapply Permutation_in; [symmetry; exact Hbox|apply box_in, Hx]. }
    assert (Hag : forall st, agrees (map fst l) x (asg_of st) = true <-> key l st = map x (map fst l)).
    { intros st. rewrite agrees_all. unfold key. split; [intros H; apply map_ext_in; exact H|]. intros H d Hd. clear - H Hd. induction (map fst l) as [|q ds IH]; [destruct Hd|].
      cbn [map] in H. injection H as A B. destruct Hd as [->|Hd]; auto. }
    apply in_map_iff in Hk. destruct Hk as (st & Ek & Hin). exists st. split; [exact Hin|]. split; [apply Hag, Ek|].
    apply filter_one; [eapply NoDup_map_inv; exact Hn|exact Hin|]. intros b Hbin. rewrite Hag, <- Ek. split; [|intros ->; reflexivity]. intros Heq.
    clear - Hn Hin Hbin Heq. induction sts as [|y ys IH]; [destruct Hin|]. cbn [map] in Hn. inversion Hn as [|? ? N1 N2]; subst.
    destruct Hin as [->|Hin], Hbin as [->|Hbin]; auto.
    - exfalso. apply N1. rewrite <- Heq. apply in_map, Hbin.
    - exfalso. apply N1. rewrite Heq. apply in_map, Hin.
  Qed.

  Section Size.
    Variable n : Z.
    Hypothesis Hsz : exists v, striped_size p [] = Some v /\ vz v = Some n.
    Hypothesis Hroom : n <= Z.of_nat (length shm).
    Let Hal : nobcast (sp_sub p) = true := su_alone _ _ _ _ Hu.
    Let Hsc : no_empty_scalar (sp_sub p) = true := su_scalars _ _ _ _ Hu.

    Lemma kernel_not_undefined : striped_kernel f e p fills us tid sts shm out <> Undefined.
    Proof.
      unfold striped_kernel. rewrite fill_updates. fold fill_us.
      pose proof (updates_defined p w l n Hw Hal Hsc Hc Hsz (fun _ x => x) fill_us shm Hroom fill_us_fine) as D1.
      destruct (striped_updates (fun _ x => x) p shm fill_us) as [| |m] eqn:E1; cbn [out_bind]; try congruence.
      assert (Lm : n <= Z.of_nat (length m)) by (rewrite (updates_length p w l n Hw Hal Hsc Hc Hsz _ fill_us shm m Hroom fill_us_fine E1); exact Hroom).
      pose proof (updates_defined p w l n Hw Hal Hsc Hc Hsz f us m Lm (fun u H => proj1 (Hus u H))) as D2.
      destruct (striped_updates f p m us) as [| |m'] eqn:E2; cbn [out_bind]; try congruence.
      assert (Lm' : n <= Z.of_nat (length m')) by (rewrite (updates_length p w l n Hw Hal Hsc Hc Hsz _ us m m' Lm (fun u H => proj1 (Hus u H)) E2); exact Lm).
      apply (loop_defined _ _ l sts out Hout).
      - intros st Hin. apply (sts_named _ st (proj1 Hout) Hin).
      - intros st Hin. destruct (sts_named (sp_sub p) st Hc Hin) as [Hn Hx]. assert (Hall : forall is, (forall i, In i is -> 0 <= i < sp_num p) -> stripe_reads p tid m' st is <> Undefined).
        { induction is as [|i is IH]; intros Hi; cbn [stripe_reads]; [discriminate|].
          pose proof (sread_defined p w l n Hw Hsc Hc Hsz m' i _ tid _ Lm' Hx (stripe_named p w Hw i _ tid st (Hi i (or_introl eq_refl)) Hn)) as D.
          destruct (striped_read p tid m' (with_ [(stripe_tag, Dyn i)] st)); cbn [out_bind]; try congruence. pose proof (IH (fun j Hj => Hi j (or_intror Hj))). destruct (stripe_reads p tid m' st is); cbn [out_map]; congruence. }
        apply Hall. intros i Hi. apply Lib.zseq_In in Hi. lia.
    Qed.

    Variables (out' : bag) (x : asg) (v : bytes).
    Hypothesis Ek : striped_kernel f e p fills us tid sts shm out = Done out'.
    Hypothesis Hx : in_box l x.
    Hypothesis HP : P v.
    Hypothesis Hv : has_value out x v.

    Lemma kernel_value : bg_struct out' = bg_struct out /\ good_bag out' l /\ has_value out' x (fold_left f (given_to l x us) v).
    Proof.
      unfold striped_kernel in Ek. rewrite fill_updates in Ek. fold fill_us in Ek.
      destruct (striped_updates (fun _ x => x) p shm fill_us) as [| |m] eqn:E1; cbn [out_bind] in Ek; try discriminate.
      destruct (striped_updates f p m us) as [| |m'] eqn:E2; cbn [out_bind] in Ek; try discriminate.
      assert (Lm : n <= Z.of_nat (length m)) by (rewrite (updates_length p w l n Hw Hal Hsc Hc Hsz _ fill_us shm m Hroom fill_us_fine E1); exact Hroom).
      assert (Lm' : n <= Z.of_nat (length m')) by (rewrite (updates_length p w l n Hw Hal Hsc Hc Hsz _ us m m' Lm (fun u H => proj1 (Hus u H)) E2); exact Lm).
      (* all copies are cleared *)
      assert (Hclear : forall i, 0 <= i < sp_num p -> copy_value p m i x e).
      { intros i Hi. destruct (fill_covers ss o p l r block calls cs Hnum Hc Hl Hdd Hr E Hb HW Ec i x Hi Hx) as (t0 & s0 & Hin & Hs0 & Hag).
        destruct (fill_fine ss o p l r block calls cs Hnum Hc Hl Hdd Hr E Hb HW Ec t0 s0 Hin) as (_ & Hn0 & _).
        apply (Permutation_in _ Hfp) in Hin. set (u0 := {| up_thread := t0; up_state := s0; up_value := e |}).
        assert (Hu0 : In u0 fill_us) by (apply in_map_iff; exists (t0, s0); split; [reflexivity|exact Hin]).
        destruct (updates_refs p w l n Hw Hal Hsc Hc Hsz _ fill_us shm m Hroom fill_us_fine E1 u0 Hu0) as [z Ez]. cbn [u0 up_thread up_state] in Ez.
        assert (Hz : copy_value p shm i x z) by (exists t0, s0; split; [apply (at_agrees p l Hc i x (asg_of s0) t0 s0 Hag); split; assumption|exact Ez]).
        destruct (updates_effect p w l n Hw Hal Hsc Hc Hsz _ fill_us shm m i x z Hroom fill_us_fine E1 Hx Hz) as [_ Hm].
        assert (Hin' : In u0 (filter (fun u => stripe_is p i (up_thread u) (up_state u) && agrees (map fst l) x (asg_of (up_state u))) fill_us)).
        { apply filter_In. split; [exact Hu0|]. cbn [u0 up_thread up_state]. rewrite Hag. unfold stripe_is. rewrite (proj1 Hs0), Z.eqb_refl. reflexivity. }
        assert (Hall : forall u, In u (filter (fun u => stripe_is p i (up_thread u) (up_state u) && agrees (map fst l) x (asg_of (up_state u))) fill_us) -> up_value u = e).
        { intros u H. apply filter_In in H. destruct H as [H _]. apply in_map_iff in H. destruct H as (c & <- & _). reflexivity. }
        revert Hm Hin' Hall. generalize (filter (fun u => stripe_is p i (up_thread u) (up_state u) && agrees (map fst l) x (asg_of (up_state u))) fill_us). intros vs Hm Hin' Hall.
        assert (Hlast : fold_left (fun _ y : bytes => y) (map up_value vs) z = e); [|rewrite Hlast in Hm; exact Hm].
        clear - Hin' Hall. revert z Hin'. assert (Hg : forall vs (z : bytes), (forall u, In u vs -> up_value u = e) -> vs <> [] -> fold_left (fun _ y : bytes => y) (map up_value vs) z = e).
        { clear. induction vs as [|u vs IH]; intros z Hall Hne; [congruence|]. cbn [map fold_left]. destruct vs as [|u1 vs]; [apply Hall; left; reflexivity|]. apply IH; [|discriminate]. intros y Hy. apply Hall. right. exact Hy. }
        intros z Hin'. apply Hg; [exact Hall|]. intros ->. destruct Hin'. }
      (* the copies after the updates *)
      set (sel := fun i => map up_value (filter (fun u => stripe_is p i (up_thread u) (up_state u) && agrees (map fst l) x (asg_of (up_state u))) us)).
      assert (Hcopies : forall i, 0 <= i < sp_num p -> copy_value p m' i x (fold_left f (sel i) e)).
      { intros i Hi. exact (proj2 (updates_effect p w l n Hw Hal Hsc Hc Hsz f us m m' i x e Lm (fun u H => proj1 (Hus u H)) E2 Hx (Hclear i Hi))). }
      (* adding up *)
      destruct Hv as (st0 & Hn0 & E0).
      destruct (loop_calls _ (fun st => stripe_reads p tid m' st (zseq (sp_num p))) l sts out out' x st0 v Hout Hnb (fun st Hin => sts_named _ st (proj1 Hout) Hin) Ek Hx Hn0 E0) as (S1 & G1 & R1).
      split; [exact S1|]. split; [exact G1|]. exists st0. split; [rewrite S1; exact Hn0|]. rewrite R1. f_equal.
      destruct (sts_one x Hx) as (st & Hin & Hag & ->). cbn [fold_left].
      destruct (loop_reads _ _ sts out out' Ek st Hin) as (xs & Exs). unfold values. rewrite Exs.
      assert (Hxs : xs = map (fun ys => fold_left f ys e) (map sel (zseq (sp_num p)))).
      { rewrite map_map. pose proof (reads_stripes p m' tid st _ _ Exs) as F. destruct (sts_named (sp_sub p) st Hc Hin) as [Hn Hbx].
        assert (Hi : forall i, In i (zseq (sp_num p)) -> 0 <= i < sp_num p) by (intros i Hi; apply Lib.zseq_In in Hi; lia). clear Exs.
        assert (Hg : forall is ys, Forall2 (fun i v => striped_read p tid m' (with_ [(stripe_tag, Dyn i)] st) = Done v) is ys -> (forall i, In i is -> 0 <= i < sp_num p) -> ys = map (fun i => fold_left f (sel i) e) is).
        { clear F Hi. intros is ys F. induction F as [|i y is ys Hy F IH]; intros Hi; [reflexivity|]. cbn [map]. rewrite <- IH by (intros j Hj; apply Hi; right; exact Hj). f_equal.
          assert (Hr1 : 0 <= i < sp_num p) by (apply Hi; left; reflexivity).
          refine (copy_read p w l n Hw Hsc Hc Hsz m' i x tid _ _ _ Lm' Hx _ (Hcopies i Hr1) Hy). apply (at_agrees p l Hc i x (asg_of st) tid _ Hag). apply (stripe_named p w Hw); assumption. }
        apply Hg; assumption. }
      rewrite Hxs. rewrite (collect_lists P f e Hf); [|apply Forall_forall; intros ys Hys; apply in_map_iff in Hys; destruct Hys as (i & <- & _); apply Forall_forall; intros y Hy;
        apply in_map_iff in Hy; destruct Hy as (u & <- & Hu'); apply filter_In in Hu'; apply Hus, Hu'|exact HP].
      apply (collect_perm P f e Hf); [|apply Forall_forall; intros y Hy; apply in_concat in Hy; destruct Hy as (ys & Hys & Hy); apply in_map_iff in Hys; destruct Hys as (i & <- & _);
        apply in_map_iff in Hy; destruct Hy as (u & <- & Hu'); apply filter_In in Hu'; apply Hus, Hu'|exact HP].
      unfold given_to. apply (stripes_all p). intros u Hu'. apply Hus, Hu'.
    Qed.
  End Size.

  Theorem striped_result : striped_kernel f e p fills us tid sts shm out <> Undefined /\
    forall out', striped_kernel f e p fills us tid sts shm out = Done out' ->
      bg_struct out' = bg_struct out /\ forall x v, in_box l x -> P v -> has_value out x v -> has_value out' x (fold_left f (given_to l x us) v).
  Proof.
    destruct (su_room _ _ _ _ Hu) as (vs & n & Es & En & Hroom). pose proof (ex_intro (fun v => striped_size p [] = Some v /\ vz v = Some n) vs (conj Es En)) as Hsz.
    split; [exact (kernel_not_undefined n Hsz Hroom)|]. intros out' Ek. split.
    - unfold striped_kernel in Ek. destruct (striped_fill p e shm fills); try discriminate. cbn [out_bind] in Ek. destruct (striped_updates f p x us); try discriminate. cbn [out_bind] in Ek.
      clear - Ek. revert out Ek. induction sts as [|st l0 IH]; intros out Ek; cbn [loop_with] in Ek; [congruence|]. destruct (update_with _ _ out st) as [| |o1] eqn:Eu; try discriminate. cbn [out_bind] in Ek.
      rewrite (IH o1 Ek). unfold update_with in Eu. destruct (bag_read out st); try discriminate. cbn [out_bind] in Eu. destruct (stripe_reads _ _ _ _ _); try discriminate. cbn [out_bind] in Eu.
      destruct (write_inv _ _ _ _ Eu) as (z & _ & _ & ->). reflexivity.
    - intros x v Hx HP Hv. exact (proj2 (proj2 (kernel_value n Hsz Hroom out' x v Ek Hx HP Hv))).
  Qed.
End Result.

(** ** Unsigned integers *)

Lemma uint_collects n : collects (is_uint n) (add_uint n) (uint n 0).
Proof.
  constructor.
  - exists 0. reflexivity.
  - intros v x _ _. eexists. reflexivity.
  - intros v [z ->]. unfold add_uint. rewrite Z.add_comm, uint_add. reflexivity || idtac. unfold uint. rewrite le_value_bytes. apply le_bytes_mod. rewrite Z.add_0_l, Zmod_mod. reflexivity.
  - intros v x _ _. unfold add_uint. f_equal. lia.
  - intros v x y _ _ _. unfold add_uint. rewrite uint_add. rewrite (Z.add_comm (le_value v)), (Z.add_comm (le_value v) (le_value (uint n _))), uint_add. f_equal. lia.
Qed.

Lemma add_uints n c zs : fold_left (add_uint n) (map (uint n) zs) (uint n c) = uint n (c + fold_right Z.add 0 zs).
Proof.
  revert c. induction zs as [|z zs IH]; intros c; cbn [map fold_left fold_right]; [f_equal; lia|]. unfold add_uint at 2. rewrite uint_add. rewrite Z.add_comm, uint_add, IH. f_equal. lia.
Qed.

(** ** Different stripes *)

Lemma patch_long data a b : 0 <= a -> a + Z.of_nat (length b) <= Z.of_nat (length data) -> length (patch data a b) = length data.
Proof. intros Ha Hb. rewrite <- (Z2Nat.id a) by lia. apply patch_length; lia. Qed.

Lemma patch_swap data o1 v1 o2 v2 : 0 <= o1 -> 0 <= o2 -> o1 + Z.of_nat (length v1) <= Z.of_nat (length data) -> o2 + Z.of_nat (length v2) <= Z.of_nat (length data) ->
  o1 + Z.of_nat (length v1) <= o2 \/ o2 + Z.of_nat (length v2) <= o1 -> patch (patch data o1 v1) o2 v2 = patch (patch data o2 v2) o1 v1.
Proof.
  intros H1 H2 L1 L2 Hd. rewrite <- (Z2Nat.id o1), <- (Z2Nat.id o2) by lia. apply nth_error_ext. intros i.
  assert (P1 : length (patch data (Z.of_nat (Z.to_nat o1)) v1) = length data) by (apply patch_length; lia). assert (P2 : length (patch data (Z.of_nat (Z.to_nat o2)) v2) = length data) by (apply patch_length; lia).
  rewrite !nth_patch by lia. repeat match goal with |- context [if ?c then _ else _] => destruct c eqn:? end; try reflexivity; exfalso; lia.
Qed.

Lemma update_rejected f p data u : striped_ref p (up_thread u) data (up_state u) = Rejected -> striped_update f p data u = Rejected.
Proof. intros E. unfold striped_update, striped_read. rewrite E. reflexivity. Qed.

Lemma update_at f p data u r : striped_ref p (up_thread u) data (up_state u) = Done r ->
  striped_update f p data u = if Z.of_nat (length (f (window data (fst r) (snd r)) (up_value u))) =? snd r then Done (patch data (fst r) (f (window data (fst r) (snd r)) (up_value u))) else Rejected.
Proof. intros E. unfold striped_update, striped_read, striped_write. rewrite E. reflexivity. Qed.

Theorem stripes_commute f g p w l shm u v i j : striped_use p w l shm -> fine_update p l u -> fine_update p l v ->
  in_stripe_no p (up_thread u) (up_state u) i -> in_stripe_no p (up_thread v) (up_state v) j -> i <> j ->
  out_bind (striped_update f p shm u) (fun m => striped_update g p m v) = out_bind (striped_update g p shm v) (fun m => striped_update f p m u).
Proof.
  intros Hu (_ & Nu & Bu) (_ & Nv & Bv) Iu Iv Hij. destruct Hu as [Hw Hal Hsc Hc (sv & n & Es & En & Hroom)]. pose proof (ex_intro (fun v => striped_size p [] = Some v /\ vz v = Some n) sv (conj Es En)) as Hsz.
  pose proof (conj Iu Nu : at_copy p i _ _ _) as Au. pose proof (conj Iv Nv : at_copy p j _ _ _) as Av.
  pose proof (ref_copy p w l n Hw Hsc Hc Hsz shm i _ _ _ Hroom Bu Au) as Ru. pose proof (ref_copy p w l n Hw Hsc Hc Hsz shm j _ _ _ Hroom Bv Av) as Rv.
  destruct Ru as [Ru|(o & c & Ru & _ & O1 & C1 & L1)].
  - rewrite (update_rejected f _ _ _ Ru). cbn [out_bind]. destruct Rv as [Rv|(o' & c' & Rv & _ & O2 & C2 & L2)]; [rewrite (update_rejected g _ _ _ Rv); reflexivity|].
    rewrite (update_at g _ _ _ _ Rv). cbn [fst snd]. destruct (_ =? _) eqn:E; [|reflexivity]. cbn [out_bind]. symmetry. apply update_rejected. rewrite (ref_length p shm); [exact Ru|]. apply patch_long; lia.
  - destruct Rv as [Rv|(o' & c' & Rv & _ & O2 & C2 & L2)].
    + rewrite (update_rejected g _ _ _ Rv). cbn [out_bind]. rewrite (update_at f _ _ _ _ Ru). cbn [fst snd]. destruct (_ =? _) eqn:E; [|reflexivity]. cbn [out_bind]. apply update_rejected. rewrite (ref_length p shm); [exact Rv|]. apply patch_long; lia.
    + pose proof (other_copy p w l n Hw Hal Hsc Hc Hsz shm i _ _ _ j _ _ _ _ _ Hroom Bu Bv Au Av (or_introl Hij) Ru Rv) as Hd. cbn [fst snd] in Hd.
      rewrite (update_at f _ _ _ _ Ru), (update_at g _ _ _ _ Rv). cbn [fst snd].
      assert (Hpl : forall a b, 0 <= a -> a + Z.of_nat (length b) <= n -> length (patch shm a b) = length shm) by (intros a b Ha Hb; apply patch_long; lia).
      destruct (Z.of_nat (length (f (window shm o (ct_size c)) (up_value u))) =? ct_size c) eqn:E1; destruct (Z.of_nat (length (g (window shm o' (ct_size c')) (up_value v))) =? ct_size c') eqn:E2; cbn [out_bind]; [| | |reflexivity].
      * rewrite (update_at g p (patch shm o _) v (o', ct_size c')) by (rewrite (ref_length p shm); [exact Rv|apply Hpl; lia]).
        rewrite (update_at f p (patch shm o' _) u (o, ct_size c)) by (rewrite (ref_length p shm); [exact Ru|apply Hpl; lia]). cbn [fst snd].
        rewrite !window_patch_other by lia. rewrite E1, E2. f_equal. apply patch_swap; lia.
      * rewrite (update_at g p (patch shm o _) v (o', ct_size c')) by (rewrite (ref_length p shm); [exact Rv|apply Hpl; lia]). cbn [fst snd].
        rewrite !window_patch_other by lia. rewrite E2. reflexivity.
      * rewrite (update_at f p (patch shm o' _) u (o, ct_size c)) by (rewrite (ref_length p shm); [exact Ru|apply Hpl; lia]). cbn [fst snd].
        rewrite !window_patch_other by lia. rewrite E1. reflexivity.
Qed.
