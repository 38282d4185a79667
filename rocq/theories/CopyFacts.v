(** * Copying a bag element by element: proofs (C69) *)

From Coq Require Import Permutation.
From Verif Require Import PropsLayout KernelThms BagFacts KernelFacts KnownThms.
From Verif Require Export Copy.
From Verif Require Import SpecAgnostic SpecKernel SpecKnown.

Definition take (v : bytes) (xs : list bytes) : bytes := hd [] xs.

Lemma skipn_add {A} (n : nat) : forall o (l : list A), skipn n (skipn o l) = skipn (o + n) l.
Proof. induction o as [|o IH]; intros l; [reflexivity|]. destruct l; [now rewrite !skipn_nil|apply IH]. Qed.

Lemma write_ref b st v b' : bag_write b st v = Done b' -> exists r, bag_ref b st = Done r /\ Z.of_nat (length v) = snd r /\
  bg_struct b' = bg_struct b /\ bg_policy b' = bg_policy b /\ bg_data b' = patch (bg_data b) (fst r) v.
Proof.
  unfold bag_write. destruct (bg_policy b) eqn:Ep; try discriminate; destruct (bag_ref b st) as [| |r] eqn:Er; try discriminate; cbn [out_bind];
    (destruct (Z.of_nat (length v) =? snd r) eqn:El; [|discriminate]); intros E; injection E as <-; exists r; repeat split; auto; lia.
Qed.

(** Copying is a loop that ignores the old element. *)
Lemma copy_loop from sts : forall to to', copy_calls from to sts = Done to' -> loop take [from] to sts = Done to'.
Proof.
  induction sts as [|st sts IH]; intros to to' E; [exact E|]. cbn [copy_calls] in E. unfold copy_one in E. destruct (bag_read from st) as [| |v] eqn:Ev; try discriminate. cbn [out_bind] in E.
  destruct (bag_write to st v) as [| |t1] eqn:Ew; try discriminate. cbn [out_bind] in E. unfold loop in *. cbn [loop_with]. unfold update_with.
  destruct (write_ref _ _ _ _ Ew) as (r & Er & _). unfold bag_read at 1. rewrite Er. cbn [out_map out_bind reads]. rewrite Ev. cbn [out_map out_bind]. unfold take. cbn [hd]. rewrite Ew. cbn [out_bind]. apply IH, E.
Qed.

Lemma copy_reads from sts : forall to to', copy_calls from to sts = Done to' -> forall st, In st sts -> exists v, bag_read from st = Done v.
Proof.
  induction sts as [|s0 sts IH]; intros to to' E st Hin; [destruct Hin|]. cbn [copy_calls] in E. unfold copy_one in E. destruct (bag_read from s0) as [| |v] eqn:Ev; try discriminate. cbn [out_bind] in E.
  destruct (bag_write to s0 v) as [| |t1]; try discriminate. destruct Hin as [<-|Hin]; [eauto|eapply IH; eauto].
Qed.

Section Copy.
  Variables (from to : bag) (ss : list struct) (p : proto) (lens lf lt : list (dim * Z)) (calls sched : list state).
  Let t := order (traverser ss) p.
  Hypothesis Hd : loops documented ss p lens.
  Hypothesis Hfrom : good_bag from lf.
  Hypothesis Hlf : within_lengths lens lf.
  Hypothesis Hto : good_bag to lt.
  Hypothesis Hlt : within_lengths lens lt.
  Hypothesis E : for_each t [] = Done calls.
  Hypothesis Hs : Permutation calls sched.

  Lemma copy_named s l r : cube s l -> within_lengths lens l -> In r sched -> named s (asg_of r) r /\ in_box l (asg_of r).
  Proof using Hd E Hs. intros Hc Hl Hr. destruct Hd as (H1 & H2 & H3 & H4 & H5). exact (call_named ss p lens calls H1 H2 H3 H4 E (fun r => H5 calls r E) s l r Hc Hl (Permutation_in _ (Permutation_sym Hs) Hr)). Qed.

  (** No access is undefined behaviour. *)
  Theorem copy_defined : copy_calls from to sched <> Undefined.
  Proof using Hd E Hs Hfrom Hlf Hto Hlt.
    assert (G : forall sts to0, incl sts sched -> good_bag to0 lt -> copy_calls from to0 sts <> Undefined); [|apply (G sched to (incl_refl _) Hto)].
    induction sts as [|st sts IH]; intros to0 Hi Hg; [discriminate|]. cbn [copy_calls]. assert (Hst : In st sched) by (apply Hi; left; reflexivity). unfold copy_one.
    destruct (copy_named _ _ st (proj1 Hfrom) Hlf Hst) as [Hn1 Hb1]. pose proof (read_defined from lf Hfrom _ st Hb1 Hn1). destruct (bag_read from st) as [| |v]; cbn [out_bind]; try congruence.
    destruct (copy_named _ _ st (proj1 Hg) Hlt Hst) as [Hn2 Hb2]. pose proof (write_defined to0 lt Hg _ st v Hb2 Hn2). destruct (bag_write to0 st v) as [| |t1] eqn:Ew; cbn [out_bind]; try congruence.
    apply IH; [intros x Hx; apply Hi; right; exact Hx|]. destruct (write_effect to0 lt Hg _ st v t1 Hb2 Hn2 Ew) as (_ & L1 & _). exact (write_good to0 lt Hg st v t1 Ew L1).
  Qed.

  (** If the lengths are known and the elements have the same size, the copy compiles. *)
  Theorem copy_accepted cf ct : lengths_known (bg_struct from) -> lengths_known (bg_struct to) -> bg_policy to <> ConstRaw ->
    scalar_t (bg_struct from) [] = Some cf -> scalar_t (bg_struct to) [] = Some ct -> ct_size cf = ct_size ct -> exists to', copy_calls from to sched = Done to'.
  Proof using Hd E Hs Hfrom Hlf Hto Hlt.
    intros Kf Kt Hpol Ef Et Hsz.
    assert (G : forall sts to0, incl sts sched -> good_bag to0 lt -> bg_struct to0 = bg_struct to -> bg_policy to0 = bg_policy to -> exists to', copy_calls from to0 sts = Done to'); [|apply (G sched to (incl_refl _) Hto eq_refl eq_refl)].
    assert (Hsize : forall b l c r, good_bag b l -> lengths_known (bg_struct b) -> scalar_t (bg_struct b) [] = Some c -> within_lengths lens l -> In r sched -> exists o, bag_ref b r = Done (o, ct_size c) /\ 0 <= o /\ 0 <= ct_size c /\ o + ct_size c <= Z.of_nat (length (bg_data b))).
    { intros b l c r Hb Hk Ec Hl Hr. destruct (copy_named _ _ r (proj1 Hb) Hl Hr) as [Hn Hi]. pose proof Hb as (_ & (Hw & _) & _).
      assert (Hnr : bag_ref b r <> Rejected) by (apply (known_ref b r Hk Hw (proj1 Hn)); intros d Hdd; destruct (proj2 Hn d Hdd) as (i & -> & _); discriminate).
      destruct (ref_named b l Hb (asg_of r) r Hi Hn) as [H|(c' & _ & H & H1 & H2 & H3)]; [contradiction|].
      assert (c' = c \/ ct_size c' = ct_size c).
      { right. unfold bag_ref in H. destruct Hk as (_ & Hsg & Hkw). destruct (known_scalar (bg_struct b) _ r Hw Hsg Hkw) as [Er _]. destruct (known_scalar (bg_struct b) _ [] Hw Hsg Hkw) as [E0 _].
        rewrite Er, <- E0, Ec in H. destruct (offset _ r); [|discriminate]. destruct (vz _); [|discriminate]. destruct (_ <=? _); [|discriminate]. injection H as _ H. symmetry. exact H. }
      exists (ioff (bg_struct b) nolens (asg_of r)). replace (ct_size c) with (ct_size c') by (destruct H0; congruence). auto. }
    induction sts as [|st sts IH]; intros to0 Hi Hg Es0 Ep0; [eexists; reflexivity|]. cbn [copy_calls]. assert (Hst : In st sched) by (apply Hi; left; reflexivity).
    destruct (Hsize from lf cf st Hfrom Kf Ef Hlf Hst) as (o & Er & Ho & Hc & Hob).
    destruct (Hsize to0 lt ct st Hg ltac:(rewrite Es0; exact Kt) ltac:(rewrite Es0; exact Et) Hlt Hst) as (o2 & Er2 & _).
    unfold copy_one, bag_read. rewrite Er. cbn [out_map out_bind fst snd]. set (v := firstn _ _).
    assert (Hv : Z.of_nat (length v) = ct_size cf) by (unfold v; rewrite firstn_length, skipn_length; lia).
    destruct (bag_write to0 st v) as [| |t1] eqn:Ew.
    - exfalso. unfold bag_write in Ew. rewrite Er2, Ep0 in Ew. cbn [out_bind snd] in Ew. replace (Z.of_nat (length v) =? ct_size ct) with true in Ew by (symmetry; apply Z.eqb_eq; congruence). destruct (bg_policy to); [discriminate|discriminate|congruence].
    - destruct (copy_named _ _ st (proj1 Hg) Hlt Hst) as [Hn2 Hb2]. exfalso. exact (write_defined to0 lt Hg _ st v Hb2 Hn2 Ew).
    - cbn [out_bind]. destruct (write_ref _ _ _ _ Ew) as (_ & _ & _ & S1 & P1 & _). destruct (copy_named _ _ st (proj1 Hg) Hlt Hst) as [Hn2 Hb2].
      destruct (write_effect to0 lt Hg _ st v t1 Hb2 Hn2 Ew) as (_ & L1 & _). apply IH; [intros x Hx; apply Hi; right; exact Hx|exact (write_good to0 lt Hg st v t1 Ew L1)|congruence|congruence].
  Qed.

  (** Where the two bags agree already, nothing changes. *)
  Theorem copy_nothing to' : (forall x v w, in_box lens x -> has_value from x v -> has_value to x w -> v = w) -> copy_calls from to sched = Done to' -> to' = to.
  Proof using Hd E Hs Hfrom Hlf Hto Hlt.
    intros Heq. assert (G : forall sts, incl sts sched -> copy_calls from to sts = Done to' -> to' = to); [|apply G, incl_refl].
    induction sts as [|st sts IH]; intros Hi Ec; cbn [copy_calls] in Ec; [injection Ec as <-; reflexivity|]. assert (Hst : In st sched) by (apply Hi; left; reflexivity).
    unfold copy_one in Ec. destruct (bag_read from st) as [| |v] eqn:Ev; try discriminate. cbn [out_bind] in Ec. destruct (bag_write to st v) as [| |t1] eqn:Ew; try discriminate. cbn [out_bind] in Ec.
    assert (t1 = to); [|subst t1; apply IH; [intros x Hx; apply Hi; right; exact Hx|exact Ec]].
    destruct (copy_named _ _ st (proj1 Hfrom) Hlf Hst) as [Hn1 Hb1]. destruct (copy_named _ _ st (proj1 Hto) Hlt Hst) as [Hn2 Hb2].
    destruct (write_ref _ _ _ _ Ew) as (r & Er & Hl & S1 & P1 & D1).
    assert (Hv : v = window (bg_data to) (fst r) (snd r)).
    { apply (Heq (asg_of st)); [|exists st; split; assumption|exists st; split; [exact Hn2|]; unfold bag_read; rewrite Er; reflexivity].
      destruct Hd as (H1 & H2 & H3 & H4 & H5). apply (call_facts ss p lens calls H1 H2 H3 H4 E (fun r => H5 calls r E) st (Permutation_in _ (Permutation_sym Hs) Hst)). }
    destruct (ref_named to lt Hto (asg_of st) st Hb2 Hn2) as [H|(c & _ & H & Q1 & Q2 & Q3)]; [congruence|]. rewrite Er in H. injection H as ->. cbn [fst snd] in *.
    assert (D : bg_data t1 = bg_data to).
    { rewrite D1. unfold patch. replace (length v) with (Z.to_nat (ct_size c)) by lia. rewrite Hv. unfold window. set (o := Z.to_nat (ioff _ _ _)). set (n := Z.to_nat (ct_size c)).
      replace (skipn (o + n) (bg_data to)) with (skipn n (skipn o (bg_data to))) by apply skipn_add. rewrite firstn_skipn. apply firstn_skipn. }
    destruct t1, to. cbn in *. congruence.
  Qed.

  Hypothesis Hnb : nobcast (bg_struct to) = true.
  Variable to' : bag.
  Hypothesis Ec : copy_calls from to sched = Done to'.

  Theorem copy_keeps : bg_struct to' = bg_struct to /\ bg_policy to' = bg_policy to /\ good_bag to' lt.
  Proof using Hd E Hs Hto Hlt Ec.
    assert (G : forall sts to0, incl sts sched -> good_bag to0 lt -> copy_calls from to0 sts = Done to' -> bg_struct to' = bg_struct to0 /\ bg_policy to' = bg_policy to0 /\ good_bag to' lt); [|apply (G sched to (incl_refl _) Hto Ec)].
    induction sts as [|st sts IH]; intros to0 Hi Hg El; cbn [copy_calls] in El; [injection El as <-; auto|]. assert (Hst : In st sched) by (apply Hi; left; reflexivity).
    unfold copy_one in El. destruct (bag_read from st) as [| |v] eqn:Ev; try discriminate. cbn [out_bind] in El. destruct (bag_write to0 st v) as [| |t1] eqn:Ew; try discriminate. cbn [out_bind] in El.
    destruct (write_ref _ _ _ _ Ew) as (_ & _ & _ & S1 & P1 & _). destruct (copy_named _ _ st (proj1 Hg) Hlt Hst) as [Hn2 Hb2]. destruct (write_effect to0 lt Hg _ st v t1 Hb2 Hn2 Ew) as (_ & L1 & _).
    destruct (IH t1 ltac:(intros x Hx; apply Hi; right; exact Hx) (write_good to0 lt Hg st v t1 Ew L1) El) as (A & B & C). split; [congruence|]. split; [congruence|exact C].
  Qed.

  (** The element of the copy at indices that were visited. *)
  Lemma copy_visited r : In r sched -> (forall d, In d (map fst lf) -> In d (map fst lt)) -> forall v, bag_read from r = Done v -> bag_read to' r = Done v.
  Proof using Hd E Hs Hfrom Hlf Hto Hlt Hnb Ec.
    intros Hr Hsub v Ev. destruct (copy_named _ _ r (proj1 Hto) Hlt Hr) as [Hn Hi].
    assert (E0 : exists w, bag_read to r = Done w).
    { clear - Ec Hr Hto Hlt Hd E Hs. assert (G : forall sts to0, incl sts sched -> good_bag to0 lt -> bg_struct to0 = bg_struct to -> length (bg_data to0) = length (bg_data to) -> copy_calls from to0 sts = Done to' -> In r sts -> exists w, bag_read to r = Done w); [|exact (G sched to (incl_refl _) Hto eq_refl eq_refl Ec Hr)].
      induction sts as [|st sts IH]; intros to0 Hi Hg S0 L0 El Hin; [destruct Hin|]. cbn [copy_calls] in El. assert (Hst : In st sched) by (apply Hi; left; reflexivity).
      unfold copy_one in El. destruct (bag_read from st) as [| |v] eqn:Ev; try discriminate. cbn [out_bind] in El. destruct (bag_write to0 st v) as [| |t1] eqn:Ew; try discriminate. cbn [out_bind] in El.
      destruct (write_ref _ _ _ _ Ew) as (q & Eq & _ & S1 & _ & _). destruct Hin as [->|Hin].
      - exists (window (bg_data to) (fst q) (snd q)). unfold bag_read. unfold bag_ref in Eq |- *. rewrite S0, L0 in Eq. rewrite Eq. reflexivity.
      - destruct (copy_named _ _ st (proj1 Hg) Hlt Hst) as [Hn2 Hb2]. destruct (write_effect to0 lt Hg _ st v t1 Hb2 Hn2 Ew) as (_ & L1 & _).
        apply (IH t1); [intros x Hx; apply Hi; right; exact Hx|exact (write_good to0 lt Hg st v t1 Ew L1)|congruence|congruence|exact El|exact Hin]. }
    destruct E0 as [w Ew].
    destruct (loop_calls take (reads [from]) lt sched to to' (asg_of r) r w Hto Hnb (fun st Hst => copy_named _ _ st (proj1 Hto) Hlt Hst) (copy_loop _ _ _ _ Ec) Hi Hn Ew) as (_ & _ & ->). f_equal.
    assert (Hall : forall st, In st (filter (fun st => agrees (map fst lt) (asg_of r) (asg_of st)) sched) -> take [] (KernelFacts.values (reads [from]) st) = v).
    { intros st Hst. apply filter_In in Hst. destruct Hst as [Hst Ha]. destruct (copy_reads _ _ _ _ Ec st Hst) as [u Eu]. unfold KernelFacts.values. cbn [reads]. rewrite Eu. cbn [out_bind out_map]. unfold take. cbn [hd].
      destruct (copy_named _ _ st (proj1 Hfrom) Hlf Hst) as [Hn1 Hb1]. destruct (copy_named _ _ r (proj1 Hfrom) Hlf Hr) as [Hn3 Hb3].
      apply (same_read from lf Hfrom (asg_of r) r st v u Hb3 Hn3); [|exact Ev|exact Eu]. apply (named_same _ (asg_of st)); [|exact Hn1]. intros d Hdd. symmetry. apply (proj1 (agrees_all _ _ _) Ha), Hsub. apply (proj1 (proj2 (proj1 Hfrom)) d), Hdd. }
    assert (Hin : In r (filter (fun st => agrees (map fst lt) (asg_of r) (asg_of st)) sched)) by (apply filter_In; split; [exact Hr|apply agrees_all; reflexivity]).
    revert Hall Hin. generalize (filter (fun st => agrees (map fst lt) (asg_of r) (asg_of st)) sched). intros l Hall Hin. destruct l as [|s0 l]; [destruct Hin|]. clear Hin.
    revert w Ew s0 Hall. induction l as [|s1 l IHl]; intros w Ew s0 Hall; [cbn [fold_left]; apply (Hall s0 (or_introl eq_refl))|].
    change (fold_left (fun v st => take v (KernelFacts.values (reads [from]) st)) (s0 :: s1 :: l) w) with (fold_left (fun v st => take v (KernelFacts.values (reads [from]) st)) (s1 :: l) w). apply IHl; [exact Ew|]. intros st Hst. apply Hall. right. exact Hst.
  Qed.
End Copy.

Lemma lens_within lens : within_lengths lens lens.
Proof. intros q n Hq. exists n. split; [exact Hq|lia]. Qed.

(** The order visits all the indices. *)
Section Whole.
  Variables (from to to' : bag) (ss : list struct) (p : proto) (lens lf : list (dim * Z)) (calls sched : list state).
  Let t := order (traverser ss) p.
  Hypothesis Hd : loops rearranges ss p lens.
  Hypothesis Hfrom : good_bag from lf.
  Hypothesis Hlf : within_lengths lens lf.
  Hypothesis Hto : good_bag to lens.
  Hypothesis E : for_each t [] = Done calls.
  Hypothesis Hs : Permutation calls sched.
  Hypothesis Hnb : nobcast (bg_struct to) = true.
  Hypothesis Ec : copy_calls from to sched = Done to'.

  Theorem copy_same x v : in_box lens x -> (has_value from x v <-> has_value to' x v).
  Proof using Hd Hfrom Hlf Hto E Hs Hnb Ec.
    intros Hx. pose proof (loops_documented _ _ _ Hd) as Hdoc. destruct (copy_keeps from to ss p lens lens calls sched Hdoc Hto (lens_within lens) E Hs to' Ec) as (S & _ & Hg').
    assert (Hr : exists r, In r sched /\ forall d, In d (map fst lens) -> asg_of r d = x d).
    { destruct Hd as (H1 & H2 & H3 & H4 & H5). pose proof (calls_box ss p lens calls H1 H2 H3 (over_mono _ _ _ _ _ rearranges_documented H4) E (fun r => H5 calls r E) H4) as Hp.
      assert (Hin : In (map x (map fst lens)) (all_indices lens)) by (apply box_in, Hx). apply (Permutation_in _ (Permutation_sym Hp)) in Hin. apply in_map_iff in Hin. destruct Hin as (r & Er & Hr).
      exists r. split; [apply (Permutation_in _ Hs), Hr|]. apply ext_in_map. exact Er. }
    destruct Hr as (r & Hr & Hag). destruct (copy_reads _ _ _ _ Ec r Hr) as [u Eu].
    assert (Hsub : forall d, In d (map fst lf) -> In d (map fst lens)) by (intros d H; destruct (fst_in _ _ H) as [n Hn]; destruct (Hlf d n Hn) as (m & Hm & _); eapply in_fst; eauto).
    pose proof (copy_visited from to ss p lens lf lens calls sched Hdoc Hfrom Hlf Hto (lens_within lens) E Hs Hnb to' Ec r Hr Hsub u Eu) as Eu'.
    destruct (copy_named ss p lens calls sched Hdoc E Hs _ _ r (proj1 Hfrom) Hlf Hr) as [Hn1 Hb1]. destruct (copy_named ss p lens calls sched Hdoc E Hs _ _ r (proj1 Hg') (lens_within lens) Hr) as [Hn2 Hb2].
    assert (Hu : has_value from x u). { exists r. split; [|exact Eu]. apply (named_same _ (asg_of r)); [|exact Hn1]. intros d Hdd. symmetry. apply Hag, Hsub. apply (proj1 (proj2 (proj1 Hfrom)) d), Hdd. }
    assert (Hu' : has_value to' x u). { exists r. split; [|exact Eu']. apply (named_same _ (asg_of r)); [|exact Hn2]. intros d Hdd. symmetry. apply Hag. apply (proj1 (proj2 (proj1 Hg')) d), Hdd. }
    split; intros H.
    - rewrite (value_once from lf Hfrom x u v (within_box _ _ _ Hlf Hx) Hu H). exact Hu'.
    - rewrite (value_once to' lens Hg' x u v Hx Hu' H). exact Hu.
  Qed.
End Whole.

(** Copying back. *)
Theorem copy_back from to to' from' ss p lens calls sched ss' p' lens' calls' sched' lf : loops rearranges ss p lens -> good_bag from lf -> within_lengths lens lf -> good_bag to lens -> nobcast (bg_struct to) = true ->
  for_each (order (traverser ss) p) [] = Done calls -> Permutation calls sched -> copy_calls from to sched = Done to' ->
  loops documented ss' p' lens' -> within_lengths lens' lens -> within_lengths lens' lf ->
  for_each (order (traverser ss') p') [] = Done calls' -> Permutation calls' sched' -> copy_calls to' from sched' = Done from' -> from' = from.
Proof.
  intros Hd Hf Hlf Ht Hnb E Hs Ec Hd' Hl1 Hl2 E' Hs' Ec'.
  destruct (copy_keeps from to ss p lens lens calls sched (loops_documented _ _ _ Hd) Ht (lens_within lens) E Hs to' Ec) as (_ & _ & Hg').
  apply (copy_nothing to' from ss' p' lens' lens lf calls' sched' Hd' Hg' Hl1 Hf Hl2 E' Hs' from'); [|exact Ec'].
  intros x v w Hx Hv Hw. pose proof (within_box _ _ _ Hl1 Hx) as Hx1.
  apply (proj2 (copy_same from to to' ss p lens lf calls sched Hd Hf Hlf Ht E Hs Hnb Ec x v Hx1)) in Hv. exact (value_once from lf Hf x w v (within_box _ _ _ Hl2 Hx) Hw Hv).
Qed.
