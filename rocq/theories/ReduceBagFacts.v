(** * Reductions into bags: proofs *)

From Coq Require Import Permutation.
From Verif Require Import ReduceFacts.
From Verif Require Export KernelThms.
From Verif Require Import SpecReduceBag.

(** ** Updates at computed places *)

Section Adds.
  Variables (f : bytes -> list bytes -> bytes) (rd : state -> outcome (list bytes)) (place : state -> list bytes -> state).
  Definition spot (st : state) : state := place st (values rd st).

  (** The places are elements of the output. *)
  Definition hits (s : struct) (lo : list (dim * Z)) (sts : list state) : Prop :=
    forall st xs, In st sts -> rd st = Done xs -> named s (asg_of (place st xs)) (place st xs) /\ in_box lo (asg_of (place st xs)).

  Lemma add_inv out st o1 : add_at f rd place out st = Done o1 ->
    exists xs v, rd st = Done xs /\ values rd st = xs /\ bag_read out (place st xs) = Done v /\ bag_write out (place st xs) (f v xs) = Done o1.
  Proof.
    unfold add_at, values. destruct (rd st) as [| |xs]; try discriminate. cbn [out_bind]. destruct (bag_read out (place st xs)) as [| |v] eqn:E; try discriminate. cbn [out_bind]. eauto 8.
  Qed.

  Lemma add_calls lo sts : forall out out' x st0 v, good_bag out lo -> nobcast (bg_struct out) = true -> hits (bg_struct out) lo sts ->
    add_all f rd place out sts = Done out' -> in_box lo x -> named (bg_struct out) x st0 -> bag_read out st0 = Done v ->
    bag_read out' st0 = Done (fold_left (fun v st => f v (values rd st)) (filter (fun st => agrees (map fst lo) x (asg_of (spot st))) sts) v).
  Proof.
    induction sts as [|st sts IH]; intros out out' x st0 v Hg Hnb Hst El Hx Hn0 E0.
    - cbn in El. injection El as <-. exact E0.
    - cbn [add_all] in El. destruct (add_at f rd place out st) as [| |o1] eqn:Eu; try discriminate. cbn [out_bind] in El.
      destruct (add_inv _ _ _ Eu) as (xs & w & Exs & Ev & Ew & Eu'). destruct (Hst st xs (or_introl eq_refl) Exs) as [Hn Hi].
      destruct (write_effect out lo Hg _ _ _ o1 Hi Hn Eu') as (S1 & L1 & R1 & O1). pose proof (write_good out lo Hg _ _ o1 Eu' L1) as G1.
      assert (Hrest : hits (bg_struct o1) lo sts) by (intros st' xs' Hin; rewrite S1; apply Hst; right; exact Hin).
      assert (Hnb1 : nobcast (bg_struct o1) = true) by (rewrite S1; exact Hnb). assert (Hn1 : named (bg_struct o1) x st0) by (rewrite S1; exact Hn0).
      assert (Hds : forall d, has_dim (bg_struct out) d <-> In d (map fst lo)) by apply Hg.
      cbn [filter]. unfold spot at 1. rewrite Ev. destruct (agrees (map fst lo) x (asg_of (place st xs))) eqn:Ea.
      + pose proof (proj1 (agrees_all _ _ _) Ea) as Ha.
        assert (Hn' : named (bg_struct out) (asg_of (place st xs)) st0).
        { split; [apply Hn0|]. intros d Hd. rewrite Ha by (apply Hds, Hd). apply Hn0, Hd. }
        assert (w = v) by (eapply (same_read out lo Hg (asg_of (place st xs)) st0 (place st xs)); eauto). subst w.
        pose proof (R1 st0 v Hn' E0) as E1. cbn [fold_left]. rewrite Ev. exact (IH o1 out' x st0 _ G1 Hnb1 Hrest El Hx Hn1 E1).
      + assert (E1 : bag_read o1 st0 = Done v).
        { rewrite (O1 Hnb x st0 Hx Hn0); [exact E0|]. destruct (existsb (fun d => negb (asg_of (place st xs) d =? x d)) (map fst lo)) eqn:Ex.
          - apply existsb_exists in Ex. destruct Ex as (d & Hd & Hne). exists d. split; [apply Hds, Hd|lia].
          - exfalso. assert (Hall : agrees (map fst lo) x (asg_of (place st xs)) = true); [|congruence]. apply agrees_all. intros d Hd.
            destruct (Z.eq_dec (asg_of (place st xs) d) (x d)); [assumption|]. assert (Hf : existsb (fun d => negb (asg_of (place st xs) d =? x d)) (map fst lo) = true); [|congruence].
            apply existsb_exists. exists d. split; [exact Hd|lia]. }
        exact (IH o1 out' x st0 _ G1 Hnb1 Hrest El Hx Hn1 E1).
  Qed.

  Lemma add_keeps lo sts : forall out out', good_bag out lo -> hits (bg_struct out) lo sts -> add_all f rd place out sts = Done out' ->
    good_bag out' lo /\ bg_struct out' = bg_struct out /\ bg_policy out' = bg_policy out /\ List.length (bg_data out') = List.length (bg_data out) /\
    forall st, In st sts -> (exists xs, rd st = Done xs) /\ exists v, bag_read out (spot st) = Done v.
  Proof.
    induction sts as [|st sts IH]; intros out out' Hg Hst El; [cbn in El; injection El as <-; repeat (split; [first [assumption|reflexivity]|]); intros st []|].
    cbn [add_all] in El. destruct (add_at f rd place out st) as [| |o1] eqn:Eu; try discriminate. cbn [out_bind] in El.
    destruct (add_inv _ _ _ Eu) as (xs & w & Exs & Ev & Ew & Eu'). destruct (Hst st xs (or_introl eq_refl) Exs) as [Hn Hi].
    destruct (write_effect out lo Hg _ _ _ o1 Hi Hn Eu') as (S1 & L1 & _). pose proof (write_good out lo Hg _ _ o1 Eu' L1) as G1.
    assert (P1 : bg_policy o1 = bg_policy out) by (destruct (write_inv _ _ _ _ Eu') as (z & _ & _ & ->); reflexivity).
    destruct (IH o1 out' G1) as (A & B & C & D & F); [intros st' xs' Hin; rewrite S1; apply Hst; right; exact Hin|exact El|].
    split; [exact A|]. split; [congruence|]. split; [congruence|]. split; [congruence|]. intros st' [<-|Hin].
    - split; [eauto|]. exists w. unfold spot. rewrite Ev. exact Ew.
    - destruct (F st' Hin) as (F1 & v & F2). split; [exact F1|]. unfold bag_read in F2 |- *. rewrite (ref_size out o1 _ S1 L1) in F2.
      destruct (bag_ref out (spot st')) as [| |r]; try discriminate. cbn [out_map]. eauto.
  Qed.

  Lemma add_defined lo sts : forall out, good_bag out lo -> hits (bg_struct out) lo sts -> (forall st, In st sts -> rd st <> Undefined) -> add_all f rd place out sts <> Undefined.
  Proof.
    induction sts as [|st sts IH]; intros out Hg Hst Hrd; [discriminate|]. cbn [add_all].
    assert (Hu : add_at f rd place out st <> Undefined).
    { unfold add_at. pose proof (Hrd st (or_introl eq_refl)). destruct (rd st) as [| |xs] eqn:Exs; cbn [out_bind]; try congruence.
      destruct (Hst st xs (or_introl eq_refl) Exs) as [Hn Hi]. pose proof (read_defined out lo Hg _ _ Hi Hn). destruct (bag_read out (place st xs)) as [| |v]; cbn [out_bind]; try congruence.
      exact (write_defined out lo Hg _ _ _ Hi Hn). }
    destruct (add_at f rd place out st) as [| |o1] eqn:Eu; cbn [out_bind]; try congruence.
    destruct (add_inv _ _ _ Eu) as (xs & w & Exs & Ev & Ew & Eu'). destruct (Hst st xs (or_introl eq_refl) Exs) as [Hn Hi].
    destruct (write_effect out lo Hg _ _ _ o1 Hi Hn Eu') as (S1 & L1 & _). apply IH; [exact (write_good out lo Hg _ _ o1 Eu' L1)| |intros; apply Hrd; right; assumption].
    intros st' xs' Hin. rewrite S1. apply Hst. right. exact Hin.
  Qed.
End Adds.

(** ** Filling and joining are such updates *)

Definition here (st : state) (_ : list bytes) : state := st.

Lemma write_reads b st v : bag_write b st v = out_bind (match bg_policy b with ConstRaw => Rejected | _ => bag_read b st end) (fun _ => bag_write b st v).
Proof. unfold bag_write, bag_read. destruct (bg_policy b); try reflexivity; destruct (bag_ref b st); reflexivity. Qed.

Lemma fill_adds e sts : forall b, bg_policy b <> ConstRaw -> fill e b sts = add_all (fun _ _ => e) (fun _ => Done []) here b sts.
Proof.
  induction sts as [|st sts IH]; intros b Hp; [reflexivity|]. cbn [fill add_all]. unfold add_at, here. cbn [out_bind].
  assert (E : bag_write b st e = out_bind (bag_read b st) (fun _ => bag_write b st e)) by (rewrite write_reads at 1; destruct (bg_policy b); [reflexivity|reflexivity|contradiction]).
  rewrite E at 1. destruct (bag_read b st); try reflexivity. cbn [out_bind]. destruct (bag_write b st e) as [| |b1] eqn:Ew; try reflexivity. cbn [out_bind]. apply IH.
  destruct (write_inv _ _ _ _ Ew) as (z & _ & H & ->). exact H.
Qed.

Definition read_one (b : bag) (st : state) : outcome (list bytes) := out_map (fun v => [v]) (bag_read b st).
Lemma join_adds op right sts : forall left, join_all op left right sts = add_all (fun v xs => op v (hd [] xs)) (read_one right) here left sts.
Proof.
  induction sts as [|st sts IH]; intros left; [reflexivity|]. cbn [join_all add_all]. unfold add_at, here, read_one at 1. destruct (bag_read right st) as [| |w]; try reflexivity. cbn [out_map out_bind hd].
  destruct (bag_read left st) as [| |v]; try reflexivity. cbn [out_bind]. destruct (bag_write left st (op v w)); try reflexivity. cbn [out_bind]. apply IH.
Qed.

(** ** Sums *)

Section Sums.
  Variables (P : bytes -> Prop) (op : bytes -> bytes -> bytes) (e : bytes).
  Hypothesis Hm : sums P op e.

  Lemma fold_P l : forall v, P v -> Forall P l -> P (fold_left op l v).
  Proof using Hm. destruct Hm as (_ & H & _). induction l as [|a l IH]; intros v Hv F; [exact Hv|]. inversion F; subst. apply IH; auto. Qed.

  Lemma fold_start l : forall v, P v -> Forall P l -> fold_left op l v = op v (fold_left op l e).
  Proof using Hm.
    pose proof Hm as (He & Hc & Hi & Hcm & Ha). induction l as [|a l IH]; intros v Hv F; cbn [fold_left]; [rewrite Hcm, Hi by assumption; reflexivity|]. inversion F as [|? ? Pa Fl]; subst.
    rewrite IH by auto. rewrite (IH (op e a)) by auto. rewrite (Hi a Pa), Ha; auto. apply fold_P; assumption.
  Qed.

  Lemma fold_sum_perm l l' : Permutation l l' -> forall v, P v -> Forall P l -> fold_left op l v = fold_left op l' v.
  Proof using Hm.
    pose proof Hm as (He & Hc & Hi & Hcm & Ha). induction 1 as [|a l l' H IH|a b l|l l' l2 H1 IH1 H2 IH2]; intros v Hv F; cbn [fold_left]; [reflexivity| | |].
    - inversion F; subst. apply IH; auto.
    - inversion F as [|? ? Pb Fb]; subst. inversion Fb as [|? ? Pa Fa]; subst. rewrite (Ha v b a), (Hcm b a), <- (Ha v a b) by assumption. reflexivity.
    - rewrite IH1 by assumption. apply IH2; [exact Hv|]. eapply Permutation_Forall; eauto.
  Qed.
End Sums.

Lemma fold_map {A B C} (g : A -> B -> A) (k : C -> B) l : forall v, fold_left (fun v c => g v (k c)) l v = fold_left g (map k l) v.
Proof. induction l as [|c l IH]; intros v; [reflexivity|]. apply IH. Qed.

(** ** The elements of the output *)

Lemma self_loops s lo : cube s lo -> sound_struct s -> NoDup (map fst lo) -> loops rearranges [s] [] lo.
Proof.
  intros Hc (Hw & Hlk & _) Hn. destruct (cube_sig _ _ Hc) as (sg & Es & _).
  assert (Hlu : lenok (Union [s]) nolens) by (cbn; auto). assert (Hwu : uswf (Union [s]) = true) by (cbn; rewrite (swf_uswf s Hw); reflexivity).
  split; [|split; [exact Hwu|split; [exact Hlu|split; [constructor; reflexivity|]]]].
  - split; [exact Hn|]. split; [intros s' [<-|[]]; exists lo; split; [exact Hc|intros q Hq; exact Hq]|]. intros q Hq. exists s. split; [left; reflexivity|]. apply (proj1 (proj2 Hc)), Hq.
  - intros calls r E Hr. refine (plain_complete [s] calls r _ Hlu E Hr). apply uswf_distinct; [exact Hwu|]. exact (for_each_signature _ _ E).
Qed.

Section Outs.
  Variables (s : struct) (lo : list (dim * Z)) (outs : list state).
  Hypothesis Hc : cube s lo.
  Hypothesis Hs : sound_struct s.
  Hypothesis Hn : NoDup (map fst lo).
  Hypothesis E : for_each (traverser [s]) [] = Done outs.

  Lemma outs_named r : In r outs -> named s (asg_of r) r /\ in_box lo (asg_of r).
  Proof using Hc Hs Hn E.
    intros Hr. destruct (loops_documented _ _ _ (self_loops s lo Hc Hs Hn)) as (H1 & H2 & H3 & H4 & H5).
    apply (call_named [s] [] lo outs H1 H2 H3 H4 E (fun r => H5 outs r E) s lo r Hc); [|exact Hr]. intros q n Hq. exists n. split; [exact Hq|lia].
  Qed.

  Lemma outs_one x : in_box lo x -> exists r, In r outs /\ named s x r /\ filter (fun st => agrees (map fst lo) x (asg_of st)) outs = [r].
  Proof using Hc Hs Hn E.
    intros Hx. pose proof (self_loops s lo Hc Hs Hn) as Hl. pose proof (proj1 (proj2 (proj2 (proj2 Hl)))) as Hre. destruct (loops_documented _ _ _ Hl) as (H1 & H2 & H3 & H4 & H5).
    pose proof (calls_box [s] [] lo outs H1 H2 H3 H4 E (fun r => H5 outs r E) Hre) as Pm. pose proof (KernelTrav.calls_once [s] [] lo outs H1 H2 H3 H4 E (fun r => H5 outs r E)) as Nk.
    pose proof (box_in lo x Hx) as Hk. apply (Permutation_in _ (Permutation_sym Pm)) in Hk. apply in_map_iff in Hk. destruct Hk as (r & Er & Hr). exists r. split; [exact Hr|].
    assert (Hkey : forall r', agrees (map fst lo) x (asg_of r') = true <-> key lo r' = map x (map fst lo)).
    { intros r'. rewrite agrees_all. unfold key. split; [intros Ha; apply map_ext_in, Ha|]. intros Em d Hin. clear - Em Hin. induction (map fst lo) as [|q m IH]; [destruct Hin|].
      cbn [map] in Em. injection Em as E1 E2. destruct Hin as [<-|Hin]; auto. }
    split.
    - destruct (outs_named r Hr) as [Hnr _]. eapply named_same; [|exact Hnr]. intros d Hd. symmetry. apply (proj1 (agrees_all _ _ _) (proj2 (Hkey r) Er)). apply (proj1 (proj2 Hc)), Hd.
    - apply filter_one.
      + clear - Nk. revert Nk. generalize (key lo). intros g. induction outs as [|a m IH]; intros Nk; [constructor|]. cbn [map] in Nk. inversion Nk as [|? ? N1 N2]; subst.
        constructor; [intros Hin; apply N1, in_map, Hin|auto].
      + exact Hr.
      + intros r' Hr'. rewrite Hkey, <- Er. split; [|intros ->; reflexivity]. intros Ek. clear - Nk Hr Hr' Ek. revert Nk Ek. generalize (key lo). intros g Nk Ek. induction outs as [|a m IH]; [destruct Hr|].
        cbn [map] in Nk. inversion Nk as [|? ? N1 N2]; subst. destruct Hr as [->|Hr], Hr' as [->|Hr']; [reflexivity| | |auto].
        * exfalso. apply N1. rewrite <- Ek. apply in_map, Hr'.
        * exfalso. apply N1. rewrite Ek. apply in_map, Hr.
  Qed.
End Outs.

(** ** Private copies *)

Section Private.
  Variables (P : bytes -> Prop) (op : bytes -> bytes -> bytes) (e : bytes) (g : list bytes -> bytes).
  Variables (rd : state -> outcome (list bytes)) (place : state -> list bytes -> state).
  Variables (s : struct) (lo : list (dim * Z)) (outs : list state).
  Hypothesis Hm : sums P op e.
  Hypothesis Hc : cube s lo.
  Hypothesis Hs : sound_struct s.
  Hypothesis Hn : NoDup (map fst lo).
  Hypothesis Hnb : nobcast s = true.
  Hypothesis E : for_each (traverser [s]) [] = Done outs.
  Let f (v : bytes) (xs : list bytes) : bytes := op v (g xs).

  (** What the calls add to the element at [x]. *)
  Definition parts (x : asg) (sts : list state) : list bytes := map (fun st => g (values rd st)) (filter (fun st => agrees (map fst lo) x (asg_of (spot rd place st))) sts).
  Lemma parts_app x a b : parts x (a ++ b) = parts x a ++ parts x b.
  Proof. unfold parts. rewrite filter_app, map_app. reflexivity. Qed.
  Lemma parts_P x sts : (forall st, In st sts -> P (g (values rd st))) -> Forall P (parts x sts).
  Proof. intros H. apply Forall_forall. intros v Hv. unfold parts in Hv. apply in_map_iff in Hv. destruct Hv as (st & <- & Hin). apply filter_In in Hin. apply H, Hin. Qed.

  Lemma add_parts out out' sts x st0 v : bg_struct out = s -> good_bag out lo -> hits rd place s lo sts -> add_all f rd place out sts = Done out' ->
    in_box lo x -> named s x st0 -> bag_read out st0 = Done v -> bag_read out' st0 = Done (fold_left op (parts x sts) v).
  Proof using Hnb.
    intros S0 Hg Hh El Hx Hn0 E0. rewrite (add_calls f rd place lo sts out out' x st0 v Hg ltac:(rewrite S0; exact Hnb) ltac:(rewrite S0; exact Hh) El Hx ltac:(rewrite S0; exact Hn0) E0). unfold parts. rewrite <- fold_map. reflexivity.
  Qed.

  Lemma outs_hit rd' : hits rd' here s lo outs.
  Proof using Hc Hs Hn E. intros st xs Hin _. exact (outs_named s lo outs Hc Hs Hn E st Hin). Qed.

  Lemma one_named x : in_box lo x -> exists r, In r outs /\ named s x r.
  Proof using Hc Hs Hn E. intros Hx. destruct (outs_one s lo outs Hc Hs Hn E x Hx) as (r & Hr & Hnr & _). eauto. Qed.

  Lemma filled b0 b : bg_struct b0 = s -> bg_policy b0 <> ConstRaw -> good_bag b0 lo -> fill e b0 outs = Done b ->
    bg_struct b = s /\ good_bag b lo /\ forall x r, in_box lo x -> In r outs -> named s x r -> bag_read b r = Done e.
  Proof using Hc Hs Hn Hnb E.
    intros S0 P0 G0 El. rewrite fill_adds in El by exact P0. pose proof (outs_hit (fun _ => Done [])) as Hh. rewrite <- S0 in Hh.
    destruct (add_keeps _ _ _ lo outs b0 b G0 Hh El) as (A & B & _ & _ & F). split; [congruence|]. split; [exact A|]. intros x r Hx Hr Hnr.
    destruct (F r Hr) as (_ & v & Ev). unfold spot, here in Ev. assert (Hnr' : named (bg_struct b0) x r) by (rewrite S0; exact Hnr).
    rewrite (add_calls _ _ _ lo outs b0 b x r v G0 ltac:(rewrite S0; exact Hnb) Hh El Hx Hnr' Ev). unfold spot, here.
    destruct (outs_one s lo outs Hc Hs Hn E x Hx) as (r' & _ & _ & ->). reflexivity.
  Qed.

  Lemma fill_defined b0 : bg_struct b0 = s -> bg_policy b0 <> ConstRaw -> good_bag b0 lo -> fill e b0 outs <> Undefined.
  Proof using Hc Hs Hn E. intros S0 P0 G0. rewrite fill_adds by exact P0. apply (add_defined _ _ _ lo outs b0 G0); [rewrite S0; apply outs_hit|discriminate]. Qed.

  Let copy fresh := make_bag_at s false fresh.
  Lemma copy_good c data : enough_data (make_bag_at s c data) -> good_bag (make_bag_at s c data) lo.
  Proof using Hc Hs. intros H. split; [exact Hc|]. split; [exact Hs|exact H]. Qed.

  Lemma thread_value fresh calls b : enough_data (copy fresh) -> hits rd place s lo calls -> thread_bag e f rd place s outs fresh calls = Done b ->
    bg_struct b = s /\ good_bag b lo /\ (forall st, In st calls -> exists xs, rd st = Done xs) /\
    forall x r, in_box lo x -> In r outs -> named s x r -> bag_read b r = Done (fold_left op (parts x calls) e).
  Proof using Hc Hs Hn Hnb E.
    intros Hd Hh El. unfold thread_bag in El. destruct (fill e (make_bag_at s false fresh) outs) as [| |b1] eqn:Ef; try discriminate. cbn [out_bind] in El.
    destruct (filled (copy fresh) b1 eq_refl ltac:(discriminate) (copy_good _ _ Hd) Ef) as (S1 & G1 & V1).
    destruct (add_keeps f rd place lo calls b1 b G1) as (A & B & _ & _ & F); [rewrite S1; exact Hh|exact El|].
    split; [congruence|]. split; [exact A|]. split; [intros st Hst; apply (F st Hst)|]. intros x r Hx Hr Hnr.
    exact (add_parts b1 b calls x r e S1 G1 Hh El Hx Hnr (V1 x r Hx Hr Hnr)).
  Qed.

  Lemma join_value out out' b x r v w : bg_struct out = s -> good_bag out lo -> join_all op out (make_bag_at s true (bg_data b)) outs = Done out' ->
    bg_struct b = s -> good_bag b lo -> in_box lo x -> In r outs -> named s x r -> bag_read out r = Done v -> bag_read b r = Done w ->
    bag_read out' r = Done (op v w).
  Proof using Hc Hs Hn Hnb E.
    intros S0 G0 El Sb Gb Hx Hr Hnr Ev Ew. rewrite join_adds in El. assert (Hh : hits (read_one (make_bag_at s true (bg_data b))) here (bg_struct out) lo outs) by (rewrite S0; apply outs_hit). rewrite <- S0 in Hnr.
    rewrite (add_calls _ _ _ lo outs out out' x r v G0 ltac:(rewrite S0; exact Hnb) Hh El Hx Hnr Ev). unfold spot, here.
    destruct (outs_one s lo outs Hc Hs Hn E x Hx) as (r' & Hr' & Hnr' & Ef). rewrite Ef. cbn [fold_left]. f_equal. f_equal.
    assert (Hb : bag_read (make_bag_at s true (bg_data b)) r' = bag_read b r') by (unfold bag_read, bag_ref, make_bag_at; cbn [bg_struct bg_data]; rewrite Sb; reflexivity).
    destruct (add_keeps _ _ _ lo outs out out' G0 Hh El) as (_ & _ & _ & _ & F). destruct (F r' Hr') as ((xs & Exs) & _). unfold values. rewrite Exs.
    unfold read_one in Exs. rewrite Hb in Exs. destruct (bag_read b r') as [| |w'] eqn:Ew'; try discriminate. cbn [out_map] in Exs. injection Exs as <-. cbn [hd].
    rewrite S0 in Hnr. apply (same_read b lo Gb x r r' w w' Hx); rewrite ?Sb; assumption.
  Qed.

  Lemma joined threads : forall out out', bg_struct out = s -> good_bag out lo -> join_threads op e f rd place outs threads out = Done out' ->
    (forall th, In th threads -> enough_data (copy (fst th))) -> hits rd place s lo (concat (concat (map snd threads))) ->
    bg_struct out' = s /\ good_bag out' lo /\ (forall st, In st (concat (concat (map snd threads))) -> exists xs, rd st = Done xs) /\
    (threads = [] \/ forall r, In r outs -> exists v, bag_read out r = Done v) /\
    forall x r v, in_box lo x -> In r outs -> named s x r -> bag_read out r = Done v -> P v ->
      (forall st, In st (concat (concat (map snd threads))) -> P (g (values rd st))) ->
      bag_read out' r = Done (fold_left op (parts x (concat (concat (map snd threads)))) v).
  Proof using Hm Hc Hs Hn Hnb E.
    induction threads as [|[fresh works] threads IH]; intros out out' S0 G0 El Hd Hh.
    - cbn in El. injection El as <-. split; [exact S0|]. split; [exact G0|]. split; [intros st []|]. split; [left; reflexivity|]. intros x r v _ _ _ Ev _ _. exact Ev.
    - cbn [join_threads fst snd] in El. rewrite S0 in El. cbn [map snd concat] in *. rewrite concat_app in *.
      destruct (thread_bag e f rd place s outs fresh (concat works)) as [| |b] eqn:Et; try discriminate. cbn [out_bind] in El.
      destruct (join_all op out (make_bag_at s true (bg_data b)) outs) as [| |o1] eqn:Ej; try discriminate. cbn [out_bind] in El.
      assert (Hh1 : hits rd place s lo (concat works)) by (intros st xs Hin; apply Hh, in_or_app; left; exact Hin).
      assert (Hh2 : hits rd place s lo (concat (concat (map snd threads)))) by (intros st xs Hin; apply Hh, in_or_app; right; exact Hin).
      destruct (thread_value fresh (concat works) b (Hd _ (or_introl eq_refl)) Hh1 Et) as (Sb & Gb & Rb & Vb).
      pose proof Ej as Ej'. rewrite join_adds in Ej'. assert (Hj : hits (read_one (make_bag_at s true (bg_data b))) here (bg_struct out) lo outs) by (rewrite S0; apply outs_hit).
      destruct (add_keeps _ _ _ lo outs out o1 G0 Hj Ej') as (G1 & S1 & _ & _ & F1).
      destruct (IH o1 out' ltac:(congruence) G1 El (fun th Hin => Hd th (or_intror Hin)) Hh2) as (A & B & R & _ & V).
      split; [exact A|]. split; [exact B|]. split; [intros st Hin; apply in_app_or in Hin; destruct Hin; [apply Rb|apply R]; assumption|].
      split; [right; intros r Hr; apply (F1 r Hr)|]. intros x r v Hx Hr Hnr Ev Pv Pg. pose proof Hm as (Pe & Pop & _).
      assert (P1 : Forall P (parts x (concat works))) by (apply parts_P; intros st Hin; apply Pg, in_or_app; left; exact Hin).
      rewrite parts_app, fold_left_app. rewrite (fold_start P op e Hm (parts x (concat works)) v Pv P1).
      apply (V x r _ Hx Hr Hnr).
      + exact (join_value out o1 b x r v _ S0 G0 Ej Sb Gb Hx Hr Hnr Ev (Vb x r Hx Hr Hnr)).
      + apply Pop; [exact Pv|]. apply (fold_P P op e Hm); assumption.
      + intros st Hin. apply Pg, in_or_app. right. exact Hin.
  Qed.

  Lemma join_defined threads : forall out, bg_struct out = s -> bg_policy out <> ConstRaw -> good_bag out lo ->
    (forall th, In th threads -> enough_data (copy (fst th))) -> hits rd place s lo (concat (concat (map snd threads))) ->
    (forall st, In st (concat (concat (map snd threads))) -> rd st <> Undefined) -> join_threads op e f rd place outs threads out <> Undefined.
  Proof using Hc Hs Hn Hnb E.
    induction threads as [|[fresh works] threads IH]; intros out S0 P0 G0 Hd Hh Hrd; [discriminate|].
    cbn [join_threads fst snd]. rewrite S0. cbn [map snd concat] in *. rewrite concat_app in *.
    assert (Hh1 : hits rd place s lo (concat works)) by (intros st xs Hin; apply Hh, in_or_app; left; exact Hin).
    pose proof (Hd _ (or_introl eq_refl)) as Hd1. cbn [fst] in Hd1.
    assert (Ht : thread_bag e f rd place s outs fresh (concat works) <> Undefined).
    { unfold thread_bag. pose proof (fill_defined (copy fresh) eq_refl ltac:(discriminate) (copy_good _ _ Hd1)) as Hf. fold (copy fresh).
      destruct (fill e (copy fresh) outs) as [| |b1] eqn:Ef; cbn [out_bind]; try congruence.
      destruct (filled (copy fresh) b1 eq_refl ltac:(discriminate) (copy_good _ _ Hd1) Ef) as (S1 & G1 & _).
      apply (add_defined f rd place lo _ b1 G1); [rewrite S1; exact Hh1|]. intros st Hin. apply Hrd, in_or_app. left. exact Hin. }
    destruct (thread_bag e f rd place s outs fresh (concat works)) as [| |b] eqn:Et; cbn [out_bind]; try congruence.
    destruct (thread_value fresh (concat works) b Hd1 Hh1 Et) as (Sb & Gb & _ & _).
    rewrite join_adds. assert (Hj : hits (read_one (make_bag_at s true (bg_data b))) here (bg_struct out) lo outs) by (rewrite S0; apply outs_hit).
    assert (Gb' : good_bag (make_bag_at s true (bg_data b)) lo) by (apply copy_good; destruct Gb as (_ & _ & v & n & H1 & H2 & H3); exists v, n; rewrite Sb in H1; auto).
    assert (Hjd : add_all (fun v xs => op v (hd [] xs)) (read_one (make_bag_at s true (bg_data b))) here out outs <> Undefined).
    { apply (add_defined _ _ _ lo outs out G0 Hj). intros st Hst. destruct (outs_named s lo outs Hc Hs Hn E st Hst) as [H1 H2]. unfold read_one.
      pose proof (read_defined _ lo Gb' _ st H2 H1). destruct (bag_read (make_bag_at s true (bg_data b)) st); cbn [out_map]; congruence. }
    destruct (add_all _ _ here out outs) as [| |o1] eqn:Ej; cbn [out_bind]; try congruence.
    destruct (add_keeps _ _ _ lo outs out o1 G0 Hj Ej) as (G1 & S1 & P1 & _).
    apply IH; [congruence|congruence|exact G1|intros th Hin; apply Hd; right; exact Hin| |].
    - intros st xs Hin. apply Hh, in_or_app. right. exact Hin.
    - intros st Hin. apply Hrd, in_or_app. right. exact Hin.
  Qed.
End Private.
