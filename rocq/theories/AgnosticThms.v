(** * Programs that name elements by their indices: what they compute *)

From Coq Require Import Permutation.
From Verif Require Export AgnosticCalls.
From Verif Require Import SpecAgnostic.

(** ** Lists *)

Lemma hold_nth {A B} (R : A -> B -> Prop) l m n y : Forall2 R l m -> nth_error m n = Some y -> exists x, nth_error l n = Some x /\ R x y.
Proof. intros F. revert n. induction F as [|a b l m H _ IH]; intros [|n] E; try discriminate; [injection E as <-; exists a; auto|apply (IH n E)]. Qed.

Lemma hold_all {A B} (R : A -> B -> Prop) l m ns : Forall2 R l m -> forall ys, omap (nth_error m) ns = Some ys -> exists xs, omap (nth_error l) ns = Some xs /\ Forall2 R xs ys.
Proof.
  intros F. induction ns as [|n ns IH]; intros ys E; cbn in E; [injection E as <-; exists []; split; [reflexivity|constructor]|].
  destruct (nth_error m n) as [y|] eqn:En; [|discriminate]. destruct (omap (nth_error m) ns) as [ys'|] eqn:Eo; [|discriminate]. injection E as <-.
  destruct (hold_nth R l m n y F En) as (x & Ex & Hx). destruct (IH _ eq_refl) as (xs & Exs & Hxs). exists (x :: xs). cbn. rewrite Ex, Exs. split; [reflexivity|constructor; assumption].
Qed.

Lemma hold_put {A B} (R : A -> B -> Prop) l m n x y : Forall2 R l m -> R x y -> Forall2 R (put n x l) (put n y m).
Proof. intros F H. revert n. induction F as [|a b l m Hab F IH]; intros [|n]; cbn; constructor; auto. Qed.

Lemma put_map {A B} (f : A -> B) l : forall n x y, nth_error l n = Some y -> f x = f y -> map f (put n x l) = map f l.
Proof. induction l as [|a l IH]; intros [|n] x y E H; try discriminate; cbn in *; [injection E as ->; rewrite H; reflexivity|f_equal; eapply IH; eauto]. Qed.

Lemma map_same {A B} (f g : A -> B) l x : map f l = map g l -> In x l -> f x = g x.
Proof. induction l as [|y l IH]; intros E H; [destruct H|]. injection E as E1 E2. destruct H as [<-|H]; auto. Qed.

(** ** States *)

Lemma no_lengths st d : forallb (fun e => is_index (fst e)) st = true -> get (Len d) st = None.
Proof.
  induction st as [|[t v] st IH]; intros H; [reflexivity|]. cbn [forallb fst] in H. apply andb_prop in H. destruct H as [H1 H2]. destruct t; try discriminate. cbn. apply IH, H2.
Qed.

Lemma indices_inv ls st is : indices ls st = Some is ->
  (forall d, get (Len d) st = None) /\ (forall q n, In (q, n) ls -> exists i, get (Idx q) st = Some i /\ vz i = Some (asg_of st q) /\ 0 <= asg_of st q < n) /\ is = map (asg_of st) (map fst ls).
Proof.
  unfold indices. destruct (forallb _ st) eqn:Hf; [|discriminate]. intros E. split; [intros d; apply no_lengths, Hf|]. clear Hf. revert is E.
  induction ls as [|[q n] ls IH]; intros is E; cbn in E; [injection E as <-; split; [intros ? ? []|reflexivity]|]. unfold index_below in E at 1. cbn [fst snd] in E.
  destruct (get (Idx q) st) as [v|] eqn:Eg; [|discriminate]. destruct (vz v) as [x|] eqn:Ev; [|discriminate]. destruct (Z.ltb_spec x n); [|discriminate].
  fold (omap (index_below st)) in E. destruct (omap (index_below st) ls) as [is'|] eqn:Eo; [|discriminate]. injection E as <-. destruct (IH is' eq_refl) as [H1 ->].
  assert (Ha : asg_of st q = x) by (unfold asg_of; rewrite Eg; unfold vzd; rewrite Ev; reflexivity). split; [|cbn [map fst]; rewrite Ha; reflexivity].
  intros q' n' [Hq|Hq]; [|apply H1, Hq]. injection Hq as <- <-. exists v. split; [exact Eg|]. rewrite Ha. split; [exact Ev|]. pose proof (vz_range _ _ Ev). lia.
Qed.

Section Element.
  Variables (b : bag) (a : array) (st : state) (is : list Z).
  Hypothesis Hh : holds_array b a.
  Hypothesis Hi : indices (ar_dims a) st = Some is.
  Let s := bg_struct b.
  Let ls := ar_dims a.
  Let x := asg_of st.

  Lemma state_named : named s x st /\ in_box ls x /\ is = map x (map fst ls).
  Proof.
    destruct (indices_inv _ _ _ Hi) as (H1 & H2 & H3). destruct Hh as (_ & ((_ & Hd & _) & _) & _). split; [split; [exact H1|]|split; [|exact H3]].
    - intros d Hs. apply Hd in Hs. destruct (fst_in _ _ Hs) as [n Hn]. destruct (H2 d n Hn) as (i & A & B & _). eauto.
    - intros q n Hq. destruct (H2 q n Hq) as (_ & _ & _ & H). exact H.
  Qed.

  Lemma read_array : bag_read b st = Rejected \/ bag_read b st = Done (ar_at a is).
  Proof.
    destruct state_named as (Hn & Hb & ->). destruct Hh as (_ & Hg & _ & Hv). pose proof (read_defined b ls Hg x st Hb Hn) as Hu.
    destruct (bag_read b st) as [| |v] eqn:E; [auto|contradiction|right]. f_equal. apply (value_once b ls Hg x _ v Hb (Hv x Hb)). exists st. auto.
  Qed.

  Lemma write_array v : ar_writable a = true -> bag_write b st v = Rejected \/ exists b', bag_write b st v = Done b' /\ bg_struct b' = s /\ holds_array b' (update a is v).
  Proof.
    intros Hw. destruct state_named as (Hn & Hb & Ei). pose proof Hh as (Hnd & Hg & Hnb & Hv). pose proof (write_defined b ls Hg x st v Hb Hn) as Hu.
    destruct (bag_write b st v) as [| |b'] eqn:E; [auto|contradiction|right]. exists b'. split; [reflexivity|].
    destruct (write_effect b ls Hg x st v b' Hb Hn E) as (E1 & E2 & E3 & E4). split; [exact E1|]. split; [exact Hnd|]. split; [exact (write_good b ls Hg st v b' E E2)|].
    split; [intros _; rewrite E1; apply Hnb, Hw|]. cbn [update ar_dims ar_at]. intros y Hy. destruct (Hv y Hy) as (st0 & N0 & R0). pose proof Hg as ((_ & Hd & _) & _).
    exists st0. split; [rewrite E1; exact N0|]. destruct (list_eq_dec Z.eq_dec _ _) as [Eq|Ne].
    - eapply E3; [|exact R0]. split; [apply N0|]. intros d Hs. destruct N0 as [_ N0]. destruct (N0 d Hs) as (i & A & B). exists i. split; [exact A|]. rewrite B. f_equal.
      rewrite Ei in Eq. apply (map_same y x (map fst ls) d Eq). apply Hd, Hs.
    - rewrite (E4 (Hnb Hw) y st0 Hy N0); [exact R0|]. destruct (Forall_Exists_dec (fun d => y d = x d) (fun d => Z.eq_dec (y d) (x d)) (map fst ls)) as [Fa|Ex].
      + exfalso. apply Ne. rewrite Ei. apply map_ext_in. rewrite Forall_forall in Fa. exact Fa.
      + apply Exists_exists in Ex. destruct Ex as (d & Hin & Hne). exists d. split; [apply Hd, Hin|exact Hne].
  Qed.
End Element.

Lemma length_in_In d a n : length_in d a = Some n -> In (d, n) (ar_dims a).
Proof.
  unfold length_in. destruct (find _ _) as [[q m]|] eqn:E; [|discriminate]. intros H. injection H as <-. apply find_some in E. destruct E as [Hin Eq]. cbn [fst] in Eq. apply Z.eqb_eq in Eq. subst q. exact Hin.
Qed.

Lemma length_array b a d n : holds_array b a -> length_in d a = Some n -> len_of b d = Done n.
Proof. intros (_ & ((_ & _ & Hl) & _) & _) E. destruct (Hl d n (length_in_In _ _ _ E)) as (v & E1 & E2). unfold len_of. rewrite E1, E2. reflexivity. Qed.

(** ** Going through the indices *)

Lemma first_some_In {A} (l : list (option A)) x : first_some l = Some x -> In (Some x) l.
Proof. induction l as [|[y|] l IH]; intros E; [discriminate|injection E as ->; left; reflexivity|right; auto]. Qed.

Lemma common_cubes ds bs ys ls : Forall2 holds_array bs ys -> common ds ys = Some ls -> cubes (map bg_struct bs) ls /\ map fst ls = ds.
Proof.
  intros F E. unfold common in E. destruct (omap _ ds) as [l|] eqn:Eo; [|discriminate]. cbn [obind] in E. destruct (nodupb ds && _) eqn:Ec; [|discriminate]. injection E as <-.
  apply andb_prop in Ec. destruct Ec as [Hnd Hin]. apply nodupb_NoDup in Hnd. rewrite forallb_forall in Hin.
  assert (Hd : map fst l = ds /\ forall q n, In (q, n) l -> exists y, In y ys /\ In (q, n) (ar_dims y)).
  { clear - Eo. revert l Eo. induction ds as [|d ds IH]; intros l E; cbn in E; [injection E as <-; split; [reflexivity|intros ? ? []]|].
    destruct (first_some _) as [n|] eqn:Ef; [|discriminate]. cbn [option_map] in E. destruct (omap _ ds) as [l'|] eqn:Eo; [|discriminate]. injection E as <-. destruct (IH l' eq_refl) as [H1 H2].
    split; [cbn; rewrite H1; reflexivity|]. intros q m [Hq|Hq]; [|apply H2, Hq]. injection Hq as <- <-. apply first_some_In, in_map_iff in Ef. destruct Ef as (y & Ey & Hy). exists y. split; [exact Hy|apply length_in_In, Ey]. }
  destruct Hd as [Hd Hl]. split; [|exact Hd]. split; [rewrite Hd; exact Hnd|]. split.
  - intros s Hs. apply in_map_iff in Hs. destruct Hs as (b & <- & Hb). destruct (Forall2_in1 _ _ _ _ F Hb) as (y & Hy & (_ & Hg & _)). exists (ar_dims y). split; [apply Hg|].
    intros [q n] Hq. specialize (Hin y Hy). rewrite forallb_forall in Hin. specialize (Hin _ Hq). apply existsb_exists in Hin. destruct Hin as ([q' n'] & Hin & Eq). cbn [fst snd] in Eq.
    apply andb_prop in Eq. destruct Eq as [E1 E2]. apply Z.eqb_eq in E1, E2. subst. exact Hin.
  - intros q Hq. destruct (fst_in _ _ Hq) as [n Hn]. destruct (Hl q n Hn) as (y & Hy & Hyq). destruct (Forall2_In_r _ _ _ _ F Hy) as (b & Hb & (_ & ((_ & Hdb & _) & _) & _)).
    exists (bg_struct b). split; [apply in_map, Hb|]. apply Hdb. eapply in_fst; eauto.
Qed.

Lemma calls_array w ds bs ys ls : Forall2 holds_array bs ys -> common ds ys = Some ls ->
  calls_in bs w ds = Rejected \/ exists sts, calls_in bs w ds = Done sts /\ map (fun st => map (asg_of st) ds) sts = all_indices ls.
Proof.
  intros F E. destruct (common_cubes ds bs ys ls F E) as [Hc <-].
  assert (Hs : forall s, In s (map bg_struct bs) -> sound_struct s).
  { intros s Hs. apply in_map_iff in Hs. destruct Hs as (b & <- & Hb). destruct (Forall2_in1 _ _ _ _ F Hb) as (y & _ & (_ & Hg & _)). apply Hg. }
  unfold calls_in. pose proof (stated_defined w (map bg_struct bs) ls Hc Hs) as Hu. destruct (for_each _ []) as [| |sts] eqn:Ef; [auto|contradiction|right].
  exists sts. split; [reflexivity|]. exact (stated_calls w (map bg_struct bs) ls Hc Hs sts Ef).
Qed.

(** ** Programs *)

Theorem program_refines {A} (p : program A) : forall bags xs r xs', hold bags xs -> meaning p xs = Some (r, xs') ->
  exec p bags = Rejected \/ exists bags', exec p bags = Done (r, bags') /\ hold bags' xs' /\ map bg_struct bags' = map bg_struct bags.
Proof.
  induction p as [r0|b st k IH|b st v k IH|b d k IH|bs w ds k IH]; intros bags xs r xs' Hh E; cbn [meaning] in E; cbn [exec].
  - injection E as <- <-. right. exists bags. auto.
  - destruct (nth_error xs b) as [a|] eqn:En; [|discriminate]. cbn [obind] in E. destruct (indices (ar_dims a) st) as [is|] eqn:Ei; [|discriminate]. cbn [obind] in E.
    destruct (hold_nth _ _ _ _ _ Hh En) as (x & Ex & Hx). unfold with_bag. rewrite Ex. destruct (read_array x a st is Hx Ei) as [->| ->]; [left; reflexivity|]. cbn [out_bind]. eapply IH; eauto.
  - destruct (nth_error xs b) as [a|] eqn:En; [|discriminate]. cbn [obind] in E. destruct (indices (ar_dims a) st) as [is|] eqn:Ei; [|discriminate]. cbn [obind] in E. destruct (ar_writable a) eqn:Ew; [|discriminate].
    destruct (hold_nth _ _ _ _ _ Hh En) as (x & Ex & Hx). unfold with_bag. rewrite Ex. destruct (write_array x a st is Hx Ei v Ew) as [->|(x' & -> & Hst & Hx')]; [left; reflexivity|]. cbn [out_bind].
    destruct (IH (put b x' bags) _ r xs' (hold_put _ _ _ b x' _ Hh Hx') E) as [H|(bags' & H1 & H2 & H3)]; [left; exact H|right]. exists bags'. split; [exact H1|]. split; [exact H2|].
    rewrite H3. eapply put_map; eauto.
  - destruct (nth_error xs b) as [a|] eqn:En; [|discriminate]. cbn [obind] in E. destruct (length_in d a) as [n|] eqn:El; [|discriminate]. cbn [obind] in E.
    destruct (hold_nth _ _ _ _ _ Hh En) as (x & Ex & Hx). unfold with_bag. rewrite Ex, (length_array x a d n Hx El). cbn [out_bind]. eapply IH; eauto.
  - destruct (omap (nth_error xs) bs) as [ys|] eqn:En; [|discriminate]. cbn [obind] in E. destruct (common ds ys) as [ls|] eqn:El; [|discriminate]. cbn [obind] in E.
    destruct (hold_all _ _ _ _ Hh _ En) as (zs & -> & Hz). destruct (calls_array w ds zs ys ls Hz El) as [->|(sts & -> & Es)]; [left; reflexivity|]. cbn [out_bind]. rewrite Es. eapply IH; eauto.
Qed.

Theorem program_agnostic {A} (p : program A) bags1 bags2 xs r xs' r1 r2 bags1' bags2' : hold bags1 xs -> hold bags2 xs -> meaning p xs = Some (r, xs') ->
  exec p bags1 = Done (r1, bags1') -> exec p bags2 = Done (r2, bags2') -> r1 = r2 /\ hold bags1' xs' /\ hold bags2' xs'.
Proof.
  intros H1 H2 E E1 E2. destruct (program_refines p _ _ _ _ H1 E) as [X|(b1 & X1 & X2 & _)]; [congruence|]. destruct (program_refines p _ _ _ _ H2 E) as [Y|(b2 & Y1 & Y2 & _)]; [congruence|].
  rewrite X1 in E1. rewrite Y1 in E2. injection E1 as <- <-. injection E2 as <- <-. auto.
Qed.
