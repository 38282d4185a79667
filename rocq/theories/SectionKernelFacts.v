(** * Accumulating section by section: proofs *)

From Coq Require Import Permutation.
From Verif Require Export SectionParts KernelThms.
From Verif Require Import SpecSectionKernel.

(** ** One section *)

Lemma accumulate_done f ins sts : forall v w, accumulate f ins v sts = Done w ->
  w = fold_left (fun v st => f v (values (reads ins) st)) sts v /\ forall st, In st sts -> exists xs, reads ins st = Done xs.
Proof.
  induction sts as [|st sts IH]; intros v w E; cbn [accumulate] in E; [injection E as <-; split; [reflexivity|intros ? []]|].
  destruct (reads ins st) as [| |xs] eqn:Ex; try discriminate. cbn [out_bind] in E. destruct (IH _ _ E) as [-> H]. split.
  - cbn [fold_left]. assert (Hv : values (reads ins) st = xs) by (unfold values; rewrite Ex; reflexivity). rewrite Hv. reflexivity.
  - intros s [<-|Hs]; eauto.
Qed.

Lemma accumulate_defined f ins sts : (forall st, In st sts -> reads ins st <> Undefined) -> forall v, accumulate f ins v sts <> Undefined.
Proof.
  induction sts as [|st sts IH]; intros H v; [discriminate|]. cbn [accumulate]. pose proof (H st (or_introl eq_refl)). destruct (reads ins st) as [| |xs]; cbn [out_bind]; [discriminate|congruence|].
  apply IH. intros s Hs. apply H. right. exact Hs.
Qed.

Lemma differ_or (lo : list (dim * Z)) (x y : asg) : (exists d, In d (map fst lo) /\ y d <> x d) \/ forall d, In d (map fst lo) -> y d = x d.
Proof.
  induction (map fst lo) as [|d l [(q & Hq & Hne)|IH]]; [right; intros ? []|left; exists q; split; [right|]; assumption|].
  destruct (Z.eq_dec (y d) (x d)) as [E|E]; [right; intros q [<-|Hq]; auto|left; exists d; split; [left; reflexivity|exact E]].
Qed.

Section Store.
  Variables (f : bytes -> list bytes -> bytes) (init : bytes -> bytes) (ins : list bag) (lo : list (dim * Z)).

  Lemma store_each us : forall out out', store_sections f init ins out us = Done out' -> exists ls, Forall2 (fun u l => for_each u [] = Done l) us ls.
  Proof.
    induction us as [|u us IH]; intros out out' E; [exists []; constructor|]. cbn [store_sections] in E. unfold store_section in E.
    destruct (tr_state u) as [st|]; [|discriminate]. destruct (bag_read out st) as [| |v]; try discriminate. cbn [out_bind] in E.
    destruct (for_each u []) as [| |l] eqn:El; try discriminate. cbn [out_bind] in E. destruct (accumulate _ _ _ _) as [| |w]; try discriminate. cbn [out_bind] in E.
    destruct (bag_write out st w) as [| |o1]; try discriminate. cbn [out_bind] in E. destruct (IH _ _ E) as [ls F]. exists (l :: ls). constructor; assumption.
  Qed.

  Lemma store_one out u o1 y l : good_bag out lo -> nobcast (bg_struct out) = true -> in_box lo y -> section_at out u y -> for_each u [] = Done l ->
    store_section f init ins out u = Done o1 -> bg_struct o1 = bg_struct out /\ good_bag o1 lo /\
    (forall st, In st l -> exists xs, reads ins st = Done xs) /\
    (forall st0 v, named (bg_struct out) y st0 -> bag_read out st0 = Done v -> bag_read o1 st0 = Done (fold_left (fun v st => f v (values (reads ins) st)) l (init v))) /\
    (forall x st0, in_box lo x -> named (bg_struct out) x st0 -> ~ section_at out u x -> bag_read o1 st0 = bag_read out st0).
  Proof.
    intros Hg Hnb Hy (st & Est & Hn) El E. unfold store_section in E. rewrite Est, El in E. destruct (bag_read out st) as [| |v0] eqn:E0; try discriminate. cbn [out_bind] in E.
    destruct (accumulate f ins (init v0) l) as [| |w] eqn:Ew; try discriminate. cbn [out_bind] in E. destruct (accumulate_done _ _ _ _ _ Ew) as [Hw Hr].
    destruct (write_effect out lo Hg y st w o1 Hy Hn E) as (S1 & L1 & R1 & O1). pose proof (write_good out lo Hg st _ o1 E L1) as G1.
    split; [exact S1|]. split; [exact G1|]. split; [exact Hr|]. split.
    - intros st0 v Hn0 Ev. assert (v = v0) by (symmetry; eapply (same_read out lo Hg y st0 st); eauto). subst v. rewrite <- Hw. exact (R1 st0 v0 Hn0 Ev).
    - intros x st0 Hx Hn0 Hno. apply (O1 Hnb x st0 Hx Hn0). destruct (differ_or lo y x) as [(d & Hd & Hne)|Hall].
      + exists d. split; [apply Hg, Hd|exact Hne].
      + exfalso. apply Hno. exists st. split; [exact Est|]. eapply named_same; [|exact Hn]. intros d Hd. apply Hall. apply Hg, Hd.
  Qed.

  (** Sections elsewhere. *)
  Lemma store_other us : forall out out' x st0, good_bag out lo -> nobcast (bg_struct out) = true -> (forall u, In u us -> exists y, in_box lo y /\ section_at out u y) ->
    store_sections f init ins out us = Done out' -> in_box lo x -> named (bg_struct out) x st0 -> (forall u, In u us -> ~ section_at out u x) ->
    bg_struct out' = bg_struct out /\ good_bag out' lo /\ bag_read out' st0 = bag_read out st0.
  Proof.
    induction us as [|u us IH]; intros out out' x st0 Hg Hnb Hs E Hx Hn0 Hno; [injection E as <-; auto|]. cbn [store_sections] in E.
    destruct (store_section f init ins out u) as [| |o1] eqn:E1; try discriminate. cbn [out_bind] in E. destruct (Hs u (or_introl eq_refl)) as (y & Hy & Hu).
    assert (El : exists l, for_each u [] = Done l).
    { destruct (store_each [u] out o1) as [ls F]; [cbn [store_sections]; rewrite E1; reflexivity|]. inversion F; subst. eauto. }
    destruct El as [l El]. destruct (store_one out u o1 y l Hg Hnb Hy Hu El E1) as (S1 & G1 & _ & _ & O1).
    assert (Hsec : forall u' z, section_at o1 u' z <-> section_at out u' z) by (intros u' z; unfold section_at; rewrite S1; tauto).
    destruct (IH o1 out' x st0 G1) as (A & B & C); auto.
    - rewrite S1. exact Hnb.
    - intros u' Hu'. destruct (Hs u' (or_intror Hu')) as (z & Hz & Hz'). exists z. split; [exact Hz|]. apply Hsec, Hz'.
    - rewrite S1. exact Hn0.
    - intros u' Hu' Hz. apply (Hno u' (or_intror Hu')), Hsec, Hz.
    - split; [congruence|]. split; [exact B|]. rewrite C. apply (O1 x st0 Hx Hn0). apply Hno. left. reflexivity.
  Qed.

  Lemma store_app us1 us2 : forall out out', store_sections f init ins out (us1 ++ us2) = Done out' ->
    exists o1, store_sections f init ins out us1 = Done o1 /\ store_sections f init ins o1 us2 = Done out'.
  Proof.
    induction us1 as [|u us1 IH]; intros out out' E; [exists out; auto|]. cbn [store_sections app] in *.
    destruct (store_section f init ins out u) as [| |o1]; try discriminate. cbn [out_bind] in *. apply IH, E.
  Qed.

  Lemma store_at us out out' us1 u us2 x v l : good_bag out lo -> nobcast (bg_struct out) = true -> one_section_each out lo us -> us = us1 ++ u :: us2 ->
    store_sections f init ins out us = Done out' -> for_each u [] = Done l -> in_box lo x -> section_at out u x -> has_value out x v ->
    bg_struct out' = bg_struct out /\ good_bag out' lo /\ (forall st, In st l -> exists xs, reads ins st = Done xs) /\
    has_value out' x (fold_left (fun v st => f v (values (reads ins) st)) l (init v)).
  Proof.
    intros Hg Hnb [Hs Hd] -> E El Hx Hu (st0 & Hn0 & E0). destruct (store_app _ _ _ _ E) as (o1 & Ea & Eb). cbn [store_sections] in Eb.
    destruct (store_section f init ins o1 u) as [| |o2] eqn:E2; try discriminate. cbn [out_bind] in Eb.
    destruct (store_other us1 out o1 x st0 Hg Hnb) as (S1 & G1 & R1); auto.
    { intros u' Hu'. apply Hs, in_or_app. left. exact Hu'. }
    { intros u' Hu' H. apply (Hd us1 u us2 u' x eq_refl (in_or_app _ _ _ (or_introl Hu')) Hu H). }
    assert (Hsec1 : forall u' z, section_at o1 u' z <-> section_at out u' z) by (intros u' z; unfold section_at; rewrite S1; tauto).
    destruct (store_one o1 u o2 x l G1 ltac:(rewrite S1; exact Hnb) Hx (proj2 (Hsec1 u x) Hu) El E2) as (S2 & G2 & Hr & R2 & _).
    assert (Hsec2 : forall u' z, section_at o2 u' z <-> section_at out u' z) by (intros u' z; unfold section_at; rewrite S2, S1; tauto).
    destruct (store_other us2 o2 out' x st0 G2) as (S3 & G3 & R3); auto.
    { rewrite S2, S1. exact Hnb. }
    { intros u' Hu'. destruct (Hs u') as (z & Hz & Hz'); [apply in_or_app; right; right; exact Hu'|]. exists z. split; [exact Hz|]. apply Hsec2, Hz'. }
    { rewrite S2, S1. exact Hn0. }
    { intros u' Hu' H. apply Hsec2 in H. apply (Hd us1 u us2 u' x eq_refl (in_or_app _ _ _ (or_intror Hu')) Hu H). }
    split; [congruence|]. split; [exact G3|]. split; [exact Hr|]. exists st0. split; [rewrite S3, S2, S1; exact Hn0|]. rewrite R3. apply R2; [rewrite S1; exact Hn0|]. rewrite R1. exact E0.
  Qed.
End Store.

(** ** The calls of the sections *)

Lemma complete_same s r r' : same_get r' r -> complete s r' -> complete s r.
Proof.
  intros G (q & Dq & Hq). pose proof (asg_same_get _ _ G) as Hasg. exists q. split.
  - unfold dims_of in *. destruct (signature s) as [su|]; [|discriminate]. cbn [obind] in *. rewrite <- Dq. apply spath_eqf. intros d. symmetry. apply Hasg.
  - intros d Hin. destruct (Hq d Hin) as (i & z & Gi & Vi). exists i, z. split; [|exact Vi]. rewrite <- (proj1 (G d)). exact Gi.
Qed.

Section Link.
  Variables (ss : list struct) (p : proto) (lens : list (dim * Z)) (calls : list state) (us : list trav) (ls : list (list state)).
  Let u := Union ss.
  Let t := order (traverser ss) p.
  Let top := top_struct t.
  Hypothesis Hd : loops documented ss p lens.
  Hypothesis E : for_each t [] = Done calls.
  Hypothesis Hcut : cut_into t us.
  Hypothesis F : Forall2 (fun x l => for_each x [] = Done l) us ls.

  Let Hx v w : u <> View v w.
  Proof. discriminate. Qed.
  Let Hu v w : same_type u (View v w) = false.
  Proof. reflexivity. Qed.

  Lemma cut_states : exists sg sts, us = map (inner t) sts /\ parts t sg sts.
  Proof.
    destruct Hd as (_ & Hw & Hlk & _). destruct (cut_parts ss t us Hcut p eq_refl Hlk) as (sg & sts & H1 & H2 & _); [intros sg Es; eapply uswf_snodup; eauto|eauto].
  Qed.

  Lemma cut_calls : exists l', Permutation l' (concat ls) /\ Forall2 same_get calls l'.
  Proof.
    destruct cut_states as (sg & sts & -> & Hp). apply Forall2_map_l in F. destruct Hd as (_ & _ & Hlk & _).
    exact (perm_of_parts t sg sts calls ls Hx Hlk Hp E F).
  Qed.

  Lemma cut_call r : In r (concat ls) -> exists r', In r' calls /\ same_get r' r.
  Proof.
    intros Hr. destruct cut_calls as (l' & P & G). apply (Permutation_in _ (Permutation_sym P)) in Hr. destruct (Forall2_In_r _ _ _ _ G Hr) as (r' & H1 & H2). eauto.
  Qed.

  Lemma cut_facts r : In r (concat ls) -> complete u r /\ (forall d, get (Len d) r = None) /\
    (forall q, In q (map fst lens) -> exists i, get (Idx q) r = Some i /\ vz i = Some (asg_of r q)) /\ in_box lens (asg_of r).
  Proof.
    intros Hr. destruct (cut_call r Hr) as (r' & Hr' & G). destruct Hd as (H1 & H2 & H3 & H4 & H5). pose proof (H5 calls r' E Hr') as Hc.
    destruct (call_facts ss p lens calls H1 H2 H3 H4 E (fun r => H5 calls r E) r' Hr') as (A & B & C). pose proof (asg_same_get _ _ G) as Hasg.
    split; [|split; [|split]].
    - exact (complete_same _ _ _ G Hc).
    - intros d. rewrite <- (proj2 (G d)). apply A.
    - intros q Hq. destruct (B q Hq) as (i & Gi & Vi). exists i. rewrite <- (proj1 (G q)), <- Hasg. auto.
    - intros q n Hq. rewrite <- Hasg. apply (C q n Hq).
  Qed.

  Lemma cut_keys : over rearranges u top nolens -> Permutation (map (key lens) (concat ls)) (all_indices lens).
  Proof.
    intros Hre. destruct Hd as (H1 & H2 & H3 & H4 & H5). pose proof (calls_box ss p lens calls H1 H2 H3 H4 E (fun r => H5 calls r E) Hre) as P0.
    destruct cut_calls as (l' & P & G). rewrite <- P0. rewrite <- (Permutation_map (key lens) P).
    replace (map (key lens) calls) with (map (key lens) l'); [reflexivity|]. clear - G. induction G as [|a b l l' H G IH]; [reflexivity|]. cbn [map]. rewrite IH. f_equal.
    unfold key. apply map_ext. intros d. symmetry. apply asg_same_get, H.
  Qed.

  (** The state of a section has the indices of its elements. *)
  Lemma section_link w l r st : In w us -> for_each w [] = Done l -> In r l -> In r (concat ls) -> tr_state w = Some st ->
    forall q i z, In q (map fst lens) -> get (Idx q) st = Some i -> vz i = Some z -> asg_of r q = z.
  Proof.
    intros Hw El Hr Hrc Est q i z Hq Gi Vi. destruct cut_states as (sg & sts & Eus & Hp). rewrite Eus in Hw. apply in_map_iff in Hw. destruct Hw as (e & <- & He).
    destruct Hd as (Hc & Hwf & Hlk & Ho & _). destruct Hp as (Es & Hn & T & Nd & V & C & U).
    destruct (sec_sub t sg sts Hx Es Hn Hlk T e l He El) as (sub & Hsub & Fl).
    destruct (Forall2_In_r _ _ _ _ Fl Hr) as (m & Hm & x & Ex & Gx). apply in_map_iff in Hm. destruct Hm as (e' & <- & He').
    destruct (sec_canonical t sg sts Es Hn T V e sub e' He Hsub He') as ((pm & Dm & Vm & Gm) & Ag & _). change (tr_struct t) with u in Ex. fold top in Ex, Vm.
    assert (Am : agree (e' ++ rev e) nolens (asg_of (e' ++ rev e))) by (apply agree_self; intros d; apply Gm).
    destruct (chain_down u u Hu top nolens Ho _ _ _ Hwf Hlk lrange_nolens Vm) as (c & su & pu & _ & Vu & S).
    destruct (S _ _ x (fun _ _ => eq_refl) Am Ex) as (c2 & st' & A & X & H2).
    pose proof (state_at_same u Hx x st' r X Gx _ A) as Ar. destruct (cut_facts r Hrc) as (Hcm & _).
    destruct (index_of2 u r c c2 su pu Vu H2 Ar Hcm) as [_ Ir].
    destruct (T e He) as (Hi & Hnd & Hle).
    assert (Ae : agree (rev e) nolens (asg_of (e' ++ rev e))).
    { destruct Ag as [_ Ag]. split; [intros d; rewrite get_rev by exact Hnd; rewrite Hle; exact I|]. intros d v Hv. rewrite get_rev in Hv by exact Hnd. apply Ag, Hv. }
    assert (Es' : state_at u top (rev e) = Some st).
    { unfold tr_state in Est. change (tr_struct (inner t e)) with u in Est. rewrite top_inner in Est. fold top in Est. rewrite state_at_fix in Est; auto. }
    destruct (S _ _ st (fun _ _ => eq_refl) Ae Es') as (c3 & st3 & A3 & X3 & H3).
    pose proof (state_at_same u Hx st st3 st X3 (fun d => conj eq_refl eq_refl) _ A3) as Ast.
    pose proof Vu as (Esu & Epu & _). destruct (cubes_dims ss lens Hc su Esu) as [Hpl Hds]. assert (Epf : pu = flat su) by (rewrite (plain_path su _ Hpl) in Epu; unfold flat; congruence).
    assert (Hin : In q (map fst pu)) by (rewrite Epf, flat_fst; apply Hds, Hq). rewrite (Ir q Hin).
    pose proof (ag_idx _ _ _ Ast q i Gi) as Hv. unfold vagree in Hv. rewrite Vi in Hv. rewrite <- (H3 q Hin). congruence.
  Qed.
End Link.

(** ** What the sections store *)

Lemma perm_forall2 {A B} (R : A -> B -> Prop) l l' : Permutation l l' -> forall m', Forall2 R l' m' -> exists m, Permutation m m' /\ Forall2 R l m.
Proof.
  induction 1 as [|x l l' H IH|x y l|l l' l2 H1 IH1 H2 IH2]; intros m' F.
  - inversion F; subst. exists []. split; constructor.
  - inversion F as [|? b ? m0 Hb F0]; subst. destruct (IH _ F0) as (m & P & G). exists (b :: m). split; constructor; assumption.
  - inversion F as [|? b ? m0 Hb F0]; subst. inversion F0 as [|? c ? m1 Hc F1]; subst. exists (c :: b :: m1). split; [apply perm_swap|]. repeat constructor; assumption.
  - destruct (IH2 _ F) as (m & P & G). destruct (IH1 _ G) as (m1 & P1 & G1). exists m1. split; [etransitivity; eassumption|exact G1].
Qed.

Lemma each_permuted out lo us us' : Permutation us us' -> one_section_each out lo us -> one_section_each out lo us'.
Proof.
  intros P [H1 H2]. split; [intros u Hu; apply H1, (Permutation_in _ (Permutation_sym P)), Hu|].
  intros us1 u us2 u' x -> Hu' A B. assert (Hu : In u us) by (apply (Permutation_in _ (Permutation_sym P)), in_or_app; right; left; reflexivity).
  destruct (in_split _ _ Hu) as (w1 & w2 & ->). apply Permutation_app_inv in P. exact (H2 w1 u w2 u' x eq_refl (Permutation_in _ (Permutation_sym P) Hu') A B).
Qed.

Lemma filter_all {A} (P : A -> bool) l : (forall x, In x l -> P x = true) -> filter P l = l.
Proof. induction l as [|x l IH]; intros H; [reflexivity|]. cbn [filter]. rewrite (H x) by (left; reflexivity). f_equal. apply IH. intros y Hy. apply H. right. exact Hy. Qed.
Lemma filter_none {A} (P : A -> bool) l : (forall x, In x l -> P x = false) -> filter P l = [].
Proof. induction l as [|x l IH]; intros H; [reflexivity|]. cbn [filter]. rewrite (H x) by (left; reflexivity). apply IH. intros y Hy. apply H. right. exact Hy. Qed.
Lemma filter_mapped {A B} (P : B -> bool) (Q : A -> bool) (k : A -> B) l : (forall x, In x l -> P (k x) = Q x) -> filter P (map k l) = map k (filter Q l).
Proof.
  induction l as [|x l IH]; intros H; [reflexivity|]. cbn [filter map]. rewrite (H x) by (left; reflexivity). rewrite IH by (intros y Hy; apply H; right; exact Hy). destruct (Q x); reflexivity.
Qed.
Lemma fold_map {A B C} (g : A -> B -> A) (k : C -> B) l : forall v, fold_left g (map k l) v = fold_left (fun v c => g v (k c)) l v.
Proof. induction l as [|c l IH]; intros v; [reflexivity|]. cbn [map fold_left]. apply IH. Qed.

Lemma in_each {A B} (P : A -> B -> Prop) l m x : Forall2 P l m -> In x l -> exists y, In y m /\ P x y.
Proof. induction 1 as [|a b l m H F IH]; intros Hx; [destruct Hx|]. destruct Hx as [->|Hx]; [exists b; split; [left; reflexivity|exact H]|]. destruct (IH Hx) as (y & Hy & Hp). exists y. split; [right|]; assumption. Qed.

Lemma app_eq_len {A} (a b c d : list A) : List.length a = List.length c -> a ++ b = c ++ d -> a = c /\ b = d.
Proof. revert c. induction a as [|x a IH]; intros [|y c] Hl H; try discriminate; [auto|]. cbn [app] in H. injection H as -> H. destruct (IH c ltac:(cbn in Hl; lia) H) as [-> ->]. auto. Qed.

Section Sectioned.
  Variables (ss : list struct) (p : proto) (lens lo : list (dim * Z)) (calls : list state) (us : list trav) (ls : list (list state)) (ins : list bag) (out : bag).
  Let t := order (traverser ss) p.
  Hypothesis Hd : loops documented ss p lens.
  Hypothesis E : for_each t [] = Done calls.
  Hypothesis Hcut : cut_into t us.
  Hypothesis F : Forall2 (fun x l => for_each x [] = Done l) us ls.
  Hypothesis Hlo : within_lengths lens lo.
  Hypothesis Hout : good_bag out lo.
  Hypothesis Heach : one_section_each out lo us.

  Let Hsub d : In d (map fst lo) -> In d (map fst lens).
  Proof. intros H. destruct (fst_in _ _ H) as [n Hn]. destruct (Hlo d n Hn) as (m & Hm & _). eapply in_fst; eauto. Qed.

  Lemma cut_named s l r : cube s l -> within_lengths lens l -> In r (concat ls) -> named s (asg_of r) r /\ in_box l (asg_of r).
  Proof.
    intros Hc Hl Hr. destruct (cut_facts ss p lens calls us ls Hd E Hcut F r Hr) as (_ & A & B & C). split; [|exact (within_box _ _ _ Hl C)]. split; [exact A|].
    intros d Hh. apply B. apply (proj1 (proj2 Hc)) in Hh. destruct (fst_in _ _ Hh) as [n Hn]. destruct (Hl d n Hn) as (m & Hm & _). eapply in_fst; eauto.
  Qed.

  (** The elements of the section at [y] are those at [y]. *)
  Lemma elements_at w l y r : In w us -> for_each w [] = Done l -> In r l -> In r (concat ls) -> section_at out w y -> forall d, In d (map fst lo) -> asg_of r d = y d.
  Proof.
    intros Hw El Hr Hrc (st & Est & _ & Hn) d Hin. destruct (Hn d (proj2 (proj1 (proj2 (proj1 Hout)) d) Hin)) as (i & Gi & Vi).
    exact (section_link ss p lens calls us ls Hd E Hcut F w l r st Hw El Hr Hrc Est d i (y d) (Hsub d Hin) Gi Vi).
  Qed.

  Lemma section_same w x y : (forall d, In d (map fst lo) -> x d = y d) -> section_at out w y -> section_at out w x.
  Proof. intros H (st & Est & Hn). exists st. split; [exact Est|]. eapply named_same; [|exact Hn]. intros d Hh. apply H, (proj1 (proj2 (proj1 Hout)) d), Hh. Qed.

  Lemma section_elements x w1 u w2 m1 l m2 : in_box lo x -> us = w1 ++ u :: w2 -> ls = m1 ++ l :: m2 -> List.length m1 = List.length w1 ->
    for_each u [] = Done l -> section_at out u x -> filter (fun r => agrees (map fst lo) x (asg_of r)) (concat ls) = l.
  Proof.
    intros Hx Eus Els Hlen El Hu.
    assert (Hls : forall r l0, In r l0 -> In l0 ls -> In r (concat ls)) by (intros r l0 H1 H2; apply in_concat; eauto).
    assert (Hin : In l ls) by (rewrite Els; apply in_or_app; right; left; reflexivity). assert (Hiu : In u us) by (rewrite Eus; apply in_or_app; right; left; reflexivity).
    assert (Hother : forall u0 l0, In u0 (w1 ++ w2) -> In l0 ls -> for_each u0 [] = Done l0 -> forall r, In r l0 -> agrees (map fst lo) x (asg_of r) = false).
    { intros u0 l0 H0 Hl0 E0 r Hr. destruct (agrees (map fst lo) x (asg_of r)) eqn:Ea; [|reflexivity]. exfalso. pose proof (proj1 (agrees_all _ _ _) Ea) as Ha.
      assert (H0u : In u0 us) by (rewrite Eus; apply in_app_or in H0; apply in_or_app; destruct H0; [left|right; right]; assumption).
      destruct Heach as [Hs Hone]. destruct (Hs u0 H0u) as (y & Hy & Hsy).
      pose proof (elements_at u0 l0 y r H0u E0 Hr (Hls _ _ Hr Hl0) Hsy) as He. apply (Hone w1 u w2 u0 x Eus H0 Hu). apply (section_same u0 x y); [|exact Hsy].
      intros d Hd'. rewrite <- He by exact Hd'. symmetry. apply Ha, Hd'. }
    assert (FF : Forall2 (fun x l => for_each x [] = Done l) w1 m1 /\ Forall2 (fun x l => for_each x [] = Done l) w2 m2).
    { pose proof F as F'. rewrite Eus, Els in F'. clear - F' Hlen. revert m1 Hlen F'. induction w1 as [|a w1 IH]; intros [|b m1] Hlen F'; try discriminate; inversion F'; subst.
      - split; [constructor|assumption].
      - cbn [app] in *. destruct (IH m1 ltac:(cbn in Hlen; lia) ltac:(assumption)) as [A B]. split; [constructor; assumption|assumption]. }
    destruct FF as [F1 F2]. rewrite Els, concat_app. cbn [concat]. rewrite !filter_app.
    rewrite (filter_none _ (concat m1)), (filter_none _ (concat m2)), app_nil_r; cbn [app].
    - apply filter_all. intros r Hr. apply agrees_all. intros d Hd'. exact (elements_at u l x r Hiu El Hr (Hls _ _ Hr Hin) Hu d Hd').
    - intros r Hr. apply in_concat in Hr. destruct Hr as (l0 & Hl0 & Hr). destruct (Forall2_In_r _ _ _ _ F2 Hl0) as (u0 & Hu0 & E0).
      apply (Hother u0 l0); auto; [apply in_or_app; right; exact Hu0|rewrite Els; apply in_or_app; right; right; exact Hl0].
    - intros r Hr. apply in_concat in Hr. destruct Hr as (l0 & Hl0 & Hr). destruct (Forall2_In_r _ _ _ _ F1 Hl0) as (u0 & Hu0 & E0).
      apply (Hother u0 l0); auto; [apply in_or_app; left; exact Hu0|rewrite Els; apply in_or_app; left; exact Hl0].
  Qed.
End Sectioned.

Section Result.
  Variables (f : bytes -> list bytes -> bytes) (init : bytes -> bytes) (ins : list bag) (out out' : bag) (ss : list struct) (p : proto) (lo lr : list (dim * Z)) (us us' : list trav).
  Let lens := lo ++ lr.
  Let t := order (traverser ss) p.
  Hypothesis Hre : loops rearranges ss p lens.
  Hypothesis Hins : good_bags ins lens.
  Hypothesis Hout : good_bag out lo.
  Hypothesis Hcomp : exists calls, for_each t [] = Done calls.
  Hypothesis Hcut : cut_into t us.
  Hypothesis Hperm : Permutation us us'.
  Hypothesis Heach : one_section_each out lo us.

  Let Hd : loops documented ss p lens := loops_documented _ _ _ Hre.
  Let Hlo : within_lengths lens lo.
  Proof. intros q n Hq. exists n. split; [apply in_or_app; left; exact Hq|lia]. Qed.

  Lemma all_lists : (forall u, In u us -> exists l, for_each u [] = Done l) -> exists ls, Forall2 (fun u l => for_each u [] = Done l) us ls.
  Proof.
    clear. induction us as [|u w IH]; intros H; [exists []; constructor|]. destruct (H u (or_introl eq_refl)) as [l El]. destruct IH as [ls F]; [intros u0 H0; apply H; right; exact H0|].
    exists (l :: ls). constructor; assumption.
  Qed.

  Theorem sections_defined : (forall u, In u us -> exists l, for_each u [] = Done l) -> nobcast (bg_struct out) = true -> store_sections f init ins out us' <> Undefined.
  Proof.
    intros Hnu Hnb. destruct Hcomp as [calls E]. destruct (all_lists Hnu) as [ls F]. pose proof (each_permuted _ _ _ _ Hperm Heach) as [Hs _].
    assert (Hr : forall u, In u us' -> exists l, for_each u [] = Done l /\ forall r, In r l -> reads ins r <> Undefined).
    { intros u Hu. apply (Permutation_in _ (Permutation_sym Hperm)) in Hu. destruct (in_each _ _ _ _ F Hu) as (l & Hl & El). exists l. split; [exact El|]. intros r Hr.
      apply reads_defined. intros b Hb. destruct (Hins b Hb) as (lb & Hg & Hlb). exists lb. split; [exact Hg|].
      apply (cut_named ss p lens calls us ls Hd E Hcut F (bg_struct b) lb r (proj1 Hg) Hlb). apply in_concat. eauto. }
    clear - Hout Hnb Hs Hr. revert out Hout Hnb Hs. induction us' as [|u w IH]; intros o Ho Hnb Hs; [discriminate|]. cbn [store_sections].
    destruct (Hs u (or_introl eq_refl)) as (y & Hy & Hu). destruct (Hr u (or_introl eq_refl)) as (l & El & Hl).
    destruct (store_section f init ins o u) as [| |o1] eqn:E1; [discriminate| |].
    - exfalso. destruct Hu as (st & Est & Hn). unfold store_section in E1. rewrite Est, El in E1. pose proof (read_defined o lo Ho y st Hy Hn) as Hrd.
      destruct (bag_read o st) as [| |v]; [discriminate|congruence|]. cbn [out_bind] in E1. pose proof (accumulate_defined f ins l Hl (init v)) as Had.
      destruct (accumulate f ins (init v) l) as [| |w0]; [discriminate|congruence|]. cbn [out_bind] in E1. exact (write_defined o lo Ho y st w0 Hy Hn E1).
    - cbn [out_bind]. destruct (store_one f init ins lo o u o1 y l Ho Hnb Hy Hu El E1) as (S1 & G1 & _).
      apply IH; [intros u0 H0; apply Hr; right; exact H0|exact G1|rewrite S1; exact Hnb|]. intros u0 H0. destruct (Hs u0 (or_intror H0)) as (z & Hz & Hz'). exists z. split; [exact Hz|].
      unfold section_at. rewrite S1. exact Hz'.
  Qed.

  Hypothesis Hnb : nobcast (bg_struct out) = true.
  Hypothesis El : store_sections f init ins out us' = Done out'.

  Let Hlists : exists ls, Forall2 (fun u l => for_each u [] = Done l) us ls.
  Proof. destruct (store_each f init ins us' out out' El) as [ls' F']. destruct (perm_forall2 _ _ _ Hperm _ F') as (ls & _ & F). eauto. Qed.

  (** When the reduced dimensions are not empty, every element has a section. *)
  Theorem section_exists x : all_indices lr <> [] -> in_box lo x -> exists u, In u us /\ section_at out u x.
  Proof.
    intros Hne Hx. destruct Hcomp as [calls E]. destruct Hlists as [ls F]. pose proof (cut_keys ss p lens calls us ls Hd E Hcut F (proj1 (proj2 (proj2 (proj2 Hre))))) as P.
    destruct (all_indices lr) as [|js l0] eqn:Ej; [congruence|].
    assert (Hk : In (map x (map fst lo) ++ js) (all_indices lens)).
    { unfold lens. rewrite all_indices_app. apply in_flat_map. exists (map x (map fst lo)). split; [apply box_in, Hx|]. apply in_map. rewrite Ej. left. reflexivity. }
    apply (Permutation_in _ (Permutation_sym P)) in Hk. apply in_map_iff in Hk. destruct Hk as (r & Ek & Hr). pose proof Hr as Hrc. apply in_concat in Hr. destruct Hr as (l & Hl & Hr).
    destruct (Forall2_In_r _ _ _ _ F Hl) as (u & Hu & Elu). exists u. split; [exact Hu|]. destruct (proj1 Heach u Hu) as (y & Hy & Hsy).
    apply (section_same lo out Hout u x y); [|exact Hsy]. intros d Hin.
    rewrite <- (elements_at ss p lens lo calls us ls out Hd E Hcut F Hlo Hout u l y r Hu Elu Hr Hrc Hsy d Hin).
    unfold key, lens in Ek. rewrite map_app, map_app in Ek. apply app_eq_len in Ek; [destruct Ek as [Ek _]|rewrite !map_length; reflexivity].
    clear - Ek Hin. induction (map fst lo) as [|q m IH]; [destruct Hin|]. cbn [map] in Ek. injection Ek as E1 E2. destruct Hin as [<-|Hin]; [symmetry; exact E1|auto].
  Qed.

  Hypothesis Hf : any_order f.
  Variables (vals : asg -> list bytes) (x : asg) (v : bytes).
  Hypothesis Hvals : forall y, in_box lens y -> have_values ins y (vals y).
  Hypothesis Hx : in_box lo x.
  Hypothesis Hv : has_value out x v.

  Theorem sections_store u : In u us -> section_at out u x ->
    bg_struct out' = bg_struct out /\ good_bag out' lo /\ has_value out' x (fold_left (fun v js => f v (vals (along lr js x))) (all_indices lr) (init v)).
  Proof.
    intros Hu Hsx. destruct Hcomp as [calls E]. destruct Hlists as [ls F]. pose proof (cut_keys ss p lens calls us ls Hd E Hcut F (proj1 (proj2 (proj2 (proj2 Hre))))) as P.
    destruct (in_split _ _ Hu) as (w1 & w2 & Eus).
    assert (Hls : exists m1 l m2, ls = m1 ++ l :: m2 /\ List.length m1 = List.length w1 /\ for_each u [] = Done l).
    { pose proof F as F'. rewrite Eus in F'. apply Forall2_app_inv_l in F'. destruct F' as (m1 & m' & F1 & F2 & ->). inversion F2 as [|? l ? m2 Hl F3]; subst.
      exists m1, l, m2. split; [reflexivity|]. split; [symmetry; eapply Forall2_len; eauto|exact Hl]. }
    destruct Hls as (m1 & l & m2 & Els & Hlen & Elu).
    pose proof (section_elements ss p lens lo calls us ls out Hd E Hcut F Hlo Hout Heach x w1 u w2 m1 l m2 Hx Eus Els Hlen Elu Hsx) as Hfl.
    assert (Hl : forall r, In r l -> In r (concat ls)) by (intros r Hr; rewrite <- Hfl in Hr; apply filter_In in Hr; apply Hr).
    destruct (in_split u us' (Permutation_in _ Hperm Hu)) as (u1 & u2 & Eus').
    destruct (store_at f init ins lo us' out out' u1 u u2 x v l Hout Hnb (each_permuted _ _ _ _ Hperm Heach) Eus' El Elu Hx Hsx Hv) as (A & B & Hrd & C).
    split; [exact A|]. split; [exact B|].
    assert (Hbox : forall r, In r l -> in_box lens (asg_of r)) by (intros r Hr; apply (cut_facts ss p lens calls us ls Hd E Hcut F r (Hl r Hr))).
    assert (Hval : forall r, In r l -> values (reads ins) r = vals (idx lens (key lens r))).
    { intros r Hr. transitivity (vals (asg_of r)).
      - destruct (Hrd r Hr) as (xs & Exs). unfold values. rewrite Exs. apply (have_once ins lens (asg_of r) _ _ Hins (Hbox r Hr) (Hvals _ (Hbox r Hr))).
        pose proof (reads_inv ins r xs Exs) as G. pose proof Hins as Hi.
        assert (Hnamed : forall b lb, good_bag b lb -> within_lengths lens lb -> named (bg_struct b) (asg_of r) r) by (intros b lb Hg Hlb; apply (cut_named ss p lens calls us ls Hd E Hcut F (bg_struct b) lb r (proj1 Hg) Hlb (Hl r Hr))).
        clear - G Hi Hnamed. induction G as [|b w ins xs Hw G IH]; constructor; [|apply IH; intros b0 Hb0; apply Hi; right; exact Hb0].
        exists r. split; [|exact Hw]. destruct (Hi b (or_introl eq_refl)) as (lb & Hg & Hlb). eapply Hnamed; eauto.
      - symmetry. apply (vals_same ins lens Hins vals Hvals (asg_of r) _ (Hbox r Hr)). intros d Hin. unfold key. apply idx_of, Hin. }
    pose proof (proj1 (proj1 Hre)) as Hnd. rewrite <- (reduce_along f ins lo lr vals x (init v) Hnd Hins Hvals Hx). rewrite <- (reduce_filter lo lr x Hnd Hx). fold lens.
    assert (Pl : Permutation (map (key lens) l) (filter (fun is => agrees (map fst lo) x (idx lens is)) (all_indices lens))).
    { rewrite <- (filter_perm _ _ _ P). rewrite (filter_mapped _ (fun r => agrees (map fst lo) x (asg_of r))); [rewrite Hfl; reflexivity|].
      intros r _. unfold agrees. apply forallb_same. intros d Hin. unfold key. rewrite idx_of; [reflexivity|]. unfold lens. rewrite map_app. apply in_or_app. left. exact Hin. }
    rewrite <- (fold_perm (fun v is => f v (vals (idx lens is))) _ _ ltac:(intros w a b; apply Hf) Pl), fold_map.
    rewrite <- (fold_same (fun v r => f v (values (reads ins) r)) (fun v r => f v (vals (idx lens (key lens r)))) l); [exact C|]. intros w r Hr. rewrite (Hval r Hr). reflexivity.
  Qed.
End Result.

(** ** Products of matrices *)

Lemma matmul_sections w a b c c' ss p i j k ni nj nk A B us us' : loops rearranges ss p [(i, ni); (j, nj); (k, nk)] ->
  good_bag a [(i, ni); (k, nk)] -> good_bag b [(k, nk); (j, nj)] -> good_bag c [(i, ni); (j, nj)] -> nobcast (bg_struct c) = true ->
  (exists calls, for_each (order (traverser ss) p) [] = Done calls) -> cut_into (order (traverser ss) p) us -> Permutation us us' -> one_section_each c [(i, ni); (j, nj)] us ->
  store_sections (add_product w) (fun _ => uint w 0) [a; b] c us' = Done c' ->
  (forall y z, 0 <= y < ni -> 0 <= z < nk -> has_value a (at_ij i k y z) (uint w (A y z))) ->
  (forall y z, 0 <= y < nk -> 0 <= z < nj -> has_value b (at_ij k j y z) (uint w (B y z))) ->
  (forall y z, 0 <= y < ni -> 0 <= z < nj -> exists v, has_value c (at_ij i j y z) v) ->
  forall y z, 0 < nk -> 0 <= y < ni -> 0 <= z < nj -> has_value c' (at_ij i j y z) (uint w (sum nk (fun l => A y l * B l z))).
Proof.
  intros Hd Ha Hb Hc Hnb Hcomp Hcut Hp Heach E Va Vb Vc y z Hk Hy Hz. pose proof (matmul_box w a b ss p i j k ni nj nk A B Hd Ha Hb Va Vb y z Hy Hz) as Hx. destruct (Vc y z Hy Hz) as [v Hv].
  destruct (section_exists (add_product w) (fun _ => uint w 0) [a; b] c c' ss p [(i, ni); (j, nj)] [(k, nk)] us us' Hd Hc Hcomp Hcut Hp Heach E (at_ij i j y z)) as (u & Hu & Hs); [|exact Hx|].
  { intros H0. pose proof (proj2 (box_In [(k, nk)] [0])) as H. rewrite H0 in H. apply H. constructor; [cbn [snd]; lia|constructor]. }
  replace (sum nk (fun l => A y l * B l z)) with (0 + sum nk (fun l => A y l * B l z)) by lia. rewrite <- (matmul_fold w a b ss p i j k ni nj nk A B Hd Ha Hb Va Vb).
  apply (sections_store (add_product w) (fun _ => uint w 0) [a; b] c c' ss p [(i, ni); (j, nj)] [(k, nk)] us us' Hd (matmul_bags w a b ss p i j k ni nj nk A B A Hd Ha Hb Va Vb) Hc Hcomp Hcut Hp Heach Hnb E
    (add_product_any w) (matmul_vals w i j k A B) (at_ij i j y z) v (matmul_have w a b ss p i j k ni nj nk A B Hd Ha Hb Va Vb) Hx Hv u Hu Hs).
Qed.

(** ** Sections of sections *)

Lemma cut_each t us vss : cut_into t us -> Forall2 cut_into us vss -> cut_into t (concat vss).
Proof.
  intros H F. assert (G : forall pre, cut_into t (pre ++ us) -> cut_into t (pre ++ concat vss)); [|exact (G [] H)]. clear H.
  induction F as [|u vs us vss Hu F IH]; intros pre H; [exact H|]. cbn [concat]. rewrite app_assoc. apply IH. rewrite <- app_assoc. exact (cut_again t pre u us vs H Hu).
Qed.

(** ** Checking *)

Lemma each_checked out lo us ks : cube (bg_struct out) lo -> NoDup (map fst lo) -> NoDup ks ->
  Forall2 (fun u k => exists st, tr_state u = Some st /\ (forall d, get (Len d) st = None) /\ In k (all_indices lo) /\
    map (fun d => match get (Idx d) st with Some i => vz i | None => None end) (map fst lo) = map Some k) us ks -> one_section_each out lo us.
Proof.
  intros Hc Hnd Nk F.
  assert (Hk : forall u k x, In k (all_indices lo) -> (exists st, tr_state u = Some st /\ (forall d, get (Len d) st = None) /\ In k (all_indices lo) /\
      map (fun d => match get (Idx d) st with Some i => vz i | None => None end) (map fst lo) = map Some k) -> section_at out u x -> map x (map fst lo) = k).
  { intros u k x Hk (st & E & _ & _ & Em) (st' & E' & _ & Hn). rewrite E in E'. injection E' as <-.
    assert (Hl : map (fun d => match get (Idx d) st with Some i => vz i | None => None end) (map fst lo) = map (fun d => Some (x d)) (map fst lo)).
    { apply map_ext_in. intros d Hin. destruct (Hn d (proj2 (proj1 (proj2 Hc) d) Hin)) as (i & -> & Hv). exact Hv. }
    rewrite Em in Hl. rewrite <- (map_map x Some) in Hl. revert Hl. generalize (map x (map fst lo)). clear. induction k as [|z k IH]; intros [|y l] H; try discriminate; [reflexivity|].
    cbn [map] in H. injection H as -> H. f_equal. apply IH, H. }
  split.
  - intros u Hu. destruct (in_each _ _ _ _ F Hu) as (k & _ & st & E & Hl & Hin & Em). exists (idx lo k). destruct (box_idx lo k Hnd Hin) as [Hb Ek]. split; [exact Hb|].
    exists st. split; [exact E|]. split; [exact Hl|]. intros d Hd. apply (proj1 (proj2 Hc)) in Hd. rewrite <- Ek in Em. rewrite (map_map (idx lo k) Some) in Em.
    assert (Hv : match get (Idx d) st with Some i => vz i | None => None end = Some (idx lo k d)).
    { clear - Em Hd. revert Em Hd. generalize (idx lo k). intros g. induction (map fst lo) as [|q m IH]; intros Em Hd; [destruct Hd|]. cbn [map] in Em. injection Em as E1 E2. destruct Hd as [<-|Hd]; auto. }
    destruct (get (Idx d) st) as [i|]; [|discriminate]. eauto.
  - intros us1 u us2 u' x -> Hu' A B. apply Forall2_app_inv_l in F. destruct F as (k1 & k' & F1 & F2 & ->). inversion F2 as [|? k ? k2 Hku F3]; subst.
    assert (Ek : map x (map fst lo) = k) by (destruct Hku as (st & H); apply (Hk u k x); [apply H|exists st; exact H|exact A]).
    apply NoDup_remove_2 in Nk. apply Nk. apply in_or_app. apply in_app_or in Hu'. destruct Hu' as [Hu'|Hu'].
    + left. destruct (in_each _ _ _ _ F1 Hu') as (k0 & H0 & st & H). replace k with k0; [exact H0|]. rewrite <- Ek. symmetry. apply (Hk u' k0 x); [apply H|exists st; exact H|exact B].
    + right. destruct (in_each _ _ _ _ F3 Hu') as (k0 & H0 & st & H). replace k with k0; [exact H0|]. rewrite <- Ek. symmetry. apply (Hk u' k0 x); [apply H|exists st; exact H|exact B].
Qed.
