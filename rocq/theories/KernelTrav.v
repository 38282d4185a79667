(** * What a loop over bags computes: the calls *)

From Coq Require Import Permutation.
From Verif Require Import RangeThms.
From Verif Require Export KernelFacts.
From Verif Require Import SpecKernel.

(** ** Boxes *)

Lemma box_In ls : forall is, In is (all_indices ls) <-> Forall2 (fun p i => 0 <= i < snd p) ls is.
Proof.
  induction ls as [|[d n] ls IH]; intros is; cbn [all_indices].
  - split; [intros [<-|[]]; constructor|intros H; inversion H; left; reflexivity].
  - rewrite in_flat_map. split.
    + intros (i & Hi & H). apply in_map_iff in H. destruct H as (r & <- & Hr). constructor; [apply Lib.zseq_In, Hi|apply IH, Hr].
    + intros H. inversion H as [|? i ? r Hi Hr]; subst. exists i. split; [apply Lib.zseq_In, Hi|]. apply in_map, IH, Hr.
Qed.

Lemma box_NoDup ls : NoDup (all_indices ls).
Proof.
  induction ls as [|[d n] ls IH]; [constructor; [intros []|constructor]|]. cbn [all_indices]. generalize (Lib.zseq_NoDup n). generalize (zseq n). intros l Hl.
  induction Hl as [|i l Hi Hl IHl]; [constructor|]. cbn [flat_map]. apply NoDup_app_intro.
  - apply FinFun.Injective_map_NoDup; [|exact IH]. intros a b E. injection E as ->. reflexivity.
  - exact IHl.
  - intros x Hx Hy. apply in_map_iff in Hx. destruct Hx as (r & <- & _). apply in_flat_map in Hy. destruct Hy as (j & Hj & Hy). apply in_map_iff in Hy.
    destruct Hy as (r' & E & _). injection E as -> _. contradiction.
Qed.

Lemma idx_at ls : forall is, NoDup (map fst ls) -> List.length is = List.length ls -> map (idx ls is) (map fst ls) = is.
Proof.
  induction ls as [|[d n] ls IH]; intros [|i is] Hn Hl; try discriminate; [reflexivity|]. cbn [map fst idx]. inversion Hn as [|? ? Hd Hn']; subst.
  rewrite Z.eqb_refl. f_equal. transitivity (map (idx ls is) (map fst ls)); [|apply (IH is Hn'); cbn in Hl; lia]. apply map_ext_in. intros q Hq. cbn [idx]. destruct (Z.eqb_spec q d) as [->|]; [contradiction|reflexivity].
Qed.

Lemma idx_of ls x q : In q (map fst ls) -> idx ls (map x (map fst ls)) q = x q.
Proof.
  induction ls as [|[d n] ls IH]; intros Hq; [destruct Hq|]. cbn [map fst idx]. destruct (Z.eqb_spec q d) as [->|Hne]; [reflexivity|].
  apply IH. destruct Hq as [Hq|Hq]; [cbn in Hq; congruence|exact Hq].
Qed.

Lemma box_in ls x : in_box ls x -> In (map x (map fst ls)) (all_indices ls).
Proof.
  intros H. apply box_In. revert H. induction ls as [|[d n] ls IH]; intros H; [constructor|]. cbn [map fst]. constructor; [apply (H d n); left; reflexivity|].
  apply IH. intros q m Hq. apply (H q m). right. exact Hq.
Qed.

Lemma in_fst_unique (ls : list (dim * Z)) q n m : NoDup (map fst ls) -> In (q, n) ls -> In (q, m) ls -> n = m.
Proof.
  induction ls as [|[d k] ls IH]; intros Hn H1 H2; [destruct H1|]. inversion Hn as [|? ? Hd Hn']; subst.
  destruct H1 as [E1|H1], H2 as [E2|H2]; [congruence| | |eauto].
  - injection E1 as -> ->. exfalso. apply Hd. eapply in_fst; eauto.
  - injection E2 as -> ->. exfalso. apply Hd. eapply in_fst; eauto.
Qed.

Lemma box_idx ls is : NoDup (map fst ls) -> In is (all_indices ls) -> in_box ls (idx ls is) /\ map (idx ls is) (map fst ls) = is.
Proof.
  intros Hn Hi. apply box_In in Hi. split.
  - induction Hi as [|[d n] i ls is Hi F IH]; intros q m Hq; [destruct Hq|]. cbn [idx]. inversion Hn as [|? ? Hd Hn']; subst.
    destruct Hq as [E|Hq]; [injection E as -> ->; rewrite Z.eqb_refl; exact Hi|]. destruct (Z.eqb_spec q d) as [->|_]; [exfalso; apply Hd; eapply in_fst; eauto|].
    apply (IH Hn' q m Hq).
  - apply idx_at; [exact Hn|]. symmetry. eapply Forall2_len, Hi.
Qed.

(** ** Lengths of several structures together *)

Lemma first_match_some {A} q (l : list (option sig * A)) : (forall o a, In (o, a) l -> o <> None) ->
  (exists s a, In (Some s, a) l /\ any_accept q s = true) -> exists s a, In (Some s, a) l /\ any_accept q s = true /\ first_match q l = Some (Some a).
Proof.
  induction l as [|[o a] l IH]; intros Ho (s & b & Hin & Ha); [destruct Hin|]. cbn [first_match]. destruct o as [s0|]; [|exfalso; apply (Ho None a); [left|]; reflexivity].
  destruct (any_accept q s0) eqn:E; [exists s0, a; split; [left; reflexivity|auto]|]. destruct Hin as [Hin|Hin]; [injection Hin as -> ->; congruence|].
  destruct IH as (s1 & a1 & H1 & H2 & H3); [intros o' a' H; apply (Ho o' a'); right; exact H|eauto|]. exists s1, a1. split; [right; exact H1|auto].
Qed.

Section Cubes.
  Variables (ss : list struct) (lens : list (dim * Z)).
  Hypothesis Hc : cubes ss lens.

  Lemma cubes_no_tuples : no_tuples ss.
  Proof. intros s Hs. destruct Hc as (_ & H & _). destruct (H s Hs) as (l & (Hn & _) & _). exact Hn. Qed.

  Lemma cubes_dims su : signature (Union ss) = Some su -> plain su = true /\ forall q, In q (sdims su) <-> In q (map fst lens).
  Proof.
    intros Es. destruct (no_tuples_path ss su cubes_no_tuples Es) as [Hp Hall]. split; [exact Hp|]. intros q.
    assert (D : dims_of (Union ss) [] = Some (flat su)) by (unfold dims_of; rewrite Es; cbn [obind]; apply plain_path, Hp).
    pose proof (union_dims ss [] _ cubes_no_tuples D q) as H. rewrite flat_fst in H. rewrite H. destruct Hc as (_ & H1 & H2). split.
    - intros (s & Hs & Hq). destruct (H1 s Hs) as (l & (_ & Hd & _) & Hi). apply Hd in Hq. destruct (fst_in _ _ Hq) as [n Hn]. eapply in_fst. apply Hi, Hn.
    - apply H2.
  Qed.

  Lemma cubes_ilen q n a : lenok (Union ss) nolens -> In (q, n) lens -> ilen (Union ss) nolens a q = n.
  Proof.
    intros Hlk Hin. cbn in Hlk. apply lenok_all in Hlk. rewrite Forall_forall in Hlk. destruct Hc as (Hn & H1 & H2). cbn [ilen].
    assert (Hq : In q (map fst lens)) by (eapply in_fst; eauto).
    destruct (first_match_some q (map (fun t => (signature t, ilen t nolens a q)) ss)) as (s0 & x & Hin0 & Ha & ->).
    - intros o x Ho. apply in_map_iff in Ho. destruct Ho as (s & E & Hs). destruct (H1 s Hs) as (l & Hcs & _). destruct (cube_sig _ _ Hcs) as (sg & Es & _). congruence.
    - destruct (H2 q Hq) as (s & Hs & Hd). unfold has_dim in Hd. destruct (signature s) as [sg|] eqn:Es; [|destruct Hd]. exists sg, (ilen s nolens a q). split; [|exact Hd].
      apply in_map_iff. exists s. rewrite Es. auto.
    - apply in_map_iff in Hin0. destruct Hin0 as (s & E & Hs). injection E as Es <-. destruct (H1 s Hs) as (l & Hcs & Hi).
      assert (Hd : has_dim s q) by (unfold has_dim; rewrite Es; exact Ha). pose proof Hcs as (_ & Hds & _). apply Hds in Hd. destruct (fst_in _ _ Hd) as [m Hm].
      rewrite (cube_ilen s l q m a Hcs (Hlk s Hs) Hm). apply (in_fst_unique lens q); auto.
  Qed.
End Cubes.

(** ** The calls *)

Section Calls.
  Variables (ss : list struct) (p : proto) (lens : list (dim * Z)) (calls : list state).
  Let u := Union ss.
  Let t := order (traverser ss) p.
  Let top := top_struct t.
  Hypothesis Hc : cubes ss lens.
  Hypothesis Hw : uswf top = true.
  Hypothesis Hlk : lenok top nolens.
  Hypothesis Ho : over documented u top nolens.
  Hypothesis E : for_each t [] = Done calls.
  Hypothesis Hcm : forall r, In r calls -> complete u r.

  Let Hx v w : u <> View v w.
  Proof. discriminate. Qed.
  Let Hu v w : same_type u (View v w) = false.
  Proof. reflexivity. Qed.

  Definition key (r : state) : list Z := map (asg_of r) (map fst lens).

  Lemma call_facts r : In r calls -> (forall d, get (Len d) r = None) /\
    (forall q, In q (map fst lens) -> exists i, get (Idx q) r = Some i /\ vz i = Some (asg_of r q)) /\ in_box lens (asg_of r).
  Proof.
    intros Hr. destruct (run_of t calls E Hx Hw) as (sg & sts & Esg & R & _ & F). fold top in Esg, R, F.
    destruct (Forall2_In_r _ _ _ _ F Hr) as (e & He & x & Ex & Hg). pose proof (uswf_snodup _ _ Hw Esg) as Hsn.
    destruct (run_valid _ sg sts Esg Hsn Hlk R e He) as (pe & De & Ve).
    destruct (chain_down u u Hu top nolens Ho _ _ _ Hw Hlk lrange_nolens Ve) as (c & su & pu & _ & V & S).
    destruct (S _ e x (fun _ _ => eq_refl) (run_agree _ sg sts Esg Hsn R e He) Ex) as (c2 & st' & A & X & H2).
    pose proof (state_at_same u Hx x st' r X Hg _ A) as Ar. destruct (index_of2 u r c c2 su pu V H2 Ar (Hcm _ Hr)) as [Dr Ir].
    pose proof V as (Esu & Epu & Fu). destruct (cubes_dims ss lens Hc su Esu) as [Hpl Hds]. assert (Epf : pu = flat su) by (rewrite (plain_path su _ Hpl) in Epu; unfold flat; congruence).
    split; [|split].
    - intros d. pose proof (ag_len _ _ _ Ar d) as H. unfold oagree, nolens in H. destruct (get (Len d) r); [destruct H|reflexivity].
    - intros q Hq. apply Hds in Hq. destruct (Hcm _ Hr) as (pc & Dc & Hcc). rewrite Dr in Dc. injection Dc as <-.
      destruct (Hcc q) as (i & z & Gi & Vi); [rewrite Epf, flat_fst; exact Hq|]. exists i. split; [exact Gi|]. unfold asg_of. rewrite Gi. unfold vzd. rewrite Vi. reflexivity.
    - intros q n Hq. assert (Hin : In q (sdims su)) by (apply Hds; eapply in_fst; eauto). rewrite Forall_forall in Fu.
      rewrite (Ir q) by (rewrite Epf, flat_fst; exact Hin). pose proof (Fu (q, None)) as H. rewrite Epf in H. unfold in_range in H. cbn [fst snd] in H.
      rewrite <- (cubes_ilen ss lens Hc q n c (over_lenok _ _ _ _ Ho Hlk) Hq). apply H. unfold flat. apply in_map_iff. exists q. auto.
  Qed.

  Lemma calls_once : NoDup (map key calls).
  Proof.
    destruct (run_of t calls E Hx Hw) as (sg & sts & Esg & R & _ & F). fold top in Esg, R, F.
    pose proof (core_nodup u top sg sts calls Hx Ho Hw Hlk Esg R F Hcm) as Hnd.
    assert (Hk : forall r r', In r calls -> In r' calls -> key r = key r' -> index_list u r = index_list u r').
    { intros r r' Hr Hr' Ek. unfold index_list. destruct (Hcm _ Hr) as (q & Dq & _). destruct (Hcm _ Hr') as (q' & Dq' & _). rewrite Dq, Dq'.
      unfold dims_of in Dq, Dq'. destruct (signature u) as [su|] eqn:Esu; [|discriminate]. cbn [obind] in Dq, Dq'. destruct (cubes_dims ss lens Hc su Esu) as [Hpl Hds].
      rewrite (plain_path su _ Hpl) in Dq. rewrite (plain_path su _ Hpl) in Dq'. injection Dq as <-. injection Dq' as <-. rewrite !map_map. cbn [fst]. apply map_ext_in. intros d Hd. apply Hds in Hd.
      unfold key in Ek. revert Hd Ek. generalize (map fst lens). intros ds. induction ds as [|y ds IH]; intros Hd Ek; [destruct Hd|]. cbn [map] in Ek. injection Ek as E1 E2.
      destruct Hd as [->|Hd]; [exact E1|auto]. }
    clear - Hnd Hk. induction calls as [|r l IH]; [constructor|]. cbn [map] in *. inversion Hnd as [|? ? H1 H2]; subst. constructor.
    - intros Hin. apply in_map_iff in Hin. destruct Hin as (r' & Er & Hr'). apply H1. apply in_map_iff. exists r'. split; [|exact Hr'].
      apply Hk; [right; exact Hr'|left; reflexivity|exact Er].
    - apply IH; [exact H2|]. intros a b Ha Hb. apply Hk; right; assumption.
  Qed.

  Theorem calls_box : over rearranges u top nolens -> Permutation (map key calls) (all_indices lens).
  Proof.
    intros Hre. apply NoDup_Permutation; [exact calls_once|apply box_NoDup|]. intros is. rewrite in_map_iff. split.
    - intros (r & <- & Hr). apply box_in, (call_facts r Hr).
    - intros His. pose proof Hc as (Hnl & _). destruct (box_idx lens is Hnl His) as [Hb Ei].
      destruct (run_of t calls E Hx Hw) as (sg & sts & Esg & R & _ & F). fold top in Esg, R, F.
      assert (Esu : signature u <> None) by (eapply over_signature; [exact Ho|congruence]). destruct (signature u) as [su|] eqn:Es; [|contradiction]. clear Esu.
      destruct (cubes_dims ss lens Hc su Es) as [Hpl Hds]. pose proof (over_lenok _ _ _ _ Ho Hlk) as Hlku.
      assert (V : pvalid u nolens (idx lens is) su (flat su)).
      { split; [exact Es|]. split; [apply plain_path, Hpl|]. apply Forall_forall. intros e He. unfold flat in He. apply in_map_iff in He. destruct He as (d & <- & Hd).
        unfold in_range. cbn [fst snd]. apply Hds in Hd. destruct (fst_in _ _ Hd) as [n Hn]. unfold u. rewrite (cubes_ilen ss lens Hc d n _ Hlku Hn). apply (Hb d n Hn). }
      destruct (chain_onto u u Hu top nolens Hre _ _ _ Hw ltac:(congruence) Hlk lrange_nolens V) as (a & sg' & pp & V' & S).
      assert (sg' = sg) by (destruct V' as (B & _); congruence). subst sg'.
      destruct (core_reach u top sg sts calls Hw Hlk Esg R F a pp V') as (e & r & x & He & Hr & Ae & Ex & Gx). exists r. split; [|exact Hr].
      destruct (S a e x (fun _ _ => eq_refl) Ae Ex) as (c' & st' & A' & T' & Hc').
      destruct (index_of2 u r _ c' su _ V Hc' (state_at_same u Hx _ _ _ T' Gx _ A') (Hcm _ Hr)) as [_ Ir].
      rewrite <- Ei. unfold key. apply map_ext_in. intros d Hd. apply Ir. rewrite flat_fst. apply Hds, Hd.
  Qed.

  (** A bag whose dimensions are among those of the traversal. *)
  Lemma call_named s l r : cube s l -> within_lengths lens l -> In r calls -> named s (asg_of r) r /\ in_box l (asg_of r).
  Proof.
    intros (_ & Hd & _) Hl Hr. destruct (call_facts r Hr) as (H1 & H2 & H3). split; [split; [exact H1|]|].
    - intros d Hs. apply H2. apply Hd in Hs. destruct (fst_in _ _ Hs) as [n Hn]. destruct (Hl d n Hn) as (m & Hm & _). eapply in_fst; eauto.
    - intros q n Hq. destruct (Hl q n Hq) as (m & Hm & Hle). specialize (H3 q m Hm). lia.
  Qed.
End Calls.
