(** * What a loop that reads neighbouring elements computes: proofs *)

From Coq Require Import Permutation.
From Verif Require Import RaceOrder Contig UnionTrav StencilFacts.
From Verif Require Export KernelThms.
From Verif Require Import SpecStencilKernel SpecKernel.

Section Up.
  Variable u : struct.
  Hypothesis Hx : forall v t, u <> View v t.
  Let Hu v t : same_type u (View v t) = false.
  Proof. destruct u; try reflexivity. exfalso. eapply Hx. reflexivity. Qed.

  Lemma spans_up l : forall c s0 p', NoDup (map fst l) -> over documented u (apply (p_spans l) u) nolens ->
    uswf (apply (p_spans l) u) = true -> lenok (apply (p_spans l) u) nolens -> signature (apply (p_spans l) u) <> None -> pvalid u nolens c s0 p' ->
    (forall d b e, In (d, (b, e)) l -> In d (map fst p') -> vzd b <= c d < vzd e) ->
    exists a sg p, pvalid (apply (p_spans l) u) nolens a sg p /\
      (forall a2 st r, (forall x, In x (map fst p) -> a2 x = a x) -> agree st nolens a2 -> state_at u (apply (p_spans l) u) st = Some r ->
         exists c2 st', agree st' nolens c2 /\ state_at u u st' = Some r /\ forall x, In x (map fst p') -> c2 x = c x) /\
      (forall x, In x (map fst p') -> ~ In x (map fst l) -> a x = c x) /\ map fst p = map fst p'.
  Proof.
    induction l as [|[d [b e]] l IH] using rev_ind; intros c s0 p' Hn Ho Hw Hlk Hs V Hb.
    - exists c, s0, p'. split; [exact V|]. split; [intros a2 st r H Ha E; exists a2, st; auto|]. auto.
    - unfold p_spans in *. rewrite map_app in *. rewrite apply_app in *.
      set (t := apply (map (fun x => LView (VSpan (fst x) (fst (snd x)) (snd (snd x)))) l) u) in *. cbn [map apply fold_left apply_layer fst snd] in Ho, Hw, Hlk, Hs |- *.
      cbn [map fst] in Hn. apply NoDup_remove in Hn. rewrite app_nil_r in Hn. destruct Hn as [Hn Hd].
      assert (Hov : documented (VSpan d b e) t nolens /\ over documented u t nolens).
      { clearbody t. inversion Ho as [? H0 H1|? ? ? H1 H2]; [exfalso; exact (Hx _ _ H1)|split; assumption]. }
      destruct Hov as [[Hnb Hdoc] Ho']. destruct (uswf_view _ _ Hw) as [Hvw Ht]. destruct (signature_view _ _ Hs) as (s1 & Es1 & _).
      destruct (IH c s0 p' Hn Ho' Ht (proj2 Hlk) ltac:(congruence) V) as (a1 & sg1 & p1 & V1 & S1 & C1 & M1).
      { intros x b0 e0 Hin. apply Hb, in_or_app. left. exact Hin. }
      assert (sg1 = s1) by (destruct V1 as (A & _); congruence). subst sg1.
      assert (Hcov : cover (VSpan d b e) (Lc (VSpan d b e) t nolens a1) nolens a1 p1).
      { cbn [cover]. rewrite M1. intros Hin. rewrite (C1 d Hin Hd). apply Hb; [|exact Hin]. apply in_or_app. right. left. reflexivity. }
      destruct (view_onto_valid (VSpan d b e) t nolens a1 s1 p1 Hw Hs lrange_nolens Hdoc V1 Hcov) as (a & sg & p & V2 & Hav).
      destruct (pvalid_view _ _ _ _ _ _ Hw lrange_nolens (Hdoc _) V2) as (s2 & p2 & Ev & R & Hsn & Hnd & V2').
      assert (p2 = p1). { destruct V2' as (E2 & Ep2 & _). destruct V1 as (E1 & Ep1 & _). cbn [view_lenv] in *. assert (s2 = s1) by congruence. subst s2.
        apply spath_local with (b := view_asg (VSpan d b e) (ilen t) nolens a) in Ep1; [congruence|]. exact Hav. }
      subst p2.
      assert (Epp : map fst p1 = map fst p).
      { cbn [prel] in R. subst p. clear. induction p1 as [|[x k] p' IHp]; [reflexivity|]. cbn [pm flat_map fst snd]. unfold pm in *. cbn [flat_map fst snd].
        destruct (Z.eqb_spec x d) as [->|]; cbn [app map fst]; f_equal; exact IHp. }
      exists a, sg, p. split; [exact V2|]. split; [|split].
      + intros a2 st r H Ha E. rewrite state_at_view in E by apply Hu. destruct (sub_state (VSpan d b e) t st) as [st1|] eqn:E1; [|discriminate]. cbn [obind] in E.
        apply (S1 (view_asg (VSpan d b e) (ilen t) nolens a2) st1 r); [| |exact E].
        * intros x Hin. rewrite <- Hav by exact Hin. destruct V2' as (E0 & Ep' & _). eapply (view_local (VSpan d b e) t nolens a a2 s2 p1); eauto. exact lrange_nolens.
        * exact (sub_state_refines (VSpan d b e) t st nolens a2 st1 ltac:(congruence) Hlk Ha E1).
      + intros x Hin Hn'. rewrite map_app in Hn'. cbn [map fst] in Hn'. rewrite <- (C1 x Hin) by (intros X; apply Hn', in_or_app; left; exact X).
        rewrite <- Hav by (rewrite M1; exact Hin). cbn [view_asg]. rewrite fupd_neq; [reflexivity|]. intros ->. apply Hn', in_or_app. right. left. reflexivity.
      + congruence.
  Qed.
End Up.

Lemma inside_all l x : inside_spans l x = true <-> forall d b e, In (d, (b, e)) l -> vzd b <= x d < vzd e.
Proof.
  unfold inside_spans. rewrite forallb_forall. split.
  - intros H d b e Hin. specialize (H _ Hin). cbn [fst snd] in H. lia.
  - intros H [d [b e]] Hin. cbn [fst snd]. specialize (H d b e Hin). lia.
Qed.

Lemma inside_same l x y : (forall d, In d (map fst l) -> y d = x d) -> inside_spans l y = inside_spans l x.
Proof. intros H. unfold inside_spans. apply forallb_same. intros [d [b e]] Hin. cbn [fst snd]. rewrite H; [reflexivity|]. eapply in_fst; eauto. Qed.

(** ** The calls *)

Section InnerCalls.
  Variables (ss : list struct) (l : list (dim * (val * val))) (q : proto) (lens : list (dim * Z)) (calls : list state).
  Let u := Union ss.
  Let t1 := order (traverser ss) (p_spans l).
  Let t := order t1 q.
  Hypothesis Hl : inner_loops ss (p_spans l) q lens.
  Hypothesis Hnd : NoDup (map fst l).
  Hypothesis Hin : incl (map fst l) (map fst lens).
  Hypothesis E : for_each t [] = Done calls.

  Let Hx v w : u <> View v w.
  Proof. discriminate. Qed.
  Let Hu v w : same_type u (View v w) = false.
  Proof. reflexivity. Qed.
  Let Hc : cubes ss lens.
  Proof. apply Hl. Qed.
  Let Hw : uswf (top_struct t) = true.
  Proof. apply Hl. Qed.
  Let Hlk : lenok (top_struct t) nolens.
  Proof. apply Hl. Qed.
  Let Ho : over documented u (top_struct t) nolens.
  Proof. apply Hl. Qed.
  Let Hcm r : In r calls -> complete u r.
  Proof. destruct Hl as ((_ & _ & _ & _ & H) & _). apply (H calls r E). Qed.
  Let Ho1 : over documented u (top_struct t1) nolens.
  Proof. apply Hl. Qed.
  Let Hre : over rearranges (top_struct t1) (top_struct t) nolens.
  Proof. apply Hl. Qed.
  Let Et1 : top_struct t1 = apply (p_spans l) u.
  Proof. unfold t1. rewrite top_order. reflexivity. Qed.

  Lemma inner_facts r : In r calls -> (forall d, get (Len d) r = None) /\
    (forall d, In d (map fst lens) -> exists i, get (Idx d) r = Some i /\ vz i = Some (asg_of r d)) /\ in_box lens (asg_of r).
  Proof. exact (call_facts ss (p_spans l ++ q) lens calls Hc Hw Hlk Ho E Hcm r). Qed.

  Lemma inner_once : NoDup (map (key lens) calls).
  Proof. exact (calls_once ss (p_spans l ++ q) lens calls Hc Hw Hlk Ho E Hcm). Qed.

  Lemma inner_in r : In r calls -> inside_spans l (asg_of r) = true.
  Proof.
    intros Hr. pose proof (over_mono _ _ _ _ _ rearranges_documented Hre) as Hre'. pose proof (over_uswf _ _ _ _ Hre Hw) as Hw1. pose proof (over_lenok _ _ _ _ Hre Hlk) as Hlk1.
    destruct (run_of t calls E Hx Hw) as (sg & sts & Esg & R & _ & F). destruct (Forall2_In_r _ _ _ _ F Hr) as (e & He & x & Ex & Hg). pose proof (uswf_snodup _ _ Hw Esg) as Hsn.
    destruct (run_valid _ sg sts Esg Hsn Hlk R e He) as (pe & De & Ve).
    destruct (chain_down u (top_struct t1) Hu (top_struct t) nolens Hre' _ _ _ Hw Hlk lrange_nolens Ve) as (c1 & s1 & p1 & _ & V1 & S1).
    destruct (S1 _ e x (fun _ _ => eq_refl) (run_agree _ sg sts Esg Hsn R e He) Ex) as (c2 & st1 & A1 & X1 & H1).
    rewrite Et1 in V1, X1, Hw1, Hlk1. pose proof Ho1 as Ho1'. rewrite Et1 in Ho1'.
    destruct (spans_down u Hx l c1 s1 p1 Hnd Ho1' Hw1 Hlk1 V1) as (c & su & pu & V & S & B & _ & _).
    destruct (S c2 st1 x H1 A1 X1) as (c3 & st2 & A2 & X2 & H2).
    destruct (index_of2 u r c c3 su pu V H2 (state_at_same u Hx x st2 r X2 Hg _ A2) (Hcm _ Hr)) as [Dst Ist].
    pose proof V as (Esu & Epu & _). destruct (cubes_dims ss lens Hc su Esu) as [Hpl Hds]. assert (Epf : pu = flat su) by (rewrite (plain_path su _ Hpl) in Epu; unfold flat; congruence).
    apply inside_all. intros d b en Hdl. assert (Hd : In d (map fst pu)) by (rewrite Epf, flat_fst; apply Hds, Hin; eapply in_fst; eauto).
    rewrite (Ist d Hd). exact (B d b en Hdl Hd).
  Qed.

  Theorem inner_box : Permutation (map (key lens) calls) (filter (fun is => inside_spans l (idx lens is)) (all_indices lens)).
  Proof.
    apply NoDup_Permutation; [exact inner_once|apply NoDup_filter, box_NoDup|]. intros is. rewrite in_map_iff, filter_In. split.
    - intros (r & <- & Hr). split; [apply box_in, (inner_facts r Hr)|]. rewrite (inside_same l (asg_of r)); [apply inner_in, Hr|].
      intros d Hd. apply idx_of, Hin, Hd.
    - intros [His Hi]. pose proof Hc as (Hnl & _). destruct (box_idx lens is Hnl His) as [Hb Ei].
      destruct (run_of t calls E Hx Hw) as (sg & sts & Esg & R & _ & F).
      pose proof (over_uswf _ _ _ _ Hre Hw) as Hw1. pose proof (over_lenok _ _ _ _ Hre Hlk) as Hlk1.
      assert (Es1 : signature (top_struct t1) <> None) by (eapply over_signature; [exact Hre|congruence]).
      assert (Esu : signature u <> None) by (eapply over_signature; [exact Ho|congruence]). destruct (signature u) as [su|] eqn:Es; [|contradiction]. clear Esu.
      destruct (cubes_dims ss lens Hc su Es) as [Hpl Hds]. pose proof (over_lenok _ _ _ _ Ho Hlk) as Hlku.
      assert (V : pvalid u nolens (idx lens is) su (flat su)).
      { split; [exact Es|]. split; [apply plain_path, Hpl|]. apply Forall_forall. intros e He. unfold flat in He. apply in_map_iff in He. destruct He as (d & <- & Hd).
        unfold in_range. cbn [fst snd]. apply Hds in Hd. destruct (fst_in _ _ Hd) as [n Hn]. unfold u. rewrite (cubes_ilen ss lens Hc d n _ Hlku Hn). apply (Hb d n Hn). }
      pose proof Ho1 as Ho1'. rewrite Et1 in Ho1', Hw1, Hlk1, Es1.
      destruct (spans_up u Hx l _ _ _ Hnd Ho1' Hw1 Hlk1 Es1 V) as (a1 & sg1 & p1 & V1 & S1 & _ & _).
      { intros d b e Hdl _. exact (proj1 (inside_all l _) Hi d b e Hdl). }
      rewrite <- Et1 in V1, S1.
      destruct (chain_onto u (top_struct t1) Hu (top_struct t) nolens Hre _ _ _ Hw ltac:(congruence) Hlk lrange_nolens V1) as (a & sg' & pp & V' & S).
      assert (sg' = sg) by (destruct V' as (B & _); congruence). subst sg'.
      destruct (core_reach u (top_struct t) sg sts calls Hw Hlk Esg R F a pp V') as (e & r & x & He & Hr & Ae & Ex & Gx). exists r. split; [|exact Hr].
      destruct (S a e x (fun _ _ => eq_refl) Ae Ex) as (c' & st' & A' & T' & Hc').
      destruct (S1 c' st' x Hc' A' T') as (c2 & st2 & A2 & T2 & Hc2).
      destruct (index_of2 u r _ c2 su _ V Hc2 (state_at_same u Hx _ _ _ T2 Gx _ A2) (Hcm _ Hr)) as [_ Ir].
      rewrite <- Ei. unfold key. apply map_ext_in. intros d Hd. apply Ir. rewrite flat_fst. apply Hds, Hd.
  Qed.
End InnerCalls.

(** ** Moved indices *)

Lemma W_pow : W = 2 ^ 64.
Proof. rewrite W_eq. reflexivity. Qed.

Lemma signed_mod z : signed z mod W = z mod W.
Proof.
  unfold signed. destruct (z <? 2 ^ 63); [reflexivity|]. rewrite <- W_pow. pose proof W_pos. rewrite <- (Z.mod_add (z - W) 1 W) by lia. f_equal. lia.
Qed.

Lemma signed_small z : - 2 ^ 63 <= z < 2 ^ 63 -> signed (u64 z) = z.
Proof.
  intros H. unfold signed, u64. pose proof W_pow as Hw. pose proof W_pos as Hp. destruct (Z.ltb_spec z 0) as [Hz|Hz].
  - replace (z mod W) with (z + W); [|rewrite <- (Z.mod_add z 1 W) by lia; rewrite Z.mod_small; lia].
    destruct (Z.ltb_spec (z + W) (2 ^ 63)); lia.
  - rewrite Z.mod_small by lia. destruct (Z.ltb_spec z (2 ^ 63)); lia.
Qed.

Lemma moved_in ds x d z : NoDup (map fst ds) -> In (d, z) ds -> moved_by ds x d = x d + signed (vzd z).
Proof. intros Hn Hd. unfold moved_by. rewrite (find_fst ds d z Hn Hd). reflexivity. Qed.
Lemma moved_out ds x d : ~ In d (map fst ds) -> moved_by ds x d = x d.
Proof. intros Hd. unfold moved_by. rewrite (StencilFacts.find_none ds d Hd). lia. Qed.

Lemma moved_same ds x y d : x d = y d -> moved_by ds x d = moved_by ds y d.
Proof. intros H. unfold moved_by. rewrite H. reflexivity. Qed.

Lemma neighbor_named ds b lb (lens : list (dim * Z)) r st' : NoDup (map fst ds) -> (forall d z, In (d, z) ds -> vz z <> None) -> good_bag b lb -> incl (map fst lb) (map fst lens) ->
  (forall d, get (Len d) r = None) -> (forall d, In d (map fst lens) -> exists i, get (Idx d) r = Some i /\ vz i = Some (asg_of r d)) ->
  in_box lb (moved_by ds (asg_of r)) -> neighbor ds r = Some st' -> named (bg_struct b) (moved_by ds (asg_of r)) st'.
Proof.
  intros Hn Hz Hb Hi Hl Hx Hin E. destruct (neighbor_moves ds r st' Hn E) as [A B]. split.
  - intros d. rewrite B by (intros; discriminate). apply Hl.
  - intros d Hd. destruct Hb as ((_ & Hds & Hlen) & _). apply Hds in Hd. destruct (Hx d (Hi d Hd)) as (i & Gi & Vi).
    destruct (in_dec Z.eq_dec d (map fst ds)) as [Hdd|Hdd].
    + destruct (fst_in _ _ Hdd) as [z Hdz]. destruct (A d z Hdz) as (i' & Gi' & _ & G'). assert (i' = i) by congruence. subst i'. exists (vadd i z). split; [exact G'|].
      rewrite vz_vadd, Vi. pose proof (Hz d z Hdz) as Hvz. destruct (vz z) as [zz|] eqn:Ez; [|congruence]. f_equal.
      rewrite (moved_in ds _ d z Hn Hdz). rewrite (vzd_vz _ _ Ez). destruct (fst_in _ _ Hd) as [n Hdn]. pose proof (Hin d n Hdn) as Hr. rewrite (moved_in ds _ d z Hn Hdz), (vzd_vz _ _ Ez) in Hr.
      destruct (Hlen d n Hdn) as (len & _ & Vl). pose proof (vz_range _ _ Vl) as Hnr. unfold u64. rewrite <- (Z.mod_small (asg_of r d + signed zz) W) by lia.
      rewrite <- (Zplus_mod_idemp_r (signed zz)), signed_mod, Zplus_mod_idemp_r. reflexivity.
    + exists i. split; [|rewrite moved_out by exact Hdd; exact Vi]. rewrite B; [exact Gi|]. intros y Hy X. injection X as X. subst y. contradiction.
Qed.

Lemma reads_near_inv ins st xs : reads_near ins st = Done xs -> Forall2 (fun n v => exists st', neighbor (snd n) st = Some st' /\ bag_read (fst n) st' = Done v) ins xs.
Proof.
  revert xs. induction ins as [|n ins IH]; intros xs E; cbn [reads_near] in E; [injection E as <-; constructor|].
  destruct (read_near n st) as [| |v] eqn:Eb; try discriminate. cbn [out_bind] in E. destruct (reads_near ins st) as [| |ys]; try discriminate. cbn [out_map] in E. injection E as <-.
  constructor; [|apply IH; reflexivity]. unfold read_near in Eb. destruct (neighbor (snd n) st) as [st'|]; [|discriminate]. eauto.
Qed.

Lemma near_once ins inside lens x y vs vs' : near_bags ins inside lens -> in_box lens x -> inside x = true -> (forall d, In d (map fst lens) -> y d = x d) ->
  near_values ins x vs -> near_values ins y vs' -> vs' = vs.
Proof.
  intros Hg Hx Hi He H. revert vs'. induction H as [|n v ins vs Hv F IH]; intros vs' H'; inversion H' as [|? v' ? ws Hv' F']; subst; [reflexivity|].
  destruct n as [b ds]. destruct (Hg b ds (or_introl eq_refl)) as (Hn & Hz & lb & Hb & Hlb & Hr). cbn [fst snd] in *. f_equal.
  - apply (value_once b lb Hb (moved_by ds x) v v' (Hr x Hx Hi) Hv). destruct Hv' as (st & Hn' & Er). exists st. split; [|exact Er].
    eapply named_same; [|exact Hn']. intros d Hd. apply moved_same. symmetry. apply He, Hlb. destruct Hb as ((_ & Hds & _) & _). apply Hds, Hd.
  - apply IH; [|exact F']. intros b0 ds0 Hb0. apply Hg. right. exact Hb0.
Qed.

Section StencilResult.
  Variables (f : bytes -> list bytes -> bytes) (ins : list bag_near) (out out' : bag) (ss : list struct) (l : list (dim * (val * val))) (q : proto).
  Variables (lens lo : list (dim * Z)) (calls sched : list state).
  Let t := order (order (traverser ss) (p_spans l)) q.
  Hypothesis Hl : inner_loops ss (p_spans l) q lens.
  Hypothesis Hnd : NoDup (map fst l).
  Hypothesis Hincl : incl (map fst l) (map fst lens).
  Hypothesis Hins : near_bags ins (inside_spans l) lens.
  Hypothesis Hout : good_bag out lo.
  Hypothesis Hlo : within_lengths lens lo.
  Hypothesis E : for_each t [] = Done calls.
  Hypothesis Hs : Permutation calls sched.

  Let Hfacts r (Hr : In r sched) := inner_facts ss l q lens calls Hl E r (Permutation_in _ (Permutation_sym Hs) Hr).
  Let Hinside r (Hr : In r sched) := inner_in ss l q lens calls Hl Hnd Hincl E r (Permutation_in _ (Permutation_sym Hs) Hr).

  Lemma out_named r : In r sched -> named (bg_struct out) (asg_of r) r /\ in_box lo (asg_of r).
  Proof.
    intros Hr. destruct (Hfacts r Hr) as (H1 & H2 & H3). destruct Hout as ((_ & Hd & _) & _). split; [split; [exact H1|]|].
    - intros d Hsd. apply H2. apply Hd in Hsd. destruct (fst_in _ _ Hsd) as [n Hn]. destruct (Hlo d n Hn) as (m & Hm & _). eapply in_fst; eauto.
    - exact (within_box _ _ _ Hlo H3).
  Qed.

  Lemma near_named r b ds st' : In r sched -> In (b, ds) ins -> neighbor ds r = Some st' ->
    exists lb, good_bag b lb /\ named (bg_struct b) (moved_by ds (asg_of r)) st' /\ in_box lb (moved_by ds (asg_of r)).
  Proof.
    intros Hr Hb En. destruct (Hfacts r Hr) as (H1 & H2 & H3). destruct (Hins b ds Hb) as (Hn & Hz & lb & Hg & Hlb & Hm). exists lb.
    pose proof (Hm _ H3 (Hinside r Hr)) as Hbox. split; [exact Hg|]. split; [|exact Hbox]. exact (neighbor_named ds b lb lens r st' Hn Hz Hg Hlb H1 H2 Hbox En).
  Qed.

  Theorem stencil_defined : stencil_loop f ins out sched <> Undefined.
  Proof.
    apply (loop_defined f (reads_near ins) lo sched out Hout out_named). intros r Hr.
    assert (Hi : incl ins ins) by apply incl_refl. revert Hi. generalize ins at 1 3. intros k. induction k as [|[b ds] k IH]; intros Hi; [discriminate|]. cbn [reads_near].
    assert (Hrd : read_near (b, ds) r <> Undefined).
    { unfold read_near. cbn [fst snd]. destruct (neighbor ds r) as [st'|] eqn:En; [|discriminate]. destruct (near_named r b ds st' Hr (Hi _ (or_introl eq_refl)) En) as (lb & Hg & Hn & Hb).
      exact (read_defined b lb Hg _ st' Hb Hn). }
    destruct (read_near (b, ds) r); cbn [out_bind]; try congruence. specialize (IH (fun x Hx => Hi x (or_intror Hx))). destruct (reads_near k r); cbn [out_map]; congruence.
  Qed.

  Hypothesis Hnb : nobcast (bg_struct out) = true.
  Hypothesis El : stencil_loop f ins out sched = Done out'.
  Variables (vals : asg -> list bytes) (x : asg) (v : bytes).
  Hypothesis Hvals : forall y, in_box lens y -> inside_spans l y = true -> near_values ins y (vals y).
  Hypothesis Hx : in_box lo x.
  Hypothesis Hv : has_value out x v.

  Lemma near_call_values r : In r sched -> values (reads_near ins) r = vals (asg_of r).
  Proof.
    intros Hr. destruct (Hfacts r Hr) as (_ & _ & Hb). pose proof (Hinside r Hr) as Hi. destruct (loop_reads f (reads_near ins) sched out out' El r Hr) as (xs & Exs). unfold values. rewrite Exs.
    apply (near_once ins (inside_spans l) lens (asg_of r) (asg_of r) _ _ Hins Hb Hi (fun _ _ => eq_refl) (Hvals _ Hb Hi)).
    pose proof (reads_near_inv ins r xs Exs) as F. clear Exs. assert (Hk : incl ins ins) by apply incl_refl. revert Hk F. generalize ins at 1 3 4. intros k Hk F.
    induction F as [|[b ds] w k xs (st' & En & Ew) F IH]; constructor.
    - cbn [fst snd] in *. exists st'. split; [|exact Ew]. destruct (near_named r b ds st' Hr (Hk _ (or_introl eq_refl)) En) as (lb & _ & Hn & _). exact Hn.
    - apply IH. intros y Hy. apply Hk. right. exact Hy.
  Qed.

  Theorem stencil_calls : bg_struct out' = bg_struct out /\ good_bag out' lo /\
    has_value out' x (fold_left (fun v st => f v (vals (asg_of st))) (filter (fun st => agrees (map fst lo) x (asg_of st)) sched) v).
  Proof.
    destruct Hv as (st0 & Hn0 & E0). destruct (loop_calls f (reads_near ins) lo sched out out' x st0 v Hout Hnb out_named El Hx Hn0 E0) as (A & B & C).
    split; [exact A|]. split; [exact B|]. exists st0. split; [rewrite A; exact Hn0|]. rewrite C. f_equal. apply fold_same. intros w st Hst.
    apply filter_In in Hst. destruct Hst as [Hst _]. rewrite (near_call_values st Hst). reflexivity.
  Qed.

  Lemma near_same y z : in_box lens y -> inside_spans l y = true -> (forall d, In d (map fst lens) -> z d = y d) -> vals z = vals y.
  Proof.
    intros Hy Hi He. apply (near_once ins (inside_spans l) lens y z _ _ Hins Hy Hi He (Hvals y Hy Hi)). apply Hvals.
    - intros d n Hd. rewrite He by (eapply in_fst; eauto). apply (Hy d n Hd).
    - rewrite (inside_same l y z); [exact Hi|]. intros d Hd. apply He, Hincl, Hd.
  Qed.

  Theorem stencil_result : any_order f ->
    has_value out' x (fold_left (fun v is => f v (vals (idx lens is)))
      (filter (fun is => inside_spans l (idx lens is) && agrees (map fst lo) x (idx lens is)) (all_indices lens)) v).
  Proof.
    intros Hf. destruct stencil_calls as (_ & _ & H). pose proof (inner_box ss l q lens calls Hl Hnd Hincl E) as Hp.
    replace (fold_left (fun v is => f v (vals (idx lens is))) (filter (fun is => inside_spans l (idx lens is) && agrees (map fst lo) x (idx lens is)) (all_indices lens)) v)
      with (fold_left (fun v st => f v (vals (asg_of st))) (filter (fun st => agrees (map fst lo) x (asg_of st)) sched) v); [exact H|].
    rewrite (fold_mapped (fun v is => f v (vals (idx lens is))) (key lens) (fun is => agrees (map fst lo) x (idx lens is))).
    - replace (filter (fun is => inside_spans l (idx lens is) && agrees (map fst lo) x (idx lens is)) (all_indices lens))
        with (filter (fun is => agrees (map fst lo) x (idx lens is)) (filter (fun is => inside_spans l (idx lens is)) (all_indices lens))).
      + apply fold_perm; [intros w a b; apply Hf|]. apply filter_perm. rewrite <- Hp. apply Permutation_map, Permutation_sym, Hs.
      + generalize (all_indices lens). intros k. induction k as [|a k IH]; [reflexivity|]. cbn [filter]. destruct (inside_spans l (idx lens a)); cbn [filter andb]; rewrite IH; reflexivity.
    - intros r Hr. unfold agrees. apply forallb_same. intros d Hd. unfold key. rewrite idx_of; [reflexivity|].
      destruct (fst_in _ _ Hd) as [n Hn]. destruct (Hlo d n Hn) as (m & Hm & _). eapply in_fst; eauto.
    - intros w r Hr. f_equal. unfold key. symmetry. apply near_same; [apply (Hfacts r Hr)|exact (Hinside r Hr)|]. intros d Hd. apply idx_of, Hd.
  Qed.
End StencilResult.

Lemma filter_empty {A} (P : A -> bool) l : (forall x, In x l -> P x = false) -> filter P l = [].
Proof. induction l as [|x l IH]; intros H; [reflexivity|]. cbn [filter]. rewrite (H x) by (left; reflexivity). apply IH. intros y Hy. apply H. right. exact Hy. Qed.

Section StencilPoint.
  Variables (f : bytes -> list bytes -> bytes) (ins : list bag_near) (out out' : bag) (ss : list struct) (l : list (dim * (val * val))) (q : proto).
  Variables (lens : list (dim * Z)) (calls sched : list state).
  Let t := order (order (traverser ss) (p_spans l)) q.
  Hypothesis Hl : inner_loops ss (p_spans l) q lens.
  Hypothesis Hnd : NoDup (map fst l).
  Hypothesis Hincl : incl (map fst l) (map fst lens).
  Hypothesis Hins : near_bags ins (inside_spans l) lens.
  Hypothesis Hout : good_bag out lens.
  Hypothesis E : for_each t [] = Done calls.
  Hypothesis Hs : Permutation calls sched.
  Hypothesis Hnb : nobcast (bg_struct out) = true.
  Hypothesis El : stencil_loop f ins out sched = Done out'.
  Variables (vals : asg -> list bytes) (x : asg) (v : bytes).
  Hypothesis Hvals : forall y, in_box lens y -> inside_spans l y = true -> near_values ins y (vals y).
  Hypothesis Hx : in_box lens x.
  Hypothesis Hv : has_value out x v.

  Theorem stencil_pointwise : has_value out' x (if inside_spans l x then f v (vals x) else v).
  Proof.
    assert (Hlo : within_lengths lens lens) by (intros d n Hd; exists n; split; [exact Hd|lia]).
    destruct (stencil_calls f ins out out' ss l q lens lens calls sched Hl Hnd Hincl Hins Hout Hlo E Hs Hnb El vals x v Hvals Hx Hv) as (_ & _ & H).
    pose proof (inner_box ss l q lens calls Hl Hnd Hincl E) as P0.
    assert (P : Permutation (map (key lens) sched) (filter (fun is => inside_spans l (idx lens is)) (all_indices lens))) by (rewrite <- P0; apply Permutation_map, Permutation_sym, Hs).
    pose proof (inner_once ss l q lens calls Hl E) as Nk0. assert (Nk : NoDup (map (key lens) sched)) by (apply (Permutation_NoDup (Permutation_map _ Hs) Nk0)).
    assert (Hkey : forall r', agrees (map fst lens) x (asg_of r') = true <-> key lens r' = map x (map fst lens)).
    { intros r'. rewrite agrees_all. unfold key. split; [intros Ha; apply map_ext_in, Ha|]. intros Em d Hd. clear - Em Hd. induction (map fst lens) as [|c m IH]; [destruct Hd|].
      cbn [map] in Em. injection Em as E1 E2. destruct Hd as [<-|Hd]; auto. }
    destruct (inside_spans l x) eqn:Ei.
    - assert (Hr : exists r, In r sched /\ key lens r = map x (map fst lens)).
      { assert (Hk : In (map x (map fst lens)) (filter (fun is => inside_spans l (idx lens is)) (all_indices lens))).
        { apply filter_In. split; [apply box_in, Hx|]. rewrite (inside_same l x); [exact Ei|]. intros d Hd. apply idx_of, Hincl, Hd. }
        apply (Permutation_in _ (Permutation_sym P)) in Hk. apply in_map_iff in Hk. destruct Hk as (r & Er & Hr). eauto. }
      destruct Hr as (r & Hr & Er).
      rewrite (filter_one _ sched r) in H.
      + cbn [fold_left] in H. replace (vals x) with (vals (asg_of r)); [exact H|].
        apply (near_same ins l lens Hincl Hins vals Hvals x); [exact Hx|exact Ei|]. apply agrees_all, Hkey, Er.
      + clear - Nk. revert Nk. generalize (key lens). intros g. induction sched as [|a m IH]; intros Nk; [constructor|]. cbn [map] in Nk. inversion Nk as [|? ? N1 N2]; subst.
        constructor; [intros Hin; apply N1, in_map, Hin|auto].
      + exact Hr.
      + intros r' Hr'. rewrite Hkey, <- Er. split; [|intros ->; reflexivity]. intros Ek. clear - Nk Hr Hr' Ek. revert Nk Ek. generalize (key lens). intros g Nk Ek. induction sched as [|a m IH]; [destruct Hr|].
        cbn [map] in Nk. inversion Nk as [|? ? N1 N2]; subst. destruct Hr as [->|Hr], Hr' as [->|Hr']; [reflexivity| | |auto].
        * exfalso. apply N1. rewrite <- Ek. apply in_map, Hr'.
        * exfalso. apply N1. rewrite Ek. apply in_map, Hr.
    - rewrite filter_empty in H; [exact H|]. intros r Hr. destruct (agrees (map fst lens) x (asg_of r)) eqn:Ea; [|reflexivity]. exfalso.
      pose proof (inner_in ss l q lens calls Hl Hnd Hincl E r (Permutation_in _ (Permutation_sym Hs) Hr)) as Hi.
      rewrite (inside_same l x) in Hi; [congruence|]. intros d Hd. apply (proj1 (agrees_all _ _ _) Ea d), Hincl, Hd.
  Qed.
End StencilPoint.

(** ** Margins *)

Lemma inner_all m lens x : inner_part m lens x = true <-> forall d b n, In (d, b) m -> In (d, n) lens -> vzd b <= x d < n - vzd b.
Proof.
  unfold inner_part. rewrite forallb_forall. split.
  - intros H d b n Hm Hn. specialize (H _ Hm). rewrite forallb_forall in H. specialize (H _ Hn). cbn [fst snd] in H. lia.
  - intros H [d b] Hm. apply forallb_forall. intros [d' n] Hn. cbn [fst snd]. destruct (Z.eqb_spec d' d) as [->|]; [|reflexivity]. cbn [negb orb]. specialize (H d b n Hm Hn). lia.
Qed.

Lemma fst_unique {A} (l : list (dim * A)) d x y : NoDup (map fst l) -> In (d, x) l -> In (d, y) l -> x = y.
Proof.
  induction l as [|[c z] l IH]; intros Hn Hx Hy; [destruct Hx|]. inversion Hn as [|? ? H1 H2]; subst. destruct Hx as [Hx|Hx], Hy as [Hy|Hy]; [congruence| | |auto].
  - injection Hx as -> ->. exfalso. apply H1. eapply in_fst; eauto.
  - injection Hy as -> ->. exfalso. apply H1. eapply in_fst; eauto.
Qed.

Lemma near_inner ins m lens : near_margins ins m lens -> near_bags ins (inner_part m lens) lens.
Proof.
  intros H b ds Hb. destruct (H b ds Hb) as ((Hn & Hwi) & lb & Hg & Hi). split; [exact Hn|]. split; [intros d z Hd; destruct (Hwi d z Hd) as (off & w & _ & -> & _); discriminate|].
  exists lb. split; [exact Hg|]. split; [intros d Hd; destruct (fst_in _ _ Hd) as [n Hdn]; eapply in_fst; apply Hi, Hdn|].
  intros x Hx Hin d n Hdn. pose proof (Hx d n (Hi _ Hdn)) as Hr. destruct (in_dec Z.eq_dec d (map fst ds)) as [Hdd|Hdd]; [|rewrite moved_out by exact Hdd; exact Hr].
  destruct (fst_in _ _ Hdd) as [y Hy]. rewrite (moved_in ds x d y Hn Hy). destruct (Hwi d y Hy) as (off & z & Hm & Vy & Hz). rewrite (vzd_vz _ _ Vy).
  pose proof (proj1 (inner_all m lens x) Hin d off n Hm (Hi _ Hdn)) as Hb'. destruct Hg as ((_ & _ & Hlen) & _). destruct (Hlen d n Hdn) as (len & _ & Vl). pose proof (vz_range _ _ Vl). pose proof W_pow.
  rewrite signed_small by lia. lia.
Qed.

Section Margins.
  Variables (ss : list struct) (s : struct) (m : list (dim * val)) (p : proto) (lens : list (dim * Z)).
  Hypothesis Hs : In s ss.
  Hypothesis Hc : cubes ss lens.
  Hypothesis Hm : forall d, In d (map fst m) -> has_dim s d.
  Hypothesis Hnm : NoDup (map fst m).
  Hypothesis Hp : p_symmetric_spans m s [] = Some p.
  Hypothesis Hv : forall d b, In (d, b) m -> vz b <> None.

  Lemma margins_spans : exists l, p = p_spans l /\ map fst l = map fst m /\ incl (map fst l) (map fst lens) /\
    forall x, in_box lens x -> inside_spans l x = inner_part m lens x.
  Proof.
    destruct (symmetric_layers m s p Hp) as (l & Ep & Ef & H1 & H2). exists l. split; [exact Ep|]. split; [exact Ef|].
    destruct Hc as (Hnd & Hcs & _). destruct (Hcs s Hs) as (ls & (_ & Hds & Hlen) & Hi).
    assert (Hlens : forall d, In d (map fst m) -> exists n len, In (d, n) lens /\ length_ s d [] = Some len /\ vz len = Some n).
    { intros d Hd. apply Hm, Hds in Hd. destruct (fst_in _ _ Hd) as [n Hn]. destruct (Hlen d n Hn) as (len & El & Vl). exists n, len. auto. }
    split; [intros d Hd; rewrite Ef in Hd; destruct (Hlens d Hd) as (n & _ & Hn & _); eapply in_fst; eauto|].
    assert (Hend : forall d b e, In (d, (b, e)) l -> In (d, b) m /\ exists n, In (d, n) lens /\ vzd e = u64 (n - vzd b) /\ 0 <= n < W /\ 0 <= vzd b < W).
    { intros d b e Hin. assert (Hd : In d (map fst m)) by (rewrite <- Ef; eapply in_fst; eauto). destruct (fst_in _ _ Hd) as [b' Hb'].
      destruct (Hlens d Hd) as (n & len & Hn & El & Vl). destruct (H2 d b e Hin) as (len' & El' & ->). assert (len' = len) by congruence. subst len'.
      assert (Hbm : In (d, b) m).
      { destruct (H1 d b' Hb') as (e' & He'). assert (Hu : (b', e') = (b, dyn2 Z.sub len b)); [|injection Hu as <- _; exact Hb'].
        apply (fst_unique l d); [rewrite Ef; exact Hnm|exact He'|exact Hin]. }
      split; [exact Hbm|]. exists n. split; [exact Hn|]. pose proof (Hv d b Hbm) as Hvb. pose proof (vz_range _ _ Vl). destruct (vz b) as [zb|] eqn:Eb; [|congruence].
      split; [|split; [assumption|apply vzd_range]]. unfold vzd at 1, dyn2. rewrite Vl, Eb. cbn [vz]. rewrite (vzd_vz _ _ Eb). unfold u64. apply Zmod_mod. }
    intros x Hx. apply eq_true_iff_eq. rewrite inside_all, inner_all. split.
    - intros H d b n Hb Hn. destruct (H1 d b Hb) as (e & He). destruct (Hend d b e He) as (_ & n' & Hn' & Ee & Hr & Hrb). assert (n' = n) by (eapply (in_fst_unique lens d); eauto). subst n'.
      specialize (H d b e He). rewrite Ee in H. specialize (Hx d n Hn). unfold u64 in H. rewrite Z.mod_small in H by lia. exact H.
    - intros H d b e He. destruct (Hend d b e He) as (Hb & n & Hn & Ee & Hr & Hrb). rewrite Ee. specialize (H d b n Hb Hn). unfold u64. rewrite Z.mod_small by lia. exact H.
  Qed.
End Margins.

Lemma near_bags_same ins f g lens : (forall x, in_box lens x -> f x = g x) -> near_bags ins f lens -> near_bags ins g lens.
Proof.
  intros He H b ds Hb. destruct (H b ds Hb) as (H1 & H2 & lb & H3 & H4 & H5). split; [exact H1|]. split; [exact H2|]. exists lb. split; [exact H3|]. split; [exact H4|].
  intros x Hx Hg. apply H5; [exact Hx|]. rewrite He by exact Hx. exact Hg.
Qed.

Section Symmetric.
  Variables (f : bytes -> list bytes -> bytes) (ins : list bag_near) (out : bag) (ss : list struct) (s : struct) (m : list (dim * val)) (p q : proto).
  Variables (lens : list (dim * Z)) (calls sched : list state).
  Let t := order (order (traverser ss) p) q.
  Hypothesis Hs : In s ss.
  Hypothesis Hm : margins s m.
  Hypothesis Hp : p_symmetric_spans m s [] = Some p.
  Hypothesis Hl : inner_loops ss p q lens.
  Hypothesis E : for_each t [] = Done calls.

  Let Hspans : exists l, p = p_spans l /\ map fst l = map fst m /\ incl (map fst l) (map fst lens) /\ forall x, in_box lens x -> inside_spans l x = inner_part m lens x.
  Proof. destruct Hm as (H1 & H2). apply (margins_spans ss s m p lens Hs); [apply Hl|intros d Hd; destruct (fst_in _ _ Hd) as [b Hb]; apply (H2 d b Hb)|exact H1|exact Hp|]. intros d b Hd. apply (H2 d b Hd). Qed.

  Theorem symmetric_calls : Permutation (map (fun st => map (asg_of st) (map fst lens)) calls) (filter (fun is => inner_part m lens (idx lens is)) (all_indices lens)).
  Proof.
    destruct Hspans as (l & -> & Ef & Hincl & He). assert (Hnd : NoDup (map fst l)) by (rewrite Ef; apply Hm).
    rewrite <- (filter_ext_in (fun is => inside_spans l (idx lens is)) (fun is => inner_part m lens (idx lens is)) (all_indices lens)); [exact (inner_box ss l q lens calls Hl Hnd Hincl E)|].
    intros is His. apply He. assert (Hc : cubes ss lens) by apply Hl. exact (proj1 (box_idx lens is (proj1 Hc) His)).
  Qed.

  Hypothesis Hins : near_margins ins m lens.
  Hypothesis Hs' : Permutation calls sched.
  Hypothesis Hout : good_bag out lens.

  Theorem symmetric_result :
    stencil_loop f ins out sched <> Undefined /\
    forall out', nobcast (bg_struct out) = true -> stencil_loop f ins out sched = Done out' ->
    forall vals x v, (forall y, in_box lens y -> inner_part m lens y = true -> near_values ins y (vals y)) -> in_box lens x -> has_value out x v ->
      has_value out' x (if inner_part m lens x then f v (vals x) else v).
  Proof.
    destruct Hspans as (l & -> & Ef & Hincl & He). assert (Hnd : NoDup (map fst l)) by (rewrite Ef; apply Hm).
    assert (Hlo : within_lengths lens lens) by (intros d n Hd; exists n; split; [exact Hd|lia]).
    assert (Hb : near_bags ins (inside_spans l) lens). { apply (near_bags_same ins (inner_part m lens)); [intros x Hx; symmetry; apply He, Hx|apply near_inner, Hins]. }
    split; [exact (stencil_defined f ins out ss l q lens lens calls sched Hl Hnd Hincl Hb Hout Hlo E Hs')|].
    intros out' Hnb El vals x v Hvals Hx Hv. rewrite <- (He x Hx).
    apply (stencil_pointwise f ins out out' ss l q lens calls sched Hl Hnd Hincl Hb Hout E Hs' Hnb El vals x v); [|exact Hx|exact Hv].
    intros y Hy Hi. apply Hvals; [exact Hy|]. rewrite <- He by exact Hy. exact Hi.
  Qed.
End Symmetric.

(** ** Weighted sums of the elements around *)

Lemma weigh_values w (offs : list (Z * Z * Z)) (g : Z * Z * Z -> Z) v :
  weigh w (map snd offs) v (map (fun o => uint w (g o)) offs) = uint w (add_up (map (fun o => snd o * g o) offs)).
Proof.
  unfold weigh, uint. apply le_bytes_mod. set (M := 256 ^ Z.of_nat w). induction offs as [|o offs IH]; [reflexivity|]. cbn [map combine add_up fold_right fst snd]. unfold add_up in IH.
  rewrite Zplus_mod, IH, <- Zplus_mod. rewrite le_value_bytes. fold M. rewrite <- (Zplus_mod_idemp_l (snd o * (g o mod M))), Zmult_mod_idemp_r, Zplus_mod_idemp_l. reflexivity.
Qed.

Section Convolution.
  Variables (w : nat) (a b b' : bag) (ss : list struct) (s : struct) (p q : proto) (i j : dim) (ni nj : Z) (mi mj : val) (offs : list (Z * Z * Z)) (A B : Z -> Z -> Z) (calls sched : list state).
  Let lens := [(i, ni); (j, nj)].
  Let m := [(i, mi); (j, mj)].
  Hypothesis Hs : In s ss.
  Hypothesis Hm : margins s m.
  Hypothesis Hp : p_symmetric_spans m s [] = Some p.
  Hypothesis Hl : inner_loops ss p q lens.
  Hypothesis Hoffs : forall dy dz c, In (dy, dz, c) offs -> Z.abs dy <= vzd mi /\ Z.abs dz <= vzd mj.
  Hypothesis Ha : good_bag a lens.
  Hypothesis Hb : good_bag b lens.
  Hypothesis Hnb : nobcast (bg_struct b) = true.
  Hypothesis E : for_each (order (order (traverser ss) p) q) [] = Done calls.
  Hypothesis Hsch : Permutation calls sched.
  Hypothesis El : stencil_loop (weigh w (map snd offs)) (around a i j (map fst offs)) b sched = Done b'.
  Hypothesis Va : forall y z, 0 <= y < ni -> 0 <= z < nj -> has_value a (at_ij i j y z) (uint w (A y z)).
  Hypothesis Vb : forall y z, 0 <= y < ni -> 0 <= z < nj -> has_value b (at_ij i j y z) (uint w (B y z)).

  Let Hij : i <> j.
  Proof. destruct Hm as [Hn _]. cbn [m map fst] in Hn. inversion Hn as [|? ? N1 _]; subst. intros ->. apply N1. left. reflexivity. Qed.
  Let Hji : (j =? i) = false.
  Proof. apply Z.eqb_neq. congruence. Qed.

  Let near : near_margins (around a i j (map fst offs)) m lens.
  Proof.
    intros b0 ds Hin. unfold around in Hin. rewrite map_map in Hin. apply in_map_iff in Hin. destruct Hin as ([[dy dz] c] & Eb & Ho). cbn [fst snd] in Eb. injection Eb as <- <-.
    destruct (Hoffs dy dz c Ho) as [H1 H2]. split; [split|exists lens; split; [exact Ha|apply incl_refl]].
    - cbn [map fst]. constructor; [intros [X|[]]; congruence|]. constructor; [intros []|constructor].
    - intros d x [X|[X|[]]]; injection X as <- <-; [exists mi, dy|exists mj, dz]; (split; [cbn; tauto|split; [reflexivity|assumption]]).
  Qed.

  Lemma inner_ij x : inner_part m lens x = (vzd mi <=? x i) && (x i <? ni - vzd mi) && ((vzd mj <=? x j) && (x j <? nj - vzd mj)).
  Proof.
    unfold inner_part, m, lens. cbn [forallb fst snd]. rewrite !Z.eqb_refl, Hji, (Z.eqb_sym i j), Hji. cbn [negb orb]. rewrite !andb_true_r. reflexivity.
  Qed.

  Theorem convolution y z : 0 <= y < ni -> 0 <= z < nj ->
    has_value b' (at_ij i j y z) (uint w (if (vzd mi <=? y) && (y <? ni - vzd mi) && ((vzd mj <=? z) && (z <? nj - vzd mj))
      then add_up (map (fun o => snd o * A (y + fst (fst o)) (z + snd (fst o))) offs) else B y z)).
  Proof.
    intros Hy Hz. set (vals := fun x : asg => map (fun o : Z * Z * Z => uint w (A (x i + fst (fst o)) (x j + snd (fst o)))) offs).
    destruct (symmetric_result (weigh w (map snd offs)) (around a i j (map fst offs)) b ss s m p q lens calls sched Hs Hm Hp Hl E near Hsch Hb) as [_ H].
    assert (Hx : in_box lens (at_ij i j y z)). { intros d n [X|[X|[]]]; injection X as <- <-; unfold at_ij; rewrite Z.eqb_refl; [exact Hy|]. rewrite Hji. exact Hz. }
    assert (Hv : forall x, in_box lens x -> inner_part m lens x = true -> near_values (around a i j (map fst offs)) x (vals x)).
    { intros x Hbx Hix. rewrite inner_ij in Hix. assert (Hrg : 0 <= ni < W /\ 0 <= nj < W).
      { destruct Ha as ((_ & _ & Hlen) & _). destruct (Hlen i ni (or_introl eq_refl)) as (li & _ & Vi). destruct (Hlen j nj (or_intror (or_introl eq_refl))) as (lj & _ & Vj).
        split; eapply vz_range; eauto. }
      pose proof W_pow as HW. pose proof (vzd_range mi). pose proof (vzd_range mj). unfold around, vals, near_values. rewrite map_map.
      assert (Hk : incl offs offs) by apply incl_refl. revert Hk. generalize offs at 1 3 4. intros k Hk. induction k as [|[[dy dz] c] k IH]; [constructor|]. cbn [map fst snd]. constructor; [|apply IH; intros o Ho; apply Hk; right; exact Ho].
      cbn [fst snd]. destruct (Hoffs dy dz c (Hk _ (or_introl eq_refl))) as [Hdy Hdz].
      destruct (Va (x i + dy) (x j + dz)) as (st & Hn & Er); [lia|lia|]. exists st. split; [|exact Er]. eapply named_same; [|exact Hn]. intros d Hd. apply (proj1 (proj2 (proj1 Ha))) in Hd.
      assert (Hnd : NoDup (map fst [(i, Dyn dy); (j, Dyn dz)])). { constructor; [intros [X|[]]; cbn in X; congruence|]. constructor; [intros []|constructor]. }
      destruct Hd as [<-|[<-|[]]]; cbn [fst].
      - rewrite (moved_in [(i, Dyn dy); (j, Dyn dz)] x i (Dyn dy) Hnd) by (left; reflexivity). unfold at_ij. rewrite Z.eqb_refl. unfold vzd. cbn [vz]. rewrite signed_small by lia. reflexivity.
      - rewrite (moved_in [(i, Dyn dy); (j, Dyn dz)] x j (Dyn dz) Hnd) by (right; left; reflexivity). unfold at_ij. rewrite Z.eqb_refl, Hji. unfold vzd. cbn [vz]. rewrite signed_small by lia. reflexivity. }
    specialize (H b' Hnb El vals (at_ij i j y z) (uint w (B y z)) Hv Hx (Vb y z Hy Hz)). rewrite inner_ij in H. unfold vals in H. unfold at_ij at 2 3 4 5 6 7 in H. rewrite !Z.eqb_refl, !Hji in H.
    rewrite weigh_values in H. match type of H with has_value _ _ (if ?c then _ else _) => destruct c; exact H end.
  Qed.
End Convolution.
