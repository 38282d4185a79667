(** * Loops over bags in threads: proofs *)

From Verif Require Import SpecPlanElem SpecThreadKernel.
From Verif Require Import PlanSec PlanRangeFacts.
From Verif Require Export RaceFacts RaceOrder ParFacts ParThms SectionKernelFacts PlanElemThms StripedKernelFacts.
From Verif Require Import SpecPlanElem SpecThreadKernel.

Lemma gives_end ths b r (P : bag -> Prop) : always_ends_in ths b r -> P r -> always_gives ths b P.
Proof. intros H HP ths' b' Hs. destruct (H ths' b' Hs) as [A B]. split; [exact A|]. intros F. rewrite (B F). exact HP. Qed.

(** ** Elements with different indices *)
Lemma refs_apart b lo x y st st' r r' : good_bag b lo -> nobcast (bg_struct b) = true -> in_box lo x -> in_box lo y -> named (bg_struct b) x st -> named (bg_struct b) y st' ->
  (exists d, In d (map fst lo) /\ x d <> y d) -> bag_ref b st = Done r -> bag_ref b st' = Done r' ->
  0 <= fst r /\ 0 <= snd r /\ fst r + snd r <= Z.of_nat (length (bg_data b)) /\ (fst r + snd r <= fst r' \/ fst r' + snd r' <= fst r).
Proof.
  intros Hg Hnb Hx Hy Hn Hn' (d & Hd & Hne) E E'.
  destruct (ref_named b lo Hg x st Hx Hn) as [X|(c & Lc & X & G0 & G1 & G2)]; [congruence|]. rewrite X in E. injection E as <-.
  destruct (ref_named b lo Hg y st' Hy Hn') as [Y|(c' & Lc' & Y & G0' & G1' & G2')]; [congruence|]. rewrite Y in E'. injection E' as <-. cbn [fst snd].
  split; [exact G0|]. split; [exact G1|]. split; [exact G2|].
  destruct (good_parts b lo Hg) as (sg & Es & Hwf & Hlk & Hgd & Hsz & _). destruct Hg as (Hc & _ & _).
  destruct (named_valid _ lo x st sg Hc Hlk Es Hx Hn) as (V1 & _ & _ & X1). destruct (named_valid _ lo y st' sg Hc Hlk Es Hy Hn') as (V2 & _ & _ & X2).
  destruct (int_no_alias _ nolens _ _ sg _ _ Hwf Hnb lrange_nolens (Hgd _) (Hgd _) V1 V2) as [[_ H]|(ca & cb & Ha & Hb & H)].
  - exfalso. apply Hne. destruct (cube_sig _ _ Hc) as (sg' & Es' & _ & Hds). assert (sg' = sg) by congruence. subst sg'. apply Hds in Hd.
    rewrite <- (X1 d Hd), <- (X2 d Hd). apply H. rewrite flat_fst. exact Hd.
  - assert (ca = c) by congruence. assert (cb = c') by congruence. subst. lia.
Qed.

(** ** Parts that own their elements *)
Section Owners.
  Context {A : Type}.
  Variables (b : bag) (lo : list (dim * Z)) (at_ : A -> asg -> Prop) (body : A -> prog).
  Hypothesis Hg : good_bag b lo.
  Hypothesis Hnb : nobcast (bg_struct b) = true.

  Definition of_item (a : A) (st : state) : Prop := exists x, at_ a x /\ in_box lo x /\ named (bg_struct b) x st.

  Theorem owners us ths result :
    ForallOrdPairs (fun a a' => forall x x', at_ a x -> at_ a' x' -> exists d, In d (map fst lo) /\ x d <> x' d) us ->
    (forall a, In a us -> touches_only (of_item a) (body a)) -> Permutation (concat ths) us ->
    run_all (map body us) b = Done result -> always_ends_in (map (map body) ths) b result.
  Proof.
    intros Hown Ht P Hrun. set (f := fun a : A => (body a, bytes_of b (of_item a))).
    replace (map (map body) ths) with (map (map fst) (map (map f) ths)) by (rewrite map_map; apply map_ext; intros x; rewrite map_map; apply map_ext; reflexivity).
    apply (threads_deterministic b (map f us)).
    - apply pairs_map. revert Hown. apply pairs_impl. intros a a' _ _ Hne z (u & o & n & (x & Hax & Hx & Hn) & Er & Hz) (u' & o' & n' & (x' & Hax' & Hx' & Hn') & Er' & Hz').
      destruct (Hne x x' Hax Hax') as (d & Hd & Hdd).
      destruct (refs_apart b lo x x' u u' _ _ Hg Hnb Hx Hx' Hn Hn' (ex_intro _ d (conj Hd Hdd)) Er Er') as (H1 & H2 & _ & H3). cbn [fst snd] in *.
      destruct (refs_apart b lo x' x u' u _ _ Hg Hnb Hx' Hx Hn' Hn (ex_intro _ d (conj Hd (fun E => Hdd (eq_sym E)))) Er' Er) as (H1' & H2' & _ & _). cbn [fst snd] in *. lia.
    - intros y Hy. apply in_map_iff in Hy. destruct Hy as (a & <- & Hin). cbn [fst snd f]. unfold within.
      eapply touches_mono; [|apply (Ht a Hin)]. cbv beta. intros u (x & Hax & Hx & Hn) o n Er.
      destruct (ref_named b lo Hg x u Hx Hn) as [X|(c & Lc & X & G0 & G1 & G2)]; [congruence|]. rewrite X in Er. injection Er as <- <-.
      repeat (split; [assumption|]). intros z Hz. exists u, (ioff (bg_struct b) nolens (asg_of u)), (ct_size c). split; [|split; [exact X|exact Hz]]. exists x. auto.
    - rewrite <- concat_map. apply Permutation_map. exact P.
    - rewrite map_map. exact Hrun.
  Qed.
End Owners.

(** ** Loops *)
Lemma body_run f ins sts : forall b r, loop f ins b sts = Done r -> run_all (map (call_body f ins) sts) b = Done r.
Proof.
  unfold loop. induction sts as [|st sts IH]; intros b r E; cbn [loop_with map run_all] in *; [exact E|].
  destruct (update_with f (reads ins) b st) as [| |b1] eqn:Eu; try discriminate. cbn [out_bind] in E. unfold update_with in Eu.
  destruct (bag_read b st) as [| |v] eqn:Ev; try discriminate. cbn [out_bind] in Eu. destruct (reads ins st) as [| |xs] eqn:Ex; try discriminate. cbn [out_bind] in Eu.
  assert (Er : run (call_body f ins st) b = Done b1) by (unfold call_body; rewrite Ex; cbn [run]; rewrite Ev; cbn [out_bind]; rewrite Eu; reflexivity).
  rewrite Er. cbn [out_bind]. apply IH, E.
Qed.

Lemma call_touches f ins st (P : state -> Prop) : P st -> touches_only P (call_body f ins st).
Proof. intros H. unfold call_body. destruct (reads ins st); cbn [touches_only]; auto. Qed.

Lemma same_asg st st' : same_get st st' -> forall d, asg_of st' d = asg_of st d.
Proof. intros H d. unfold asg_of. rewrite (proj1 (H d)). reflexivity. Qed.

Theorem loop_threads f ins out out' ss p lens lo calls works ths : loops documented ss p lens -> good_bag out lo -> within_lengths lens lo -> nobcast (bg_struct out) = true ->
  for_each (order (traverser ss) p) [] = Done calls -> make_calls works calls -> own_elements lo works -> Permutation (concat ths) works ->
  loop f ins out (concat works) = Done out' -> always_ends_in (map (map (part_body f ins)) ths) out out'.
Proof.
  intros (H1 & H2 & H3 & H4 & H5) Hg Hl Hnb E (sched & P & G) Hown Pt Hrun.
  apply (owners out lo (fun w x => exists st, In st w /\ x = asg_of st) (part_body f ins) Hg Hnb works ths out').
  - revert Hown. apply pairs_impl. intros w w' _ _ H x x' (st & Hst & ->) (st' & Hst' & ->). apply H; assumption.
  - intros w Hw. apply touches_in_turn. apply Forall_map. apply Forall_forall. intros st Hst. apply call_touches. exists (asg_of st). split; [exists st; auto|].
    assert (Hin : In st (concat works)) by (apply in_concat; exists w; auto). destruct (Forall2_In_r _ _ _ _ G Hin) as (st0 & H0 & Hs).
    apply (Permutation_in _ (Permutation_sym P)) in H0.
    destruct (call_named ss p lens calls H1 H2 H3 H4 E (fun r => H5 calls r E) (bg_struct out) lo st0 (proj1 Hg) Hl H0) as [A B]. split.
    + intros q n Hq. rewrite (same_asg _ _ Hs). apply B, Hq.
    + apply (named_same _ (asg_of st0)); [intros d _; apply same_asg, Hs|]. eapply named_get; [exact Hs|exact A].
  - exact Pt.
  - apply body_run in Hrun. rewrite concat_map, <- run_all_in_turn, map_map in Hrun. exact Hrun.
Qed.

(** The formula of the loop. *)
Theorem threads_reduction f ins out out' ss p lo lr calls works ths : any_order f -> loops rearranges ss p (lo ++ lr) -> good_bags ins (lo ++ lr) -> good_bag out lo -> nobcast (bg_struct out) = true ->
  for_each (order (traverser ss) p) [] = Done calls -> make_calls works calls -> own_elements lo works -> Permutation (concat ths) works ->
  loop f ins out (concat works) = Done out' ->
  always_gives (map (map (part_body f ins)) ths) out (fun b => forall vals x v, (forall y, in_box (lo ++ lr) y -> have_values ins y (vals y)) -> in_box lo x -> has_value out x v ->
    has_value b x (fold_left (fun v js => f v (vals (along lr js x))) (all_indices lr) v)).
Proof.
  intros Hf Hl Hi Hg Hnb E Hm Hown Pt Hrun. apply (gives_end _ _ out').
  - apply (loop_threads f ins out out' ss p (lo ++ lr) lo calls works ths); try assumption; [apply loops_documented, Hl|].
    intros q n Hq. exists n. split; [apply in_or_app; left; exact Hq|lia].
  - destruct Hm as (sched & P & G). rewrite <- (loop_same f ins sched (concat works)) in Hrun.
    + exact (kernel_reduce f ins out out' ss p lo lr calls sched Hl Hi Hg Hnb Hf E P Hrun).
    + intros b Hb. destruct (Hi b Hb) as (l & Hgb & _). destruct (cube_sig _ _ (proj1 Hgb)) as (sg & -> & _). discriminate.
    + exact G.
    + destruct (cube_sig _ _ (proj1 Hg)) as (sg & -> & _). discriminate.
Qed.

Lemma over_respected u s l : over documented u s l -> over respected u s l.
Proof. induction 1 as [l Hl|v t l [_ Hd] Ho IH]; constructor; auto. Qed.

(** Calls on slices that do not overlap have different indices, in the dimension from which the outermost one comes. *)
Lemma slices_differ ss p lens r b1 e1 b2 e2 w1 w2 st1 st2 d v1 v2 x1 x2 : let t := order (traverser ss) p in loops documented ss p lens ->
  range_of t = Done r -> source (top_struct t) (rg_dim r) = Some d -> 0 <= b1 <= e1 -> e1 <= b2 -> b2 <= e2 -> e2 <= rg_end r ->
  rg_for_each (rg_set r b1 e1) = Done w1 -> rg_for_each (rg_set r b2 e2) = Done w2 -> In st1 w1 -> In st2 w2 ->
  get (Idx d) st1 = Some v1 -> get (Idx d) st2 = Some v2 -> vz v1 = Some x1 -> vz v2 = Some x2 -> x1 <> x2.
Proof.
  intros t (_ & Hwf & Hlk & Ho & _) Hr Hk Hb1 Hb2 He2 He W1 W2 Hin1 Hin2 G1 G2 V1 V2 Ex. pose proof (order_not_view ss p) as Hx. fold t in Hx, Hwf, Hlk, Ho.
  assert (Hd : distinct_dims (top_struct t)).
  { apply uswf_distinct; [exact Hwf|]. intros E. unfold range_of, top_dim in Hr. rewrite E in Hr. discriminate. }
  assert (Ho' : over respected (tr_struct t) (top_struct t) nolens) by (apply over_respected; unfold t; exact Ho).
  destruct (range_inv t r Hd Hr) as (_ & _ & _ & n & _ & _ & _ & _ & Hn & Er). assert (Ee : rg_end r = n) by (rewrite Er; reflexivity).
  destruct (piece_element t r b1 e1 w1 st1 Hx Hd Hlk Hr ltac:(lia) ltac:(lia) W1 Hin1) as (f1 & k1 & sg1 & q1 & (s1 & S1 & Q1) & K1 & R1 & Va1 & A1 & N1 & M1).
  destruct (piece_element t r b2 e2 w2 st2 Hx Hd Hlk Hr ltac:(lia) ltac:(lia) W2 Hin2) as (f2 & k2 & sg2 & q2 & (s2 & S2 & Q2) & K2 & R2 & Va2 & A2 & N2 & M2).
  assert (sg2 = sg1) by (destruct Va1 as (X & _), Va2 as (Y & _); congruence). subst sg2.
  assert (Hlr : lrange nolens) by (intros z x Hdx; discriminate).
  destruct (chain_source (tr_struct t) (top_struct t) nolens Hx Ho' _ _ _ _ _ _ _ Hwf Hlk Hlr Va1 Va2 Hk N1 N2) as (c1 & c2 & C1 & C2 & Hc).
  specialize (C1 f1 s1 A1 S1). specialize (C2 f2 s2 A2 S2).
  destruct (Q1 d) as [Q1' _]. destruct (Q2 d) as [Q2' _]. rewrite G1 in Q1'. rewrite G2 in Q2'.
  pose proof (ag_idx _ _ _ C1 _ _ Q1') as X1. pose proof (ag_idx _ _ _ C2 _ _ Q2') as X2. unfold vagree in X1, X2. rewrite V1 in X1. rewrite V2 in X2.
  assert (Hc' : asg_of f1 (rg_dim r) = asg_of f2 (rg_dim r)) by (apply Hc; congruence). unfold asg_of in Hc'. rewrite K1, K2 in Hc'. unfold vzd in Hc'. cbn [vz] in Hc'. rewrite !u64_small in Hc' by lia. lia.
Qed.

(** The pieces of a split range own their elements, if the output has the dimension from which the outermost one comes. *)
Theorem pieces_own ss p lens lo calls r tr works d : let t := order (traverser ss) p in loops documented ss p lens -> for_each t [] = Done calls ->
  range_of t = Done r -> source (top_struct t) (rg_dim r) = Some d -> In d (map fst lo) -> within_lengths lens lo ->
  Forall2 (fun piece w => rg_for_each piece = Done w) (pieces tr r) works ->
  make_calls works calls /\ own_elements lo works.
Proof.
  intros t Hl E Hr Hk Hin Hlo Hw. assert (Hd : distinct_dims (top_struct t)) by (apply uswf_distinct; [exact (proj1 (proj2 Hl))|eapply for_each_signature; exact E]).
  assert (Hm : Forall2 same_get calls (concat works)).
  { destruct (range_inv t r Hd Hr) as (al & sgr & len & n & _ & _ & _ & _ & Hn0 & Er0).
    assert (Er : rg_set r 0 (rg_end r) = r) by (rewrite Er0; reflexivity).
    assert (Hb : 0 <= 0 <= rg_end r) by (rewrite Er0; cbn [rg_end]; lia).
    destruct (split_calls ss p r tr 0 (rg_end r) calls Hd Hr E) as (lm & _ & (ls & F & Fl) & Hlm); [lia|lia|]. specialize (Hlm eq_refl eq_refl). rewrite Er in F.
    assert (El : ls = works).
    { clear - F Hw. revert ls F. induction Hw as [|piece w ps ws H F2 IH]; intros ls F; inversion F as [|? ? ? ? A B]; subst; [reflexivity|]. f_equal; [|apply IH; assumption].
      unfold rg_for_each in H. congruence. }
    subst ls. clear - Fl Hlm. revert Fl. generalize (concat works). induction Hlm as [|x y l l' Hx Hl IH]; intros m Fl; inversion Fl as [|? z ? m' Hy Hm]; subst; constructor; [|apply IH; assumption].
    intros q. destruct (Hx q), (Hy q). split; congruence. }
  split; [exists calls; split; [apply Permutation_refl|exact Hm]|].
  apply pairs_nth. intros i j w w' Hij Hi Hj st st' Hst Hst'. exists d. split; [exact Hin|].
  destruct (fst_in _ _ Hin) as [n Hn]. destruct (Hlo _ _ Hn) as (m & Hm' & _).
  assert (Hf : forall st w k, nth_error works k = Some w -> In st w -> exists v, get (Idx d) st = Some v /\ vz v = Some (asg_of st d)).
  { clear i j w w' Hij Hi Hj st st' Hst Hst'. intros st w k Hk' Hst. assert (Hc : In st (concat works)) by (apply in_concat; exists w; split; [eapply nth_error_In; exact Hk'|exact Hst]).
    destruct (Forall2_In_r _ _ _ _ Hm Hc) as (st0 & H0 & Hs). destruct Hl as (H1 & H2 & H3 & H4 & H5).
    destruct (call_facts ss p lens calls H1 H2 H3 H4 E (fun r => H5 calls r E) st0 H0) as (_ & Hx & _). destruct (Hx d) as (v & Gv & Vv); [eapply in_fst; exact Hm'|].
    exists v. rewrite <- (proj1 (Hs d)), (same_asg _ _ Hs). auto. }
  destruct (Hf st w i Hi Hst) as (v & Gv & Vv). destruct (Hf st' w' j Hj Hst') as (v' & Gv' & Vv').
  destruct (range_inv t r Hd Hr) as (al & sgr & len & m' & _ & _ & _ & _ & Hm0 & Er0). assert (Hb : rg_begin r = 0) by (rewrite Er0; reflexivity). assert (He : rg_end r = m') by (rewrite Er0; reflexivity).
  destruct (split_follows tr r) as [F G]; try lia. rewrite Hb in F.
  assert (Hnth : forall k w, nth_error works k = Some w -> exists x, nth_error (pieces tr r) k = Some x /\ rg_for_each x = Done w).
  { clear -Hw. induction Hw as [|x w xs ws H _ IH]; intros [|k] w' E; try discriminate; [injection E as <-; exists x; auto|]. exact (IH k w' E). }
  destruct (Hnth i w Hi) as (p1 & P1 & W1). destruct (Hnth j w' Hj) as (p2 & P2 & W2).
  pose proof (G p1 (nth_error_In _ _ P1)) as E1. pose proof (G p2 (nth_error_In _ _ P2)) as E2.
  pose proof (follows_bounds _ _ _ _ F (nth_error_In _ _ P1)) as B1. pose proof (follows_bounds _ _ _ _ F (nth_error_In _ _ P2)) as B2.
  rewrite E1 in W1. rewrite E2 in W2. pose proof (follows_apart _ _ _ _ _ _ _ F P1 P2 Hij) as Ha.
  exact (slices_differ ss p lens r (rg_begin p1) (rg_end p1) (rg_begin p2) (rg_end p2) w w' st st' d v v' _ _ Hl Hr Hk ltac:(lia) ltac:(lia) ltac:(lia) ltac:(lia) W1 W2 Hst Hst' Gv Gv' Vv Vv').
Qed.

(** One iteration makes the calls of the slice of one index. *)
Lemma iteration_slice t r calls k w : (forall v u, tr_struct t <> View v u) -> distinct_dims (top_struct t) -> for_each t [] = Done calls -> range_of t = Done r ->
  0 <= k < rg_end r -> for_each (rg_nth r k) [] = Done w -> exists lm, rg_for_each (rg_set r k (k + 1)) = Done lm /\ Forall2 same_get lm w.
Proof.
  intros Hx Hd E Hr Hk Hw. destruct (range_inv t r Hd Hr) as (_ & _ & _ & n & _ & _ & _ & _ & Hn & Er). assert (Ee : rg_end r = n) by (rewrite Er; reflexivity).
  destruct (elements_calls t r k (k + 1) calls Hx Hd Hr E) as (lm & Hlm & ls & F & Fl); [lia|lia|]. exists lm. split; [exact Hlm|].
  assert (Es : rg_size (rg_set r k (k + 1)) = 1) by (unfold rg_size; cbn [rg_set rg_end rg_begin]; replace (k + 1 - k) with 1 by lia; reflexivity).
  rewrite Es in F. assert (En : rg_nth (rg_set r k (k + 1)) 0 = rg_nth r k).
  { unfold rg_nth. cbn [rg_set rg_trav rg_dim rg_begin]. rewrite Er. cbn [rg_trav rg_dim rg_begin]. rewrite Z.add_0_r, Z.add_0_l. reflexivity. }
  change (zseq 1) with [0] in F. cbn [map] in F. rewrite En in F. inversion F as [|? l1 ? ls1 A B]; subst. inversion B; subst. rewrite Hw in A. injection A as <-. cbn [concat] in Fl. rewrite app_nil_r in Fl. exact Fl.
Qed.

(** So do the iterations of the outermost dimension. *)
Theorem iterations_own ss p lens lo calls r works d : let t := order (traverser ss) p in loops documented ss p lens -> for_each t [] = Done calls ->
  range_of t = Done r -> source (top_struct t) (rg_dim r) = Some d -> In d (map fst lo) -> within_lengths lens lo ->
  Forall2 (fun i w => for_each (rg_nth r i) [] = Done w) (zseq (rg_size r)) works ->
  make_calls works calls /\ own_elements lo works.
Proof.
  intros t Hl E Hr Hk Hin Hlo Hw. assert (Hd : distinct_dims (top_struct t)) by (apply uswf_distinct; [exact (proj1 (proj2 Hl))|eapply for_each_signature; exact E]). pose proof (order_not_view ss p) as Hx. fold t in Hx.
  destruct (range_inv t r Hd Hr) as (al & sgr & len & n & _ & _ & _ & _ & Hn0 & Er0).
  assert (Er : rg_set r 0 (rg_end r) = r) by (rewrite Er0; reflexivity). assert (Ee : rg_end r = n) by (rewrite Er0; reflexivity).
  assert (Es : rg_size r = n) by (rewrite Er0; unfold rg_size; cbn [rg_end rg_begin]; rewrite Z.sub_0_r; apply u64_small, Hn0).
  assert (Hm : Forall2 same_get calls (concat works)).
  { destruct (elements_calls t r 0 (rg_end r) calls Hx Hd Hr E) as (lm & Hlm & ls & F & Fl); [lia|lia|].
    destruct (split_calls ss p r Keep 0 (rg_end r) calls Hd Hr E) as (lm' & Hlm' & _ & Hc); [lia|lia|]. specialize (Hc eq_refl eq_refl).
    rewrite Er in *. assert (lm' = lm) by congruence. subst lm'.
    assert (El : ls = works).
    { clear - F Hw. revert ls F. induction Hw as [|i w is ws H F2 IH]; intros ls F; inversion F as [|? ? ? ? A B]; subst; [reflexivity|]. f_equal; [congruence|apply IH; assumption]. }
    subst ls. clear - Fl Hc. revert Fl. generalize (concat works). induction Hc as [|x y l l' Hx Hl IH]; intros m Fl; inversion Fl as [|? z ? m' Hy Hm]; subst; constructor; [|apply IH; assumption].
    intros q. destruct (Hx q), (Hy q). split; congruence. }
  split; [exists calls; split; [apply Permutation_refl|exact Hm]|].
  assert (Hnth : forall i w, nth_error works i = Some w -> 0 <= Z.of_nat i < n /\ for_each (rg_nth r (Z.of_nat i)) [] = Done w).
  { intros i w Hi. assert (Hli : (i < length works)%nat) by (apply nth_error_Some; congruence). pose proof (Forall2_len _ _ _ Hw) as Hlen. rewrite Es in *.
    destruct (nth_error (zseq n) i) as [z|] eqn:Ez; [|apply nth_error_None in Ez; lia].
    assert (Hz : z = Z.of_nat i /\ Z.of_nat i < n).
    { unfold zseq in Ez. rewrite nth_error_map in Ez. destruct (nth_error (seq 0 (Z.to_nat n)) i) as [q|] eqn:Eq; [|discriminate]. injection Ez as <-.
      assert (Hq : (i < length (seq 0 (Z.to_nat n)))%nat) by (apply nth_error_Some; congruence). rewrite seq_length in Hq. apply nth_error_nth with (d := O) in Eq. rewrite seq_nth in Eq by exact Hq. lia. }
    destruct Hz as [-> Hz]. split; [lia|]. clear - Hw Ez Hi. revert Ez Hi. generalize (Z.of_nat i) as z. revert i. induction Hw as [|z0 w0 zs ws H _ IH]; intros [|i] z Ez Hi; try discriminate;
      [injection Ez as <-; injection Hi as <-; exact H|exact (IH i z Ez Hi)]. }
  apply pairs_nth. intros i j w w' Hij Hi Hj st st' Hst Hst'. exists d. split; [exact Hin|].
  destruct (fst_in _ _ Hin) as [m0 Hn]. destruct (Hlo _ _ Hn) as (m & Hm' & _).
  assert (Hf : forall st w k, nth_error works k = Some w -> In st w -> exists v, get (Idx d) st = Some v /\ vz v = Some (asg_of st d)).
  { clear i j w w' Hij Hi Hj st st' Hst Hst'. intros st w k Hk' Hst. assert (Hc : In st (concat works)) by (apply in_concat; exists w; split; [eapply nth_error_In; exact Hk'|exact Hst]).
    destruct (Forall2_In_r _ _ _ _ Hm Hc) as (st0 & H0 & Hs). destruct Hl as (H1 & H2 & H3 & H4 & H5).
    destruct (call_facts ss p lens calls H1 H2 H3 H4 E (fun r => H5 calls r E) st0 H0) as (_ & Hy & _). destruct (Hy d) as (v & Gv & Vv); [eapply in_fst; exact Hm'|].
    exists v. rewrite <- (proj1 (Hs d)), (same_asg _ _ Hs). auto. }
  destruct (Hf st w i Hi Hst) as (v & Gv & Vv). destruct (Hf st' w' j Hj Hst') as (v' & Gv' & Vv').
  destruct (Hnth i w Hi) as [Bi Wi]. destruct (Hnth j w' Hj) as [Bj Wj].
  destruct (iteration_slice t r calls (Z.of_nat i) w Hx Hd E Hr ltac:(lia) Wi) as (l1 & L1 & M1). destruct (iteration_slice t r calls (Z.of_nat j) w' Hx Hd E Hr ltac:(lia) Wj) as (l2 & L2 & M2).
  destruct (Forall2_In_r _ _ _ _ M1 Hst) as (s1 & S1 & Q1). destruct (Forall2_In_r _ _ _ _ M2 Hst') as (s2 & S2 & Q2).
  rewrite <- (proj1 (Q1 d)) in Gv. rewrite <- (proj1 (Q2 d)) in Gv'.
  exact (slices_differ ss p lens r (Z.of_nat i) (Z.of_nat i + 1) (Z.of_nat j) (Z.of_nat j + 1) l1 l2 s1 s2 d v v' _ _ Hl Hr Hk ltac:(lia) ltac:(lia) ltac:(lia) ltac:(lia) L1 L2 S1 S2 Gv Gv' Vv Vv').
Qed.

(** Planners run in parallel are such iterations. *)
Theorem planners_own ss o lens lo all f p secs q n ps evss x d : let t := order (traverser ss) o in loops documented ss o lens -> plans ss o -> for_each t [] = Done all ->
  pl_for_each (plan ss) f = Some p -> add_sections p secs = Some q -> inner_planners (pl_order q o) = Done ps -> Forall2 (fun x evs => execute_all n x = Done evs) ps evss ->
  top_dim (top_struct t) = Some x -> source (top_struct t) x = Some d -> In d (map fst lo) -> within_lengths lens lo ->
  make_calls (map elem_states evss) all /\ own_elements lo (map elem_states evss).
Proof.
  intros t Hl Hpl E Hp Hq Hps Fe Htop Hk Hin Hlo. pose proof (proj1 (proj2 Hl)) as Hw. fold t in Hw.
  assert (Et : pl_trav (pl_order q o) = t) by (cbn [pl_order pl_trav]; rewrite (add_sections_trav _ _ _ Hq), (p_trav ss f p Hp); reflexivity).
  pose proof (inner_distinct ss o all Hw E) as Hd. fold t in Hd.
  destruct (inner_planners_inv _ _ Hps) as (r & Er & Hn & Etr & Eb & Eps); [rewrite Et; exact Hd|]. rewrite Et in Er, Etr.
  assert (Hdim : top_dim (top_struct t) = Some (rg_dim r)).
  { destruct (range_inv t r Hd Er) as (al & sgr & len & m & Hs & _). unfold top_dim. rewrite Hs. reflexivity. }
  assert (x = rg_dim r) by congruence. subst x.
  apply (iterations_own ss o lens lo all r _ d); try assumption. fold t.
  assert (Es : rg_size r = rg_end r) by (unfold rg_size; rewrite Eb, Z.sub_0_r; apply u64_small; lia). rewrite Es.
  destruct (inner_each ss o all Hw E r Er) as (ls & F & _). subst ps.
  assert (Hk' : forall k, In k (zseq (rg_end r)) -> 0 <= k < W) by (intros k Hk'; apply Lib.zseq_In in Hk'; lia).
  revert F evss Fe. generalize ls. revert Hk'. generalize (zseq (rg_end r)) as ks. induction ks as [|k ks IH]; intros Hk' xs F evss Fe; cbn [map] in Fe; inversion Fe as [|? evs ? evss' A B]; subst; [constructor|].
  inversion F as [|? x ? xs' C D]; subst. cbn [map]. constructor; [|apply (IH (fun z Hz => Hk' z (or_intror Hz)) xs' D evss' B)].
  unfold rg_nth. rewrite Etr, Eb, Z.add_0_l, u64_small by (apply Hk'; left; reflexivity). unfold t. rewrite order_twice. rewrite C. f_equal.
  unfold elem_states. rewrite pl_order_order in A. rewrite (plan_calls ss _ f p secs q n evs x (fix_over ss o Hpl _ _) (fix_uswf ss o all Hw E _ _) Hp Hq C A), pairs_states. reflexivity.
Qed.

(** ** Sections *)
Lemma section_run f init ins us : forall b r, store_sections f init ins b us = Done r -> run_all (map (section_body f init ins) us) b = Done r.
Proof.
  induction us as [|u us IH]; intros b r E; cbn [store_sections map run_all] in *; [exact E|].
  destruct (store_section f init ins b u) as [| |b1] eqn:Eu; try discriminate. cbn [out_bind] in E. unfold store_section in Eu.
  destruct (tr_state u) as [st|] eqn:Es; [|discriminate]. destruct (bag_read b st) as [| |v] eqn:Ev; try discriminate. cbn [out_bind] in Eu.
  destruct (for_each u []) as [| |sts] eqn:Ef; try discriminate. cbn [out_bind] in Eu. destruct (accumulate f ins (init v) sts) as [| |w] eqn:Ew; try discriminate. cbn [out_bind] in Eu.
  assert (Er : run (section_body f init ins u) b = Done b1) by (unfold section_body; rewrite Es, Ef; cbn [run]; rewrite Ev; cbn [out_bind]; rewrite Ew; cbn [run]; rewrite Eu; reflexivity).
  rewrite Er. cbn [out_bind]. apply IH, E.
Qed.

Lemma section_touches f init ins u (P : state -> Prop) : (forall st, tr_state u = Some st -> P st) -> touches_only P (section_body f init ins u).
Proof.
  intros H. unfold section_body. destruct (tr_state u) as [st|]; [|exact I]. specialize (H st eq_refl). destruct (for_each u []) as [| |sts]; cbn [touches_only]; [exact I|exact I|].
  split; [exact H|]. intros v. destruct (accumulate f ins (init v) sts); cbn [touches_only]; auto.
Qed.

Lemma pairs_split {A} (R : A -> A -> Prop) l : (forall l1 x l2 y l3, l = l1 ++ x :: l2 ++ y :: l3 -> R x y) -> ForallOrdPairs R l.
Proof.
  induction l as [|x l IH]; intros H; constructor.
  - apply Forall_forall. intros y Hy. apply in_split in Hy. destruct Hy as (l2 & l3 & ->). apply (H [] x l2 y l3). reflexivity.
  - apply IH. intros l1 y l2 z l3 ->. apply (H (x :: l1) y l2 z l3). reflexivity.
Qed.

Theorem section_threads f init ins out out' lo us ths : good_bag out lo -> nobcast (bg_struct out) = true -> one_section_each out lo us -> Permutation (concat ths) us ->
  store_sections f init ins out us = Done out' -> always_ends_in (map (map (section_body f init ins)) ths) out out'.
Proof.
  intros Hg Hnb [H1 H2] P Hrun. pose proof (proj1 Hg) as Hc.
  apply (owners out lo (section_at out) (section_body f init ins) Hg Hnb us ths out').
  - apply pairs_split. intros l1 u l2 u' l3 -> x x' Hx Hx'. destruct (differ_or lo x' x) as [D|Hs]; [exact D|]. exfalso.
    apply (H2 l1 u (l2 ++ u' :: l3) u' x eq_refl); [apply in_or_app; right; apply in_or_app; right; left; reflexivity|exact Hx|].
    destruct Hx' as (st & Es & Hn). exists st. split; [exact Es|]. eapply named_same; [|exact Hn]. intros d Hd. apply Hs. apply (proj1 (proj2 Hc)), Hd.
  - intros u Hu. destruct (H1 u Hu) as (x & Hx & st & Es & Hn). apply section_touches. intros st' Es'. assert (st' = st) by congruence. subst st'. exists x. split; [exists st; auto|auto].
  - exact P.
  - apply section_run, Hrun.
Qed.

Theorem threads_sections f init ins out out' ss p lo lr us ths : any_order f -> loops rearranges ss p (lo ++ lr) -> good_bags ins (lo ++ lr) -> good_bag out lo ->
  nobcast (bg_struct out) = true -> (exists calls, for_each (order (traverser ss) p) [] = Done calls) -> cut_into (order (traverser ss) p) us ->
  one_section_each out lo us -> Permutation (concat ths) us -> store_sections f init ins out us = Done out' ->
  always_gives (map (map (section_body f init ins)) ths) out (fun b => forall vals x v u, (forall y, in_box (lo ++ lr) y -> have_values ins y (vals y)) -> in_box lo x -> has_value out x v ->
    In u us -> section_at out u x -> has_value b x (fold_left (fun v js => f v (vals (along lr js x))) (all_indices lr) (init v))).
Proof.
  intros Hf Hl Hi Hg Hnb Hc Hcut Hone P Hrun. apply (gives_end _ _ out').
  - exact (section_threads f init ins out out' lo us ths Hg Hnb Hone P Hrun).
  - intros vals x v u Hv Hx H0 Hu Hat.
    exact (proj2 (proj2 (sections_store f init ins out out' ss p lo lr us us Hl Hi Hg Hc Hcut (Permutation_refl _) Hone Hnb Hrun Hf vals x v Hv Hx H0 u Hu Hat))).
Qed.
