(** * What a loop over bags computes: proofs *)

From Coq Require Import Permutation.
From Verif Require Import SpecKernel.
From Verif Require Export Select BagFacts UnionTrav Contig.

(** ** Cubes *)

Lemma cube_sig s ls : cube s ls -> exists sg, signature s = Some sg /\ GoodFacts.plain sg = true /\ forall q, In q (sdims sg) <-> In q (map fst ls).
Proof.
  intros (Hn & Hd & _). unfold nodep in Hn. destruct (signature s) as [sg|] eqn:E; [|discriminate]. exists sg. split; [reflexivity|]. split; [exact Hn|].
  intros q. rewrite <- Hd. unfold has_dim. rewrite E. symmetry. apply accept_sdims.
Qed.

Lemma agree_empty a : agree [] nolens a.
Proof. split; [intros d; exact I|intros d v H; discriminate]. Qed.

Lemma cube_ilen s ls q n a : cube s ls -> lenok s nolens -> In (q, n) ls -> ilen s nolens a q = n.
Proof.
  intros Hc Hlk Hin. destruct (cube_sig _ _ Hc) as (sg & Es & _). destruct Hc as (_ & _ & Hl). destruct (Hl q n Hin) as (len & El & En).
  pose proof (length_agree s ltac:(congruence) [] nolens a q len Hlk (agree_empty a) El) as Hv. unfold vagree in Hv. rewrite En in Hv. symmetry. exact Hv.
Qed.

Definition flat (sg : sig) : path := map (fun d => (d, @None Z)) (sdims sg).
Lemma flat_fst sg : map fst (flat sg) = sdims sg.
Proof. unfold flat. rewrite map_map, map_id. reflexivity. Qed.

Lemma named_at s x st : named s x st -> forall d, has_dim s d -> asg_of st d = x d.
Proof. intros [_ H] d Hd. destruct (H d Hd) as (i & Ei & Ex). unfold asg_of. rewrite Ei. apply vzd_vz, Ex. Qed.

Lemma named_valid s ls x st sg : cube s ls -> lenok s nolens -> signature s = Some sg -> in_box ls x -> named s x st ->
  pvalid s nolens (asg_of st) sg (flat sg) /\ pdef (flat sg) st /\ agree st nolens (asg_of st) /\ forall d, In d (sdims sg) -> asg_of st d = x d.
Proof.
  intros Hc Hlk Es Hi Hn. destruct (cube_sig _ _ Hc) as (sg' & Es' & Hp & Hd). assert (sg' = sg) by congruence. subst sg'.
  assert (Hx : forall d, In d (sdims sg) -> asg_of st d = x d).
  { intros d Hin. apply (named_at s x st Hn). unfold has_dim. rewrite Es. apply accept_sdims, Hin. }
  split; [|split; [|split; [|exact Hx]]].
  - split; [exact Es|]. split; [apply plain_path, Hp|]. apply Forall_forall. intros e He. unfold flat in He. apply in_map_iff in He. destruct He as (d & <- & Hin).
    unfold in_range. cbn [fst snd]. rewrite (Hx d Hin). pose proof (proj1 (Hd d) Hin) as Hl. destruct (fst_in _ _ Hl) as [n Hn']. rewrite (cube_ilen s ls d n _ Hc Hlk Hn').
    apply (Hi d n Hn').
  - intros d w Hin Hw. rewrite flat_fst in Hin. destruct Hn as [_ Hn]. destruct (Hn d) as (i & Ei & Ex); [unfold has_dim; rewrite Es; apply accept_sdims, Hin|]. unfold dz. congruence.
  - destruct (agree_of st) as [A1 A2]. split; [|exact A2]. intros d. rewrite (proj1 Hn d). exact I.
Qed.

(** ** Elements of bags *)

Section Elements.
  Variables (b : bag) (ls : list (dim * Z)).
  Let s := bg_struct b.
  Hypothesis Hg : good_bag b ls.

  Lemma good_parts : exists sg, signature s = Some sg /\ swf s = true /\ lenok s nolens /\ (forall a, good s nolens a) /\ isize s nolens < W /\
    isize s nolens <= Z.of_nat (List.length (bg_data b)).
  Proof.
    destruct Hg as (Hc & Hs & He). destruct (cube_sig _ _ Hc) as (sg & Es & _). exists sg. destruct (Hs) as (H1 & H2 & H3 & H4).
    split; [exact Es|]. repeat (split; [assumption|]). apply enough_isize; [exact Hs|rewrite Es; discriminate|exact He].
  Qed.

  Lemma ref_named x st : in_box ls x -> named s x st ->
    bag_ref b st = Rejected \/ exists c, leaf s nolens (asg_of st) = Some c /\ bag_ref b st = Done (ioff s nolens (asg_of st), ct_size c) /\
      0 <= ioff s nolens (asg_of st) /\ 0 <= ct_size c /\ ioff s nolens (asg_of st) + ct_size c <= Z.of_nat (List.length (bg_data b)).
  Proof.
    intros Hi Hn. destruct good_parts as (sg & Es & Hw & Hlk & Hgd & Hsz & Hdata). destruct Hg as (Hc & _ & _). fold s in Hc.
    destruct (named_valid s ls x st sg Hc Hlk Es Hi Hn) as (V & Hp & Ha & _).
    unfold bag_ref. fold s. destruct (scalar_t s st) as [c|] eqn:Ec; [|auto]. destruct (offset s st) as [o|] eqn:Eo; [|auto]. right.
    assert (Hld : lendef st) by (intros d w Hd; rewrite (proj1 Hn d) in Hd; discriminate).
    unfold offset in Eo. rewrite Ec in Eo. cbn [obind] in Eo.
    destruct (offset_spec s Hw st _ _ sg _ c (Sta 0) 0 o V Hlk lrange_nolens (Hgd _) Ha Hld Hp eq_refl Eo) as [El Ho].
    destruct (int_in_bounds s _ _ sg _ Hw lrange_nolens (Hgd _) V) as (c' & El' & H1 & H2 & H3). assert (c' = c) by congruence. subst c'.
    rewrite Z.add_0_l, u64_small in Ho by lia. exists c. split; [exact El|]. rewrite Ho.
    destruct (Z.leb_spec (ioff s nolens (asg_of st) + ct_size c) (Z.of_nat (List.length (bg_data b)))); [|lia]. repeat (split; [first [reflexivity|lia]|]). lia.
  Qed.

  (** Two states with the same indices. *)
  Lemma same_place x st st' : in_box ls x -> named s x st -> named s x st' ->
    ioff s nolens (asg_of st') = ioff s nolens (asg_of st) /\ leaf s nolens (asg_of st') = leaf s nolens (asg_of st).
  Proof.
    intros Hi H1 H2. destruct good_parts as (sg & Es & Hw & Hlk & _). destruct Hg as (Hc & _ & _). fold s in Hc.
    destruct (named_valid s ls x st sg Hc Hlk Es Hi H1) as (V & _ & _ & X1). destruct (named_valid s ls x st' sg Hc Hlk Es Hi H2) as (_ & _ & _ & X2).
    pose proof V as (_ & Ep & _).
    assert (He : forall d, In d (map fst (flat sg)) -> asg_of st' d = asg_of st d) by (intros d; rewrite flat_fst; intros Hd; rewrite X1, X2 by exact Hd; reflexivity).
    split; [eapply ioff_local; eauto; apply swf_uswf, Hw|eapply leaf_local; eauto; apply swf_uswf, Hw].
  Qed.

  Lemma same_ref x st st' r r' : in_box ls x -> named s x st -> named s x st' -> bag_ref b st = Done r -> bag_ref b st' = Done r' -> r' = r.
  Proof.
    intros Hi H1 H2 E1 E2. destruct (same_place x st st' Hi H1 H2) as [A B].
    destruct (ref_named x st Hi H1) as [X|(c & L & X & _)]; [congruence|]. destruct (ref_named x st' Hi H2) as [Y|(c' & L' & Y & _)]; [congruence|].
    assert (c' = c) by congruence. subst c'. rewrite A in Y. congruence.
  Qed.

  Lemma read_done st v : bag_read b st = Done v -> exists r, bag_ref b st = Done r /\ v = window (bg_data b) (fst r) (snd r).
  Proof. unfold bag_read. destruct (bag_ref b st) as [| |r]; try discriminate. cbn [out_map]. intros E. injection E as <-. exists r. auto. Qed.

  Lemma same_read x st st' v v' : in_box ls x -> named s x st -> named s x st' -> bag_read b st = Done v -> bag_read b st' = Done v' -> v' = v.
  Proof.
    intros Hi H1 H2 E1 E2. destruct (read_done _ _ E1) as (r & R1 & ->). destruct (read_done _ _ E2) as (r' & R2 & ->).
    rewrite (same_ref x st st' r r' Hi H1 H2 R1 R2). reflexivity.
  Qed.

  Theorem value_once x v v' : in_box ls x -> has_value b x v -> has_value b x v' -> v' = v.
  Proof. intros Hi (st & H1 & E1) (st' & H2 & E2). exact (same_read x st st' v v' Hi H1 H2 E1 E2). Qed.

  Lemma read_defined x st : in_box ls x -> named s x st -> bag_read b st <> Undefined.
  Proof. intros Hi Hn. unfold bag_read. destruct (ref_named x st Hi Hn) as [->|(c & _ & -> & _)]; discriminate. Qed.
  Lemma write_defined x st v : in_box ls x -> named s x st -> bag_write b st v <> Undefined.
  Proof.
    intros Hi Hn. unfold bag_write. destruct (ref_named x st Hi Hn) as [->|(c & _ & -> & _)]; destruct (bg_policy b); cbn [out_bind]; try discriminate;
      destruct (_ =? _); discriminate.
  Qed.

  (** Writing. *)
  Lemma write_effect x st v b' : in_box ls x -> named s x st -> bag_write b st v = Done b' ->
    bg_struct b' = s /\ List.length (bg_data b') = List.length (bg_data b) /\
    (forall st0 v0, named s x st0 -> bag_read b st0 = Done v0 -> bag_read b' st0 = Done v) /\
    (nobcast s = true -> forall y st0, in_box ls y -> named s y st0 -> (exists d, has_dim s d /\ y d <> x d) -> bag_read b' st0 = bag_read b st0).
  Proof.
    intros Hi Hn Hw. destruct (write_inv _ _ _ _ Hw) as (z & Er & _ & Hb').
    destruct (ref_named x st Hi Hn) as [E|(c & Lc & E & H0 & H1 & H2)]; [congruence|]. rewrite E in Er. injection Er as Ez Elen. rewrite Elen in *.
    assert (Hl : List.length (bg_data b') = List.length (bg_data b)). { rewrite Hb'. cbn [bg_data]. rewrite <- Ez, <- (Z2Nat.id (ioff s nolens (asg_of st))) by lia. apply patch_length. lia. }
    assert (Hst : bg_struct b' = bg_struct b) by (rewrite Hb'; reflexivity).
    split; [exact Hst|]. split; [exact Hl|]. split.
    - intros st0 v0 Hn0 E0. destruct (read_done _ _ E0) as (r & R0 & _). pose proof (same_ref x st st0 _ r Hi Hn Hn0 E R0) as ->.
      unfold bag_read. rewrite (ref_size b b' st0 Hst Hl), R0. cbn [out_map fst snd]. f_equal. rewrite Hb'. cbn [bg_data]. rewrite <- Ez. apply window_patch_same; assumption.
    - intros Hnb y st0 Hy Hn0 (d & Hd & Hne). unfold bag_read. rewrite (ref_size b b' st0 Hst Hl). destruct (ref_named y st0 Hy Hn0) as [->|(c0 & L0 & -> & G0 & G1 & G2)]; [reflexivity|].
      cbn [out_map fst snd]. f_equal. rewrite Hb'. cbn [bg_data]. rewrite <- Ez. apply window_patch_other; try assumption.
      destruct good_parts as (sg & Es & Hwf & Hlk & Hgd & Hsz & _). destruct Hg as (Hc & _ & _). fold s in Hc.
      destruct (named_valid s ls x st sg Hc Hlk Es Hi Hn) as (V1 & _ & _ & X1). destruct (named_valid s ls y st0 sg Hc Hlk Es Hy Hn0) as (V2 & _ & _ & X2).
      destruct (int_no_alias s nolens _ _ sg _ _ Hwf Hnb lrange_nolens (Hgd _) (Hgd _) V1 V2) as [[_ H]|(ca & cb & Ha & Hb & H)].
      + exfalso. apply Hne. unfold has_dim in Hd. rewrite Es in Hd. apply accept_sdims in Hd. rewrite <- (X1 d Hd), <- (X2 d Hd). symmetry. apply H. rewrite flat_fst. exact Hd.
      + assert (ca = c) by congruence. assert (cb = c0) by congruence. subst. lia.
  Qed.

  Lemma write_good st v b' : bag_write b st v = Done b' -> List.length (bg_data b') = List.length (bg_data b) -> good_bag b' ls.
  Proof.
    intros Hw Hl. destruct (write_inv _ _ _ _ Hw) as (z & _ & _ & Hb'). assert (Hst : bg_struct b' = bg_struct b) by (rewrite Hb'; reflexivity).
    destruct Hg as (Hc & Hs & v0 & n & E1 & E2 & E3). split; [rewrite Hst; exact Hc|]. split; [rewrite Hst; exact Hs|]. exists v0, n. rewrite Hst, Hl. auto.
  Qed.
End Elements.

(** ** Loops *)

Lemma agrees_all ds x y : agrees ds x y = true <-> forall d, In d ds -> y d = x d.
Proof. unfold agrees. rewrite forallb_forall. split; intros H d Hd; specialize (H d Hd); lia. Qed.

Section Loop.
  Variables (f : bytes -> list bytes -> bytes) (rd : state -> outcome (list bytes)).
  Definition values (st : state) : list bytes := match rd st with Done xs => xs | _ => [] end.

  Lemma loop_calls lo sts : forall out out' x st0 v, good_bag out lo -> nobcast (bg_struct out) = true ->
    (forall st, In st sts -> named (bg_struct out) (asg_of st) st /\ in_box lo (asg_of st)) ->
    loop_with f rd out sts = Done out' -> in_box lo x -> named (bg_struct out) x st0 -> bag_read out st0 = Done v ->
    bg_struct out' = bg_struct out /\ good_bag out' lo /\
    bag_read out' st0 = Done (fold_left (fun v st => f v (values st)) (filter (fun st => agrees (map fst lo) x (asg_of st)) sts) v).
  Proof.
    induction sts as [|st sts IH]; intros out out' x st0 v Hg Hnb Hst El Hx Hn0 E0.
    - cbn in El. injection El as <-. auto.
    - cbn [loop_with] in El. destruct (update_with f rd out st) as [| |o1] eqn:Eu; try discriminate. cbn [out_bind] in El.
      destruct (Hst st (or_introl eq_refl)) as [Hn Hi]. unfold update_with in Eu.
      destruct (bag_read out st) as [| |w] eqn:Ew; try discriminate. cbn [out_bind] in Eu. destruct (rd st) as [| |xs] eqn:Exs; try discriminate. cbn [out_bind] in Eu.
      destruct (write_effect out lo Hg (asg_of st) st _ o1 Hi Hn Eu) as (S1 & L1 & R1 & O1). pose proof (write_good out lo Hg st _ o1 Eu L1) as G1.
      assert (Hrest : forall st', In st' sts -> named (bg_struct o1) (asg_of st') st' /\ in_box lo (asg_of st')) by (intros st' Hin; rewrite S1; apply Hst; right; exact Hin).
      assert (Hnb1 : nobcast (bg_struct o1) = true) by (rewrite S1; exact Hnb). assert (Hn1 : named (bg_struct o1) x st0) by (rewrite S1; exact Hn0).
      assert (Hds : forall d, has_dim (bg_struct out) d <-> In d (map fst lo)) by apply Hg.
      cbn [filter]. destruct (agrees (map fst lo) x (asg_of st)) eqn:Ea.
      + pose proof (proj1 (agrees_all _ _ _) Ea) as Ha.
        assert (Hn' : named (bg_struct out) (asg_of st) st0).
        { split; [apply Hn0|]. intros d Hd. rewrite Ha by (apply Hds, Hd). apply Hn0, Hd. }
        assert (w = v) by (eapply (same_read out lo Hg (asg_of st) st0 st); eauto). subst w.
        pose proof (R1 st0 v Hn' E0) as E1. destruct (IH o1 out' x st0 _ G1 Hnb1 Hrest El Hx Hn1 E1) as (A & B & C).
        split; [congruence|]. split; [exact B|]. cbn [fold_left]. unfold values at 2. rewrite Exs. exact C.
      + assert (E1 : bag_read o1 st0 = Done v).
        { rewrite (O1 Hnb x st0 Hx Hn0); [exact E0|]. destruct (existsb (fun d => negb (asg_of st d =? x d)) (map fst lo)) eqn:Ex.
          - apply existsb_exists in Ex. destruct Ex as (d & Hd & Hne). exists d. split; [apply Hds, Hd|lia].
          - exfalso. assert (Hall : agrees (map fst lo) x (asg_of st) = true); [|congruence]. apply agrees_all. intros d Hd.
            destruct (Z.eq_dec (asg_of st d) (x d)); [assumption|]. assert (Hf : existsb (fun d => negb (asg_of st d =? x d)) (map fst lo) = true); [|congruence].
            apply existsb_exists. exists d. split; [exact Hd|lia]. }
        destruct (IH o1 out' x st0 _ G1 Hnb1 Hrest El Hx Hn1 E1) as (A & B & C). split; [congruence|]. split; [exact B|exact C].
  Qed.

  Lemma loop_defined lo sts : forall out, good_bag out lo ->
    (forall st, In st sts -> named (bg_struct out) (asg_of st) st /\ in_box lo (asg_of st)) ->
    (forall st, In st sts -> rd st <> Undefined) ->
    loop_with f rd out sts <> Undefined.
  Proof.
    induction sts as [|st sts IH]; intros out Hg Hst Hin; [discriminate|]. cbn [loop_with]. destruct (Hst st (or_introl eq_refl)) as [Hn Hi].
    assert (Hu : update_with f rd out st <> Undefined).
    { unfold update_with. pose proof (read_defined out lo Hg _ st Hi Hn). destruct (bag_read out st) as [| |v]; cbn [out_bind]; try congruence.
      pose proof (Hin st (or_introl eq_refl)). destruct (rd st) as [| |xs]; cbn [out_bind]; try congruence.
      exact (write_defined out lo Hg _ st _ Hi Hn). }
    destruct (update_with f rd out st) as [| |o1] eqn:Eu; cbn [out_bind]; try congruence.
    unfold update_with in Eu. destruct (bag_read out st) as [| |v]; try discriminate. cbn [out_bind] in Eu. destruct (rd st) as [| |xs]; try discriminate. cbn [out_bind] in Eu.
    destruct (write_effect out lo Hg _ st _ o1 Hi Hn Eu) as (S1 & L1 & _). apply IH.
    - exact (write_good out lo Hg st _ o1 Eu L1).
    - intros st' Hin'. rewrite S1. apply Hst. right. exact Hin'.
    - intros st' Hst'. apply Hin. right. exact Hst'.
  Qed.
End Loop.

Lemma reads_defined ins st : (forall b, In b ins -> exists lb, good_bag b lb /\ named (bg_struct b) (asg_of st) st /\ in_box lb (asg_of st)) -> reads ins st <> Undefined.
Proof.
  intros H. induction ins as [|b r IH]; [discriminate|]. cbn [reads]. destruct (H b (or_introl eq_refl)) as (lb & Hg & Hn & Hi).
  pose proof (read_defined b lb Hg _ st Hi Hn). destruct (bag_read b st); cbn [out_bind]; try congruence. specialize (IH (fun b0 Hb0 => H b0 (or_intror Hb0))).
  destruct (reads r st); cbn [out_map]; congruence.
Qed.
