(** * The introspection queries through the API: proofs *)

From Verif Require Export IntrospectOff.

Lemma differ_setup s st1 st2 p1 p2 q : used_correctly s st1 -> used_correctly s st2 -> names_element s st1 p1 -> names_element s st2 p2 ->
  differ_in q st1 st2 -> In (q, None) p1 ->
  exists sg, pvalid s (lenv_of st1) (asg_of st1) sg p1 /\ pvalid s (lenv_of st1) (asg_of st2) sg p1 /\
    good s (lenv_of st1) (asg_of st2) /\ differ_at q p1 (asg_of st1) (asg_of st2) /\ pdef p1 st1 /\
    ioff s (lenv_of st2) (asg_of st2) = ioff s (lenv_of st1) (asg_of st2).
Proof.
  intros (Hw & Hlk & Hg1 & Hd1) (_ & Hlk2 & Hg2 & Hd2) N1 N2 Hd Hq.
  destruct (signature s) as [sg|] eqn:Es; [|destruct N1 as [N1 _]; unfold dims_of in N1; rewrite Es in N1; discriminate].
  destruct (names_pvalid s st1 sg p1 Hw Hlk Es N1) as [V1 P1]. destruct (names_pvalid s st2 sg p2 Hw Hlk2 Es N2) as [V2 P2].
  assert (Hlv : forall d, lenv_of st1 d = lenv_of st2 d) by (intros d; unfold lenv_of; rewrite (Hd (Len d)) by discriminate; reflexivity).
  assert (Hda : forall x, x <> q -> asg_of st2 x = asg_of st1 x).
  { intros x Hx. unfold asg_of. rewrite (Hd (Idx x)) by congruence. reflexivity. }
  pose proof V1 as (_ & Ep1 & _). pose proof V2 as (_ & Ep2 & Hr2).
  pose proof (swf_path_nodup _ _ _ _ Hw Es Ep1) as Hnd.
  assert (Hx : spath sg (asg_of st2) = Some p1).
  { eapply spath_ext; [exact Ep1|]. intros e n He. apply Hda. intros ->. pose proof (nodup_fst_eq _ _ _ _ Hnd He Hq). discriminate. }
  rewrite Ep2 in Hx. injection Hx as ->.
  exists sg. split; [exact V1|]. split; [|split; [|split; [|split; [exact P1|]]]].
  - split; [exact Es|]. split; [exact Ep2|]. revert Hr2. apply Forall_impl. intros [d k]. unfold in_range. cbn [fst snd]. destruct k; [auto|].
    rewrite (ilen_ext s (lenv_of st2) (lenv_of st1) (asg_of st2) (asg_of st2)); auto using eqf_refl. exact (eqf_sym _ _ Hlv).
  - eapply good_ext; [| |exact Hg2]; [exact (eqf_sym _ _ Hlv)|apply eqf_refl].
  - intros x _ Hx. apply Hda, Hx.
  - apply ioff_ext; [exact (eqf_sym _ _ Hlv)|apply eqf_refl].
Qed.

Lemma index_value s st p q : names_element s st p -> In (q, None) p -> exists i, get (Idx q) st = Some i /\ vz i = Some (asg_of st q).
Proof.
  intros [_ H] Hq. specialize (H _ _ Hq). destruct H as (ds & len & n & i & x & _ & _ & _ & Hi & Hx & _).
  exists i. split; [exact Hi|]. unfold asg_of. rewrite Hi, (vzd_vz _ _ Hx). exact Hx.
Qed.

Lemma fewer_agree q st0 st1 p : with_fewer_indices q st0 st1 -> lendef st1 -> pdef p st1 ->
  agree st0 (lenv_of st1) (asg_of st1) /\ lendef st0 /\ pdef p st0.
Proof.
  intros [Hl Hi] Hd Hp. split; [|split].
  - apply (agree_mono st1); [apply agree_of|exact Hl|]. intros d v E. apply Hi, E.
  - intros d w. rewrite Hl. apply Hd.
  - intros d w Hdp E. destruct (Hi _ _ E) as [_ E']. exact (Hp _ _ Hdp E').
Qed.

Theorem stride_api s st0 st1 st2 q p1 p2 v o1 o2 :
  used_correctly s st1 -> used_correctly s st2 -> names_element s st1 p1 -> names_element s st2 p2 ->
  differ_in q st1 st2 -> with_fewer_indices q st0 st1 -> In (q, None) p1 -> steady q s = true -> own_steps q s = true ->
  offset s st1 = Some o1 -> offset s st2 = Some o2 -> stride_along s q st0 = Some v ->
  exists i1 i2 x1 x2 k, at_index st1 q i1 /\ at_index st2 q i2 /\ vz o1 = Some x1 /\ vz o2 = Some x2 /\ vz v = Some k /\
    same_word (x2 - x1) ((i2 - i1) * k).
Proof.
  intros U1 U2 N1 N2 Hd Hf Hq Hst Hos E1 E2 Ev.
  destruct (differ_setup _ _ _ _ _ _ U1 U2 N1 N2 Hd Hq) as (sg & V1 & V2 & G2 & Hda & P1 & Hio).
  destruct (access_offset _ _ _ _ U1 N1 E1) as (_ & _ & _ & _ & _ & _ & O1).
  destruct (access_offset _ _ _ _ U2 N2 E2) as (_ & _ & _ & _ & _ & _ & O2).
  destruct U1 as (Hw & Hlk & G1 & L1). destruct (fewer_agree _ _ _ p1 Hf L1 P1) as (Hag & Hld & Hpd).
  destruct (stride_int s Hw st0 _ _ _ sg p1 q v V1 V2 Hlk (lrange_of st1) G1 G2 Hag Hld Hpd Hq Hda Hst Hos Ev) as (k & Hk & HW).
  assert (Hq2 : In (q, None) p2).
  { destruct V2 as (Es & Ep2 & _). destruct N2 as [N2 _]. unfold dims_of in N2. rewrite Es in N2. cbn [obind] in N2. rewrite Ep2 in N2. injection N2 as <-. exact Hq. }
  destruct (index_value _ _ _ _ N1 Hq) as (w1 & Hw1 & Hi1). destruct (index_value _ _ _ _ N2 Hq2) as (w2 & Hw2 & Hi2).
  exists (asg_of st1 q), (asg_of st2 q). do 2 eexists. exists k.
  split; [exists w1; auto|]. split; [exists w2; auto|]. split; [exact O1|]. split; [exact O2|]. split; [exact Hk|].
  apply eqW_word. rewrite !eqW_u64, <- HW, Hio. reflexivity.
Qed.

Theorem offset_along_api s st1 st2 q p1 p2 v1 v2 y1 y2 o1 o2 :
  used_correctly s st1 -> used_correctly s st2 -> names_element s st1 p1 -> names_element s st2 p2 ->
  differ_in q st1 st2 -> In (q, None) p1 -> steady q s = true ->
  offset s st1 = Some o1 -> offset s st2 = Some o2 -> offset_along s q st1 = Some v1 -> offset_along s q st2 = Some v2 ->
  vz v1 = Some y1 -> vz v2 = Some y2 ->
  exists x1 x2, vz o1 = Some x1 /\ vz o2 = Some x2 /\ same_word (x2 - x1) (y2 - y1).
Proof.
  intros U1 U2 N1 N2 Hd Hq Hst E1 E2 F1 F2 Y1 Y2.
  destruct (differ_setup _ _ _ _ _ _ U1 U2 N1 N2 Hd Hq) as (sg & V1 & V2 & G2 & Hda & P1 & Hio).
  destruct (access_offset _ _ _ _ U1 N1 E1) as (_ & _ & _ & _ & _ & _ & O1).
  destruct (access_offset _ _ _ _ U2 N2 E2) as (_ & _ & _ & _ & _ & _ & O2).
  destruct U1 as (Hw & Hlk & G1 & L1), U2 as (_ & Hlk2 & _ & L2). destruct V1 as (Es & Ep1 & _), V2 as (_ & Ep2 & _).
  do 2 eexists. split; [exact O1|]. split; [exact O2|]. apply eqW_word. rewrite !eqW_u64, Hio.
  rewrite (ioff_affine s (swf_uswf s Hw) (lenv_of st1) _ _ sg p1 q Es Ep1 Hq Hst Hda).
  rewrite <- (iofa_affine s (swf_uswf s Hw) (lenv_of st1) _ _ sg p1 q Es Ep1 Hq Hst Hda).
  rewrite (offset_along_spec s Hw st1 _ _ sg p1 q v1 Es Ep1 Hq Hst Hlk (agree_of st1) L1 F1 y1 Y1).
  assert (Hag2 : agree st2 (lenv_of st1) (asg_of st2)).
  { eapply agree_lens; [apply agree_of|]. intros d. unfold lenv_of. rewrite (Hd (Len d)) by discriminate. reflexivity. }
  rewrite (offset_along_spec s Hw st2 _ _ sg p1 q v2 Es Ep2 Hq Hst Hlk Hag2 L2 F2 y2 Y2). reflexivity.
Qed.

Theorem uniform_api s st q p : used_correctly s st -> names_element s st p -> In (q, None) p -> steady q s = true ->
  exists k, forall st2 p2 o1 o2, used_correctly s st2 -> names_element s st2 p2 -> differ_in q st st2 ->
    offset s st = Some o1 -> offset s st2 = Some o2 ->
    exists i1 i2 x1 x2, at_index st q i1 /\ at_index st2 q i2 /\ vz o1 = Some x1 /\ vz o2 = Some x2 /\ same_word (x2 - x1) ((i2 - i1) * k).
Proof.
  intros U1 N1 Hq Hst. exists (kf s (lenv_of st) (asg_of st) q). intros st2 p2 o1 o2 U2 N2 Hd E1 E2.
  destruct (differ_setup _ _ _ _ _ _ U1 U2 N1 N2 Hd Hq) as (sg & V1 & V2 & G2 & Hda & P1 & Hio).
  destruct (access_offset _ _ _ _ U1 N1 E1) as (_ & _ & _ & _ & _ & _ & O1).
  destruct (access_offset _ _ _ _ U2 N2 E2) as (_ & _ & _ & _ & _ & _ & O2).
  destruct U1 as (Hw & Hlk & G1 & L1). destruct V1 as (Es & Ep1 & _), V2 as (_ & Ep2 & _).
  assert (Hq2 : In (q, None) p2).
  { destruct N2 as [N2 _]. unfold dims_of in N2. rewrite Es in N2. cbn [obind] in N2. rewrite Ep2 in N2. injection N2 as <-. exact Hq. }
  destruct (index_value _ _ _ _ N1 Hq) as (w1 & Hw1 & Hi1). destruct (index_value _ _ _ _ N2 Hq2) as (w2 & Hw2 & Hi2).
  exists (asg_of st q), (asg_of st2 q). do 2 eexists.
  split; [exists w1; auto|]. split; [exists w2; auto|]. split; [exact O1|]. split; [exact O2|].
  apply eqW_word. rewrite !eqW_u64, Hio. exact (ioff_affine s (swf_uswf s Hw) (lenv_of st) _ _ sg p q Es Ep1 Hq Hst Hda).
Qed.
