(** * Proofs about bags and serialisation *)

From Verif Require Export SpecBag MangleFacts Access Foreign TravDef.

(** ** Bytes *)

Lemma nth_error_skip {A} o (l : list A) i : nth_error (skipn o l) i = nth_error l (o + i).
Proof. revert l. induction o as [|o IH]; intros [|x l]; cbn [skipn Nat.add nth_error]; auto. destruct i; reflexivity. Qed.

Lemma nth_error_first {A} n (l : list A) i : nth_error (firstn n l) i = if (i <? n)%nat then nth_error l i else None.
Proof.
  revert l i. induction n as [|n IH]; intros l i; [destruct i; reflexivity|].
  destruct l as [|x l]; [cbn [firstn]; assert (H : @nth_error A [] i = None) by (destruct i; reflexivity); rewrite H; destruct (i <? S n)%nat; reflexivity|].
  destruct i as [|i]; [reflexivity|]. cbn [firstn nth_error]. rewrite IH. reflexivity.
Qed.

Lemma nth_patch data o v i : (o + length v <= length data)%nat ->
  nth_error (patch data (Z.of_nat o) v) i = if ((o <=? i) && (i <? o + length v))%nat then nth_error v (i - o) else nth_error data i.
Proof.
  intros H. unfold patch. rewrite Nat2Z.id. destruct (Nat.leb_spec o i) as [H1|H1]; cbn [andb].
  - rewrite nth_error_app2 by (rewrite firstn_length; lia). rewrite firstn_length, Nat.min_l by lia. destruct (Nat.ltb_spec i (o + length v)) as [H2|H2].
    + apply nth_error_app1. lia.
    + rewrite nth_error_app2 by lia. rewrite nth_error_skip. f_equal. lia.
  - rewrite nth_error_app1 by (rewrite firstn_length; lia). rewrite nth_error_first. destruct (Nat.ltb_spec i o); [reflexivity|lia].
Qed.

Lemma patch_length data o v : (o + length v <= length data)%nat -> length (patch data (Z.of_nat o) v) = length data.
Proof. intros H. unfold patch. rewrite Nat2Z.id, !app_length, firstn_length, skipn_length. lia. Qed.

Lemma nth_error_ext {A} (l l' : list A) : (forall i, nth_error l i = nth_error l' i) -> l = l'.
Proof.
  revert l'. induction l as [|x l IH]; intros [|y l'] H; [reflexivity|specialize (H 0%nat); discriminate|specialize (H 0%nat); discriminate|].
  f_equal; [specialize (H 0%nat); injection H; auto|]. apply IH. intros i. exact (H (S i)).
Qed.

Definition window (data : bytes) (o n : Z) : bytes := firstn (Z.to_nat n) (skipn (Z.to_nat o) data).

Lemma window_patch_same data o v : 0 <= o -> o + Z.of_nat (length v) <= Z.of_nat (length data) -> window (patch data o v) o (Z.of_nat (length v)) = v.
Proof.
  intros H0 H. apply nth_error_ext. intros i. unfold window. rewrite nth_error_first, nth_error_skip, Nat2Z.id. replace (patch data o v) with (patch data (Z.of_nat (Z.to_nat o)) v) by (rewrite Z2Nat.id by lia; reflexivity). rewrite nth_patch by lia.
  destruct (Nat.ltb_spec i (length v)) as [Hi|Hi].
  - destruct (Nat.leb_spec (Z.to_nat o) (Z.to_nat o + i)); [|lia]. destruct (Nat.ltb_spec (Z.to_nat o + i) (Z.to_nat o + length v)); [|lia]. cbn [andb]. f_equal. lia.
  - symmetry. apply nth_error_None. exact Hi.
Qed.

Lemma window_patch_other data o v o' n : 0 <= o -> o + Z.of_nat (length v) <= Z.of_nat (length data) -> 0 <= o' -> 0 <= n ->
  o + Z.of_nat (length v) <= o' \/ o' + n <= o -> window (patch data o v) o' n = window data o' n.
Proof.
  intros H0 H H1 H2 Hd. apply nth_error_ext. intros i. unfold window. rewrite !nth_error_first, !nth_error_skip. replace (patch data o v) with (patch data (Z.of_nat (Z.to_nat o)) v) by (rewrite Z2Nat.id by lia; reflexivity). rewrite nth_patch by lia.
  destruct (Nat.ltb_spec i (Z.to_nat n)) as [Hi|Hi]; [|reflexivity].
  destruct (Nat.leb_spec (Z.to_nat o) (Z.to_nat o' + i)); [|reflexivity]. destruct (Nat.ltb_spec (Z.to_nat o' + i) (Z.to_nat o + length v)); [|reflexivity]. lia.
Qed.

Lemma window_length data o n : 0 <= o -> 0 <= n -> o + n <= Z.of_nat (length data) -> Z.of_nat (length (window data o n)) = n.
Proof. intros. unfold window. rewrite firstn_length, skipn_length. lia. Qed.

Lemma in_firstn {A} n (l : list A) x : In x (firstn n l) -> In x l.
Proof. intros H. rewrite <- (firstn_skipn n l). apply in_or_app. left. exact H. Qed.
Lemma in_skipn {A} n (l : list A) x : In x (skipn n l) -> In x l.
Proof. intros H. rewrite <- (firstn_skipn n l). apply in_or_app. right. exact H. Qed.

(** ** Elements *)

Lemma element_lenv st : (forall d, get (Len d) st = None) -> eqf nolens (lenv_of st).
Proof. intros H d. unfold nolens, lenv_of. rewrite H. reflexivity. Qed.

Lemma element_used s st : sound_struct s -> element s st -> used_correctly s st /\ fits s st.
Proof.
  intros (Hw & Hlk & Hg & Hf) [_ Hl]. pose proof (element_lenv st Hl) as He. split.
  - split; [exact Hw|]. split; [exact (lenok_ext s _ _ He Hlk)|]. split; [exact (good_ext s _ _ _ _ He (eqf_refl _) (Hg _))|].
    intros d v Hv. rewrite Hl in Hv. discriminate.
  - unfold fits. rewrite <- (isize_ext s _ _ He). exact Hf.
Qed.

Lemma enough_isize b : sound_struct (bg_struct b) -> signature (bg_struct b) <> None -> enough_data b -> isize (bg_struct b) nolens <= Z.of_nat (length (bg_data b)).
Proof.
  intros (Hw & Hlk & _ & Hf) Hs (v & n & Ev & En & Hn).
  pose proof (size_spec _ Hw Hs [] nolens (asg_of []) v Hlk) as H. unfold get_size in Ev. rewrite H in En; [injection En as <-| |intros d w Hw'; discriminate|exact Ev].
  - destruct (Z.lt_ge_cases (isize (bg_struct b) nolens) 0); [lia|]. rewrite u64_small in Hn by lia. exact Hn.
  - destruct (agree_of []) as [A1 A2]. split; [intros q; exact I|exact A2].
Qed.

Lemma ref_room b st : sound_struct (bg_struct b) -> (signature (bg_struct b) <> None -> isize (bg_struct b) nolens <= Z.of_nat (length (bg_data b))) -> element (bg_struct b) st ->
  bag_ref b st = Rejected \/ exists c o x, scalar_t (bg_struct b) st = Some c /\ offset (bg_struct b) st = Some o /\ vz o = Some x /\
    bag_ref b st = Done (x, ct_size c) /\ 0 <= x /\ 0 <= ct_size c /\ x + ct_size c <= Z.of_nat (length (bg_data b)).
Proof.
  intros Hs He Hel. unfold bag_ref. destruct (scalar_t (bg_struct b) st) as [c|] eqn:Ec; [|auto]. destruct (offset (bg_struct b) st) as [o|] eqn:Eo; [|auto]. right.
  destruct (element_used _ _ Hs Hel) as [Hu Hf]. destruct Hel as [[p Hp] Hl].
  destruct (access_offset _ _ _ _ Hu Hp Eo) as (sg & c' & Es & Hv & Ec' & El & Ho).
  assert (c' = c) by congruence. subst c'. pose proof Hu as (Hw & Hlk & Hg & Hd).
  destruct (int_in_bounds _ _ _ sg p Hw (lrange_of st) Hg Hv) as (c' & El' & H1 & H2 & H3). assert (c' = c) by congruence. subst c'.
  unfold fits in Hf. rewrite u64_small in Ho by lia.
  pose proof (He ltac:(congruence)) as Hsz. rewrite (isize_ext _ _ _ (element_lenv st Hl)) in Hsz.
  exists c, o, (ioff (bg_struct b) (lenv_of st) (asg_of st)). rewrite Ho. destruct (Z.leb_spec (ioff (bg_struct b) (lenv_of st) (asg_of st) + ct_size c) (Z.of_nat (length (bg_data b)))); [|lia].
  repeat (split; [first [reflexivity | lia]|]). lia.
Qed.

Lemma ref_cases b st : sound_struct (bg_struct b) -> enough_data b -> element (bg_struct b) st ->
  bag_ref b st = Rejected \/ exists c o x, scalar_t (bg_struct b) st = Some c /\ offset (bg_struct b) st = Some o /\ vz o = Some x /\
    bag_ref b st = Done (x, ct_size c) /\ 0 <= x /\ 0 <= ct_size c /\ x + ct_size c <= Z.of_nat (length (bg_data b)).
Proof. intros Hs He. apply ref_room; [exact Hs|]. intros H. apply enough_isize; assumption. Qed.

Theorem bag_defined b st v : sound_struct (bg_struct b) -> enough_data b -> element (bg_struct b) st -> bag_read b st <> Undefined /\ bag_write b st v <> Undefined.
Proof.
  intros Hs He Hel. unfold bag_read, bag_write. destruct (ref_cases b st Hs He Hel) as [->|(c & o & x & _ & _ & _ & -> & _)]; cbn [out_map out_bind].
  - split; [discriminate|]. destruct (bg_policy b); discriminate.
  - split; [discriminate|]. destruct (bg_policy b); try discriminate; destruct (_ =? _); discriminate.
Qed.

Lemma same_elements s st1 st2 p1 p2 : names_element s st1 p1 -> names_element s st2 p2 -> p1 = p2 -> (forall d, In d (map fst p1) -> asg_of st1 d = asg_of st2 d) -> same_element s st1 st2.
Proof.
  intros [E1 _] [E2 _] <- H. split; [congruence|]. unfold index_list. rewrite E1, E2. apply map_ext_in. intros [d k] Hin. apply H, in_map_iff. exists (d, k). auto.
Qed.

Lemma write_inv b st v b' : bag_write b st v = Done b' -> exists x, bag_ref b st = Done (x, Z.of_nat (length v)) /\ bg_policy b <> ConstRaw /\
  b' = {| bg_struct := bg_struct b; bg_policy := bg_policy b; bg_data := patch (bg_data b) x v |}.
Proof.
  unfold bag_write. intros H. assert (Hp : bg_policy b <> ConstRaw) by (intros E; rewrite E in H; discriminate).
  assert (H' : out_bind (bag_ref b st) (fun r => if Z.of_nat (length v) =? snd r then Done {| bg_struct := bg_struct b; bg_policy := bg_policy b; bg_data := patch (bg_data b) (fst r) v |} else Rejected) = Done b')
    by (destruct (bg_policy b); [exact H|exact H|contradiction]).
  destruct (bag_ref b st) as [| |[x n]]; try discriminate. cbn [out_bind fst snd] in H'. destruct (Z.eqb_spec (Z.of_nat (length v)) n) as [<-|]; [|discriminate].
  exists x. split; [reflexivity|]. split; [exact Hp|]. injection H' as <-. reflexivity.
Qed.

(** [bag_ref] looks at the size of the data only. *)
Lemma ref_size b b' st : bg_struct b' = bg_struct b -> length (bg_data b') = length (bg_data b) -> bag_ref b' st = bag_ref b st.
Proof. intros H1 H2. unfold bag_ref. rewrite H1, H2. reflexivity. Qed.

Theorem write_room b st v b' : sound_struct (bg_struct b) -> (signature (bg_struct b) <> None -> isize (bg_struct b) nolens <= Z.of_nat (length (bg_data b))) -> element (bg_struct b) st -> bag_write b st v = Done b' ->
  (bg_struct b' = bg_struct b /\ bg_policy b' = bg_policy b /\ length (bg_data b') = length (bg_data b)) /\
  bag_read b' st = Done v /\
  (nobcast (bg_struct b) = true -> forall st', element (bg_struct b) st' -> ~ same_element (bg_struct b) st st' -> bag_read b' st' = bag_read b st').
Proof.
  intros Hs He Hel Hw. destruct (write_inv _ _ _ _ Hw) as (x & Er & Hp & Hb').
  destruct (ref_room b st Hs He Hel) as [E|(c & o & x' & Ec & Eo & Ex & Er' & H0 & Hc & Hin)]; [congruence|].
  assert (x' = x /\ ct_size c = Z.of_nat (length v)) by (rewrite Er in Er'; injection Er' as -> ->; auto). destruct H as [-> Hlen]. rewrite Hlen in *.
  assert (Hl : length (bg_data b') = length (bg_data b)). { rewrite Hb'. cbn [bg_data]. rewrite <- (Z2Nat.id x) by lia. apply patch_length. lia. }
  assert (Hst : bg_struct b' = bg_struct b) by (rewrite Hb'; reflexivity).
  split; [split; [exact Hst|split; [rewrite Hb'; reflexivity|exact Hl]]|]. split.
  - unfold bag_read. rewrite (ref_size b b' st Hst Hl), Er. cbn [out_map fst snd]. f_equal. rewrite Hb'. cbn [bg_data]. exact (window_patch_same _ _ _ H0 Hin).
  - intros Hnb st' Hel' Hne. unfold bag_read. rewrite (ref_size b b' st' Hst Hl). destruct (ref_room b st' Hs He Hel') as [->|(c' & o' & x' & Ec' & Eo' & Ex' & -> & H0' & Hc' & Hin')]; [reflexivity|].
    cbn [out_map fst snd]. f_equal. rewrite Hb'. cbn [bg_data]. apply window_patch_other; try assumption.
    destruct (element_used _ _ Hs Hel) as [U1 F1]. destruct (element_used _ _ Hs Hel') as [U2 _]. pose proof Hel as [[p1 N1] L1]. pose proof Hel' as [[p2 N2] L2].
    destruct (access_no_alias (bg_struct b) st st' p1 p2 o o' Hnb) as [[E1 E2]|(c1 & c2 & y1 & y2 & A1 & A2 & A3 & A4 & A5)]; auto.
    { intros d. rewrite L1, L2. reflexivity. }
    { exfalso. apply Hne. eapply same_elements; eauto. }
    assert (c1 = c) by congruence. assert (c2 = c') by congruence. assert (y1 = x) by congruence. assert (y2 = x') by congruence. subst. lia.
Qed.

Theorem write_isolated b st v b' : sound_struct (bg_struct b) -> enough_data b -> element (bg_struct b) st -> bag_write b st v = Done b' ->
  (bg_struct b' = bg_struct b /\ bg_policy b' = bg_policy b /\ length (bg_data b') = length (bg_data b)) /\
  bag_read b' st = Done v /\
  (nobcast (bg_struct b) = true -> forall st', element (bg_struct b) st' -> ~ same_element (bg_struct b) st st' -> bag_read b' st' = bag_read b st').
Proof. intros Hs He. apply write_room; [exact Hs|]. intros H. apply enough_isize; assumption. Qed.

(** A bag made for a structure has enough data, and it is zero. *)
Theorem make_bag_ok s b : make_bag s = Done b -> bg_struct b = s /\ bg_policy b = Owned /\ enough_data b /\ Forall (eq 0) (bg_data b).
Proof.
  unfold make_bag. destruct (get_size s []) as [v|] eqn:Ev; [|discriminate]. destruct (vz v) as [n|] eqn:En; [|discriminate]. intros H. injection H as <-.
  split; [reflexivity|]. split; [reflexivity|]. split; [|cbn [bg_data]; apply Forall_forall; intros x Hx; apply repeat_spec in Hx; auto]. exists v, n. cbn [bg_struct bg_data]. rewrite repeat_length.
  split; [exact Ev|]. split; [exact En|]. lia.
Qed.

(** ** Serialisation *)

Lemma read_same b st st' : signature (bg_struct b) <> None -> same_get st st' -> bag_ref b st = bag_ref b st' /\ bag_read b st = bag_read b st' /\ scalar_t (bg_struct b) st = scalar_t (bg_struct b) st'.
Proof.
  intros Hs Hg. assert (He : same_entries (mentions (bg_struct b)) st st') by (intros d _; apply Hg).
  destruct (foreign_ignored _ _ _ Hs He) as (_ & _ & _ & _ & Ho & _).
  pose proof (scalar_t_rel eq (mentions (bg_struct b)) _ _ st st' congruence_eq (struct_rel_refl eq (fun x => eq_refl) (bg_struct b)) (in_mentions _) (same_entries_srel _ _ _ He)) as Ht.
  assert (Hr : bag_ref b st = bag_ref b st') by (unfold bag_ref; rewrite Ho, Ht; reflexivity). split; [exact Hr|]. split; [unfold bag_read; rewrite Hr; reflexivity|exact Ht].
Qed.

Lemma visited_elements s l : distinct_dims s -> lenok s nolens -> for_each (traverser [s]) [] = Done l ->
  enumerates s l /\ forall st, In st l -> element s st.
Proof.
  intros Hd Hlk E. pose proof (for_each_one s l Hd Hlk E) as He. split; [exact He|]. intros st Hin. destruct (en_sound _ _ He st Hin) as [p Hp]. split; [eauto|].
  assert (Hd1 : distinct_dims (top_struct (traverser [s]))). { change (top_struct (traverser [s])) with (Union [s]). unfold distinct_dims. rewrite signature_one. exact Hd. }
  destruct (each_run (traverser [s]) l ltac:(discriminate) Hd1 E) as (sg & sts & Hs & Er & _ & F).
  destruct (Forall2_In_r _ _ _ _ F Hin) as (e & Hei & s' & Es & Hg).
  destruct (run_tags _ _ _ Hs (distinct_snodup _ _ Hd1 Hs) Er e Hei) as [[ds Hds] _].
  change (top_struct (traverser [s])) with (Union [s]) in Es. change (tr_struct (traverser [s])) with (Union [s]) in Es.
  apply state_at_self in Es; [|discriminate]. subst s'. intros d. rewrite <- (proj2 (Hg d)). eapply map_fst_Idx; eauto.
Qed.

Section RoundTrip.
  Variables (print : cty -> bytes -> text) (scan : cty -> text -> option (bytes * text)).
  Variables (b1 : bag) (s2 : struct).
  Hypotheses (S1 : sound_struct (bg_struct b1)) (E1 : enough_data b1) (Y1 : Forall is_byte (bg_data b1)).
  Hypotheses (S2 : sound_struct s2) (Hnb : nobcast s2 = true) (Sg2 : signature s2 <> None).

  Lemma states_back more sts2 : forall sts1 b inp lead txt,
    bg_struct b = s2 -> enough_data b -> Forall2 same_get sts1 sts2 ->
    (forall st, In st sts1 -> element (bg_struct b1) st) -> (forall st, In st sts2 -> element s2 st) ->
    (forall st, In st sts2 -> scalar_t (bg_struct b1) st = scalar_t s2 st /\ forall c, scalar_t s2 st = Some c -> reads_back print scan c) ->
    signature (bg_struct b1) <> None ->
    NoDup (map (index_list s2) sts2) ->
    serialize_states print b1 sts1 = Done txt -> (lead = [] \/ lead = [10]) -> inp = lead ++ txt ++ more ->
    deserialize_states scan b inp sts2 <> Rejected ->
    exists b' lead', deserialize_states scan b inp sts2 = Done (b', Some (lead' ++ more)) /\ (lead' = [] \/ lead' = [10]) /\
      bg_struct b' = s2 /\ enough_data b' /\ length (bg_data b') = length (bg_data b) /\
      (forall st, In st sts2 -> bag_read b' st = bag_read b1 st) /\
      (forall st, element s2 st -> ~ In (index_list s2 st) (map (index_list s2) sts2) -> bag_read b' st = bag_read b st).
  Proof using S1 E1 Y1 S2 Hnb Sg2.
    induction sts2 as [|st sts2 IH]; intros sts1 b inp lead txt Hb He F He1 He2 Ht Hsg Hn Hser Hlead -> Hrej; inversion F as [|st1 st1' r1 r2 Hg F' X Y]; subst.
    - cbn in Hser. injection Hser as <-. exists b, lead. cbn [deserialize_states app]. split; [reflexivity|]. split; [exact Hlead|]. split; [reflexivity|]. split; [exact He|]. split; [reflexivity|]. split; [intros ? []|reflexivity].
    - destruct (read_same b1 st1 st Hsg Hg) as (_ & R1 & T1). cbn [serialize_states] in Hser. rewrite T1 in Hser. destruct (Ht st (or_introl eq_refl)) as [Htt Hrb]. rewrite Htt in Hser.
      destruct (scalar_t (bg_struct b) st) as [c|] eqn:Ec; [|discriminate]. specialize (Hrb c eq_refl). destruct Hrb as [Hb1 Hb2].
      destruct (bag_read b1 st1) as [| |v] eqn:Er1; try discriminate. cbn [out_bind] in Hser. destruct (serialize_states print b1 r1) as [| |txt'] eqn:Es; try discriminate. cbn [out_map] in Hser. injection Hser as <-.
      assert (Hv : Forall is_byte v /\ Z.of_nat (length v) = ct_size c).
      { unfold bag_read in Er1. destruct (ref_cases b1 st1 S1 E1 (He1 _ (or_introl eq_refl))) as [E|(c1 & o & x & Ec1 & _ & _ & E & H0 & Hc & Hin)]; rewrite E in Er1; [discriminate|]. cbn [out_map fst snd] in Er1. injection Er1 as <-.
        assert (c1 = c) by congruence. subst c1. split; [|apply window_length; assumption]. apply Forall_forall. intros y Hy. rewrite Forall_forall in Y1. apply Y1. apply in_firstn, in_skipn in Hy. exact Hy. }
      destruct Hv as [Hvb Hv].
      cbn [deserialize_states] in Hrej |- *. rewrite Ec in Hrej |- *.
      destruct (ref_cases b st S2 He (He2 _ (or_introl eq_refl))) as [E|(c2 & o & x & Ec2 & _ & _ & E & H0 & Hc & Hin)]; rewrite E in Hrej |- *; cbn [out_bind] in Hrej |- *; [contradiction|].
      assert (c2 = c) by congruence. subst c2.
      assert (Hscan : scan c (lead ++ (print c v ++ 10 :: txt') ++ more) = Some (v, 10 :: txt' ++ more)).
      { rewrite <- app_assoc. cbn [app]. destruct Hlead as [->| ->]; cbn [app]; rewrite ?Hb2; apply Hb1; assumption. }
      rewrite Hscan in Hrej |- *.
      destruct (bag_write b st v) as [| |b'] eqn:Ew; cbn [out_bind] in Hrej |- *; [contradiction|exfalso; exact (proj2 (bag_defined b st v S2 He (He2 _ (or_introl eq_refl))) Ew)|].
      destruct (write_isolated b st v b' S2 He (He2 _ (or_introl eq_refl)) Ew) as ((Hb' & _ & Hlen) & Hread & Hother).
      assert (Hen' : enough_data b') by (destruct He as (w & n & A & B & C); exists w, n; rewrite Hb', Hlen; auto).
      apply NoDup_cons_iff in Hn. destruct Hn as [Hni Hn].
      destruct (IH r1 b' (10 :: txt' ++ more) [10] txt' Hb' Hen' F' (fun q Hq => He1 q (or_intror Hq)) (fun q Hq => He2 q (or_intror Hq)) (fun q Hq => Ht q (or_intror Hq)) Hsg Hn Es (or_intror eq_refl) eq_refl Hrej)
        as (b'' & lead' & -> & Hl' & Hb'' & Hen'' & Hlen'' & Hr & Ho).
      exists b'', lead'. split; [reflexivity|]. split; [exact Hl'|]. split; [exact Hb''|]. split; [exact Hen''|]. split; [congruence|]. split.
      + intros q [<-|Hq]; [|apply Hr, Hq]. rewrite (Ho st (He2 _ (or_introl eq_refl)) Hni), Hread. congruence.
      + intros q Hq Hnin. cbn [map In] in Hnin. rewrite Ho; [|exact Hq|tauto]. apply Hother; [exact Hnb|exact Hq|]. intros [_ Hsame]. apply Hnin. left. exact Hsame.
  Qed.
End RoundTrip.

Theorem round_trip print scan b1 b2 l txt more :
  sound_struct (bg_struct b1) -> enough_data b1 -> Forall is_byte (bg_data b1) -> sound_struct (bg_struct b2) -> enough_data b2 -> nobcast (bg_struct b2) = true ->
  same_traversal (bg_struct b1) (bg_struct b2) l ->
  (forall st, In st l -> scalar_t (bg_struct b1) st = scalar_t (bg_struct b2) st /\ forall c, scalar_t (bg_struct b1) st = Some c -> reads_back print scan c) ->
  serialize print b1 = Done txt -> deserialize scan (txt ++ more) b2 <> Rejected ->
  exists b2' lead, deserialize scan (txt ++ more) b2 = Done (b2', Some (lead ++ more)) /\ (lead = [] \/ lead = [10]) /\
    bg_struct b2' = bg_struct b2 /\ length (bg_data b2') = length (bg_data b2) /\
    forall st, In st l -> bag_read b2' st = bag_read b1 st.
Proof.
  intros S1 E1 Y1 S2 E2 Hnb (L1 & l2 & L2 & F) Ht Hser Hrej. unfold serialize in Hser. unfold deserialize in *. rewrite L1 in Hser. rewrite L2 in Hrej |- *. cbn [out_bind] in *.
  assert (Hsig : forall s l, for_each (traverser [s]) [] = Done l -> signature s <> None).
  { intros s l0 H E. unfold for_each, for_sections_with, for_tree in H. change (top_struct (traverser [s])) with (Union [s]) in H. rewrite signature_one, E in H. discriminate. }
  assert (Hdist : forall s l, sound_struct s -> for_each (traverser [s]) [] = Done l -> distinct_dims s).
  { intros s l0 (Hw & _) H. unfold distinct_dims. destruct (signature s) as [sg|] eqn:E; [|exact (Hsig s l0 H E)]. eapply swf_snodup; eauto. }
  destruct (visited_elements _ l (Hdist _ _ S1 L1) (proj1 (proj2 S1)) L1) as [N1 V1].
  destruct (visited_elements _ l2 (Hdist _ _ S2 L2) (proj1 (proj2 S2)) L2) as [N2 V2].
  destruct (states_back print scan b1 (bg_struct b2) S1 E1 Y1 S2 Hnb (Hsig _ _ L2) more l2 l b2 (txt ++ more) [] txt eq_refl E2 F V1 V2) as (b' & lead & H1 & H2 & H3 & _ & H4 & H5 & _); auto.
  - intros st Hin. destruct (Forall2_In_r _ _ _ _ F Hin) as (st1 & Hin1 & Hg). destruct (Ht st1 Hin1) as [A B].
    destruct (read_same b1 st1 st (Hsig _ _ L1) Hg) as (_ & _ & T1). destruct (read_same b2 st1 st (Hsig _ _ L2) Hg) as (_ & _ & T2).
    rewrite <- T1, <- T2. split; [exact A|]. intros c Hc. apply B. congruence.
  - exact (Hsig _ _ L1).
  - apply enumerates_nodup, N2.
  - exists b', lead. split; [exact H1|]. split; [exact H2|]. split; [exact H3|]. split; [exact H4|]. intros st Hin.
    destruct (Forall2_in1 _ _ _ _ F Hin) as (st2 & Hin2 & Hg). destruct (read_same b' st st2) as (_ & -> & _); [rewrite H3; exact (Hsig _ _ L2)|exact Hg|].
    rewrite (H5 st2 Hin2). symmetry. apply (read_same b1 st st2 (Hsig _ _ L1) Hg).
Qed.

(** ** Decimal text *)

Lemma le_bytes_value v : Forall is_byte v -> le_bytes (length v) (le_value v) = v /\ 0 <= le_value v < 2 ^ (8 * Z.of_nat (length v)).
Proof.
  induction 1 as [|x v Hx _ [IH1 IH2]]; [cbn; split; [reflexivity|lia]|]. unfold is_byte in Hx. cbn [length le_bytes le_value].
  replace (8 * Z.of_nat (S (length v))) with (8 + 8 * Z.of_nat (length v)) by lia. rewrite Z.pow_add_r by lia. change (2 ^ 8) with 256. split; [|lia].
  replace ((x + 256 * le_value v) mod 256) with x. replace ((x + 256 * le_value v) / 256) with (le_value v); [rewrite IH1; reflexivity|].
  - apply Z.div_unique with x; [left; lia|lia].
  - apply Z.mod_unique with (le_value v); [left; lia|lia].
Qed.

Lemma read_digits n x z : read_from n x = Some z -> forallb is_digit x = true.
Proof.
  revert n. induction x as [|c x IH]; intros n H; [reflexivity|]. cbn [read_from forallb] in *. fold (is_digit c) in H. destruct (is_digit c); [|discriminate]. exact (IH _ H).
Qed.

Lemma take_all x y : forallb is_digit x = true -> take_digits (x ++ 10 :: y) = (x, 10 :: y).
Proof.
  induction x as [|c x IH]; intros H; [reflexivity|]. cbn [forallb] in H. apply andb_true_iff in H. destruct H as [H1 H2]. cbn [app take_digits]. rewrite H1, (IH H2). reflexivity.
Qed.

Lemma digit_no_space c : is_digit c = true -> is_space c = false.
Proof. unfold is_digit, is_space. lia. Qed.

Theorem uint_reads_back c : 1 <= ct_size c -> reads_back print_uint scan_uint c.
Proof.
  intros Hc. split; [|reflexivity]. intros v x Hv Hl. destruct (le_bytes_value v Hv) as [H1 H2]. rewrite Hl in H2. unfold print_uint.
  destruct (int_text (ct_size c) (le_value v) Hc H2) as (y & -> & Hr & _). unfold scan_uint. destruct y as [|c0 y]; [discriminate|]. cbn [read_decimal] in Hr.
  pose proof (read_digits _ _ _ Hr) as Hd. pose proof Hd as Hd0. cbn [forallb] in Hd0. apply andb_true_iff in Hd0. destruct Hd0 as [Hd0 _]. cbn [app skip_spaces]. rewrite (digit_no_space _ Hd0).
  change (c0 :: y ++ 10 :: x) with ((c0 :: y) ++ 10 :: x). rewrite (take_all (c0 :: y) x Hd). cbn [read_decimal]. rewrite Hr. destruct (Z.ltb_spec (le_value v) (2 ^ (8 * ct_size c))); [|lia]. rewrite <- Hl, Nat2Z.id, H1. reflexivity.
Qed.
