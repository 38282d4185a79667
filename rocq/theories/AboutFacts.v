(** * Proofs about views of separate groups of dimensions *)

From Verif Require Import Views3 CommuteFacts SpecAbout.

Definition agree (D : list dim) (st st' : state) : Prop :=
  forall q, In q D -> get (Idx q) st = get (Idx q) st' /\ get (Len q) st = get (Len q) st'.
Definition tag_in (D : list dim) (u : tag) : Prop := match u with Idx d | Len d => In d D | Other _ => False end.

Lemma tag_mem_In u l : tag_mem u l = true -> In u l.
Proof. unfold tag_mem. rewrite existsb_exists. intros (x & Hx & E). destruct (tag_eqb_spec u x); congruence. Qed.
Lemma get_In u (l : state) v : get u l = Some v -> In u (map fst l).
Proof.
  induction l as [|[x w] l IH]; simpl; [discriminate|]. destruct (tag_eqb_spec u x); [intros _; left; congruence|]. intros E. right. auto.
Qed.

Section Rel.
  Variables (D : list dim) (st1 st2 : state) (t1 t2 : struct).

  Definition both (a b : state) : Prop := agree D a b /\ differ_in D st1 a /\ differ_in D st2 b.

  Lemma both_remove l a b : (forall u, In u l -> tag_in D u) -> both a b -> both (remove l a) (remove l b).
  Proof.
    intros Hl (A & B & C). assert (Hn : forall q, ~ In q D -> tag_mem (Idx q) l = false /\ tag_mem (Len q) l = false).
    { intros q Hq. split; [destruct (tag_mem (Idx q) l) eqn:E|destruct (tag_mem (Len q) l) eqn:E]; try reflexivity;
        apply tag_mem_In, Hl in E; exfalso; apply Hq, E. }
    refine (conj _ (conj _ _)); intros q Hq; rewrite !get_remove.
    - destruct (A q Hq) as [-> ->]. auto.
    - destruct (Hn q Hq) as [-> ->]. apply B, Hq.
    - destruct (Hn q Hq) as [-> ->]. apply C, Hq.
  Qed.

  Lemma both_with l a b : (forall u, In u (map fst l) -> tag_in D u) -> both a b -> both (with_ l a) (with_ l b).
  Proof.
    intros Hl (A & B & C). assert (Hn : forall q, ~ In q D -> get (Idx q) l = None /\ get (Len q) l = None).
    { intros q Hq. split; [destruct (get (Idx q) l) eqn:E|destruct (get (Len q) l) eqn:E]; try reflexivity;
        apply get_In, Hl in E; exfalso; apply Hq, E. }
    refine (conj _ (conj _ _)); intros q Hq; rewrite !get_with.
    - destruct (A q Hq) as [-> ->]. auto.
    - destruct (Hn q Hq) as [-> ->]. apply B, Hq.
    - destruct (Hn q Hq) as [-> ->]. apply C, Hq.
  Qed.

  (** The lengths of [D] are the same in both structures. *)
  Definition same_lengths : Prop := forall a b q, both a b -> In q D -> get (Idx q) a = None -> length_as t1 q a t2 q b.

  Definition orel (a b : option state) : Prop :=
    match a, b with Some a, Some b => both a b | None, None => True | _, _ => False end.

  Hypothesis Hb : both st1 st2.
  Hypothesis HL : same_lengths.

  Lemma gi q : In q D -> get (Idx q) st1 = get (Idx q) st2.
  Proof using Hb. intros. apply Hb. assumption. Qed.
  Lemma gl q : In q D -> get (Len q) st1 = get (Len q) st2.
  Proof using Hb. intros. apply Hb. assumption. Qed.
  Lemma hi q : In q D -> has (Idx q) st1 = has (Idx q) st2.
  Proof using Hb. intros. unfold has. rewrite gi; auto. Qed.
  Lemma hl q : In q D -> has (Len q) st1 = has (Len q) st2.
  Proof using Hb. intros. unfold has. rewrite gl; auto. Qed.

  Lemma same_hl q a b : both a b -> In q D -> get (Idx q) a = None -> has_length t1 q a = has_length t2 q b.
  Proof using HL. intros. apply HL; assumption. Qed.
  Lemma same_ln q a b : both a b -> In q D -> get (Idx q) a = None -> length_ t1 q a = length_ t2 q b.
  Proof using HL. intros. apply HL; assumption. Qed.
End Rel.

Ltac dims := solve [simpl; auto 10].
Ltac keys := let u := fresh "u" in let H := fresh "H" in intros u H; simpl in H; repeat (destruct H as [H|H]; [subst u; simpl; auto 10|]); try contradiction.
(** [both] of states built the same way. *)
Ltac rel := repeat first [assumption | apply both_with; [keys|] | apply both_remove; [keys|]].
(** Replace lengths in the first structure by those in the second. *)
Ltac first_to_second st1 st2 t1 HL Hb :=
  repeat match goal with
  | |- context [has_length t1 ?q ?X] =>
      let f := (eval pattern st1 in X) in
      match f with ?g _ => let Y := (eval cbv beta in (g st2)) in rewrite (same_hl _ _ _ _ _ HL q X Y); [|rel|dims|tags] end
  | |- context [length_ t1 ?q ?X] =>
      let f := (eval pattern st1 in X) in
      match f with ?g _ => let Y := (eval cbv beta in (g st2)) in rewrite (same_ln _ _ _ _ _ HL q X Y); [|rel|dims|tags] end
  end.
Ltac split_on := repeat (match goal with
  | |- context [match ?x with _ => _ end] => lazymatch x with context [match _ with _ => _ end] => fail | context [obind _ _] => fail | _ => destruct x eqn:? end
  | |- context [obind ?x _] => lazymatch x with context [match _ with _ => _ end] => fail | context [obind _ _] => fail | _ => destruct x eqn:? end
  end; cbn [obind orel andb orb negb xorb] in * ).

Lemma about_sub v D st1 st2 t1 t2 : about v D -> both D st1 st2 st1 st2 -> same_lengths D st1 st2 t1 t2 ->
  orel D st1 st2 (sub_state v t1 st1) (sub_state v t2 st2).
Proof.
  intros H Hb HL. unfold sub_state.
  destruct H as [(d & Hc & ->)|[(d & M & m & -> & ->)|[(d & M & m & p & -> & ->)|[(d & b & M & m & n & -> & ->)|[(M & m & d & -> & ->)|[(sl & gl' & d & ds & -> & ->)|(a & b & d & -> & ->)]]]]]].
  - pose proof (chg_sub v d t1 st1 Hc) as E1. pose proof (chg_sub v d t2 st2 Hc) as E2. unfold sub_state in E1, E2. rewrite E1, E2. cbn [orel].
    refine (conj _ (conj _ _)).
    + intros q [<-|[]]. destruct (proj1 Hb d (or_introl eq_refl)). apply (chg_own v d); auto.
    + intros q Hq. destruct (chg_other v d q st1 Hc) as [A B]; [intros ->; apply Hq; left; reflexivity|]. auto.
    + intros q Hq. destruct (chg_other v d q st2 Hc) as [A B]; [intros ->; apply Hq; left; reflexivity|]. auto.
  - cbn [view_sub_state]. unfold clean_blocks.
    rewrite !(gl _ _ _ Hb M), !(gl _ _ _ Hb m), !(gi _ _ _ Hb M), !(gi _ _ _ Hb m) by dims.
    first_to_second st1 st2 t1 HL Hb. split_on; try exact I; try discriminate; rel.
  - cbn [view_sub_state]. unfold clean_blocks_dyn.
    rewrite !(hl _ _ _ Hb p), !(gl _ _ _ Hb M), !(gl _ _ _ Hb m), !(gi _ _ _ Hb M), !(gi _ _ _ Hb m) by dims.
    destruct (has (Len p) st2); cbn [obind]; [exact I|].
    first_to_second st1 st2 t1 HL Hb. split_on; try exact I; try discriminate; rel.
  - cbn [view_sub_state]. unfold clean_blocks_sta, is_body.
    rewrite !(hl _ _ _ Hb M), !(hl _ _ _ Hb m), !(hl _ _ _ Hb b), !(gi _ _ _ Hb M), !(gi _ _ _ Hb m), !(gi _ _ _ Hb b) by dims.
    destruct (has (Len b) st2 || has (Len M) st2 || has (Len m) st2); cbn [obind].
    + split_on; try exact I; try discriminate; rel.
    + first_to_second st1 st2 t1 HL Hb. split_on; try exact I; try discriminate; rel.
  - cbn [view_sub_state]. unfold clean_merge.
    rewrite !(gl _ _ _ Hb d), !(gi _ _ _ Hb d) by dims.
    first_to_second st1 st2 t1 HL Hb. split_on; try exact I; try discriminate; rel.
  - cbn [view_sub_state]. rewrite !(gi _ _ _ Hb d) by dims.
    assert (Hc : both (d :: ds) st1 st2 (clean_zcurve d ds st1) (clean_zcurve d ds st2)).
    { unfold clean_zcurve. apply both_remove; [|exact Hb]. intros u [<-|Hu]; [simpl; auto|]. apply in_app_or in Hu.
      destruct Hu as [Hu|Hu]; apply in_map_iff in Hu; destruct Hu as (x & <- & Hx); simpl; auto. }
    destruct (get (Idx d) st2) as [i|]; [|exact Hc].
    assert (E : omap (fun q => length_ t1 q (clean_zcurve d ds st1)) ds = omap (fun q => length_ t2 q (clean_zcurve d ds st2)) ds).
    { apply omap_ext_in. intros q Hq. apply (same_ln _ _ _ _ _ HL); [exact Hc|right; exact Hq|].
      unfold clean_zcurve. rewrite get_remove. destruct (tag_mem (Idx q) _) eqn:E; [reflexivity|]. exfalso.
      assert (tag_mem (Idx q) (Idx d :: map Idx ds ++ map Len ds) = true); [|congruence].
      apply existsb_exists. exists (Idx q). split; [right; apply in_or_app; left; apply in_map, Hq|]. destruct (tag_eqb_spec (Idx q) (Idx q)); congruence. }
    rewrite E. destruct (omap (fun q => length_ t2 q (clean_zcurve d ds st2)) ds) as [lens|]; cbn [obind orel]; [|exact I].
    apply both_with; [|exact Hc]. intros u Hu. apply in_map_iff in Hu. destruct Hu as ([x y] & <- & Hx). apply in_combine_l in Hx.
    apply in_map_iff in Hx. destruct Hx as (z & <- & Hz). simpl. auto.
  - cbn [view_sub_state]. unfold clean_join.
    rewrite !(gl _ _ _ Hb d), !(gi _ _ _ Hb d) by dims.
    first_to_second st1 st2 t1 HL Hb. split_on; try exact I; try discriminate; rel.
Qed.

Ltac split_but t1 := match goal with
  | |- context [match ?x with _ => _ end] => lazymatch x with context [match _ with _ => _ end] => fail | context [obind _ _] => fail | context [t1] => fail | _ => destruct x eqn:? end
  | |- context [obind ?x _] => lazymatch x with context [match _ with _ => _ end] => fail | context [obind _ _] => fail | context [t1] => fail | _ => destruct x eqn:? end
  end.
Ltac simp := cbn [obind andb orb negb xorb guard oand oall option_map map fold_right] in *.
Ltac compare st1 st2 t1 HL Hb := repeat (first [progress first_to_second st1 st2 t1 HL Hb|split_but t1]; simp); try reflexivity; try congruence.
Lemma length_via v t1 t2 q st1 st2 :
  view_has_length v (signature (View v t1)) (has_length t1) (length_ t1) q st1 = view_has_length v (signature (View v t2)) (has_length t2) (length_ t2) q st2 ->
  (view_has_length v (signature (View v t2)) (has_length t2) (length_ t2) q st2 = Some true ->
   view_length v (has_length t1) (length_ t1) q st1 = view_length v (has_length t2) (length_ t2) q st2) ->
  length_as (View v t1) q st1 (View v t2) q st2.
Proof.
  intros A B. unfold length_as. rewrite !length_View, !has_length_View, A. split; [reflexivity|].
  destruct (view_has_length v (signature (View v t2)) (has_length t2) (length_ t2) q st2) as [[|]|]; simpl; auto.
Qed.

Lemma about_len v D st1 st2 t1 t2 q : about v D -> both D st1 st2 st1 st2 -> same_lengths D st1 st2 t1 t2 ->
  In q D -> shown v q -> get (Idx q) st1 = None -> length_as (View v t1) q st1 (View v t2) q st2.
Proof.
  intros H Hb HL Hq Hsh Hi. pose proof Hi as Hi2. rewrite (gi _ _ _ Hb q Hq) in Hi2.
  destruct H as [(d & Hc & ->)|[(d & M & m & -> & ->)|[(d & M & m & p & -> & ->)|[(d & b & M & m & n & -> & ->)|[(M & m & d & -> & ->)|[(sl & gl' & d & ds & -> & ->)|(a & b & d & -> & ->)]]]]]].
  - destruct Hq as [<-|[]]. apply chg_length; auto; [apply (gl _ _ _ Hb); left; reflexivity|].
    intros Hn. apply HL; [|left; reflexivity|exact Hn].
    assert (Ha : about v [d]) by (left; eauto).
    pose proof (about_sub v [d] st1 st2 t1 t2 Ha Hb HL) as R. rewrite !(chg_sub v d _ _ Hc) in R. exact R.
  - assert (Hd : q = m \/ q = M \/ (q <> m /\ q <> M /\ q = d)).
    { destruct (Z.eq_dec q m); [auto|]. destruct (Z.eq_dec q M); [auto|]. simpl in Hq. intuition. }
    destruct Hd as [->|[->|(N1 & N2 & ->)]].
    + apply length_via; cbn [view_has_length view_length view_sub_state]; unfold clean_blocks, has; rewrite !Z.eqb_refl;
        rewrite ?(gl _ _ _ Hb M), ?(gl _ _ _ Hb m), ?(gi _ _ _ Hb M), ?(gi _ _ _ Hb m) by dims; rewrite ?Hi2; [|intros _];
        destruct (get (Len M) st2) as [lM|] eqn:?, (get (Len m) st2) as [lm|] eqn:?, (get (Idx M) st2) as [iM|] eqn:?; simp;
        compare st1 st2 t1 HL Hb.
    + apply length_via; cbn [view_has_length view_length view_sub_state]; unfold clean_blocks, has; rewrite !Z.eqb_refl;
        rewrite ?(gl _ _ _ Hb M), ?(gl _ _ _ Hb m), ?(gi _ _ _ Hb M), ?(gi _ _ _ Hb m) by dims; rewrite ?Hi2; [|intros _]; destruct (M =? m);
        destruct (get (Len M) st2) as [lM|] eqn:?, (get (Len m) st2) as [lm|] eqn:?, (get (Idx m) st2) as [iM|] eqn:?; simp;
        compare st1 st2 t1 HL Hb.
    + apply length_via; cbn [view_has_length view_length]; rewrite (proj2 (Z.eqb_neq d m) N1), (proj2 (Z.eqb_neq d M) N2), !Z.eqb_refl; [reflexivity|discriminate].
  - assert (Hd : q = p \/ q = m \/ q = M \/ (q <> p /\ q <> m /\ q <> M /\ q = d)).
    { destruct (Z.eq_dec q p); [auto|]. destruct (Z.eq_dec q m); [auto|]. destruct (Z.eq_dec q M); [auto|]. simpl in Hq. intuition. }
    destruct Hd as [->|[->|[->|(N1 & N2 & N3 & ->)]]].
    + apply length_via; cbn [view_has_length view_length view_sub_state]; unfold clean_blocks_dyn, has; rewrite ?Z.eqb_refl;
        rewrite ?(gl _ _ _ Hb p), ?(gl _ _ _ Hb M), ?(gl _ _ _ Hb m), ?(gi _ _ _ Hb M), ?(gi _ _ _ Hb m) by dims; rewrite ?Hi2; [|intros _];
        destruct (get (Len p) st2) as [lp|] eqn:?, (get (Len M) st2) as [lM|] eqn:?, (get (Len m) st2) as [lm|] eqn:?; simp; compare st1 st2 t1 HL Hb.
    + apply length_via; cbn [view_has_length view_length view_sub_state]; unfold clean_blocks_dyn, has; rewrite ?Z.eqb_refl;
        rewrite ?(gl _ _ _ Hb p), ?(gl _ _ _ Hb M), ?(gl _ _ _ Hb m), ?(gi _ _ _ Hb M), ?(gi _ _ _ Hb m) by dims; rewrite ?Hi2; [|intros _];
        destruct (m =? p), (get (Len p) st2) as [lp|] eqn:?, (get (Len M) st2) as [lM|] eqn:?, (get (Len m) st2) as [lm|] eqn:?, (get (Idx M) st2) as [iM|] eqn:?; simp; compare st1 st2 t1 HL Hb.
    + apply length_via; cbn [view_has_length view_length view_sub_state]; unfold clean_blocks_dyn, has; rewrite ?Z.eqb_refl;
        rewrite ?(gl _ _ _ Hb p), ?(gl _ _ _ Hb M), ?(gl _ _ _ Hb m), ?(gi _ _ _ Hb M), ?(gi _ _ _ Hb m) by dims; rewrite ?Hi2; [|intros _];
        destruct (M =? p), (M =? m), (get (Len p) st2) as [lp|] eqn:?, (get (Len M) st2) as [lM|] eqn:?, (get (Len m) st2) as [lm|] eqn:?, (get (Idx m) st2) as [im|] eqn:?; simp; compare st1 st2 t1 HL Hb.
    + apply length_via; cbn [view_has_length view_length]; rewrite (proj2 (Z.eqb_neq d p) N1), (proj2 (Z.eqb_neq d m) N2), (proj2 (Z.eqb_neq d M) N3), !Z.eqb_refl; [reflexivity|discriminate].
  - assert (Hd : q = m \/ q = M \/ q = b \/ (q <> m /\ q <> M /\ q <> b /\ q = d)).
    { destruct (Z.eq_dec q m); [auto|]. destruct (Z.eq_dec q M); [auto|]. destruct (Z.eq_dec q b); [auto|]. simpl in Hq. intuition. }
    destruct Hd as [->|[->|[->|(N1 & N2 & N3 & ->)]]].
    + apply length_via; cbn [view_has_length view_length view_sub_state]; unfold clean_blocks_sta, is_body, has; rewrite ?Z.eqb_refl;
        rewrite ?(gl _ _ _ Hb M), ?(gl _ _ _ Hb m), ?(gl _ _ _ Hb b), ?(gi _ _ _ Hb M), ?(gi _ _ _ Hb m), ?(gi _ _ _ Hb b) by dims; rewrite ?Hi2; [|intros _];
        [destruct (m =? M); [|destruct (m =? b)]|destruct (m =? b); [|destruct (m =? M)]];
        destruct (get (Idx b) st2) as [ib|] eqn:?, (get (Idx M) st2) as [iM|] eqn:?; simp; compare st1 st2 t1 HL Hb.
    + apply length_via; cbn [view_has_length view_length view_sub_state]; unfold clean_blocks_sta, is_body, has; rewrite ?Z.eqb_refl;
        rewrite ?(gl _ _ _ Hb M), ?(gl _ _ _ Hb m), ?(gl _ _ _ Hb b), ?(gi _ _ _ Hb M), ?(gi _ _ _ Hb m), ?(gi _ _ _ Hb b) by dims; rewrite ?Hi2; [|intros _];
        [destruct (M =? m); [|destruct (M =? b)]|destruct (M =? b); [|destruct (M =? m)]];
        destruct (get (Idx b) st2) as [ib|] eqn:?, (get (Idx m) st2) as [im|] eqn:?; simp; compare st1 st2 t1 HL Hb.
    + apply length_via; cbn [view_has_length view_length view_sub_state]; unfold clean_blocks_sta, is_body, has; rewrite ?Z.eqb_refl;
        rewrite ?(gl _ _ _ Hb M), ?(gl _ _ _ Hb m), ?(gl _ _ _ Hb b), ?(gi _ _ _ Hb M), ?(gi _ _ _ Hb m), ?(gi _ _ _ Hb b) by dims; rewrite ?Hi2; [|reflexivity];
        destruct (b =? M), (b =? m); simp; compare st1 st2 t1 HL Hb.
    + apply length_via; cbn [view_has_length view_length]; unfold has; rewrite ?Hi, ?Hi2, (proj2 (Z.eqb_neq d m) N1), (proj2 (Z.eqb_neq d M) N2), (proj2 (Z.eqb_neq d b) N3), !Z.eqb_refl; [reflexivity|discriminate].
  - destruct (Z.eq_dec q d) as [->|Nd].
    + apply length_via; cbn [view_has_length view_length view_sub_state]; unfold clean_merge, has; rewrite ?Z.eqb_refl;
        rewrite ?(gl _ _ _ Hb d), ?(gi _ _ _ Hb d) by dims; rewrite ?Hi2; [|intros _]; simp; compare st1 st2 t1 HL Hb.
    + apply length_via; cbn [view_has_length view_length]; unfold has; rewrite ?Hi, ?Hi2, (proj2 (Z.eqb_neq q d) Nd);
        assert (E : (q =? m) || (q =? M) = true) by (simpl in Hq; destruct Hq as [->|[->|[->|[]]]]; [rewrite Z.eqb_refl, orb_true_r|rewrite Z.eqb_refl|congruence]; reflexivity);
        rewrite E; [reflexivity|discriminate].
  - assert (q = d) as -> by (destruct Hsh as [E|Hn]; [exact E|destruct Hq as [E|Hin]; [congruence|contradiction]]).
    assert (Hc : both (d :: ds) st1 st2 (clean_zcurve d ds st1) (clean_zcurve d ds st2)).
    { unfold clean_zcurve. apply both_remove; [|exact Hb]. intros u [<-|Hu]; [simpl; auto|]. apply in_app_or in Hu.
      destruct Hu as [Hu|Hu]; apply in_map_iff in Hu; destruct Hu as (x & <- & Hx); simpl; auto. }
    assert (Hn : forall x, In x ds -> get (Idx x) (clean_zcurve d ds st1) = None).
    { intros x Hx. unfold clean_zcurve. rewrite get_remove. destruct (tag_mem (Idx x) _) eqn:E; [reflexivity|]. exfalso.
      assert (tag_mem (Idx x) (Idx d :: map Idx ds ++ map Len ds) = true); [|congruence].
      apply existsb_exists. exists (Idx x). split; [right; apply in_or_app; left; apply in_map, Hx|]. destruct (tag_eqb_spec (Idx x) (Idx x)); congruence. }
    apply length_via; cbn [view_has_length view_length view_sub_state]; unfold has; rewrite ?Z.eqb_refl, ?Hi, ?Hi2; cbn [obind].
    + replace (map (fun x => has_length t1 x (clean_zcurve d ds st1)) ds) with (map (fun x => has_length t2 x (clean_zcurve d ds st2)) ds); [reflexivity|].
      apply map_ext_in. intros x Hx. symmetry. apply (same_hl _ _ _ _ _ HL); [exact Hc|right; exact Hx|auto].
    + intros _. replace (omap (fun x => length_ t1 x (clean_zcurve d ds st1)) ds) with (omap (fun x => length_ t2 x (clean_zcurve d ds st2)) ds); [reflexivity|].
      apply omap_ext_in. intros x Hx. symmetry. apply (same_ln _ _ _ _ _ HL); [exact Hc|right; exact Hx|auto].
  - assert (q = d) as -> by (simpl in Hq, Hsh; intuition congruence).
    apply length_via; cbn [view_has_length view_length view_sub_state]; unfold clean_join;
      rewrite ?(gl _ _ _ Hb d), ?(gi _ _ _ Hb d) by dims; rewrite ?Hi2; [|intros _]; simp; compare st1 st2 t1 HL Hb.
Qed.

(** ** Two views *)

Lemma about_plain v D t : about v D -> plain_lengths v = true /\ view_complete v t = true /\ incl (own v) D.
Proof.
  intros H. destruct H as [(d & Hc & ->)|[(d & M & m & -> & ->)|[(d & M & m & p & -> & ->)|[(d & b & M & m & n & -> & ->)|[(M & m & d & -> & ->)|[(sl & gl' & d & ds & -> & ->)|(a & b & d & -> & ->)]]]]]].
  1: kinds Hc. all: repeat split; intros ?; simpl; intuition.
Qed.
Lemma given_present v st : given v st -> present v st = true.
Proof. destruct v; try reflexivity. simpl. intros (-> & -> & ->). reflexivity. Qed.
Lemma given_agree v D st st' : about v D -> agree D st st' -> given v st -> given v st'.
Proof.
  intros H A G. destruct H as [(d & Hc & ->)|[(d & M & m & -> & ->)|[(d & M & m & p & -> & ->)|[(d & b & M & m & n & -> & ->)|[(M & m & d & -> & ->)|[(sl & gl' & d & ds & -> & ->)|(a & b & d & -> & ->)]]]]]]; try exact I.
  - kinds Hc; exact I.
  - simpl in G |- *. unfold has in *. destruct (A M) as [<- _]; [simpl; auto|]. destruct (A m) as [<- _]; [simpl; auto|]. destruct (A p) as [<- _]; [simpl; auto|]. exact G.
Qed.

Lemma differ_sym D a b : differ_in D a b -> differ_in D b a.
Proof. intros H q Hq. destruct (H q Hq). auto. Qed.

Section Two.
  Variables (v w : view) (D E : list dim) (t : struct).
  Hypothesis Hv : about v D.
  Hypothesis Hw : about w E.
  Hypothesis Hde : forall q, In q D -> ~ In q E.
  Hypothesis Hs : signature (View w t) <> None.
  Hypothesis SD : separate t D E.
  Hypothesis SE : separate t E D.

  Lemma differ_agree st a : differ_in D st a -> agree E st a.
  Proof using Hde. intros H q Hq. apply H. intros Hd. exact (Hde q Hd Hq). Qed.

  (** [w] does the same to states that differ in [D]. *)
  Lemma through st a x : differ_in D st a -> sub_state w t st = Some x -> exists y, sub_state w t a = Some y /\ agree E x y /\ differ_in E st x /\ differ_in E a y.
  Proof using Hw Hde SE.
    intros Hd Ex. pose proof (about_sub w E st a t t Hw) as R.
    assert (Hb : both E st a st a) by (refine (conj (differ_agree _ _ Hd) (conj _ _)); intros q _; auto).
    assert (HL : same_lengths E st a t t).
    { intros u1 u2 q (A & B & C) Hq Hi. apply SE; [|exact Hq|exact Hi]. intros x' Hx. destruct (in_dec Z.eq_dec x' E) as [Hin|Hn]; [apply A, Hin|].
      destruct (B x' Hn) as [<- <-]. destruct (C x' Hn) as [<- <-]. apply Hd, Hx. }
    specialize (R Hb HL). rewrite Ex in R. destruct (sub_state w t a) as [y|]; [|contradiction]. destruct R as (A & B & C). eauto.
  Qed.

  (** Lengths of [D] pass through [w]. *)
  Lemma pass_lengths st x : sub_state w t st = Some x -> same_lengths D st st (View w t) t.
  Proof using Hw Hde Hs SD SE.
    intros Ex a b q (A & B & C) Hq Hi. destruct (through st a x B Ex) as (y & Ey & _ & _ & Hy).
    destruct (about_plain w E t Hw) as (P1 & P2 & P4).
    eapply length_trans; [apply (length_view0 w t q a y); auto|].
    - intros Hin. apply P4 in Hin. exact (Hde q Hq Hin).
    - apply SD; [|exact Hq|].
      + intros z Hz. destruct (Hy z Hz) as [<- <-]. destruct (in_dec Z.eq_dec z D) as [Hin|Hn]; [apply A, Hin|].
        destruct (B z Hn) as [<- <-]. apply C, Hn.
      + destruct (Hy q (Hde q Hq)) as [<- _]. exact Hi.
  Qed.

  Lemma inner st x a0 : sub_state w t st = Some x -> sub_state v t st = Some a0 ->
    exists a y, sub_state v (View w t) st = Some a /\ sub_state w t a = Some y /\ same_get a a0 /\
      agree E x y /\ differ_in E a0 y /\ differ_in D st a0.
  Proof using Hv Hw Hde Hs SD SE.
    intros Ex Ea. assert (Hb : both D st st st st) by (repeat split; auto).
    pose proof (about_sub v D st st (View w t) t Hv Hb (pass_lengths st x Ex)) as R. rewrite Ea in R.
    destruct (sub_state v (View w t) st) as [a|]; [|contradiction]. destruct R as (A & B & C).
    destruct (through st a x B Ex) as (y & Ey & Y1 & _ & Y2).
    assert (G : same_get a a0).
    { intros q. destruct (in_dec Z.eq_dec q D) as [Hin|Hn]; [apply A, Hin|]. destruct (B q Hn) as [<- <-]. apply C, Hn. }
    exists a, y. split; [reflexivity|]. split; [exact Ey|]. split; [exact G|]. split; [exact Y1|]. split; [|exact C].
    intros q Hq. destruct (Y2 q Hq) as [<- <-]. destruct (G q). auto.
  Qed.

  (** The lengths of [D] are the same above and below [w]. *)
  Lemma own_lengths st x y q : sub_state w t st = Some x -> sub_state w (View v t) st = Some y -> differ_in E st y ->
    signature (View w (View v t)) <> None ->
    In q D -> shown v q -> get (Idx q) st = None -> length_as (View v (View w t)) q st (View w (View v t)) q st.
  Proof using Hv Hw Hde Hs SD SE.
    intros Ex Ey Hy Hs2 Hq Hsh Hi. assert (Hb : both D st st st st) by (repeat split; auto).
    destruct (about_len v D st st (View w t) t q Hv Hb (pass_lengths st x Ex) Hq Hsh Hi) as [A1 A2].
    destruct (about_plain w E (View v t) Hw) as (P1 & P2 & P4).
    assert (Hne : ~ In q E) by (apply Hde, Hq).
    destruct (length_view0 w (View v t) q st y P1 P2) as [B1 B2]; auto.
    assert (Hb' : both D st y st y).
    { refine (conj _ (conj _ _)); intros z Hz; auto. }
    assert (HL : same_lengths D st y t t).
    { intros u1 u2 z (A & B & C) Hz Hiz. apply SD; [|exact Hz|exact Hiz]. intros k Hk. destruct (in_dec Z.eq_dec k D) as [Hin|Hn]; [apply A, Hin|].
      destruct (B k Hn) as [<- <-]. destruct (C k Hn) as [<- <-]. apply Hy, Hk. }
    destruct (about_len v D st y t t q Hv Hb' HL Hq Hsh Hi) as [C1 C2]. split; congruence.
  Qed.
End Two.

Lemma abouts_commute v w D E t st : about v D -> about w E -> (forall q, In q D -> ~ In q E) ->
  separate t D E -> separate t E D ->
  signature (View v (View w t)) <> None -> signature (View w (View v t)) <> None ->
  has_size (View v t) st <> None -> has_size (View w t) st <> None ->
  (given v st -> given w st -> works_as (View v (View w t)) st (View w (View v t)) st) /\
  (forall q, shown v q -> shown w q -> get (Idx q) st = None -> length_as (View v (View w t)) q st (View w (View v t)) q st).
Proof.
  intros Hv Hw Hde SD SE Hs1 Hs2 Z1 Z2. pose proof (signature_sub _ _ Hs1) as Hs3. pose proof (signature_sub _ _ Hs2) as Hs4.
  pose proof (signature_sub _ _ Hs3) as Hs5. assert (Hed : forall q, In q E -> ~ In q D) by (intros q He Hd; exact (Hde q Hd He)).
  destruct (sub_state v t st) as [a0|] eqn:Ea; [|cbn [has_size] in Z1; rewrite Ea in Z1; contradiction].
  destruct (sub_state w t st) as [b0|] eqn:Eb; [|cbn [has_size] in Z2; rewrite Eb in Z2; contradiction].
  destruct (inner v w D E t Hv Hw Hde Hs3 SD SE st b0 a0 Eb Ea) as (a & y & A1 & A2 & A3 & A4 & A5 & A6).
  destruct (inner w v E D t Hw Hv Hed Hs4 SE SD st a0 b0 Ea Eb) as (b & z & B1 & B2 & B3 & B4 & B5 & B6).
  assert (G : same_get y z).
  { intros q. destruct (in_dec Z.eq_dec q D) as [Hd|Hd].
    - destruct (A5 q (Hde q Hd)) as [<- <-]. apply B4, Hd.
    - destruct (B5 q Hd) as [<- <-]. destruct (in_dec Z.eq_dec q E) as [He|He].
      + destruct (A4 q He) as [<- <-]. auto.
      + destruct (A5 q He) as [<- <-]. destruct (A6 q Hd) as [<- <-]. apply B6, He. }
  destruct (about_plain v D (View w t) Hv) as (P1 & P2 & P4). destruct (about_plain w E t Hw) as (Q1 & Q2 & Q4).
  destruct (about_plain w E (View v t) Hw) as (R1 & R2 & R4). destruct (about_plain v D t Hv) as (S1 & S2 & S4).
  split.
  - intros Gv Gw. pose proof (given_present _ _ Gv) as P3. pose proof (given_present _ _ Gw) as R3.
    assert (Q3 : present w a = true).
    { apply given_present, (given_agree w E st a Hw); [|exact Gw]. intros q Hq. destruct (A3 q) as [-> ->]. apply A6, Hed, Hq. }
    assert (S3 : present v b = true).
    { apply given_present, (given_agree v D st b Hv); [|exact Gv]. intros q Hq. destruct (B3 q) as [-> ->]. apply B6, Hde, Hq. }
    eapply works_comp; [apply works_view0; [exact P2|exact P3|exact A1]|]. eapply works_comp; [apply works_view0; [exact Q2|exact Q3|exact A2]|].
    eapply works_comp; [apply works_same; [exact Hs5|exact G]|]. apply works_sym.
    eapply works_comp; [apply works_view0; [exact R2|exact R3|exact B1]|]. apply works_view0; [exact S2|exact S3|exact B2].
  - assert (Hsym : forall s q st t q' st', length_as s q st t q' st' -> length_as t q' st' s q st).
    { clear. unfold length_as. intuition. }
    assert (Hb : differ_in E st b) by (intros q Hq; destruct (B3 q); destruct (B6 q Hq); split; congruence).
    assert (Ha : differ_in D st a) by (intros q Hq; destruct (A3 q); destruct (A6 q Hq); split; congruence).
    intros q Hsv Hsw Hi. destruct (in_dec Z.eq_dec q D) as [Hd|Hd]; [|destruct (in_dec Z.eq_dec q E) as [He|He]].
    + eapply (own_lengths v w D E t Hv Hw Hde Hs3 SD SE st b0 b); eauto.
    + apply Hsym. eapply (own_lengths w v E D t Hw Hv Hed Hs4 SE SD st a0 a); eauto.
    + eapply length_trans; [apply (length_view0 v _ q st a); auto; intros Hin; apply P4 in Hin; contradiction|].
      eapply length_trans; [apply (length_view0 w _ q a y); auto; first [intros Hin; apply Q4 in Hin; contradiction|destruct (Ha q Hd); congruence]|].
      eapply length_trans; [apply length_same; [exact Hs5|exact G]|]. apply Hsym.
      eapply length_trans; [apply (length_view0 w _ q st b); auto; intros Hin; apply R4 in Hin; contradiction|].
      apply (length_view0 v _ q b z); auto; first [intros Hin; apply S4 in Hin; contradiction|destruct (Hb q He); congruence].
Qed.

(** ** A view that does not look at what is below it *)

Section Change.
  Variables (v w : view) (D : list dim) (e : dim) (t : struct) (st : state).
  Hypothesis Hv : about v D.
  Hypothesis Hw : changes w e.
  Hypothesis Hde : ~ In e D.
  Hypothesis Hs1 : signature (View v (View w t)) <> None.
  Hypothesis Hs2 : signature (View w (View v t)) <> None.

  Lemma chg_differ a : differ_in [e] a (chg w a).
  Proof using Hw. intros q Hq. destruct (chg_other w e q a Hw) as [A B]; [intros ->; apply Hq; left; reflexivity|]. auto. Qed.

  Lemma chg_agree a b : differ_in D (chg w st) b -> differ_in D st a -> agree D a b -> same_get (chg w a) b.
  Proof using Hw Hde.
    intros Hb Ha Hd q. destruct (in_dec Z.eq_dec q D) as [Hin|Hn].
    - destruct (chg_other w e q a Hw) as [-> ->]; [intros ->; contradiction|]. apply Hd, Hin.
    - destruct (Hb q Hn) as [<- <-]. destruct (Z.eq_dec q e) as [->|Hq].
      + destruct (Ha e Hde). apply (chg_own w e); auto.
      + destruct (chg_other w e q a Hw Hq) as [-> ->]. destruct (chg_other w e q st Hw Hq) as [-> ->]. destruct (Ha q Hn). auto.
  Qed.

  Lemma chg_both : both D st (chg w st) st (chg w st).
  Proof using Hw Hde.
    refine (conj _ (conj _ _)); intros q Hq; auto. destruct (chg_other w e q st Hw) as [-> ->]; [intros ->; contradiction|auto].
  Qed.
  Lemma chg_pass : same_lengths D st (chg w st) (View w t) t.
  Proof using Hw Hde Hs1.
    pose proof (signature_sub _ _ Hs1) as Hs3. intros a b q (A & B & C) Hq Hi.
    destruct (chg_follows w e t a Hw Hs3) as [_ L]. eapply length_trans; [apply L; [intros ->; contradiction|exact Hi]|].
    apply length_same; [apply (signature_sub _ _ Hs3)|]. apply chg_agree; auto.
  Qed.

  Lemma change_commutes :
    (given v st -> works_as (View v (View w t)) st (View w (View v t)) st) /\
    (has_size (View v (View w t)) st <> None -> forall q, shown v q -> get (Idx q) st = None ->
       length_as (View v (View w t)) q st (View w (View v t)) q st).
  Proof using Hv Hw Hde Hs1 Hs2.
    pose proof (signature_sub _ _ Hs1) as Hs3. pose proof (signature_sub _ _ Hs2) as Hs4. pose proof (signature_sub _ _ Hs3) as Hs5.
    pose proof (about_sub v D st (chg w st) (View w t) t Hv chg_both chg_pass) as R.
    destruct (chg_follows w e (View v t) st Hw Hs2) as [C1 C2].
    destruct (about_plain v D (View w t) Hv) as (P1 & P2 & P4). destruct (about_plain v D t Hv) as (S1 & S2 & S4).
    assert (GP : given v st -> present v st = true /\ present v (chg w st) = true).
    { intros G. split; apply given_present; [exact G|]. eapply given_agree; [exact Hv|apply chg_both|exact G]. }
    destruct (sub_state v (View w t) st) as [a|] eqn:Ea, (sub_state v t (chg w st)) as [b|] eqn:Eb; try contradiction.
    2: { split; [|intros Z; exfalso; apply Z; cbn [has_size]; rewrite Ea; reflexivity].
         intros G. destruct (GP G). eapply works_comp; [|apply works_sym, C1]. apply works_stuck; auto. }
    destruct R as (R1 & R2 & R3). pose proof (chg_agree a b R3 R2 R1) as G. destruct (chg_follows w e t a Hw Hs3) as [A1 A2].
    split.
    - intros Gv. destruct (GP Gv) as [P3 S3].
      eapply works_comp; [apply works_view0; [exact P2|exact P3|exact Ea]|]. eapply works_comp; [exact A1|].
      eapply works_comp; [apply works_same; [exact Hs5|exact G]|]. apply works_sym. eapply works_comp; [exact C1|].
      apply works_view0; [exact S2|exact S3|exact Eb].
    - intros _ q Hsh Hi. assert (Hsym : forall s q st t q' st', length_as s q st t q' st' -> length_as t q' st' s q st).
      { clear. unfold length_as. intuition. }
      destruct (in_dec Z.eq_dec q D) as [Hin|Hn].
      + eapply length_trans; [apply (about_len v D st (chg w st) (View w t) t q Hv chg_both chg_pass Hin Hsh Hi)|].
        apply Hsym, C2; [intros ->; contradiction|exact Hi].
      + assert (Hno : ~ In q (own v)) by (intros H; apply P4 in H; contradiction).
        eapply length_trans; [apply (length_view0 v _ q st a); auto|]. destruct (R2 q Hn) as [Ri Rl].
        destruct (Z.eq_dec q e) as [->|Hq].
        * apply Hsym. apply chg_length; auto; [congruence|]. intros Hn'. eapply length_trans; [apply (length_view0 v _ e (chg w st) b); auto|].
          apply Hsym, length_same; auto.
        * destruct (chg_other w e q st Hw Hq) as [Ei El].
          eapply length_trans; [apply A2; [exact Hq|congruence]|]. eapply length_trans; [apply length_same; [exact Hs5|exact G]|].
          apply Hsym. eapply length_trans; [apply C2; auto|]. apply (length_view0 v _ q (chg w st) b); auto. congruence.
  Qed.
End Change.

(** ** Structures with separate dimensions *)

Lemma regular_separate E t : regular E t -> signature t <> None -> forall D, (forall q, In q D -> ~ In q E) -> separate t D E.
Proof.
  induction 1 as [c|d t Ht IH|d ts Hd Hts IH|v d t Hc Ht IH]; intros Hs D Hde st st' q Hdiff Hq Hi.
  - split; reflexivity.
  - assert (Hs' : signature t <> None) by (intros E0; apply Hs; cbn [signature]; rewrite E0; reflexivity).
    destruct (Hdiff q (Hde q Hq)) as [Gi Gl]. destruct (Z.eq_dec q d) as [->|Hn].
    + unfold length_as, has_length, length_. cbn [lenops fst snd]. rewrite Z.eqb_refl. unfold has. rewrite <- Gi, <- Gl. split; reflexivity.
    + assert (L : length_as t q (remove [Idx d; Len d] st) t q (remove [Idx d; Len d] st')).
      { apply (IH Hs' D Hde); [|exact Hq|tags]. intros x Hx. destruct (Hdiff x Hx). split; tags. }
      destruct L as [L1 L2]. unfold has_length, length_ in L1, L2. unfold length_as, has_length, length_. cbn [lenops fst snd].
      rewrite (proj2 (Z.eqb_neq q d) Hn), L1, L2. split; reflexivity.
  - destruct (Hdiff q (Hde q Hq)) as [Gi Gl]. destruct (Hdiff d Hd) as [Di Dl]. destruct (Z.eq_dec q d) as [->|Hn].
    + unfold length_as, has_length, length_. cbn [lenops fst snd]. rewrite Z.eqb_refl. unfold has. rewrite <- Gi. split; reflexivity.
    + unfold length_as. destruct (tuple_length d ts q st Hn) as [-> ->]. destruct (tuple_length d ts q st' Hn) as [-> ->].
      unfold has, tuple_index. rewrite <- Di. destruct (get (Idx d) st) as [i|]; [|split; reflexivity]. destruct (vstatic i) as [k|]; [|split; reflexivity].
      cbn [obind]. destruct (nthz ts k) as [t|] eqn:Et; [|split; reflexivity]. cbn [obind]. apply nthz_In in Et.
      apply (IH t Et (tuple_sub d ts t Hs Et) D Hde); [|exact Hq|tags]. intros x Hx. destruct (Hdiff x Hx). split; tags.
  - pose proof (signature_sub _ _ Hs) as Hs'.
    assert (Hc' : differ_in E (chg v st) (chg v st')).
    { intros x Hx. destruct (Hdiff x Hx). destruct (Z.eq_dec x d) as [->|Hn]; [apply (chg_own v d); auto|].
      destruct (chg_other v d x st Hc Hn) as [-> ->]. destruct (chg_other v d x st' Hc Hn) as [-> ->]. auto. }
    destruct (Hdiff q (Hde q Hq)) as [Gi Gl]. destruct (Z.eq_dec q d) as [->|Hn].
    + apply chg_length; auto; [congruence|]. intros Hi'. apply (IH Hs' D Hde); auto.
    + destruct (chg_other v d q st Hc Hn) as [Ci Cl].
      destruct (chg_follows v d t st Hc Hs) as [_ A]. destruct (chg_follows v d t st' Hc Hs) as [_ B].
      eapply length_trans; [apply A; auto|]. eapply length_trans; [apply (IH Hs' D Hde); [exact Hc'|exact Hq|congruence]|].
      destruct (B q Hn) as [X Y]; [congruence|]. split; congruence.
Qed.
