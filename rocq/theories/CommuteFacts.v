(** * Proofs about views of different dimensions *)

From Verif Require Import Views3 SpecCommute.

(** The state below a view that does not look at the structure. *)
Definition chg (v : view) (st : state) : state :=
  match view_sub_state v (fun _ _ => None) (fun _ _ => None) st with Some s => s | None => st end.

Ltac kinds H := destruct H as [[[? ->]|[? ->]]|[[? [->|[[? ->]|[? ->]]]]|[[? [? ->]]|[->| ->]]]].

Lemma chg_sub v d t st : changes v d -> sub_state v t st = Some (chg v st).
Proof. intros H. kinds H; reflexivity. Qed.

Lemma chg_other v d q st : changes v d -> q <> d ->
  get (Idx q) (chg v st) = get (Idx q) st /\ get (Len q) (chg v st) = get (Len q) st.
Proof.
  intros H Hq. unfold chg. kinds H; cbn [view_sub_state];
    destruct (get (Idx d) st) as [i|], (get (Len d) st) as [l|]; split; tags.
Qed.

Lemma chg_own v d st st' : changes v d -> get (Idx d) st = get (Idx d) st' -> get (Len d) st = get (Len d) st' ->
  get (Idx d) (chg v st) = get (Idx d) (chg v st') /\ get (Len d) (chg v st) = get (Len d) (chg v st').
Proof.
  intros H Hi Hl. unfold chg. kinds H; cbn [view_sub_state];
    destruct (get (Idx d) st) as [i|] eqn:Ei; rewrite <- ?Hi; destruct (get (Len d) st) as [l|] eqn:El; rewrite <- ?Hl; split; tags.
Qed.

Lemma chg_commute v w d e st : changes v d -> changes w e -> d <> e -> same_get (chg w (chg v st)) (chg v (chg w st)).
Proof.
  intros Hv Hw Hde q. destruct (Z.eq_dec q d) as [->|Hd].
  - destruct (chg_other w e d (chg v st) Hw Hde) as [A B]. destruct (chg_other w e d st Hw Hde) as [C D].
    destruct (chg_own v d st (chg w st) Hv (eq_sym C) (eq_sym D)) as [E F]. split; congruence.
  - destruct (chg_other v d q (chg w st) Hv Hd) as [A B]. destruct (chg_other v d q st Hv Hd) as [C D].
    destruct (Z.eq_dec q e) as [->|He].
    + destruct (chg_own w e st (chg v st) Hw (eq_sym C) (eq_sym D)) as [E F]. split; congruence.
    + destruct (chg_other w e q st Hw He) as [E F]. destruct (chg_other w e q (chg v st) Hw He) as [G H]. split; congruence.
Qed.

Lemma chg_follows v d t st : changes v d -> signature (View v t) <> None ->
  works_as (View v t) st t (chg v st) /\
  forall q, q <> d -> get (Idx q) st = None -> length_as (View v t) q st t q (chg v st).
Proof.
  intros H Hs. assert (Hp : plain_lengths v = true /\ view_complete v t = true /\ present v st = true /\ incl (own v) [d]).
  { kinds H; repeat split; intros ?; simpl; intuition. }
  destruct Hp as (P1 & P2 & P3 & P4).
  destruct (follows_view v t st _ _ P1 P2 P3 Hs (chg_sub v d t st H) (same_get_refl _)) as [A B].
  refine (conj A _). intros q Hq Hi. apply B; [|exact Hi]. intros Hin. apply P4 in Hin. simpl in Hin. intuition.
Qed.

(** The length of the view's own dimension. *)
Lemma chg_length v d t1 t2 st1 st2 : changes v d ->
  get (Idx d) st1 = None -> get (Idx d) st2 = None -> get (Len d) st1 = get (Len d) st2 ->
  (get (Idx d) (chg v st1) = None -> length_as t1 d (chg v st1) t2 d (chg v st2)) ->
  length_as (View v t1) d st1 (View v t2) d st2.
Proof.
  intros H H1 H2 Hl Hc. unfold length_as. rewrite !length_View, !has_length_View.
  unfold chg in Hc. kinds H; cbn [view_has_length view_length view_sub_state] in *; rewrite ?Z.eqb_refl, ?H1, ?H2 in *;
    unfold has; rewrite ?H1, ?H2, <- ?Hl in *; cbn [obind andb] in *;
    try (split; reflexivity);
    try (destruct Hc as [C D]; [first [assumption|tags]|]; rewrite ?C, ?D; split; reflexivity).
  destruct (get (Len d) st1) as [l|] eqn:El; cbn [obind andb] in *; [split; reflexivity|].
  destruct Hc as [C D]; [tags|]. rewrite C, D. split; reflexivity.
Qed.

Lemma changes_commute v w d e t st : changes v d -> changes w e -> d <> e ->
  signature (View v (View w t)) <> None -> signature (View w (View v t)) <> None ->
  alike (View v (View w t)) (View w (View v t)) st.
Proof.
  intros Hv Hw Hde Hs1 Hs2. pose proof (signature_sub _ _ Hs1) as Hs3. pose proof (signature_sub _ _ Hs2) as Hs4.
  pose proof (signature_sub _ _ Hs3) as Hs5. pose proof (chg_commute v w d e st Hv Hw Hde) as Hg.
  destruct (chg_follows v d (View w t) st Hv Hs1) as [A1 A2]. destruct (chg_follows w e t (chg v st) Hw Hs3) as [B1 B2].
  destruct (chg_follows w e (View v t) st Hw Hs2) as [C1 C2]. destruct (chg_follows v d t (chg w st) Hv Hs4) as [D1 D2].
  split.
  { eapply works_comp; [exact A1|]. eapply works_comp; [exact B1|]. eapply works_comp; [apply works_same; [exact Hs5|exact Hg]|].
    apply works_sym. eapply works_comp; [exact C1|exact D1]. }
  intros q Hi. assert (Hsym : forall s q st t q' st', length_as s q st t q' st' -> length_as t q' st' s q st).
  { clear. unfold length_as. intuition. }
  destruct (Z.eq_dec q d) as [->|Hd].
  - destruct (chg_other w e d st Hw Hde) as [E F]. eapply length_trans; [|apply Hsym, C2; auto].
    apply chg_length; auto; [congruence|]. intros Hn. eapply length_trans; [apply B2; auto|]. apply length_same; auto.
  - destruct (chg_other v d q st Hv Hd) as [E F]. destruct (Z.eq_dec q e) as [->|He].
    + eapply length_trans; [apply A2; auto|]. apply chg_length; auto; [congruence|]. intros Hn.
      destruct (chg_own w e st (chg v st) Hw (eq_sym E) (eq_sym F)) as [G H].
      apply Hsym. eapply length_trans; [apply D2; auto; congruence|]. apply Hsym, length_same; auto.
    + destruct (chg_other w e q st Hw He) as [G H].
      eapply length_trans; [apply A2; auto|]. eapply length_trans; [apply B2; auto; congruence|].
      eapply length_trans; [apply length_same; [exact Hs5|exact Hg]|]. apply Hsym.
      eapply length_trans; [apply C2; auto|apply D2; auto; congruence].
Qed.

(** ** reverse *)

Lemma works_stuck v t st v' t' st' : sub_state v t st = None -> sub_state v' t' st' = None ->
  present v st = true -> present v' st' = true -> works_as (View v t) st (View v' t') st'.
Proof.
  intros E E' P P'.
  assert (Ho : forall v t st x, sub_state v t st = None -> present v st = true -> (forall v u, x <> View v u) -> has_offset_of x (View v t) st = None).
  { clear. intros v t st x E P Hx. rewrite has_offset_of_View.
    replace (same_type x (View v t)) with false by (destruct x; try reflexivity; exfalso; eapply Hx; reflexivity).
    rewrite E. destruct v; try reflexivity. simpl in P. rewrite P. reflexivity. }
  apply works_via.
  - cbn [has_size]. rewrite E, E'. reflexivity.
  - cbn [size_ has_size]. rewrite E, E'. reflexivity.
  - cbn [align_ has_size]. rewrite E, E'. reflexivity.
  - intros x Hx. pose proof (Ho _ _ _ _ E P Hx) as O1. pose proof (Ho _ _ _ _ E' P' Hx) as O2. split; [congruence|].
    intros a. cbn [offset_of]. rewrite O1, O2. reflexivity.
Qed.

Lemma chg_same v d st st' : changes v d -> same_get st st' -> same_get (chg v st) (chg v st').
Proof.
  intros H Hg q. destruct (Z.eq_dec q d) as [->|Hq]; [apply chg_own; auto; apply Hg|].
  destruct (chg_other v d q st H Hq) as [A B]. destruct (chg_other v d q st' H Hq) as [C D]. destruct (Hg q). split; congruence.
Qed.

Lemma reverse_commutes w d e t st : changes w e -> d <> e ->
  signature (View (VReverse d) (View w t)) <> None -> signature (View w (View (VReverse d) t)) <> None ->
  works_as (View (VReverse d) (View w t)) st (View w (View (VReverse d) t)) st /\
  (get (Idx d) st = None -> forall q, get (Idx q) st = None ->
     length_as (View (VReverse d) (View w t)) q st (View w (View (VReverse d) t)) q st).
Proof.
  intros Hw Hde Hs1 Hs2. pose proof (signature_sub _ _ Hs1) as Hs3. pose proof (signature_sub _ _ Hs2) as Hs4.
  pose proof (signature_sub _ _ Hs3) as Hs5. destruct (chg_follows w e (View (VReverse d) t) st Hw Hs2) as [C1 C2].
  destruct (chg_other w e d st Hw Hde) as [Ci Cl].
  split.
  - eapply works_comp; [|apply works_sym, C1]. destruct (get (Idx d) st) as [i|] eqn:Ei.
    + set (tmp := remove [Idx d] st). set (tmp' := remove [Idx d] (chg w st)).
      assert (Ht : get (Idx d) tmp = None) by (unfold tmp; tags).
      assert (Hg : same_get (chg w tmp) tmp').
      { intros q. destruct (Z.eq_dec q e) as [->|Hq].
        - assert (get (Idx e) tmp = get (Idx e) st /\ get (Len e) tmp = get (Len e) st) as [X Y].
          { unfold tmp. split; tags. }
          destruct (chg_own w e tmp st Hw X Y) as [G H]. unfold tmp'. split; tags.
        - destruct (chg_other w e q tmp Hw Hq) as [G H]. destruct (chg_other w e q st Hw Hq) as [G' H'].
          unfold tmp' in *. unfold tmp in *. rewrite G, H. split; tags. }
      destruct (chg_follows w e t tmp Hw Hs3) as [_ B2]. destruct (B2 d Hde Ht) as [L1 L2].
      destruct (length_same t d _ _ Hs5 Hg) as [M1 M2]. rewrite M1 in L1. rewrite M2 in L2.
      assert (S1 : sub_state (VReverse d) (View w t) st =
        (do h <- has_length t d tmp'; if h then do l <- length_ t d tmp'; Some (with_ [(Idx d, vsub (vsub l (Sta 1)) i)] tmp) else Some tmp)).
      { unfold sub_state. cbn [view_sub_state]. rewrite Ei. fold tmp. rewrite L1, L2. reflexivity. }
      assert (S2 : sub_state (VReverse d) t (chg w st) =
        (do h <- has_length t d tmp'; if h then do l <- length_ t d tmp'; Some (with_ [(Idx d, vsub (vsub l (Sta 1)) i)] tmp') else Some tmp')).
      { unfold sub_state. cbn [view_sub_state]. rewrite Ci. reflexivity. }
      assert (Hfin : forall a b, sub_state (VReverse d) (View w t) st = Some a -> sub_state (VReverse d) t (chg w st) = Some b ->
        same_get (chg w a) b -> works_as (View (VReverse d) (View w t)) st (View (VReverse d) t) (chg w st)).
      { intros a b E1 E2 G. eapply works_comp; [apply (works_view0 _ _ _ a); [reflexivity|reflexivity|exact E1]|].
        eapply works_comp; [apply (chg_follows w e t a Hw Hs3)|]. eapply works_comp; [apply works_same; [exact Hs5|exact G]|].
        apply works_sym, works_view0; [reflexivity|reflexivity|exact E2]. }
      destruct (has_length t d tmp') as [[|]|]; cbn [obind] in S1, S2.
      * destruct (length_ t d tmp') as [l|]; cbn [obind] in S1, S2; [|apply works_stuck; auto].
        eapply Hfin; [exact S1|exact S2|]. intros q. destruct (Hg q) as [G H]. destruct (Z.eq_dec q e) as [->|Hq].
        -- destruct (chg_own w e (with_ [(Idx d, vsub (vsub l (Sta 1)) i)] tmp) tmp Hw) as [X Y]; [tags|tags|].
           rewrite X, Y, G, H. split; tags.
        -- destruct (chg_other w e q (with_ [(Idx d, vsub (vsub l (Sta 1)) i)] tmp) Hw Hq) as [X Y].
           destruct (chg_other w e q tmp Hw Hq) as [X' Y']. rewrite X, Y. rewrite X' in G. rewrite Y' in H.
           clear -G H. split; [|tags]. rewrite !get_with. cbn [get fst map]. destruct (tag_eqb_spec (Idx q) (Idx d)); auto.
      * eapply Hfin; [exact S1|exact S2|exact Hg].
      * apply works_stuck; auto.
    + destruct (reverse_none d (View w t) st Hs1 Ei) as [R1 _]. destruct (reverse_none d t (chg w st) Hs4 Ci) as [R2 _].
      eapply works_comp; [exact R1|]. eapply works_comp; [apply (chg_follows w e t st Hw Hs3)|]. apply works_sym, R2.
  - intros Ei q Hi. destruct (reverse_none d (View w t) st Hs1 Ei) as [_ R1].
    rewrite Ei in Ci. destruct (reverse_none d t (chg w st) Hs4 Ci) as [_ R2].
    assert (Hsym : forall s q st t q' st', length_as s q st t q' st' -> length_as t q' st' s q st).
    { clear. unfold length_as. intuition. }
    eapply length_trans; [apply R1|]. destruct (chg_follows w e t st Hw Hs3) as [_ B2].
    destruct (Z.eq_dec q e) as [->|He].
    + apply chg_length; auto.
    + eapply length_trans; [apply B2; auto|]. apply Hsym. eapply length_trans; [apply C2; auto|apply R2].
Qed.

Lemma length_has t d st l : length_ t d st = Some l -> has_length t d st = Some true.
Proof. intros E. rewrite <- guard_len in E. destruct (has_length t d st) as [[|]|]; try discriminate. reflexivity. Qed.

Lemma reverses_follow d e t st i j ld le st' : d <> e -> signature (View (VReverse d) (View (VReverse e) t)) <> None ->
  get (Idx d) st = Some i -> get (Idx e) st = Some j ->
  (forall o cs, edited st [(Idx d, None); (Idx e, o)] cs -> length_ t d cs = Some ld) ->
  (forall o cs, edited st [(Idx e, None); (Idx d, o)] cs -> length_ t e cs = Some le) ->
  edited st [(Idx d, Some (vsub (vsub ld (Sta 1)) i)); (Idx e, Some (vsub (vsub le (Sta 1)) j))] st' ->
  works_as (View (VReverse d) (View (VReverse e) t)) st t st'.
Proof.
  intros Hde Hs Ei Ej Hd He Hst. pose proof (signature_sub _ _ Hs) as Hs'.
  assert (L1 : length_ t d (remove [Idx d] st) = Some ld) by (apply (Hd (Some j)); intros u; tags).
  eapply works_comp.
  - apply (reverse_follows d (View (VReverse e) t) st (remove [Idx d] st) i ld
      (with_ [(Idx d, vsub (vsub ld (Sta 1)) i)] st) Hs Ei); [intros u; tags| |intros u; tags].
    rewrite length_View, has_length_View. cbn [view_has_length view_length view_sub_state].
    replace (get (Idx e) (remove [Idx d] st)) with (Some j) by tags.
    set (tmp := remove [Idx e] (remove [Idx d] st)).
    assert (L2 : length_ t e tmp = Some le) by (apply (He None); intros u; unfold tmp; tags).
    rewrite (length_has _ _ _ _ L2). cbn [obind]. rewrite L2. cbn [obind].
    assert (L3 : length_ t d (with_ [(Idx e, vsub (vsub le (Sta 1)) j)] tmp) = Some ld).
    { apply (Hd (Some (vsub (vsub le (Sta 1)) j))). intros u. unfold tmp. tags. }
    rewrite (length_has _ _ _ _ L3). exact L1.
  - apply (reverse_follows e t _ (remove [Idx e] (with_ [(Idx d, vsub (vsub ld (Sta 1)) i)] st)) j le st' Hs').
    + tags.
    + intros u. tags.
    + apply (He (Some (vsub (vsub ld (Sta 1)) i))). intros u. tags.
    + intros u. rewrite (Hst u). tags.
Qed.

Lemma reverses_commute d e t st i j ld le : d <> e ->
  signature (View (VReverse d) (View (VReverse e) t)) <> None -> signature (View (VReverse e) (View (VReverse d) t)) <> None ->
  get (Idx d) st = Some i -> get (Idx e) st = Some j ->
  (forall o cs, edited st [(Idx d, None); (Idx e, o)] cs -> length_ t d cs = Some ld) ->
  (forall o cs, edited st [(Idx e, None); (Idx d, o)] cs -> length_ t e cs = Some le) ->
  works_as (View (VReverse d) (View (VReverse e) t)) st (View (VReverse e) (View (VReverse d) t)) st.
Proof.
  intros Hde Hs1 Hs2 Ei Ej Hd He.
  set (st' := with_ [(Idx d, vsub (vsub ld (Sta 1)) i); (Idx e, vsub (vsub le (Sta 1)) j)] st).
  eapply works_comp; [apply (reverses_follow d e t st i j ld le st'); auto; intros u; unfold st'; tags|].
  apply works_sym, (reverses_follow e d t st j i le ld st'); auto. intros u. unfold st'. tags.
Qed.

(** ** Vectors *)

Lemma works_elements s st t st' : works_as s st t st' -> elements_as s st t st'.
Proof.
  intros (A & B & C & D & E). refine (conj A (conj B (conj C (conj _ E)))). intros c. apply D. discriminate.
Qed.
Lemma elements_via s st t st' : has_size s st = has_size t st' -> size_ s st = size_ t st' -> align_ s st = align_ t st' ->
  (forall c, has_offset_of (Scalar c) s st = has_offset_of (Scalar c) t st' /\
     forall start, offset_of (Scalar c) s st start = offset_of (Scalar c) t st' start) -> elements_as s st t st'.
Proof.
  intros A B C D. refine (conj A (conj B (conj C (conj D _)))). intros o o'. apply same_offset. intros c a. apply D.
Qed.
Lemma elements_comp s st t st' u st'' : elements_as s st t st' -> elements_as t st' u st'' -> elements_as s st u st''.
Proof.
  intros (A & B & C & D & _) (A' & B' & C' & D' & _). apply elements_via; try congruence.
  intros c. destruct (D c) as [X Y]. destruct (D' c) as [X' Y']. split; [congruence|]. intros a. rewrite Y. apply Y'.
Qed.

Lemma chg_remove v d e st : changes v d -> d <> e ->
  same_get (remove [Idx e; Len e] (chg v st)) (chg v (remove [Idx e; Len e] st)).
Proof.
  intros Hv Hde q. set (rm := remove [Idx e; Len e] st).
  destruct (Z.eq_dec q d) as [->|Hq].
  - assert (get (Idx d) rm = get (Idx d) st /\ get (Len d) rm = get (Len d) st) as [X Y] by (unfold rm; split; tags).
    destruct (chg_own v d rm st Hv X Y) as [G H]. split; tags.
  - destruct (chg_other v d q rm Hv Hq) as [G H]. destruct (chg_other v d q st Hv Hq) as [G' H'].
    rewrite G, H. unfold rm. split; tags.
Qed.

Lemma vector_elements e t u st st' : get (Len e) st = get (Len e) st' -> has (Idx e) st = has (Idx e) st' ->
  get (Idx e) st = get (Idx e) st' ->
  elements_as t (remove [Idx e; Len e] st) u (remove [Idx e; Len e] st') -> elements_as (Vector e t) st (Vector e u) st'.
Proof.
  intros Hl Hh Hi (A & B & C & D & _).
  assert (Hhl : has (Len e) st = has (Len e) st') by (unfold has; rewrite Hl; reflexivity).
  assert (Hs : has_size (Vector e t) st = has_size (Vector e u) st') by (cbn [has_size]; rewrite Hhl, A; reflexivity).
  assert (Ho : forall c, has_offset_of (Scalar c) (Vector e t) st = has_offset_of (Scalar c) (Vector e u) st').
  { intros c. cbn [has_offset_of same_type]. rewrite Hh, Hhl. destruct (D c) as [-> _]. reflexivity. }
  apply elements_via; [exact Hs|cbn [size_]; rewrite Hs, Hl, B; reflexivity|cbn [align_]; rewrite Hs, C; reflexivity|].
  intros c. split; [apply Ho|]. intros a. cbn [offset_of same_type]. rewrite Ho, Hi, Hl, B. destruct (D c) as [_ D'].
  destruct (get (Idx e) st') as [i|]; cbn [obind]; [|reflexivity].
  destruct (get (Len e) st') as [l|]; cbn [obind]; [|reflexivity]. rewrite D'.
  destruct (size_ u (remove [Idx e; Len e] st')) as [sz|]; cbn [obind]; rewrite ?D'; reflexivity.
Qed.

Lemma elements_same s st st' : signature s <> None -> same_get st st' -> elements_as s st s st'.
Proof. intros. apply works_elements, works_same; auto. Qed.
Lemma elements_sym s st t st' : elements_as s st t st' -> elements_as t st' s st.
Proof.
  intros (A & B & C & D & _). apply elements_via; try congruence.
  intros c. destruct (D c) as [X Y]. split; [congruence|]. intros a. rewrite Y. reflexivity.
Qed.

Lemma vector_commutes v d e t st : changes v d -> d <> e ->
  signature (View v (Vector e t)) <> None -> signature (Vector e (View v t)) <> None ->
  elements_as (View v (Vector e t)) st (Vector e (View v t)) st /\
  forall q, get (Idx q) st = None -> length_as (View v (Vector e t)) q st (Vector e (View v t)) q st.
Proof.
  intros Hv Hde Hs1 Hs2. assert (Hs3 : signature (View v t) <> None).
  { intros E. apply Hs2. cbn [signature] in E |- *. rewrite E. reflexivity. }
  pose proof (signature_sub _ _ Hs3) as Hs4. pose proof (signature_sub _ _ Hs1) as Hs5.
  destruct (chg_follows v d (Vector e t) st Hv Hs1) as [A1 A2].
  destruct (chg_other v d e st Hv (not_eq_sym Hde)) as [Ei El].
  pose proof (chg_remove v d e st Hv Hde) as Hg. set (rm := remove [Idx e; Len e] st) in *.
  destruct (chg_follows v d t rm Hv Hs3) as [B1 B2].
  split.
  - eapply elements_comp; [apply works_elements, A1|]. apply vector_elements; [exact El|unfold has; rewrite Ei; reflexivity|exact Ei|].
    fold rm. eapply elements_comp; [apply elements_same; [exact Hs4|exact Hg]|]. apply elements_sym, works_elements, B1.
  - assert (Hvec : forall u st q, q <> e -> length_as (Vector e u) q st u q (remove [Idx e; Len e] st)).
    { clear. intros u st q Hq. assert (E : has_length (Vector e u) q st = has_length u q (remove [Idx e; Len e] st)).
      { unfold has_length. cbn [lenops fst snd]. rewrite (proj2 (Z.eqb_neq q e) Hq). reflexivity. }
      split; [exact E|]. unfold length_ at 1. cbn [lenops fst snd]. rewrite (proj2 (Z.eqb_neq q e) Hq). apply guard_len. }
    assert (Hsym : forall s q st t q' st', length_as s q st t q' st' -> length_as t q' st' s q st).
    { clear. unfold length_as. intuition. }
    intros q Hi. destruct (Z.eq_dec q e) as [->|He].
    + eapply length_trans; [apply A2; auto|].
      unfold length_as, has_length, length_. cbn [lenops fst snd]. rewrite Z.eqb_refl. unfold has. rewrite Ei, El. split; reflexivity.
    + eapply length_trans; [|apply Hsym, Hvec, He]. fold rm.
      assert (Hr : get (Idx q) rm = get (Idx q) st /\ get (Len q) rm = get (Len q) st) by (unfold rm; split; tags).
      destruct Hr as [Ri Rl]. destruct (Z.eq_dec q d) as [->|Hd].
      * apply chg_length; auto; [congruence|]. intros _. eapply length_trans; [apply Hvec, He|]. apply length_same; auto.
      * eapply length_trans; [apply A2; auto|]. eapply length_trans; [apply Hvec, He|].
        eapply length_trans; [apply length_same; [exact Hs4|exact Hg]|]. apply Hsym, B2; auto. congruence.
Qed.

(** ** Tuples *)

Lemma forall2_map {A B C} (R : A -> B -> Prop) (f : A -> C) (g : B -> C) l m :
  (forall a b, R a b -> f a = g b) -> Forall2 R l m -> map f l = map g m.
Proof. intros H F. induction F; simpl; [reflexivity|]. f_equal; auto. Qed.

Lemma tuple_elements e ts us st st' : get (Idx e) st = get (Idx e) st' ->
  Forall2 (fun t u => elements_as t (remove [Idx e] st) u (remove [Idx e] st')) ts us ->
  elements_as (Tuple e ts) st (Tuple e us) st'.
Proof.
  intros Hi F. set (rm := remove [Idx e] st) in *. set (rm' := remove [Idx e] st') in *.
  assert (Hh : has (Idx e) st = has (Idx e) st') by (unfold has; rewrite Hi; reflexivity).
  assert (Ht : tuple_index e st = tuple_index e st') by (unfold tuple_index; rewrite Hi; reflexivity).
  assert (Ms : map (fun t => has_size t rm) ts = map (fun t => has_size t rm') us).
  { eapply forall2_map; [|exact F]. intros a b (A & _). exact A. }
  assert (Ma : map (fun t => align_ t rm) ts = map (fun t => align_ t rm') us).
  { eapply forall2_map; [|exact F]. intros a b (_ & _ & A & _). exact A. }
  assert (Mc : comp_sizes ts rm = comp_sizes us rm').
  { unfold comp_sizes. eapply forall2_map; [|exact F]. cbv beta. intros a b (_ & B & A & _). rewrite A, B. reflexivity. }
  assert (Mh : forall c, map (fun t => has_offset_of (Scalar c) t rm) ts = map (fun t => has_offset_of (Scalar c) t rm') us).
  { intros c. eapply forall2_map; [|exact F]. intros a b (_ & _ & _ & D & _). apply D. }
  assert (Mo : forall c z, map (fun t => offset_of (Scalar c) t rm z) ts = map (fun t => offset_of (Scalar c) t rm' z) us).
  { intros c z. eapply forall2_map; [|exact F]. intros a b (_ & _ & _ & D & _). apply D. }
  assert (Hs : has_size (Tuple e ts) st = has_size (Tuple e us) st') by (cbn [has_size]; fold rm rm'; rewrite Ms; reflexivity).
  assert (Ho : forall c, has_offset_of (Scalar c) (Tuple e ts) st = has_offset_of (Scalar c) (Tuple e us) st').
  { intros c. cbn [has_offset_of same_type]. fold rm rm'. rewrite Hh, Ht, Mh. reflexivity. }
  apply elements_via; [exact Hs| | |].
  - cbn [size_]. fold rm rm'. rewrite Hs. unfold comp_sizes in Mc. rewrite Mc. reflexivity.
  - cbn [align_]. fold rm rm'. rewrite Hs, Ma. reflexivity.
  - intros c. split; [apply Ho|]. intros a. cbn [offset_of same_type]. fold rm rm'. rewrite Ho, Ht.
    destruct (tuple_index e st') as [k|]; cbn [obind]; [|reflexivity].
    replace (comp_sizes (firstn (Z.to_nat k) ts) rm) with (comp_sizes (firstn (Z.to_nat k) us) rm')
      by (unfold comp_sizes in *; rewrite <- !firstn_map, Mc; reflexivity).
    destruct (size_acc (Sta 0) (comp_sizes (firstn (Z.to_nat k) us) rm')) as [b|]; cbn [obind]; [|reflexivity]. rewrite Mo. reflexivity.
Qed.

Lemma chg_remove1 v d e st : changes v d -> d <> e ->
  same_get (remove [Idx e] (chg v st)) (chg v (remove [Idx e] st)).
Proof.
  intros Hv Hde q. set (rm := remove [Idx e] st).
  destruct (Z.eq_dec q d) as [->|Hq].
  - assert (get (Idx d) rm = get (Idx d) st /\ get (Len d) rm = get (Len d) st) as [X Y] by (unfold rm; split; tags).
    destruct (chg_own v d rm st Hv X Y) as [G H]. split; tags.
  - destruct (chg_other v d q rm Hv Hq) as [G H]. destruct (chg_other v d q st Hv Hq) as [G' H'].
    rewrite G, H. unfold rm. split; tags.
Qed.

Lemma tuple_length e ts q st : q <> e ->
  has_length (Tuple e ts) q st = (if has (Idx e) st then do k <- tuple_index e st; do t <- nthz ts k; has_length t q (remove [Idx e] st) else Some false) /\
  length_ (Tuple e ts) q st = (if has (Idx e) st then do k <- tuple_index e st; do t <- nthz ts k; length_ t q (remove [Idx e] st) else None).
Proof.
  intros Hq. assert (E : has_length (Tuple e ts) q st = (if has (Idx e) st then do k <- tuple_index e st; do t <- nthz ts k; has_length t q (remove [Idx e] st) else Some false)).
  { unfold has_length at 1. cbn [lenops fst snd]. rewrite (proj2 (Z.eqb_neq q e) Hq). destruct (has (Idx e) st); [|reflexivity].
    unfold tuple_index. destruct (get (Idx e) st) as [i|]; [|reflexivity]. destruct (vstatic i) as [k|]; [|reflexivity].
    cbn [obind]. rewrite nthz_map. destruct (nthz ts k); reflexivity. }
  split; [exact E|]. unfold length_ at 1. cbn [lenops fst snd]. change (snd (lenops (Tuple e ts)) q st) with (length_ (Tuple e ts) q st).
  unfold has_length at 1 in E. cbn [lenops fst snd] in E. rewrite E, (proj2 (Z.eqb_neq q e) Hq).
  unfold tuple_index. unfold has. destruct (get (Idx e) st) as [i|]; [|reflexivity]. destruct (vstatic i) as [k|]; [|reflexivity].
  cbn [obind]. rewrite nthz_map. destruct (nthz ts k) as [t|]; cbn [obind option_map]; [|reflexivity]. apply guard_len.
Qed.

Lemma tuple_sub e ts t : signature (Tuple e ts) <> None -> In t ts -> signature t <> None.
Proof.
  cbn [signature]. intros H Hin E. apply H. clear H. assert (omap signature ts = None) as ->; [|reflexivity].
  induction ts as [|x ts IH]; [destruct Hin|]. simpl. destruct Hin as [->|Hin]; [rewrite E; reflexivity|].
  rewrite (IH Hin). destruct (signature x); reflexivity.
Qed.

Lemma tuple_commutes v d e ts st : changes v d -> d <> e ->
  signature (View v (Tuple e ts)) <> None -> signature (Tuple e (map (View v) ts)) <> None ->
  elements_as (View v (Tuple e ts)) st (Tuple e (map (View v) ts)) st /\
  (forall q, q <> d -> get (Idx q) st = None -> length_as (View v (Tuple e ts)) q st (Tuple e (map (View v) ts)) q st) /\
  (forall i k, get (Idx e) st = Some i -> vstatic i = Some k -> 0 <= k < Z.of_nat (List.length ts) -> get (Idx d) st = None ->
     length_as (View v (Tuple e ts)) d st (Tuple e (map (View v) ts)) d st).
Proof.
  intros Hv Hde Hs1 Hs2.
  assert (Hs3 : forall t, In t ts -> signature (View v t) <> None) by (intros t Ht; eapply tuple_sub; [exact Hs2|apply in_map, Ht]).
  assert (Hs4 : forall t, In t ts -> signature t <> None) by (intros t Ht; eapply signature_sub, Hs3, Ht).
  destruct (chg_follows v d (Tuple e ts) st Hv Hs1) as [A1 A2].
  destruct (chg_other v d e st Hv (not_eq_sym Hde)) as [Ei El].
  pose proof (chg_remove1 v d e st Hv Hde) as Hg. set (rm := remove [Idx e] st) in *.
  assert (Hh : has (Idx e) (chg v st) = has (Idx e) st) by (unfold has; rewrite Ei; reflexivity).
  assert (Ht : tuple_index e (chg v st) = tuple_index e st) by (unfold tuple_index; rewrite Ei; reflexivity).
  split; [|split].
  - eapply elements_comp; [apply works_elements, A1|]. apply tuple_elements; [exact Ei|]. fold rm.
    assert (Hin : forall t, In t ts -> elements_as t (remove [Idx e] (chg v st)) (View v t) rm).
    { intros t Hin. eapply elements_comp; [apply elements_same; [apply Hs4, Hin|exact Hg]|].
      apply elements_sym, works_elements, (chg_follows v d t rm Hv (Hs3 t Hin)). }
    clear -Hin. induction ts as [|t ts IH]; simpl; constructor; [apply Hin; left; reflexivity|]. apply IH. intros u Hu. apply Hin. right. exact Hu.
  - intros q Hq Hi. eapply length_trans; [apply A2; auto|]. destruct (Z.eq_dec q e) as [->|He].
    + unfold length_as, has_length, length_. cbn [lenops fst snd]. rewrite Z.eqb_refl, Hh, !map_length. split; reflexivity.
    + destruct (tuple_length e ts q (chg v st) He) as [B1 B2]. destruct (tuple_length e (map (View v) ts) q st He) as [C1 C2].
      fold rm in C1, C2. unfold length_as. rewrite B1, B2, C1, C2, Hh, Ht. destruct (has (Idx e) st); [|split; reflexivity].
      destruct (tuple_index e st) as [k|]; [|split; reflexivity]. cbn [obind]. rewrite nthz_map.
      destruct (nthz ts k) as [t|] eqn:Et; [|split; reflexivity]. cbn [obind option_map]. apply nthz_In in Et.
      destruct (chg_follows v d t rm Hv (Hs3 t Et)) as [_ D]. destruct (D q Hq) as [D1 D2]; [unfold rm; tags|].
      destruct (length_same t q _ _ (Hs4 t Et) Hg) as [E1 E2]. split; congruence.
  - intros i k Hi Hk Hr Hd. destruct (nthz_range_Some ts k Hr) as [t Et].
    assert (Hhs : has (Idx e) st = true) by (unfold has; rewrite Hi; reflexivity).
    assert (Hts : tuple_index e st = Some k) by (unfold tuple_index; rewrite Hi; exact Hk).
    assert (X : length_as (Tuple e (map (View v) ts)) d st (View v t) d rm).
    { destruct (tuple_length e (map (View v) ts) d st Hde) as [C1 C2]. fold rm in C1, C2. unfold length_as.
      rewrite C1, C2, Hhs, Hts. cbn [obind]. rewrite nthz_map, Et. split; reflexivity. }
    assert (Y : length_as (View v (Tuple e ts)) d st (View v t) d rm).
    { apply chg_length; auto; [unfold rm; tags|unfold rm; tags|]. intros _.
      destruct (tuple_length e ts d (chg v st) Hde) as [B1 B2]. unfold length_as. rewrite B1, B2, Hh, Ht, Hhs, Hts. cbn [obind]. rewrite Et. cbn [obind].
      apply length_same; [eapply Hs4, nthz_In, Et|exact Hg]. }
    destruct X, Y. split; congruence.
Qed.
