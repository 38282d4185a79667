(** * Proofs about single views *)

From Coq Require Import Permutation.
From Verif Require Export SpecViews Foreign Select.

(** ** Working as another structure *)

Lemma works_trans s st t st' u st'' : works_as s st t st' -> works_as t st' u st'' ->
  (offset s st <> None -> offset u st'' <> None -> offset t st' <> None) -> works_as s st u st''.
Proof.
  intros (A1 & A2 & A3 & A4 & A5) (B1 & B2 & B3 & B4 & B5) H. refine (conj _ (conj _ (conj _ (conj _ _)))); try congruence.
  - intros x Hx. destruct (A4 x Hx) as [A6 A7], (B4 x Hx) as [B6 B7]. split; [congruence|]. intros a. rewrite A7. apply B7.
  - intros o o' E E'. destruct (offset t st') as [w|] eqn:Ew; [|exfalso; apply H; congruence]. rewrite (A5 _ _ E eq_refl). exact (B5 _ _ eq_refl E').
Qed.

Lemma cty_eqb_eq a b : cty_eqb a b = true -> a = b.
Proof. destruct a, b. unfold cty_eqb; cbn. intros H. f_equal; lia. Qed.

(** An element has one type. *)
Lemma scalar_unique s : forall st c c' b b', has_offset_of (Scalar c) s st = Some b -> has_offset_of (Scalar c') s st = Some b' ->
  b = true -> b' = true -> c = c'.
Proof.
  induction s as [k|d ts IH|d t IH|v t IH|ts IH] using struct_ind'; intros st c c' b b' E E' Hb Hb'; subst b b'.
  - simpl in E, E'. destruct (cty_eqb c k) eqn:A; [|discriminate]. destruct (cty_eqb c' k) eqn:B; [|discriminate].
    apply cty_eqb_eq in A, B. congruence.
  - simpl in E, E'. destruct (has (Idx d) st); [|discriminate]. destruct (tuple_index d st) as [k|]; [|discriminate]. simpl in E, E'.
    rewrite nthz_map in E, E'. destruct (nthz ts k) as [t|] eqn:Et; simpl in E, E'; [|discriminate].
    eapply Forall_nthz in IH; [|exact Et]. eapply IH; eauto.
  - simpl in E, E'. destruct (has (Idx d) st && has (Len d) st); [|discriminate]. eapply IH; eauto.
  - rewrite has_offset_of_View in E, E'. simpl same_type in E, E'. cbv iota in E, E'.
    assert (H : forall o : option state, (do st' <- o; oand (Some (view_complete v t)) (has_offset_of (Scalar c) t st')) = Some true ->
      (do st' <- o; oand (Some (view_complete v t)) (has_offset_of (Scalar c') t st')) = Some true -> c = c').
    { intros [st'|] A B; [|discriminate]. simpl in A, B.
      destruct (has_offset_of (Scalar c) t st') as [[|]|] eqn:A1; try (destruct (view_complete v t); discriminate).
      destruct (has_offset_of (Scalar c') t st') as [[|]|] eqn:B1; try (destruct (view_complete v t); discriminate); destruct (view_complete v t); try discriminate. eapply IH; eauto. }
    destruct v; try (eapply H; [exact E|exact E']).
    destruct (has (Idx M) st && has (Idx m) st && has (Idx p) st); [|discriminate].
    destruct (sub_state _ t st) as [st'|]; [|discriminate]. eapply IH; eauto.
  - simpl in E. discriminate.
Qed.

Lemma offset_of_has x s st a o : offset_of x s st a = Some o -> has_offset_of x s st = Some true.
Proof. destruct s; simpl; unfold guard; match goal with |- context [match ?c with _ => _ end = Some o] => destruct c as [[|]|] end; congruence. Qed.

Lemma same_offset s st t st' o o' :
  (forall c a, offset_of (Scalar c) s st a = offset_of (Scalar c) t st' a) ->
  offset s st = Some o -> offset t st' = Some o' -> o = o'.
Proof.
  unfold offset. intros H E E'. destruct (scalar_t s st) as [c|]; [|discriminate]. destruct (scalar_t t st') as [c'|]; [|discriminate].
  cbn [obind] in E, E'. rewrite H in E. assert (c = c'); [|subst; congruence].
  eapply scalar_unique; eauto using offset_of_has.
Qed.

Lemma works_via s st t st' : has_size s st = has_size t st' -> size_ s st = size_ t st' -> align_ s st = align_ t st' ->
  (forall x, (forall v u, x <> View v u) -> has_offset_of x s st = has_offset_of x t st' /\
     forall start, offset_of x s st start = offset_of x t st' start) -> works_as s st t st'.
Proof.
  intros A B C D. refine (conj A (conj B (conj C (conj D _)))). intros o o'. apply same_offset. intros c a. apply D. discriminate.
Qed.

(** As [works_trans], without the condition. *)
Lemma works_comp s st t st' u st'' : works_as s st t st' -> works_as t st' u st'' -> works_as s st u st''.
Proof.
  intros (A1 & A2 & A3 & A4 & _) (B1 & B2 & B3 & B4 & _). apply works_via; try congruence.
  intros x Hx. destruct (A4 x Hx) as [A6 A7], (B4 x Hx) as [B6 B7]. split; [congruence|]. intros a. rewrite A7. apply B7.
Qed.
Lemma works_sym s st t st' : works_as s st t st' -> works_as t st' s st.
Proof. intros (A1 & A2 & A3 & A4 & _). apply works_via; auto. intros x Hx. destruct (A4 x Hx). split; auto. Qed.
Lemma works_refl s st : works_as s st s st.
Proof. apply works_via; auto. Qed.

Lemma works_same s st st' : signature s <> None -> same_get st st' -> works_as s st s st'.
Proof.
  intros Hs Hg. pose proof congruence_eq as HR. pose proof (struct_rel_refl eq (fun x => eq_refl) s) as Hrs.
  assert (He : srel eq (mentions s) st st'). { apply same_entries_srel. intros d _. apply Hg. }
  pose proof (in_mentions s) as Hin.
  apply works_via.
  - eapply has_size_rel; eauto.
  - apply orel_eq. eapply size_rel; eauto.
  - apply orel_eq. eapply align_rel; eauto.
  - intros x _. split; [eapply has_offset_of_rel; eauto|]. intros a. apply orel_eq. eapply offset_of_rel; eauto.
Qed.

Lemma length_same s q st st' : signature s <> None -> same_get st st' -> length_as s q st s q st'.
Proof.
  intros Hs Hg. destruct (foreign_ignored s st st' Hs) as (_ & _ & _ & _ & _ & _ & H); [intros d _; apply Hg|].
  apply H. intros d _. apply Hg.
Qed.

(** The indices that [into_blocks_dynamic] insists on. *)
Definition present (v : view) (st : state) : bool :=
  match v with VBlocksDyn _ M m p => has (Idx M) st && has (Idx m) st && has (Idx p) st | _ => true end.

Lemma guard_guard {A} b (o : option A) : guard b (guard b o) = guard b o.
Proof. destruct b as [[|]|]; reflexivity. Qed.
Lemma size_guard t st : guard (has_size t st) (size_ t st) = size_ t st.
Proof. destruct t; apply guard_guard. Qed.
Lemma align_guard t st : guard (has_size t st) (align_ t st) = align_ t st.
Proof. destruct t; apply guard_guard. Qed.
Lemma offset_of_guard x t st a : guard (has_offset_of x t st) (offset_of x t st a) = offset_of x t st a.
Proof. destruct t; apply guard_guard. Qed.

Lemma works_view0 v t st st' : view_complete v t = true -> present v st = true -> sub_state v t st = Some st' ->
  works_as (View v t) st t st'.
Proof.
  intros Hc Hp E. assert (Hsz : has_size (View v t) st = has_size t st').
  { cbn [has_size]. rewrite E. cbn [obind]. rewrite Hc. destruct (has_size t st') as [[|]|]; reflexivity. }
  assert (Ho : forall x, (forall v u, x <> View v u) -> has_offset_of x (View v t) st = has_offset_of x t st').
  { intros x Hx. rewrite has_offset_of_View. replace (same_type x (View v t)) with false by (destruct x; try reflexivity; exfalso; eapply Hx; reflexivity).
    rewrite E. cbn [obind]. rewrite Hc. replace (oand (Some true) (has_offset_of x t st')) with (has_offset_of x t st') by (destruct (has_offset_of x t st') as [[|]|]; reflexivity).
    destruct v; try reflexivity. simpl in Hp. rewrite Hp. reflexivity. }
  apply works_via; auto.
  - cbn [size_]. rewrite Hsz, E. apply size_guard.
  - cbn [align_]. rewrite Hsz, E. apply align_guard.
  - intros x Hx. split; [auto|]. intros a. cbn [offset_of]. rewrite (Ho x Hx), E.
    replace (same_type x (View v t)) with false by (destruct x; try reflexivity; exfalso; eapply Hx; reflexivity).
    apply offset_of_guard.
Qed.

Lemma signature_sub v t : signature (View v t) <> None -> signature t <> None.
Proof. simpl. destruct (signature t); congruence. Qed.

Lemma works_view v t st st0 st' : signature (View v t) <> None -> view_complete v t = true -> present v st = true ->
  sub_state v t st = Some st0 -> same_get st0 st' -> works_as (View v t) st t st'.
Proof.
  intros Hs Hc Hp E Hg. eapply works_comp; [apply works_view0; eauto|]. apply works_same; [eapply signature_sub, Hs|exact Hg].
Qed.

Lemma edited_same st upd st' st0 : edited st upd st' ->
  (forall u, get u st0 = match edit_look u upd with Some o => o | None => get u st end) -> same_get st0 st'.
Proof. intros H H0 d. rewrite !H, !H0. auto. Qed.

Ltac tags := repeat (rewrite ?get_with, ?get_remove in *; cbn [get map fst edit_look tag_mem existsb orb] in * );
  repeat (match goal with |- context [tag_eqb ?a ?b] => destruct (tag_eqb_spec a b); subst; cbn [orb] end); try congruence; auto.
Ltac by_edit := match goal with H : edited _ _ _ |- same_get _ _ => eapply edited_same; [exact H|]; intros u; tags end.

(** ** Lengths of dimensions that the view does not treat specially *)

Definition own (v : view) : list dim :=
  match v with
  | VBcast d | VFix d _ | VShift d _ | VSlice d _ _ | VSpan d _ _ | VStep d _ _ | VZCurve _ _ d _ => [d]
  | VBlocks d M m | VMerge M m d => [d; M; m]
  | VBlocksDyn d M m p => [d; M; m; p]
  | VBlocksSta d b M m _ => [d; b; M; m]
  | _ => []
  end.
Definition plain_lengths (v : view) : bool := match v with VReverse _ | VRename _ => false | _ => true end.

Lemma guard_len t q st : guard (has_length t q st) (length_ t q st) = length_ t q st.
Proof.
  destruct t; try reflexivity; unfold has_length, length_; cbn [lenops fst snd]; apply guard_guard.
Qed.

Lemma length_view0 v t q st st' : plain_lengths v = true -> view_complete v t = true -> ~ In q (own v) -> get (Idx q) st = None ->
  signature (View v t) <> None ->
  sub_state v t st = Some st' -> length_as (View v t) q st t q st'.
Proof.
  intros Hp Hc Hq Hi Hs E. unfold length_as. rewrite length_View, has_length_View.
  assert (Hh : has (Idx q) st = false) by (unfold has; rewrite Hi; reflexivity).
  assert (Hown : forall d, In d (own v) -> (q =? d) = false) by (intros d Hd; apply Z.eqb_neq; intros ->; auto).
  assert (H1 : view_has_length v (signature (View v t)) (has_length t) (length_ t) q st = has_length t q st' /\
               view_length v (has_length t) (length_ t) q st = length_ t q st').
  { destruct v; try discriminate; unfold sub_state in E; cbn [view_has_length view_length]; rewrite ?E; cbn [obind];
      cbn [own] in Hown;
      repeat (match goal with |- context [q =? ?d] => rewrite (Hown d) by (simpl; auto 6) end); rewrite ?Hh; cbn [andb orb]; auto.
    split; [|reflexivity]. cbn [view_complete] in Hc. destruct (signature (View (VReorder ds) t)) as [sg|]; [|congruence].
    rewrite Hc. cbn [orb]. destruct (has_length t q st') as [[|]|]; reflexivity. }
  destruct H1 as [H1 H2]. rewrite H1, H2. split; [reflexivity|]. apply guard_len.
Qed.

Lemma length_trans s q st t q' st' u q'' st'' :
  length_as s q st t q' st' -> length_as t q' st' u q'' st'' -> length_as s q st u q'' st''.
Proof. unfold length_as. intros [A B] [C D]. split; congruence. Qed.

Lemma length_view v t q st st0 st' : plain_lengths v = true -> view_complete v t = true -> ~ In q (own v) -> get (Idx q) st = None ->
  signature (View v t) <> None ->
  sub_state v t st = Some st0 -> same_get st0 st' -> length_as (View v t) q st t q st'.
Proof.
  intros Hp Hc Hq Hi Hs E Hg. eapply length_trans; [apply length_view0; eauto|]. apply length_same; [eapply signature_sub, Hs|exact Hg].
Qed.

(** [follows Q s st t st']: [s] works as [t], and has its lengths for the dimensions in [Q] that
    have no index. *)
Lemma follows_view v t st st0 st' : plain_lengths v = true -> view_complete v t = true -> present v st = true ->
  signature (View v t) <> None -> sub_state v t st = Some st0 -> same_get st0 st' ->
  works_as (View v t) st t st' /\
  forall q, ~ In q (own v) -> get (Idx q) st = None -> length_as (View v t) q st t q st'.
Proof. intros H1 H2 H3 H4 H5 H6. split; [eapply works_view; eauto|]. intros q Hq Hi. eapply length_view; eauto. Qed.

(** ** slice, span, shift, step *)


Lemma moved_same d f st st' : edited st [moved d f st] st' ->
  same_get (match get (Idx d) st with Some i => with_ [(Idx d, f i)] st | None => st end) st'.
Proof. unfold moved. intros He. destruct (get (Idx d) st) as [i|] eqn:Ei; cbn [option_map] in He; by_edit. Qed.

Lemma slice_follows d b n t st st' : signature (View (VSlice d b n) t) <> None ->
  edited st [moved d (fun i => vadd i b) st] st' ->
  works_as (View (VSlice d b n) t) st t st' /\
  (forall q, q <> d -> get (Idx q) st = None -> length_as (View (VSlice d b n) t) q st t q st') /\
  has_length (View (VSlice d b n) t) d st = has_length t d st' /\
  (has_length t d st' = Some true -> length_ (View (VSlice d b n) t) d st = Some n).
Proof.
  intros Hs He. pose proof (moved_same _ _ _ _ He) as Hg.
  destruct (follows_view (VSlice d b n) t st _ st' eq_refl eq_refl eq_refl Hs eq_refl Hg) as [A B].
  assert (C : has_length (View (VSlice d b n) t) d st = has_length t d st').
  { apply (length_same t d _ _ (signature_sub _ _ Hs) Hg). }
  refine (conj A (conj _ (conj C _))).
  - intros q Hq Hi. apply B; [simpl; intuition|exact Hi].
  - intros H. rewrite length_View, C, H. cbn [view_length guard]. rewrite Z.eqb_refl. reflexivity.
Qed.

Lemma span_follows d b e t st st' : signature (View (VSpan d b e) t) <> None ->
  edited st [moved d (fun i => vadd i b) st] st' ->
  works_as (View (VSpan d b e) t) st t st' /\
  (forall q, q <> d -> get (Idx q) st = None -> length_as (View (VSpan d b e) t) q st t q st') /\
  has_length (View (VSpan d b e) t) d st = has_length t d st' /\
  (has_length t d st' = Some true -> length_ (View (VSpan d b e) t) d st = Some (vsub e b)).
Proof.
  intros Hs He. pose proof (moved_same _ _ _ _ He) as Hg.
  destruct (follows_view (VSpan d b e) t st _ st' eq_refl eq_refl eq_refl Hs eq_refl Hg) as [A B].
  assert (C : has_length (View (VSpan d b e) t) d st = has_length t d st').
  { apply (length_same t d _ _ (signature_sub _ _ Hs) Hg). }
  refine (conj A (conj _ (conj C _))).
  - intros q Hq Hi. apply B; [simpl; intuition|exact Hi].
  - intros H. rewrite length_View, C, H. cbn [view_length guard]. rewrite Z.eqb_refl. reflexivity.
Qed.

Lemma step_follows d b r t st st' : signature (View (VStep d b r) t) <> None ->
  edited st [moved d (fun i => vadd (vmul i r) b) st] st' ->
  works_as (View (VStep d b r) t) st t st' /\
  (forall q, q <> d -> get (Idx q) st = None -> length_as (View (VStep d b r) t) q st t q st') /\
  (get (Idx d) st = None ->
   length_ (View (VStep d b r) t) d st = option_map (fun l => vdiv (vsub (vsub (vadd l r) b) (Sta 1)) r) (length_ t d st)).
Proof.
  intros Hs He. pose proof (moved_same _ _ _ _ He) as Hg.
  destruct (follows_view (VStep d b r) t st _ st' eq_refl eq_refl eq_refl Hs eq_refl Hg) as [A B].
  refine (conj A (conj _ _)).
  - intros q Hq Hi. apply B; [simpl; intuition|exact Hi].
  - intros Hi. rewrite length_View, has_length_View. cbn [view_length view_has_length view_sub_state].
    rewrite Hi, Z.eqb_refl. cbn [obind]. rewrite <- (guard_len t d st). destruct (has_length t d st) as [[|]|]; reflexivity.
Qed.

Lemma shift_follows d b t st st' : signature (View (VShift d b) t) <> None ->
  edited st [moved d (fun i => vadd i b) st; (Len d, option_map (fun l => vadd l b) (get (Len d) st))] st' ->
  works_as (View (VShift d b) t) st t st' /\
  (forall q, q <> d -> get (Idx q) st = None -> length_as (View (VShift d b) t) q st t q st') /\
  (get (Len d) st = None ->
   length_ (View (VShift d b) t) d st = option_map (fun l => vsub l b) (length_ t d st')) /\
  (forall l, get (Len d) st = Some l -> length_ (View (VShift d b) t) d st = Some l).
Proof.
  intros Hs He.
  assert (Hg : exists st0, sub_state (VShift d b) t st = Some st0 /\ same_get st0 st').
  { unfold sub_state, moved in *. cbn [view_sub_state]. eexists. split; [reflexivity|].
    destruct (get (Idx d) st) as [i|] eqn:Ei, (get (Len d) st) as [l|] eqn:El; cbn [option_map] in He; by_edit. }
  destruct Hg as (st0 & E & Hg).
  destruct (follows_view (VShift d b) t st _ st' eq_refl eq_refl eq_refl Hs E Hg) as [A B].
  destruct (length_same t d _ _ (signature_sub _ _ Hs) Hg) as [C D].
  refine (conj A (conj _ (conj _ _))).
  - intros q Hq Hi. apply B; [simpl; intuition|exact Hi].
  - intros El. rewrite length_View, has_length_View. cbn [view_length view_has_length]. unfold sub_state in E. rewrite E.
    cbn [obind]. unfold has. rewrite El, Z.eqb_refl. cbn [andb]. rewrite C, D, <- (guard_len t d st').
    destruct (has_length t d st') as [[|]|]; reflexivity.
  - intros l El. rewrite length_View, has_length_View. cbn [view_length view_has_length]. unfold has. rewrite El, Z.eqb_refl. reflexivity.
Qed.

(** ** Composition *)

Lemma u64_absorb_l s z : u64 s = 0 -> 0 <= z < W -> u64 (s + z) = z.
Proof. intros E H. rewrite <- u64_add_l, E. simpl. apply u64_small, H. Qed.
Lemma u64_absorb_r s z : u64 s = 0 -> 0 <= z < W -> u64 (z + s) = z.
Proof. intros E H. rewrite Z.add_comm. apply u64_absorb_l; assumption. Qed.

Lemma vadd_assoc a b c : is_size a -> is_size b -> is_size c -> vadd (vadd a b) c = vadd a (vadd b c).
Proof.
  intros Ha Hb Hc. destruct a as [x|x|], b as [y|y|], c as [z|z|]; try contradiction; simpl in Ha, Hb, Hc;
    unfold vadd, is_sta, dyn2; cbn [vz]; rewrite ?u64_u64, ?(u64_small x), ?(u64_small y), ?(u64_small z) by assumption;
    repeat (match goal with |- context [?p =? 0] => destruct (Z.eqb_spec p 0); try subst; cbn [vz] end);
    rewrite ?Z.add_0_l, ?Z.add_0_r, ?u64_u64, ?u64_add_l, ?u64_add_r, ?Z.add_assoc;
    rewrite ?(u64_small x), ?(u64_small y), ?(u64_small z) by assumption;
    try reflexivity; try lia; try congruence.

  all: try (exfalso; match goal with E : u64 (?p + 0) = 0 |- _ => rewrite Z.add_0_r, u64_small in E by assumption; lia end).
  all: try (exfalso; match goal with E : u64 (0 + ?p) = 0 |- _ => rewrite Z.add_0_l, u64_small in E by assumption; lia end).
  all: f_equal; try (symmetry; apply u64_absorb_l; assumption); try (apply u64_absorb_r; assumption).
  all: try (rewrite <- Z.add_assoc; apply u64_absorb_r; assumption).
Qed.

Lemma vsub_vadd l a b : is_size l -> is_size a -> is_size b -> vsub (vsub l a) b = vsub l (vadd b a).
Proof.
  intros Ha Hb Hc. destruct l as [x|x|], a as [y|y|], b as [z|z|]; try contradiction; simpl in Ha, Hb, Hc;
    unfold vadd, vsub, is_sta, dyn2; cbn [vz]; rewrite ?u64_u64, ?(u64_small x), ?(u64_small y), ?(u64_small z) by assumption;
    repeat (match goal with |- context [?p =? 0] => destruct (Z.eqb_spec p 0); try subst; cbn [vz] end);
    rewrite ?(u64_small 0) by (pose proof W_pos; lia); rewrite ?Z.sub_0_r, ?u64_u64, ?u64_sub_l, ?u64_sub_r;
    rewrite ?(u64_small x), ?(u64_small y), ?(u64_small z) by assumption;
    try reflexivity; try (f_equal; f_equal; lia); try lia; try congruence.
  all: f_equal; try match goal with
    | E : u64 (?x - ?y) = 0 |- context [0 - ?z] => rewrite <- E, u64_sub_l; f_equal; lia
    | E : u64 (?z + ?y) = 0 |- u64 (?x - ?y - ?z) = _ => replace (x - y - z) with (x - (z + y)) by lia; rewrite <- u64_sub_r, E, Z.sub_0_r; apply u64_small; assumption
    end.
  all: exfalso; match goal with E : u64 _ = 0 |- _ => rewrite ?Z.add_0_r, ?Z.add_0_l, u64_small in E by assumption; lia end.
Qed.

Definition move_state (d : dim) (f : val -> val) (st : state) : state :=
  match get (Idx d) st with Some i => with_ [(Idx d, f i)] st | None => st end.

Lemma move_edited d f st : edited st [moved d f st] (move_state d f st).
Proof.
  intros u. unfold moved, move_state. destruct (get (Idx d) st) as [i|] eqn:E; cbn [option_map]; tags.
Qed.

Lemma moves_works v d b t st st' : moves_by v d b -> signature (View v t) <> None -> get (Len d) st = None ->
  edited st [moved d (fun i => vadd i b) st] st' -> works_as (View v t) st t st'.
Proof.
  intros [->|[[n ->]|[e ->]]] Hs El He; [|eapply slice_follows; eauto|eapply span_follows; eauto].
  eapply (shift_follows d b t st st'); auto. rewrite El. intros u. rewrite (He u). unfold moved. tags.
Qed.

Lemma get_move_idx d f st : get (Idx d) (move_state d f st) = option_map f (get (Idx d) st).
Proof. rewrite move_edited. unfold moved. tags. Qed.
Lemma get_move_len d f st : get (Len d) (move_state d f st) = get (Len d) st.
Proof. rewrite move_edited. unfold moved. tags. Qed.

Lemma moves_compose v1 v2 v3 d a b t st i :
  moves_by v1 d a -> moves_by v2 d b -> moves_by v3 d (vadd b a) ->
  signature (View v2 (View v1 t)) <> None -> signature (View v3 t) <> None ->
  get (Len d) st = None -> get (Idx d) st = Some i -> is_size i -> is_size a -> is_size b ->
  works_as (View v2 (View v1 t)) st (View v3 t) st.
Proof.
  intros H1 H2 H3 Hs Hs3 El Ei Zi Za Zb.
  eapply works_comp; [eapply (moves_works v2 d b _ _ _ H2 Hs El), move_edited|].
  eapply works_comp; [eapply (moves_works v1 d a _ _ _ H1 (signature_sub _ _ Hs))|].
  - rewrite get_move_len. exact El.
  - apply move_edited.
  - apply works_sym. eapply moves_works; [exact H3|exact Hs3|exact El|].
    intros u. rewrite move_edited. unfold moved. cbn [edit_look]. destruct (tag_eqb_spec u (Idx d)) as [->|Hu].
    + rewrite get_move_idx, Ei. cbn [option_map]. f_equal. apply vadd_assoc; assumption.
    + rewrite move_edited. unfold moved. cbn [edit_look]. destruct (tag_eqb_spec u (Idx d)); [congruence|reflexivity].
Qed.

Lemma shift_shift_length d a b t st l : signature (View (VShift d b) (View (VShift d a) t)) <> None ->
  signature (View (VShift d (vadd b a)) t) <> None ->
  unused d st -> length_ t d st = Some l -> is_size l -> is_size a -> is_size b ->
  length_ (View (VShift d b) (View (VShift d a) t)) d st = length_ (View (VShift d (vadd b a)) t) d st.
Proof.
  intros Hs Hs3 [Ei El] El1 Zl Za Zb.
  assert (He : forall c, edited st [moved d (fun i => vadd i c) st; (Len d, option_map (fun l => vadd l c) (get (Len d) st))] st).
  { intros c u. unfold moved. rewrite Ei, El. cbn [option_map]. tags. }
  destruct (shift_follows d b _ st st Hs (He b)) as (_ & _ & A & _). rewrite (A El). clear A.
  destruct (shift_follows d a _ st st (signature_sub _ _ Hs) (He a)) as (_ & _ & A & _). rewrite (A El). clear A.
  destruct (shift_follows d (vadd b a) _ st st Hs3 (He _)) as (_ & _ & A & _). rewrite (A El). clear A.
  rewrite El1. cbn [option_map]. f_equal. apply vsub_vadd; assumption.
Qed.

(** No wrap-around inside the documented bounds. *)
Lemma interval_index i b x y n len : vz i = Some x -> vz b = Some y -> x < n -> y + n <= len -> len < W ->
  vz (vadd i b) = Some (y + x) /\ 0 <= y + x < len.
Proof.
  intros Ei Eb Hx Hy Hl. rewrite vz_vadd, Ei, Eb. apply vz_range in Ei, Eb. split; [|lia].
  rewrite u64_small by lia. f_equal. lia.
Qed.
Lemma interval_length e b x y : vz e = Some x -> vz b = Some y -> y <= x -> vz (vsub e b) = Some (x - y).
Proof. intros Ee Eb H. rewrite vz_vsub, Ee, Eb. apply vz_range in Ee, Eb. rewrite u64_small by lia. reflexivity. Qed.

(** ** Steps *)

Lemma step_count len n k : 0 < n -> 0 <= k < n -> 0 <= len ->
  (len + n - k - 1) / n = len / n + (if k <? len mod n then 1 else 0).
Proof.
  intros Hn Hk Hl. pose proof (Z.div_mod len n ltac:(lia)) as E. pose proof (Z.mod_pos_bound len n Hn) as R.
  symmetry. apply (Z.div_unique _ _ _ (len mod n - k - 1 + (if k <? len mod n then 0 else n))); destruct (Z.ltb_spec k (len mod n)); lia.
Qed.

Lemma sum_if m n : fold_right Z.add 0 (map (fun k => if k <? m then 1 else 0) (zseq (Z.of_nat n))) = Z.max 0 (Z.min m (Z.of_nat n)).
Proof.
  unfold zseq. rewrite Nat2Z.id. induction n as [|n IH].
  - simpl. lia.
  - rewrite seq_S, !map_app. cbn [map Nat.add].
    assert (A : forall l r, fold_right Z.add 0 (l ++ r) = fold_right Z.add 0 l + fold_right Z.add 0 r).
    { induction l as [|x l IHl]; intros r; simpl; [reflexivity|]. rewrite IHl. lia. }
    rewrite A, IH. cbn [fold_right]. destruct (Z.ltb_spec (Z.of_nat n) m); lia.
Qed.

Lemma sum_plus (f : Z -> Z) c l : fold_right Z.add 0 (map (fun k => c + f k) l) = c * Z.of_nat (List.length l) + fold_right Z.add 0 (map f l).
Proof. induction l as [|x l IH]; [cbn [map fold_right List.length]; lia|]. cbn [map fold_right List.length]. rewrite IH. lia. Qed.

Lemma zseq_In n k : In k (zseq n) <-> 0 <= k < n.
Proof.
  unfold zseq. rewrite in_map_iff. split.
  - intros (j & <- & H). apply in_seq in H. lia.
  - intros H. exists (Z.to_nat k). rewrite in_seq. lia.
Qed.

Lemma step_sum len n : 0 < n -> 0 <= len ->
  fold_right Z.add 0 (map (fun k => (len + n - k - 1) / n) (zseq n)) = len.
Proof.
  intros Hn Hl. rewrite (map_ext_in _ (fun k => len / n + (if k <? len mod n then 1 else 0))).
  2:{ intros k Hk. apply step_count; auto. apply zseq_In, Hk. }
  rewrite (sum_plus (fun k => if k <? len mod n then 1 else 0)), zseq_length. rewrite <- (Z2Nat.id n) at 3 by lia. rewrite sum_if.
  pose proof (Z.div_mod len n ltac:(lia)). pose proof (Z.mod_pos_bound len n Hn). lia.
Qed.

Lemma step_length_num d b r t st l len n k : signature (View (VStep d b r) t) <> None -> get (Idx d) st = None ->
  length_ t d st = Some l -> vz l = Some len -> vz r = Some n -> vz b = Some k -> 0 < n -> k < n -> len + n <= W ->
  exists w, length_ (View (VStep d b r) t) d st = Some w /\ vz w = Some ((len + n - k - 1) / n).
Proof.
  intros Hs Hi El Ezl Er Eb Hn Hk Hw.
  destruct (step_follows d b r t st st Hs) as (_ & _ & H).
  { intros u. unfold moved. rewrite Hi. cbn [option_map]. tags. }
  rewrite (H Hi), El. cbn [option_map]. eexists. split; [reflexivity|].
  pose proof (vz_range _ _ Ezl). pose proof (vz_range _ _ Eb).
  apply vz_vdiv; [|exact Er|lia].
  rewrite vz_vsub, vz_vsub, vz_vadd, Ezl, Er, Eb. change (vz (Sta 1)) with (Some (u64 1)).
  rewrite (u64_small 1) by (rewrite W_eq; lia). f_equal.
  rewrite (u64_sub_l (len + n)), u64_sub_l. apply u64_small. lia.
Qed.

Lemma step_lengths d r t st l len n starts lens : get (Idx d) st = None ->
  length_ t d st = Some l -> vz l = Some len -> vz r = Some n -> 0 < n -> len + n <= W ->
  map vz starts = map Some (zseq n) ->
  Forall2 (fun b x => signature (View (VStep d b r) t) <> None /\ exists w, length_ (View (VStep d b r) t) d st = Some w /\ vz w = Some x) starts lens ->
  fold_right Z.add 0 lens = len.
Proof.
  intros Hi El Ezl Er Hn Hw Hst F. pose proof (vz_range _ _ Ezl). rewrite <- (step_sum len n) by lia. f_equal.
  assert (Hk : forall k, In k (zseq n) -> 0 <= k < n) by (intros k; apply zseq_In).
  revert Hst Hk. generalize (zseq n). induction F as [|b x starts lens [Hs (w & E & Ew)] F IH]; intros ks Hst Hk; destruct ks as [|k ks]; try discriminate; [reflexivity|].
  cbn [map] in Hst |- *. injection Hst as E1 E2. f_equal; [|apply IH; auto; intros; apply Hk; right; auto].
  destruct (step_length_num d b r t st l len n k) as (w' & E' & Ew'); auto; try (apply Hk; left; reflexivity). congruence.
Qed.

(** Every index is reached from exactly one of the views. *)
Lemma step_index_unique len n x : 0 < n -> 0 <= x < len ->
  exists! kj : Z * Z, let (k, j) := kj in 0 <= k < n /\ 0 <= j < (len + n - k - 1) / n /\ j * n + k = x.
Proof.
  intros Hn Hx. exists (x mod n, x / n). split.
  - pose proof (Z.mod_pos_bound x n Hn). pose proof (Z.div_mod x n ltac:(lia)). pose proof (Z.div_pos x n ltac:(lia) Hn).
    split; [lia|]. split; [|nia]. split; [lia|]. apply Z.lt_le_trans with (x / n + 1); [lia|]. apply Z.div_le_lower_bound; nia.
  - intros [k j] (Hk & Hj & E). f_equal; [symmetry; eapply (Z.mod_unique_pos x n j); nia|symmetry; eapply (Z.div_unique_pos x n j k); nia].
Qed.

Lemma step_index i b r x n k : vz i = Some x -> vz b = Some k -> vz r = Some n -> x * n + k < W ->
  vz (vadd (vmul i r) b) = Some (x * n + k).
Proof.
  intros Ei Eb Er H. pose proof (vz_range _ _ Ei). pose proof (vz_range _ _ Eb). pose proof (vz_range _ _ Er).
  rewrite vz_vadd, (vz_vmul _ _ _ _ Ei Er), Eb, u64_add_l, u64_small by nia. reflexivity.
Qed.

Lemma partition_key {A} (key : A -> Z) l n : (forall e, In e l -> 0 <= key e) ->
  Permutation (filter (fun e => key e <? Z.of_nat n) l) (concat (map (fun k => filter (fun e => key e =? k) l) (zseq (Z.of_nat n)))).
Proof.
  intros Hk. unfold zseq. rewrite Nat2Z.id. induction n as [|n IH].
  - simpl. replace (filter _ l) with (@nil A); [constructor|]. symmetry.
    induction l as [|e l IHl]; [reflexivity|]. simpl. assert (0 <= key e) by (apply Hk; left; reflexivity).
    destruct (Z.ltb_spec (key e) 0); [lia|]. apply IHl. intros; apply Hk; right; auto.
  - rewrite seq_S, !map_app, concat_app. cbn [map concat Nat.add]. rewrite app_nil_r, <- IH. clear IH.
    induction l as [|e l IHl]; [constructor|]. assert (He : 0 <= key e) by (apply Hk; left; reflexivity).
    assert (IH := IHl (fun x H => Hk x (or_intror H))). clear IHl. cbn [filter].
    destruct (Z.ltb_spec (key e) (Z.of_nat (S n))), (Z.ltb_spec (key e) (Z.of_nat n)), (Z.eqb_spec (key e) (Z.of_nat n)); try lia; auto.
    + simpl. constructor. exact IH.
    + apply Permutation_cons_app. exact IH.
Qed.

Lemma step_class x n k : 0 < n -> 0 <= k < n -> (k <=? x) && ((x - k) mod n =? 0) = (0 <=? x) && (x mod n =? k).
Proof.
  intros Hn Hk. destruct (Z.leb_spec k x), (Z.leb_spec 0 x); try lia; cbn [andb]; auto.
  - destruct (Z.eqb_spec ((x - k) mod n) 0) as [E|E], (Z.eqb_spec (x mod n) k) as [E'|E']; auto; exfalso.
    + apply E'. apply Z.mod_divide in E; [|lia]. destruct E as [q E]. symmetry. apply (Z.mod_unique_pos x n q); lia.
    + apply E. apply Z.mod_divide; [lia|]. exists (x / n). pose proof (Z.div_mod x n ltac:(lia)). lia.
  - destruct (Z.eqb_spec (x mod n) k) as [E|E]; auto. exfalso. rewrite Z.mod_small in E by lia. lia.
Qed.

Lemma plen_nonneg s l a d n : lrange l -> plen s l a d = Some n -> 0 <= n.
Proof.
  unfold plen. intros Hl. destruct (signature s) as [sg|]; [|discriminate]. destruct (spath sg a) as [p|] eqn:Ep; [|discriminate].
  destruct (find (fun e => fst e =? d) p) as [[x [k|]]|] eqn:Ef; [| |discriminate]; intros E; injection E as <-.
  - apply find_some in Ef. destruct Ef as [Hin _]. pose proof (spath_dep_range _ _ _ _ _ Ep Hin). lia.
  - apply ilen_range, Hl.
Qed.

Lemma step_partition ss d r n l1 starts ls :
  let u := Union ss in
  vz r = Some n -> 0 < n -> map vz starts = map Some (zseq n) ->
  (forall c, on_len (plen u nolens c d) (fun len => len + n <= W)) ->
  for_each (traverser ss) [] = Done l1 ->
  (forall st, In st l1 -> exists p, dims_of u st = Some p /\ In d (map fst p)) ->
  Forall2 (fun b l => let t := order (traverser ss) [LView (VStep d b r)] in
     uswf (top_struct t) = true /\ lenok (top_struct t) nolens /\ for_each t [] = Done l /\ (forall st, In st l -> complete u st)) starts ls ->
  Permutation (map (index_list u) l1) (concat (map (map (index_list u)) ls)).
Proof.
  intros u Er Hn Hst Hlen E1 Hd F.
  set (key := fun st => asg_of st d mod n).
  assert (K : Permutation l1 (concat (map (fun k => filter (fun e => key e =? k) l1) (zseq n)))).
  { rewrite <- (Z2Nat.id n) at 1 by lia. rewrite <- (partition_key key l1).
    - rewrite filter_true_all; [reflexivity|]. intros st _. unfold key. rewrite Z2Nat.id by lia.
      pose proof (Z.mod_pos_bound (asg_of st d) n Hn). lia.
    - intros st _. unfold key. pose proof (Z.mod_pos_bound (asg_of st d) n Hn). lia. }
  apply (Permutation_map (index_list u)) in K. rewrite K, concat_map, map_map. clear K.
  assert (Hk : forall k, In k (zseq n) -> 0 <= k < n) by (intros k; apply zseq_In).
  revert Hst Hk. generalize (zseq n). induction F as [|b l starts ls (Hw & Hlk & E & Hc) F IH]; intros ks Hst Hk; destruct ks as [|k ks]; try discriminate; [constructor|].
  cbn [map] in Hst |- *. injection Hst as Eb Est. cbn [concat]. apply Permutation_app; [|apply IH; auto; intros; apply Hk; right; auto].
  assert (Hkn : 0 <= k < n) by (apply Hk; left; reflexivity).
  symmetry. etransitivity; [apply (select_plain ss (VStep d b r) [] l1 l); auto|].
  - split; [reflexivity|]. intros c. cbn [view_good view_lenv]. specialize (Hlen c). unfold vzd. rewrite Eb, Er. cbn [odef].
    fold u. destruct (plen u nolens c d) as [len|] eqn:El; cbn [on_len] in *; [|exact I].
    apply plen_nonneg in El; [lia|]. apply lrange_nolens.
  - constructor. reflexivity.
  - apply Permutation_map. rewrite (filter_ext_in (selects (VStep d b r) u) (fun e => key e =? k)); [reflexivity|].
    intros st Hin. cbn [selects]. unfold on_dim. destruct (Hd st Hin) as (p & Ep & Hp). rewrite Ep.
    apply mem_In in Hp. rewrite Hp. unfold vzd. rewrite Eb, Er. cbn [odef]. rewrite step_class by lia. unfold key.
    replace (0 <=? asg_of st d) with true; [reflexivity|]. symmetry. apply Z.leb_le. unfold asg_of. destruct (get (Idx d) st) as [v|]; cbn; [|lia].
    unfold vzd. destruct (vz v) eqn:Ev; cbn; [apply vz_range in Ev; lia|lia].
Qed.
