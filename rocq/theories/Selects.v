(** * Several ways to select from one dimension (C73) *)

From Verif Require Import Contig Views Views2 Views3 Views4 Views5 ViewFacts.
From Verif Require Export Tiles.

Lemma moved_ex d f st : exists st', edited st [moved d f st] st'.
Proof. apply edited_ex. Qed.

Lemma length_iff s q st t q' st' x : has_length s q st = has_length t q' st' ->
  (has_length t q' st' = Some true -> length_ s q st = Some x /\ length_ t q' st' = Some x) -> length_as s q st t q' st'.
Proof.
  intros E H. split; [exact E|]. destruct (has_length t q' st') as [[|]|] eqn:E2.
  - destruct (H eq_refl) as [-> ->]. reflexivity.
  - destruct (length_ s q st) eqn:A; [apply length_has in A; congruence|]. destruct (length_ t q' st') eqn:B; [apply length_has in B; congruence|reflexivity].
  - destruct (length_ s q st) eqn:A; [apply length_has in A; congruence|]. destruct (length_ t q' st') eqn:B; [apply length_has in B; congruence|reflexivity].
Qed.

Lemma length_sym s q st t q' st' : length_as s q st t q' st' -> length_as t q' st' s q st.
Proof. intros [A B]. split; congruence. Qed.

Lemma span_slice d b e t st : signature (View (VSpan d b e) t) <> None -> signature (View (VSlice d b (vsub e b)) t) <> None ->
  works_as (View (VSpan d b e) t) st (View (VSlice d b (vsub e b)) t) st /\
  forall q, get (Idx q) st = None -> length_as (View (VSpan d b e) t) q st (View (VSlice d b (vsub e b)) t) q st.
Proof.
  intros H1 H2. destruct (moved_ex d (fun i => vadd i b) st) as (st' & He).
  destruct (span_follows d b e t st st' H1 He) as (A & B & C & D). destruct (slice_follows d b (vsub e b) t st st' H2 He) as (A' & B' & C' & D').
  split; [exact (works_comp _ _ _ _ _ _ A (works_sym _ _ _ _ A'))|]. intros q Hq. destruct (Z.eq_dec q d) as [->|Hd].
  - apply (length_iff _ _ _ _ _ _ (vsub e b)); [congruence|]. intros E. rewrite C' in E. auto.
  - exact (length_comp _ _ _ _ _ _ _ _ _ (B q Hd Hq) (length_sym _ _ _ _ _ _ (B' q Hd Hq))).
Qed.

Lemma shift_slice d b n t st : signature (View (VShift d b) t) <> None -> signature (View (VSlice d b n) t) <> None -> get (Len d) st = None ->
  works_as (View (VShift d b) t) st (View (VSlice d b n) t) st /\
  (forall q, q <> d -> get (Idx q) st = None -> length_as (View (VShift d b) t) q st (View (VSlice d b n) t) q st) /\
  (forall l, get (Idx d) st = None -> length_ t d st = Some l -> length_ (View (VShift d b) t) d st = Some (vsub l b) /\ length_ (View (VSlice d b n) t) d st = Some n).
Proof.
  intros H1 H2 El. destruct (moved_ex d (fun i => vadd i b) st) as (st' & He).
  assert (He2 : edited st [moved d (fun i => vadd i b) st; (Len d, option_map (fun l => vadd l b) (get (Len d) st))] st').
  { intros u. rewrite (He u), El. unfold moved. cbn [edit_look option_map]. destruct (tag_eqb_spec u (Idx d)); [reflexivity|].
    destruct (tag_eqb_spec u (Len d)) as [->|]; [exact El|reflexivity]. }
  destruct (shift_follows d b t st st' H1 He2) as (A & B & C & D). destruct (slice_follows d b n t st st' H2 He) as (A' & B' & C' & D').
  split; [exact (works_comp _ _ _ _ _ _ A (works_sym _ _ _ _ A'))|]. split.
  - intros q Hd Hq. exact (length_comp _ _ _ _ _ _ _ _ _ (B q Hd Hq) (length_sym _ _ _ _ _ _ (B' q Hd Hq))).
  - intros l Ei Et. assert (Es : length_as t d st t d st').
    { apply length_same; [exact (signature_sub _ _ H1)|]. eapply edited_same; [exact He|]. intros u. unfold moved. rewrite Ei. cbn [edit_look option_map].
      destruct (tag_eqb_spec u (Idx d)) as [->|]; [exact Ei|reflexivity]. }
    destruct Es as [Es1 Es2]. rewrite (C El), <- Es2, Et. split; [reflexivity|]. apply D'. rewrite <- Es1. exact (length_has _ _ _ _ Et).
Qed.

(** Everything. *)
Lemma slice_all d n t st : signature (View (VSlice d (Sta 0) n) t) <> None -> (forall i, get (Idx d) st = Some i -> is_size i) ->
  works_as (View (VSlice d (Sta 0) n) t) st t st.
Proof.
  intros H Hi. refine (proj1 (slice_follows d (Sta 0) n t st st H _)). intros u. unfold moved. cbn [edit_look]. destruct (tag_eqb_spec u (Idx d)) as [->|]; [|reflexivity].
  destruct (get (Idx d) st) as [i|]; [|reflexivity]. cbn [option_map]. f_equal. specialize (Hi i eq_refl).
  destruct i as [x|x|]; [|reflexivity|contradiction]. unfold vadd. cbn [is_size] in Hi. rewrite Z.add_0_r, u64_small by exact Hi. reflexivity.
Qed.

Lemma step_all d t st : signature (View (VStep d (Sta 0) (Sta 1)) t) <> None -> (forall i, get (Idx d) st = Some i -> is_size i) ->
  works_as (View (VStep d (Sta 0) (Sta 1)) t) st t st /\
  forall l len, get (Idx d) st = None -> length_ t d st = Some l -> vz l = Some len -> len + 1 <= W ->
    exists w, length_ (View (VStep d (Sta 0) (Sta 1)) t) d st = Some w /\ vz w = Some len.
Proof.
  intros H Hi. split.
  - refine (proj1 (step_follows d (Sta 0) (Sta 1) t st st H _)). intros u. unfold moved. cbn [edit_look]. destruct (tag_eqb_spec u (Idx d)) as [->|]; [|reflexivity].
    destruct (get (Idx d) st) as [i|]; [|reflexivity]. cbn [option_map]. f_equal. specialize (Hi i eq_refl).
    destruct i as [x|x|]; [| |contradiction]; unfold vadd, vmul, dyn2; cbn [is_size is_sta vz] in *; change (u64 0) with 0; change (u64 1) with 1; cbn [Z.eqb];
      rewrite ?Z.mul_1_r, ?Z.add_0_r, !u64_small by (rewrite ?u64_small; exact Hi); reflexivity.
  - intros l len Ei El Hl Hw. destruct (step_length_num d (Sta 0) (Sta 1) t st l len 1 0 H Ei El Hl eq_refl eq_refl) as (w & E & Ew); [lia|lia|exact Hw|].
    exists w. split; [exact E|]. rewrite Ew, Z.div_1_r. f_equal. lia.
Qed.

Lemma vmul_size a b : is_size a -> is_size b -> is_size (vmul a b).
Proof.
  intros Ha Hb. assert (U : forall x, 0 <= u64 x < W) by (intros x; unfold u64; apply Z.mod_pos_bound; rewrite W_eq; lia).
  assert (Z0 : 0 <= 0 < W) by (rewrite W_eq; lia).
  destruct a as [x|x|], b as [y|y|]; try contradiction; unfold vmul, dyn2; cbn [is_sta vz]; repeat match goal with |- context [if ?c then _ else _] => destruct c end; cbn [is_size]; auto.
Qed.

(** A step of a slice (shift, span). *)
Lemma step_moved v d a b r t st i : moves_by v d a -> signature (View (VStep d b r) (View v t)) <> None -> signature (View (VStep d (vadd b a) r) t) <> None ->
  get (Len d) st = None -> get (Idx d) st = Some i -> is_size i -> is_size a -> is_size b -> is_size r ->
  works_as (View (VStep d b r) (View v t)) st (View (VStep d (vadd b a) r) t) st.
Proof.
  intros Hv H1 H2 El Ei Zi Za Zb Zr. destruct (moved_ex d (fun i => vadd (vmul i r) b) st) as (st1 & He1).
  destruct (moved_ex d (fun i => vadd i a) st1) as (st2 & He2).
  assert (E1 : get (Idx d) st1 = Some (vadd (vmul i r) b)) by (rewrite (He1 (Idx d)); unfold moved; rewrite Ei; looks).
  assert (L1 : get (Len d) st1 = None) by (rewrite (He1 (Len d)); unfold moved; looks).
  eapply works_comp; [exact (proj1 (step_follows d b r _ st st1 H1 He1))|].
  eapply works_comp; [exact (moves_works v d a t st1 st2 Hv (signature_sub _ _ H1) L1 He2)|]. apply works_sym.
  refine (proj1 (step_follows d (vadd b a) r t st st2 H2 _)). intros u. rewrite (He2 u). unfold moved. rewrite E1, Ei. cbn [edit_look option_map].
  destruct (tag_eqb_spec u (Idx d)) as [->|Hu].
  - f_equal. apply vadd_assoc; [apply vmul_size|..]; assumption.
  - rewrite (He1 u). unfold moved. cbn [edit_look]. destruct (tag_eqb_spec u (Idx d)); [contradiction|reflexivity].
Qed.

(** A step of a step. *)
Definition nonzero (v : val) : Prop := match v with Sta x | Dyn x => 0 < x < W | Undef => False end.

Lemma dyn_mul x r y : nonzero r -> vz r = Some y -> vmul (Dyn x) r = Dyn (u64 (u64 x * y)).
Proof.
  destruct r as [z|z|]; cbn [nonzero vz]; intros H E; [| |contradiction]; injection E as <-; unfold vmul, dyn2; cbn [is_sta vz]; [|reflexivity].
  rewrite (u64_small z) by lia. destruct (Z.eqb_spec z 0); [lia|reflexivity].
Qed.
Lemma dyn_add x b y : 0 <= x < W -> is_size b -> vz b = Some y -> vadd (Dyn x) b = Dyn (u64 (x + y)).
Proof.
  intros Hx. destruct b as [z|z|]; cbn [is_size vz]; intros H E; [| |contradiction]; injection E as <-; unfold vadd, dyn2; cbn [is_sta vz]; rewrite ?(u64_small x) by lia; [|reflexivity].
  rewrite (u64_small z) by lia. destruct (Z.eqb_spec z 0) as [->|]; [|reflexivity]. rewrite Z.add_0_r, u64_small by exact Hx. reflexivity.
Qed.

Lemma size_vz b : is_size b -> exists y, vz b = Some y /\ 0 <= y < W.
Proof. destruct b as [z|z|]; cbn [is_size vz]; intros H; [..|contradiction]; exists z; rewrite u64_small by exact H; auto. Qed.
Lemma nonzero_vz b : nonzero b -> exists y, vz b = Some y /\ 0 < y < W.
Proof. destruct b as [z|z|]; cbn [nonzero vz]; intros H; [..|contradiction]; exists z; rewrite u64_small by lia; auto. Qed.
Lemma nonzero_size b : nonzero b -> is_size b.
Proof. destruct b; cbn; intros; [lia|lia|contradiction]. Qed.
Lemma vadd_size a b : is_size a -> is_size b -> is_size (vadd a b).
Proof.
  intros Ha Hb. assert (U : forall x, 0 <= u64 x < W) by (intros x; unfold u64; apply Z.mod_pos_bound; rewrite W_eq; lia).
  destruct a as [x|x|], b as [y|y|]; try contradiction; unfold vadd, dyn2; cbn [is_sta vz]; repeat match goal with |- context [if ?c then _ else _] => destruct c end; cbn [is_size] in *; auto.
Qed.

Lemma step_step_index x a s b r ns nr : 0 <= x < W -> nonzero s -> nonzero r -> vz s = Some ns -> vz r = Some nr -> nr * ns < W -> is_size a -> is_size b ->
  vadd (vmul (vadd (vmul (Dyn x) r) b) s) a = vadd (vmul (Dyn x) (vmul r s)) (vadd (vmul b s) a).
Proof.
  intros Hx Hs Hr Es Er Hw Ha Hb. destruct (size_vz a Ha) as (na & Ea & Ra). destruct (size_vz b Hb) as (nb & Eb & Rb).
  assert (U : forall x, 0 <= u64 x < W) by (intros z; unfold u64; apply Z.mod_pos_bound; rewrite W_eq; lia).
  destruct (nonzero_vz s Hs) as (ns' & Es' & Rs). rewrite Es in Es'. injection Es' as <-.
  destruct (nonzero_vz r Hr) as (nr' & Er' & Rr). rewrite Er in Er'. injection Er' as <-.
  assert (Hrs : nonzero (vmul r s) /\ vz (vmul r s) = Some (nr * ns)).
  { assert (V : vz (vmul r s) = Some (nr * ns)) by (rewrite (vz_vmul' _ _ _ _ Er Es), u64_small by nia; reflexivity). split; [|exact V].
    assert (Q : is_size (vmul r s)) by (apply vmul_size; apply nonzero_size; assumption).
    destruct (vmul r s) as [z|z|]; cbn [is_size nonzero vz] in *; [..|contradiction]; rewrite u64_small in V by exact Q; injection V as ->; nia. }
  destruct Hrs as [H1 H2]. rewrite (dyn_mul _ _ _ Hr Er), (dyn_mul _ _ _ H1 H2), (dyn_add _ b nb) by (auto; apply U).
  rewrite (dyn_mul _ _ _ Hs Es), (dyn_add _ a na) by (auto; apply U).
  rewrite (dyn_add _ (vadd (vmul b s) a) (u64 (u64 (nb * ns) + na))).
  - f_equal. rewrite !(u64_small x) by exact Hx.
    assert (M : forall p q z, u64 (u64 p * q + z) = u64 (p * q + z)) by (intros p q z; rewrite <- u64_add_l, u64_mul_l, u64_add_l; reflexivity).
    assert (M2 : forall p q z y, u64 ((u64 p + q) * z + y) = u64 ((p + q) * z + y)).
    { intros p q z y. rewrite <- (M (u64 p + q)), u64_add_l, M. reflexivity. }
    repeat (rewrite ?M, ?M2, ?u64_u64, ?u64_add_l, ?u64_mul_l, ?u64_add_r).
    f_equal. ring.
  - apply U.
  - apply vadd_size; [apply vmul_size; [exact Hb|apply nonzero_size, Hs]|exact Ha].
  - rewrite (vz_vadd' _ _ _ _ (vz_vmul' _ _ _ _ Eb Es) Ea). reflexivity.
Qed.

Lemma step_step d a s b r t st x ns nr : signature (View (VStep d b r) (View (VStep d a s) t)) <> None ->
  signature (View (VStep d (vadd (vmul b s) a) (vmul r s)) t) <> None ->
  get (Idx d) st = Some (Dyn x) -> 0 <= x < W -> nonzero s -> nonzero r -> vz s = Some ns -> vz r = Some nr -> nr * ns < W -> is_size a -> is_size b ->
  works_as (View (VStep d b r) (View (VStep d a s) t)) st (View (VStep d (vadd (vmul b s) a) (vmul r s)) t) st.
Proof.
  intros H1 H2 Ei Hx Hs Hr Es Er Hw Ha Hb. destruct (moved_ex d (fun i => vadd (vmul i r) b) st) as (st1 & He1).
  destruct (moved_ex d (fun i => vadd (vmul i s) a) st1) as (st2 & He2).
  assert (E1 : get (Idx d) st1 = Some (vadd (vmul (Dyn x) r) b)) by (rewrite (He1 (Idx d)); unfold moved; rewrite Ei; looks).
  eapply works_comp; [exact (proj1 (step_follows d b r _ st st1 H1 He1))|].
  eapply works_comp; [exact (proj1 (step_follows d a s t st1 st2 (signature_sub _ _ H1) He2))|]. apply works_sym.
  refine (proj1 (step_follows d _ _ t st st2 H2 _)). intros u. rewrite (He2 u). unfold moved. rewrite E1, Ei. cbn [edit_look option_map].
  destruct (tag_eqb_spec u (Idx d)) as [->|Hu].
  - f_equal. apply (step_step_index x a s b r ns nr); assumption.
  - rewrite (He1 u). unfold moved. cbn [edit_look]. destruct (tag_eqb_spec u (Idx d)); [contradiction|reflexivity].
Qed.

Lemma step_step_length d a s b r t st l len na nb ns nr : signature (View (VStep d b r) (View (VStep d a s) t)) <> None ->
  signature (View (VStep d (vadd (vmul b s) a) (vmul r s)) t) <> None ->
  get (Idx d) st = None -> length_ t d st = Some l -> vz l = Some len ->
  vz a = Some na -> vz s = Some ns -> vz b = Some nb -> vz r = Some nr -> na < ns -> nb < nr -> len + nr * ns < W ->
  exists w w', length_ (View (VStep d b r) (View (VStep d a s) t)) d st = Some w /\
    length_ (View (VStep d (vadd (vmul b s) a) (vmul r s)) t) d st = Some w' /\ vz w = vz w' /\ vz w <> None.
Proof.
  intros H1 H2 Ei El Hl Ha Hs Hb Hr Hna Hnb Hw.
  pose proof (vz_range _ _ Ha). pose proof (vz_range _ _ Hb). pose proof (vz_range _ _ Hl). pose proof (vz_range _ _ Hs). pose proof (vz_range _ _ Hr).
  assert (ns <= nr * ns) by nia. assert (nr <= nr * ns) by nia.
  destruct (step_length_num d a s t st l len ns na (signature_sub _ _ H1) Ei El Hl Hs Ha) as (l1 & E1 & V1); [lia|lia|lia|].
  assert (Hl1 : 0 <= (len + ns - na - 1) / ns <= len).
  { split; [apply Z.div_pos; lia|]. destruct (Z.eq_dec len 0) as [->|].
    - rewrite Z.div_small; lia.
    - apply Z.div_le_upper_bound; [lia|]. nia. }
  destruct (step_length_num d b r _ st l1 _ nr nb H1 Ei E1 V1 Hr Hb) as (l2 & E2 & V2); [lia|lia|lia|].
  assert (Hn : 0 <= nb * ns + na < nr * ns).
  { assert ((nb + 1) * ns <= nr * ns) by (apply Z.mul_le_mono_nonneg_r; lia). assert (0 <= nb * ns) by (apply Z.mul_nonneg_nonneg; lia). lia. }
  assert (V3 : vz (vmul r s) = Some (nr * ns)) by (rewrite (vz_vmul' _ _ _ _ Hr Hs), u64_small by lia; reflexivity).
  assert (V4 : vz (vadd (vmul b s) a) = Some (nb * ns + na)).
  { rewrite (vz_vadd' _ _ _ _ (vz_vmul' _ _ _ _ Hb Hs) Ha), u64_add_l, u64_small by lia. reflexivity. }
  destruct (step_length_num d _ _ t st l len _ _ H2 Ei El Hl V3 V4) as (l3 & E3 & V5); [lia|lia|lia|].
  exists l2, l3. split; [exact E2|]. split; [exact E3|]. rewrite V2, V5. split; [|discriminate]. f_equal.
  rewrite (Z.mul_comm nr ns), <- Z.div_div by lia. f_equal.
  replace (len + ns * nr - (nb * ns + na) - 1) with (len + ns - na - 1 + (nr - nb - 1) * ns) by ring.
  rewrite Z.div_add by lia. lia.
Qed.

Lemma size_nonzero v n : is_size v -> vz v = Some n -> 0 < n -> nonzero v.
Proof. destruct v as [x|x|]; cbn [is_size vz nonzero]; intros H E Hn; [..|contradiction]; injection E as <-; rewrite u64_small in Hn by exact H; lia. Qed.

Lemma step_step_works d a s b r t st x ns nr : signature (View (VStep d b r) (View (VStep d a s) t)) <> None ->
  signature (View (VStep d (vadd (vmul b s) a) (vmul r s)) t) <> None ->
  get (Idx d) st = Some (Dyn x) -> 0 <= x < W -> is_size a -> is_size b -> is_size s -> is_size r ->
  vz s = Some ns -> vz r = Some nr -> 0 < ns -> 0 < nr -> nr * ns < W ->
  works_as (View (VStep d b r) (View (VStep d a s) t)) st (View (VStep d (vadd (vmul b s) a) (vmul r s)) t) st.
Proof. intros H1 H2 Ei Hx Ha Hb Hs Hr Es Er Ps Pr Hw. apply (step_step d a s b r t st x ns nr); eauto using size_nonzero. Qed.
