(** * Proofs about single views: blocks *)

From Coq Require Import Permutation.
From Verif Require Export Views3.

Lemma has_of t st v : get t st = Some v -> has t st = true.
Proof. unfold has. intros ->. reflexivity. Qed.
Lemma has_not t st : get t st = None -> has t st = false.
Proof. unfold has. intros ->. reflexivity. Qed.

(** A length that is given is available. *)
Lemma length_has t q st l : length_ t q st = Some l -> has_length t q st = Some true.
Proof. rewrite <- guard_len. destruct (has_length t q st) as [[|]|]; try discriminate. reflexivity. Qed.

Lemma clean_blocks_same d M m st cs : edited st (dropped [d; M; m]) cs -> same_get (clean_blocks d M m st) cs.
Proof. intros He. unfold clean_blocks. unfold dropped in He. cbn [flat_map app] in He. by_edit. Qed.
Lemma clean_merge_same d M m st cs : edited st (dropped [d; M; m]) cs -> same_get (clean_merge M m d st) cs.
Proof. intros He. unfold clean_merge. unfold dropped in He. cbn [flat_map app] in He. by_edit. Qed.

(** ** into_blocks with the block size given *)

Lemma blocks_follows d M m t st st' lm : signature (View (VBlocks d M m) t) <> None ->
  get (Len m) st = Some lm -> get (Len M) st = None ->
  forall iM im, get (Idx M) st = Some iM -> get (Idx m) st = Some im ->
  edited st ((Idx d, Some (vadd (vmul iM lm) im)) :: dropped [d; M; m]) st' ->
  works_as (View (VBlocks d M m) t) st t st' /\
  (forall q, q <> d -> q <> M -> q <> m -> get (Idx q) st = None -> length_as (View (VBlocks d M m) t) q st t q st').
Proof.
  intros Hs Em EM iM im Ei Ej He.
  assert (E : exists st0, sub_state (VBlocks d M m) t st = Some st0 /\ same_get st0 st').
  { unfold sub_state. cbn [view_sub_state]. rewrite Em, EM, Ei, Ej. eexists. split; [reflexivity|].
    unfold clean_blocks. unfold dropped in He. cbn [flat_map app] in He. by_edit. }
  destruct E as (st0 & E & Hg). destruct (follows_view (VBlocks d M m) t st st0 st' eq_refl eq_refl eq_refl Hs E Hg) as [A B].
  split; [exact A|]. intros q H1 H2 H3 Hi. apply B; [simpl; intuition|exact Hi].
Qed.

(** The lengths: [m] has the given length, [M] the number of whole blocks. *)
Lemma blocks_lengths d M m t st cs lm l : signature (View (VBlocks d M m) t) <> None ->
  get (Len m) st = Some lm -> get (Len M) st = None -> edited st (dropped [d; M; m]) cs -> length_ t d cs = Some l ->
  (get (Idx m) st = None -> length_ (View (VBlocks d M m) t) m st = Some lm) /\
  (get (Idx M) st = None -> length_ (View (VBlocks d M m) t) M st = Some (vdiv l lm)).
Proof.
  intros Hs Em EM Hcs El. pose proof (clean_blocks_same _ _ _ _ _ Hcs) as Hg. pose proof (signature_sub _ _ Hs) as Hs'.
  destruct (length_same t d _ _ Hs' Hg) as [Hh Hl]. pose proof (length_has _ _ _ _ El) as Hc. rewrite El in Hl. rewrite Hc in Hh.
  assert (HMm : (M =? m) = false).
  { simpl in Hs. destruct (signature t); [|congruence]. destruct (M =? m); [|reflexivity]. exfalso. apply Hs. reflexivity. }
  split; intros Hi; rewrite length_View, has_length_View; cbn [view_has_length view_length view_sub_state];
    unfold has; rewrite Hi, Em, EM; cbn [andb].
  - rewrite Z.eqb_refl, Hh. reflexivity.
  - rewrite HMm, Z.eqb_refl. cbn [obind]. rewrite Hh, Hl. reflexivity.
Qed.

(** ** into_blocks with the number of blocks given *)

Lemma blocks_follows_M d M m t st cs st' lM l : signature (View (VBlocks d M m) t) <> None ->
  get (Len m) st = None -> get (Len M) st = Some lM -> edited st (dropped [d; M; m]) cs -> length_ t d cs = Some l ->
  forall iM im, get (Idx M) st = Some iM -> get (Idx m) st = Some im ->
  edited st ((Idx d, Some (vadd (vmul iM (vdiv l lM)) im)) :: dropped [d; M; m]) st' ->
  works_as (View (VBlocks d M m) t) st t st' /\
  (forall q, q <> d -> q <> M -> q <> m -> get (Idx q) st = None -> length_as (View (VBlocks d M m) t) q st t q st').
Proof.
  intros Hs Em EM Hcs El iM im Ei Ej He. pose proof (clean_blocks_same _ _ _ _ _ Hcs) as Hg0. pose proof (signature_sub _ _ Hs) as Hs'.
  destruct (length_same t d _ _ Hs' Hg0) as [Hh Hl]. pose proof (length_has _ _ _ _ El) as Hc. rewrite El in Hl. rewrite Hc in Hh.
  assert (E : exists st0, sub_state (VBlocks d M m) t st = Some st0 /\ same_get st0 st').
  { unfold sub_state. cbn [view_sub_state]. rewrite Em, EM, Ei, Ej, Hh. cbn [obind negb]. rewrite Hl. cbn [obind]. eexists. split; [reflexivity|].
    unfold clean_blocks. unfold dropped in He. cbn [flat_map app] in He. by_edit. }
  destruct E as (st0 & E & Hg). destruct (follows_view (VBlocks d M m) t st st0 st' eq_refl eq_refl eq_refl Hs E Hg) as [A B].
  split; [exact A|]. intros q H1 H2 H3 Hi. apply B; [simpl; intuition|exact Hi].
Qed.

Lemma blocks_lengths_M d M m t st cs lM l : signature (View (VBlocks d M m) t) <> None ->
  get (Len m) st = None -> get (Len M) st = Some lM -> edited st (dropped [d; M; m]) cs -> length_ t d cs = Some l ->
  get (Idx m) st = None \/ get (Idx M) st = None ->
  (get (Idx m) st = None -> length_ (View (VBlocks d M m) t) m st = Some (vdiv l lM)) /\
  (get (Idx M) st = None -> length_ (View (VBlocks d M m) t) M st = Some lM).
Proof.
  intros Hs Em EM Hcs El Hor. pose proof (clean_blocks_same _ _ _ _ _ Hcs) as Hg. pose proof (signature_sub _ _ Hs) as Hs'.
  destruct (length_same t d _ _ Hs' Hg) as [Hh Hl]. pose proof (length_has _ _ _ _ El) as Hc. rewrite El in Hl. rewrite Hc in Hh.
  assert (HMm : (M =? m) = false).
  { simpl in Hs. destruct (signature t); [|congruence]. destruct (M =? m); [|reflexivity]. exfalso. apply Hs. reflexivity. }
  split; intros Hi; rewrite length_View, has_length_View; cbn [view_has_length view_length view_sub_state];
    unfold has; rewrite Hi, Em, EM; cbn [andb].
  - rewrite Z.eqb_refl, Hh. cbn [obind negb]. destruct (get (Idx M) st); cbn [obind]; rewrite Hh, Hl; reflexivity.
  - rewrite HMm, Z.eqb_refl, Hh. reflexivity.
Qed.

(** ** into_blocks with both lengths given: the length of [d] comes from the blocks *)

Lemma blocks_follows_both d M m t st st' lM lm : signature (View (VBlocks d M m) t) <> None ->
  get (Len m) st = Some lm -> get (Len M) st = Some lM ->
  forall iM im, get (Idx M) st = Some iM -> get (Idx m) st = Some im ->
  edited st ([(Idx d, Some (vadd (vmul iM lm) im)); (Len d, Some (vmul lM lm))] ++ dropped [M; m]) st' ->
  works_as (View (VBlocks d M m) t) st t st'.
Proof.
  intros Hs Em EM iM im Ei Ej He. eapply works_view; [exact Hs|reflexivity|reflexivity| |].
  - unfold sub_state. cbn [view_sub_state]. rewrite Em, EM, Ei, Ej. reflexivity.
  - unfold clean_blocks. unfold dropped in He. cbn [flat_map app] in He. by_edit.
Qed.

(** ** merge_blocks *)

Lemma merge_follows d M m t st cs st' lM lm i : signature (View (VMerge M m d) t) <> None ->
  edited st (dropped [d; M; m]) cs -> length_ t M cs = Some lM -> length_ t m cs = Some lm ->
  get (Idx d) st = Some i ->
  edited st ([(Idx M, Some (vdiv i lm)); (Idx m, Some (vmod i lm))] ++ dropped [d; M; m]) st' ->
  works_as (View (VMerge M m d) t) st t st' /\
  (forall q, q <> d -> q <> M -> q <> m -> get (Idx q) st = None -> length_as (View (VMerge M m d) t) q st t q st').
Proof.
  intros Hs Hcs EM Em Ei He. pose proof (clean_merge_same _ _ _ _ _ Hcs) as Hg0. pose proof (signature_sub _ _ Hs) as Hs'.
  destruct (length_same t M _ _ Hs' Hg0) as [HhM _]. destruct (length_same t m _ _ Hs' Hg0) as [Hhm Hlm].
  rewrite (length_has _ _ _ _ EM) in HhM. rewrite (length_has _ _ _ _ Em) in Hhm. rewrite Em in Hlm.
  assert (E : exists st0, sub_state (VMerge M m d) t st = Some st0 /\ same_get st0 st').
  { unfold sub_state. cbn [view_sub_state]. rewrite Hhm, HhM, Ei. cbn [obind andb]. rewrite Hlm. cbn [obind]. eexists. split; [reflexivity|].
    unfold clean_merge. unfold dropped in He. cbn [flat_map app] in He. by_edit. }
  destruct E as (st0 & E & Hg). destruct (follows_view (VMerge M m d) t st st0 st' eq_refl eq_refl eq_refl Hs E Hg) as [A B].
  split; [exact A|]. intros q H1 H2 H3 Hi. apply B; [simpl; intuition|exact Hi].
Qed.

Lemma merge_length d M m t st cs lM lm : signature (View (VMerge M m d) t) <> None ->
  edited st (dropped [d; M; m]) cs -> length_ t M cs = Some lM -> length_ t m cs = Some lm ->
  unused d st -> length_ (View (VMerge M m d) t) d st = Some (vmul lM lm).
Proof.
  intros Hs Hcs EM Em [Ei El]. pose proof (clean_merge_same _ _ _ _ _ Hcs) as Hg0. pose proof (signature_sub _ _ Hs) as Hs'.
  destruct (length_same t M _ _ Hs' Hg0) as [HhM HlM]. destruct (length_same t m _ _ Hs' Hg0) as [Hhm Hlm].
  rewrite (length_has _ _ _ _ EM) in HhM. rewrite (length_has _ _ _ _ Em) in Hhm. rewrite Em in Hlm. rewrite EM in HlM.
  rewrite length_View, has_length_View. cbn [view_has_length view_length view_sub_state]. rewrite Z.eqb_refl. unfold has. rewrite Ei, El.
  rewrite Hhm, HhM. cbn [obind andb]. rewrite HhM, Hhm, HlM, Hlm. reflexivity.
Qed.

(** ** Inverses *)

Lemma vdyn_div x k y : vz k = Some y -> 0 < y -> 0 <= x < W -> vdiv (Dyn x) k = Dyn (x / y).
Proof.
  intros Ek Hy Hx. assert (E : vz (vdiv (Dyn x) k) = Some (x / y)) by (apply vz_vdiv; [simpl; rewrite u64_small by lia; reflexivity|exact Ek|lia]).
  assert (exists w, vdiv (Dyn x) k = Dyn (u64 w)) as [w H].
  { unfold vdiv. cbn [is_sta]. unfold dyn2nz. rewrite Ek. cbn [vz]. destruct (Z.eqb_spec y 0); [lia|]. destruct k; eauto. }
  rewrite H in *. simpl in E. rewrite u64_u64 in E. congruence.
Qed.
Lemma vdyn_mod x k y : vz k = Some y -> 0 < y -> 0 <= x < W -> vmod (Dyn x) k = Dyn (x mod y).
Proof.
  intros Ek Hy Hx. assert (E : vz (vmod (Dyn x) k) = Some (x mod y)) by (apply vz_vmod; [simpl; rewrite u64_small by lia; reflexivity|exact Ek|lia]).
  assert (exists w, vmod (Dyn x) k = Dyn (u64 w)) as [w H].
  { unfold vmod. cbn [is_sta]. unfold dyn2nz. rewrite Ek. cbn [vz]. destruct (Z.eqb_spec y 0); [lia|]. destruct k; eauto. }
  rewrite H in *. simpl in E. rewrite u64_u64 in E. congruence.
Qed.
Lemma vmul_dyn x k y : vz k = Some y -> 0 < y -> vmul (Dyn x) k = Dyn (u64 (x * y)).
Proof.
  intros Ek Hy. assert (E : vz (vmul (Dyn x) k) = Some (u64 (x * y))).
  { rewrite (vz_vmul _ _ (u64 x) y) by (auto; reflexivity). rewrite u64_mul_l. reflexivity. }
  assert (exists w, vmul (Dyn x) k = Dyn (u64 w)) as [w H].
  { unfold vmul. cbn [is_sta]. unfold dyn2. rewrite Ek. cbn [vz]. destruct k as [z|z|]; try discriminate; cbn [is_sta]; eauto.
    simpl in Ek. injection Ek as Ek. rewrite Ek. destruct (Z.eqb_spec y 0); [lia|eauto]. }
  rewrite H in *. simpl in E. rewrite u64_u64 in E. congruence.
Qed.
Lemma vadd_dyn_dyn x y : vadd (Dyn x) (Dyn y) = Dyn (u64 (x + y)).
Proof. unfold vadd, dyn2. cbn [is_sta vz]. rewrite u64_add_l, u64_add_r. reflexivity. Qed.

Lemma split_join x k y : vz k = Some y -> 0 < y -> 0 <= x < W -> vadd (vmul (vdiv (Dyn x) k) k) (vmod (Dyn x) k) = Dyn x.
Proof.
  intros Ek Hy Hx. rewrite (vdyn_div x k y), (vdyn_mod x k y), (vmul_dyn _ k y), vadd_dyn_dyn, u64_add_l by assumption.
  replace (x / y * y + x mod y) with x by (pose proof (Z.div_mod x y); lia). rewrite u64_small by lia. reflexivity.
Qed.

Lemma join_split a b k y n : vz k = Some y -> 0 <= b < y -> 0 <= a < n -> n * y <= W ->
  vdiv (vadd (vmul (Dyn a) k) (Dyn b)) k = Dyn a /\ vmod (vadd (vmul (Dyn a) k) (Dyn b)) k = Dyn b.
Proof.
  intros Ek Hb Ha Hw. rewrite (vmul_dyn _ k y), vadd_dyn_dyn, u64_add_l, u64_small by (auto; nia).
  rewrite (vdyn_div _ k y), (vdyn_mod _ k y) by (auto; nia).
  split; f_equal; symmetry; [apply (Z.div_unique_pos _ y a b)|apply (Z.mod_unique_pos _ y a b)]; lia.
Qed.

(** Splitting and merging back. *)
Lemma merge_blocks_inverse d M m e k y t st cs l x st' :
  let s := View (VMerge M m e) (View (VSetLength m k) (View (VBlocks d M m) t)) in
  signature s <> None -> vz k = Some y -> 0 < y ->
  edited st (dropped [d; e; M; m]) cs -> length_ t d cs = Some l ->
  get (Idx e) st = Some (Dyn x) -> 0 <= x < W ->
  edited st ((Idx d, Some (Dyn x)) :: dropped [d; e; M; m]) st' ->
  works_as s st t st'.
Proof.
  intros s Hs Ek Hy Hcs El Ei Hx He. pose proof (signature_sub _ _ Hs) as Hs1. pose proof (signature_sub _ _ Hs1) as Hs2. pose proof (signature_sub _ _ Hs2) as Hs3.
  assert (HMm : M <> m).
  { intros ->. apply Hs2. simpl. destruct (signature t); [|reflexivity]. rewrite Z.eqb_refl. reflexivity. }
  set (cs1 := clean_merge M m e st). set (cs2 := with_ [(Len m, k)] cs1).
  assert (Hed : edited cs2 (dropped [d; M; m]) cs).
  { unfold dropped in *. cbn [flat_map app] in *. intros u. rewrite (Hcs u). unfold cs2, cs1, clean_merge. tags. }
  assert (EMl : length_ (View (VSetLength m k) (View (VBlocks d M m) t)) M cs1 = Some (vdiv l k)).
  { destruct (set_length_follows m k (View (VBlocks d M m) t) cs1 cs2 Hs1) as [_ H]; [intros u; unfold cs2; tags|].
    destruct (H M) as [_ ->]; [unfold cs1, clean_merge; tags|].
    apply (blocks_lengths d M m t cs2 cs k l Hs2); auto; unfold cs2, cs1, clean_merge; tags. }
  assert (Eml : length_ (View (VSetLength m k) (View (VBlocks d M m) t)) m cs1 = Some k).
  { destruct (set_length_follows m k (View (VBlocks d M m) t) cs1 cs2 Hs1) as [_ H]; [intros u; unfold cs2; tags|].
    destruct (H m) as [_ ->]; [unfold cs1, clean_merge; tags|].
    apply (blocks_lengths d M m t cs2 cs k l Hs2); auto; unfold cs2, cs1, clean_merge; tags. }
  set (s1 := with_ [(Idx M, vdiv (Dyn x) k); (Idx m, vmod (Dyn x) k)] cs1). set (s2 := with_ [(Len m, k)] s1).
  eapply works_comp; [eapply (merge_follows e M m _ st cs1 s1); eauto|].
  { unfold dropped. cbn [flat_map app]. intros u. unfold cs1, clean_merge. tags. }
  { unfold dropped. cbn [flat_map app]. intros u. unfold s1, cs1, clean_merge. tags. }
  eapply works_comp; [apply (set_length_follows m k _ s1 s2 Hs1); intros u; unfold s2; tags|].
  apply (blocks_follows d M m t s2 st' k Hs2) with (iM := vdiv (Dyn x) k) (im := vmod (Dyn x) k); try (unfold s2, s1, cs1, clean_merge; tags; fail).
  rewrite (split_join x k y) by assumption. unfold dropped in *. cbn [flat_map app] in *.
  intros u. rewrite (He u). unfold s2, s1, cs1, clean_merge. tags.
Qed.

Lemma merge_blocks_length d M m e k y t st cs l n :
  let s := View (VMerge M m e) (View (VSetLength m k) (View (VBlocks d M m) t)) in
  signature s <> None -> vz k = Some y -> 0 < y ->
  edited st (dropped [d; e; M; m]) cs -> length_ t d cs = Some l -> vz l = Some n -> n mod y = 0 ->
  unused e st -> exists w, length_ s e st = Some w /\ vz w = Some n.
Proof.
  intros s Hs Ek Hy Hcs El En Hd Hu. pose proof (signature_sub _ _ Hs) as Hs1. pose proof (signature_sub _ _ Hs1) as Hs2. pose proof (signature_sub _ _ Hs2) as Hs3.
  assert (HMm : M <> m).
  { intros ->. apply Hs2. simpl. destruct (signature t); [|reflexivity]. rewrite Z.eqb_refl. reflexivity. }
  set (cs1 := clean_merge M m e st). set (cs2 := with_ [(Len m, k)] cs1).
  assert (Hed : edited cs2 (dropped [d; M; m]) cs).
  { unfold dropped in *. cbn [flat_map app] in *. intros u. rewrite (Hcs u). unfold cs2, cs1, clean_merge. tags. }
  assert (EMl : length_ (View (VSetLength m k) (View (VBlocks d M m) t)) M cs1 = Some (vdiv l k)).
  { destruct (set_length_follows m k (View (VBlocks d M m) t) cs1 cs2 Hs1) as [_ H]; [intros u; unfold cs2; tags|].
    destruct (H M) as [_ ->]; [unfold cs1, clean_merge; tags|].
    apply (blocks_lengths d M m t cs2 cs k l Hs2); auto; unfold cs2, cs1, clean_merge; tags. }
  assert (Eml : length_ (View (VSetLength m k) (View (VBlocks d M m) t)) m cs1 = Some k).
  { destruct (set_length_follows m k (View (VBlocks d M m) t) cs1 cs2 Hs1) as [_ H]; [intros u; unfold cs2; tags|].
    destruct (H m) as [_ ->]; [unfold cs1, clean_merge; tags|].
    apply (blocks_lengths d M m t cs2 cs k l Hs2); auto; unfold cs2, cs1, clean_merge; tags. }
  exists (vmul (vdiv l k) k). split.
  - eapply (merge_length e M m _ st cs1); eauto. unfold dropped. cbn [flat_map app]. intros u. unfold cs1, clean_merge. tags.
  - rewrite (vz_vmul _ _ (n / y) y); [|apply vz_vdiv; auto; lia|exact Ek]. f_equal.
    rewrite Z.mul_comm, <- (Z_div_exact_full_2 n y) by (auto; lia). apply u64_small. eapply vz_range, En.
Qed.

(** Merging and splitting again. *)
Lemma blocks_merge_inverse d M m e f k y t st cs lM nM st' a b :
  let s := View (VSetLength f k) (View (VBlocks d e f) (View (VMerge M m d) t)) in
  signature s <> None -> get (Len e) st = None ->
  edited st (dropped [d; e; f; M; m]) cs -> length_ t M cs = Some lM -> length_ t m cs = Some k -> vz lM = Some nM -> vz k = Some y -> nM * y <= W ->
  get (Idx e) st = Some (Dyn a) -> get (Idx f) st = Some (Dyn b) -> 0 <= a < nM -> 0 <= b < y ->
  edited st ([(Idx M, Some (Dyn a)); (Idx m, Some (Dyn b))] ++ dropped [d; e; f; M; m]) st' ->
  works_as s st t st'.
Proof.
  intros s Hs ELe Hcs EM Em EzM Ek Hw Ea Eb Ha Hb He. pose proof (signature_sub _ _ Hs) as Hs1. pose proof (signature_sub _ _ Hs1) as Hs2. pose proof (signature_sub _ _ Hs2) as Hs3.
  assert (Hef : e <> f).
  { intros ->. apply Hs1. simpl. destruct (signature t); [|reflexivity]. destruct (view_sig (VMerge M m d) s0) eqn:E; simpl in E; rewrite E; [|reflexivity]. rewrite Z.eqb_refl. reflexivity. }
  assert (HMm : M <> m).
  { intros ->. apply Hs2. simpl. destruct (signature t); [|reflexivity]. rewrite Z.eqb_refl. reflexivity. }
  destruct (join_split a b k y nM Ek Hb Ha Hw) as [J1 J2].
  set (s1 := with_ [(Len f, k)] st). set (i := vadd (vmul (Dyn a) k) (Dyn b)) in *.
  set (s2 := with_ [(Idx d, i)] (clean_blocks d e f s1)).
  eapply works_comp; [apply (set_length_follows f k _ st s1 Hs); intros u; unfold s1; tags|].
  eapply works_comp.
  { apply (blocks_follows d e f _ s1 s2 k Hs1) with (iM := Dyn a) (im := Dyn b); try (unfold s1; tags; fail).
    unfold dropped. cbn [flat_map app]. intros u. unfold s2, clean_blocks, s1, i. tags. }
  apply (merge_follows d M m t s2 cs st' lM k i Hs2); auto.
  - unfold dropped in *. cbn [flat_map app] in *. intros u. rewrite (Hcs u). unfold s2, clean_blocks, s1. tags.
  - unfold s2. tags.
  - rewrite J1, J2. unfold dropped in *. cbn [flat_map app] in *. intros u. rewrite (He u). unfold s2, clean_blocks, s1. tags.
Qed.
