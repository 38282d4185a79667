(** * Proofs about single views: dynamic and static blocks, Z-curve *)

From Coq Require Import Permutation.
From Verif Require Export Views4.

Lemma signature_len v t q st st' : signature (View v t) <> None -> same_get st st' ->
  has_length t q st = has_length t q st' /\ length_ t q st = length_ t q st'.
Proof. intros Hs Hg. apply length_same; [eapply signature_sub, Hs|exact Hg]. Qed.

(** ** into_blocks_dynamic, block size given *)

Lemma clean_dyn_same d M m p st cs : get (Len p) st = None -> edited st (dropped [d; M; m; p]) cs ->
  exists c0, clean_blocks_dyn d M m p st = Some c0 /\ same_get c0 cs.
Proof.
  intros Ep He. unfold clean_blocks_dyn. rewrite (has_not _ _ Ep). eexists. split; [reflexivity|].
  unfold dropped in He. cbn [flat_map app] in He. eapply edited_same; [exact He|]. intros u.
  destruct (tag_eqb_spec u (Len p)) as [->|Hn]; tags.
Qed.

Lemma blocks_dyn_follows d M m p t st st' lm : signature (View (VBlocksDyn d M m p) t) <> None ->
  get (Len p) st = None -> get (Len m) st = Some lm -> get (Len M) st = None ->
  forall iM im ip, get (Idx M) st = Some iM -> get (Idx m) st = Some im -> get (Idx p) st = Some ip ->
  edited st ((Idx d, Some (vadd (vmul iM lm) im)) :: dropped [d; M; m; p]) st' ->
  works_as (View (VBlocksDyn d M m p) t) st t st' /\
  (forall q, q <> d -> q <> M -> q <> m -> q <> p -> get (Idx q) st = None -> length_as (View (VBlocksDyn d M m p) t) q st t q st').
Proof.
  intros Hs Ep Em EM iM im ip Ei Ej Eip He.
  assert (E : exists st0, sub_state (VBlocksDyn d M m p) t st = Some st0 /\ same_get st0 st').
  { unfold sub_state. cbn [view_sub_state]. unfold clean_blocks_dyn. rewrite (has_not _ _ Ep). cbn [obind]. rewrite Em, EM, Ei, Ej. eexists. split; [reflexivity|].
    unfold dropped in He. cbn [flat_map app] in He. eapply edited_same; [exact He|]. intros u.
    destruct (tag_eqb_spec u (Len p)) as [->|Hn]; tags. }
  destruct E as (st0 & E & Hg).
  destruct (follows_view (VBlocksDyn d M m p) t st st0 st' eq_refl eq_refl) with (2 := Hs) (3 := E) (4 := Hg) as [A B].
  { cbn [present]. rewrite (has_of _ _ _ Ei), (has_of _ _ _ Ej), (has_of _ _ _ Eip). reflexivity. }
  split; [exact A|]. intros q H1 H2 H3 H4 Hi. apply B; [simpl; intuition|exact Hi].
Qed.

Lemma dyn_distinct d M m p t : signature (View (VBlocksDyn d M m p) t) <> None -> (M =? m) = false /\ (M =? p) = false /\ (m =? p) = false.
Proof.
  intros Hs. simpl in Hs. destruct (signature t); [|congruence].
  destruct (M =? m), (M =? p), (m =? p); cbn [orb] in Hs; try (exfalso; apply Hs; reflexivity). auto.
Qed.

Lemma blocks_dyn_lengths d M m p t st cs lm l : signature (View (VBlocksDyn d M m p) t) <> None ->
  get (Len p) st = None -> get (Len m) st = Some lm -> get (Len M) st = None ->
  edited st (dropped [d; M; m; p]) cs -> length_ t d cs = Some l ->
  (get (Idx m) st = None -> length_ (View (VBlocksDyn d M m p) t) m st = Some lm) /\
  (get (Idx M) st = None -> length_ (View (VBlocksDyn d M m p) t) M st = Some (vdiv (vsub (vadd l lm) (Sta 1)) lm)) /\
  (forall iM im, get (Idx M) st = Some iM -> get (Idx m) st = Some im ->
     length_ (View (VBlocksDyn d M m p) t) p st = Some (vlt (vadd (vmul iM lm) im) l)).
Proof.
  intros Hs Ep Em EM Hcs El. destruct (clean_dyn_same d M m p st cs Ep Hcs) as (c0 & Ec & Hg).
  destruct (signature_len _ _ d _ _ Hs Hg) as [Hh Hl]. pose proof (length_has _ _ _ _ El) as Hc. rewrite El in Hl. rewrite Hc in Hh.
  destruct (dyn_distinct _ _ _ _ _ Hs) as (N1 & N2 & N3).
  refine (conj _ (conj _ _)); intros *.
  - intros Hi. rewrite length_View, has_length_View. cbn [view_has_length view_length]. unfold has. rewrite Hi, Em, EM, N3, Z.eqb_refl, Ec. cbn [obind]. rewrite Hh. reflexivity.
  - intros Hi. rewrite length_View, has_length_View. cbn [view_has_length view_length view_sub_state]. unfold has. rewrite Hi, Em, EM, N1, N2, Z.eqb_refl, Ec. cbn [obind andb].
    rewrite Hh, Hl. reflexivity.
  - intros Hi Hj. rewrite length_View, has_length_View. cbn [view_has_length view_length]. unfold has. rewrite Hi, Hj, Em, EM, Z.eqb_refl, Ec. cbn [obind andb negb].
    rewrite Hh, Hl. reflexivity.
Qed.


Lemma vceil_num l lm n y : vz l = Some n -> vz lm = Some y -> 0 < y -> n + y <= W -> vz (vdiv (vsub (vadd l lm) (Sta 1)) lm) = Some (ceil_div n y).
Proof.
  intros En Ey Hy Hw. pose proof (vz_range _ _ En). unfold ceil_div. assert (0 <= 1 < W) by (rewrite W_eq; lia).
  apply vz_vdiv; [|exact Ey|lia]. rewrite vz_vsub, vz_vadd, En, Ey. cbn [vz]. rewrite (u64_small 1) by lia.
  rewrite u64_sub_l, u64_small by lia. reflexivity.
Qed.

Lemma present_num iM im lm l a b y n : vz iM = Some a -> vz im = Some b -> vz lm = Some y -> vz l = Some n ->
  0 < y -> n + y <= W -> a < ceil_div n y -> b < y -> vz (vlt (vadd (vmul iM lm) im) l) = Some (if a * y + b <? n then 1 else 0).
Proof.
  intros Ea Eb Ey En Hy Hw Ha Hb. pose proof (vz_range _ _ Ea). pose proof (vz_range _ _ Eb).
  assert (E : vz (vadd (vmul iM lm) im) = Some (a * y + b)).
  { rewrite vz_vadd, (vz_vmul _ _ a y) by auto. rewrite Eb, u64_add_l, u64_small; [reflexivity|].
    unfold ceil_div in Ha. pose proof (Z.mul_div_le (n + y - 1) y Hy). nia. }
  unfold vlt. rewrite E, En. simpl. rewrite u64_small; [reflexivity|]. rewrite W_eq. destruct (_ <? _); lia.
Qed.

(** Every index is reached by exactly one (block, position, 0), and positions are absent exactly past
    the end. *)
Lemma blocks_dyn_cover n y : 0 < y -> 0 <= n ->
  (forall x, 0 <= x < n -> exists! ab, (0 <= fst ab < ceil_div n y /\ 0 <= snd ab < y /\ fst ab * y + snd ab < n) /\ x = fst ab * y + snd ab) /\
  (forall a b, 0 <= a < ceil_div n y -> 0 <= b < y -> 0 <= a * y + b < ceil_div n y * y).
Proof.
  intros Hy Hn. split; [|intros a b Ha Hb; nia]. intros x Hx. exists (x / y, x mod y). pose proof (Z.div_mod x y ltac:(lia)) as Hd. pose proof (Z.mod_pos_bound x y Hy) as Hm. cbn [fst snd].
  split.
  - refine (conj (conj _ (conj _ _)) _); [|exact Hm|cbn [fst snd]; lia|cbn [fst snd]; lia]. cbn [fst snd]. split; [apply Z.div_pos; lia|]. unfold ceil_div. apply Z.lt_le_trans with (x / y + 1); [lia|].
    replace (n + y - 1) with ((n - 1) + 1 * y) by lia. rewrite Z.div_add by lia. pose proof (Z.div_le_mono x (n - 1) y ltac:(lia) ltac:(lia)). lia.
  - intros [a b] [(Ha & Hb & _) E]. cbn [fst snd] in *. f_equal; [symmetry; apply (Z.div_unique_pos x y a b); lia|symmetry; apply (Z.mod_unique_pos x y a b); lia].
Qed.

(** ** into_blocks_static *)

Lemma clean_sta_same d b M m st cs : get (Len b) st = None -> get (Len M) st = None -> get (Len m) st = None ->
  edited st (dropped [d; b; M; m]) cs -> exists c0, clean_blocks_sta d b M m st = Some c0 /\ same_get c0 cs.
Proof.
  intros Eb EM Em He. unfold clean_blocks_sta. rewrite (has_not _ _ Eb), (has_not _ _ EM), (has_not _ _ Em). eexists. split; [reflexivity|].
  unfold dropped in He. cbn [flat_map app] in He. eapply edited_same; [exact He|]. intros u.
  destruct (tag_eqb_spec u (Len b)) as [->|]; [tags|]. destruct (tag_eqb_spec u (Len M)) as [->|]; [tags|].
  destruct (tag_eqb_spec u (Len m)) as [->|]; tags.
Qed.

Lemma blocks_sta_follows d b M m k t st cs st' l : signature (View (VBlocksSta d b M m k) t) <> None ->
  get (Len b) st = None -> get (Len M) st = None -> get (Len m) st = None ->
  edited st (dropped [d; b; M; m]) cs -> length_ t d cs = Some l ->
  forall part iM im, get (Idx b) st = Some (Sta part) -> (part = 0 \/ part = 1) -> get (Idx M) st = Some iM -> get (Idx m) st = Some im ->
  edited st ((Idx d, Some (vadd (vmul (if part =? 0 then iM else vdiv l k) k) im)) :: dropped [d; b; M; m]) st' ->
  works_as (View (VBlocksSta d b M m k) t) st t st' /\
  (forall q, q <> d -> q <> b -> q <> M -> q <> m -> get (Idx q) st = None -> length_as (View (VBlocksSta d b M m k) t) q st t q st').
Proof.
  intros Hs Eb EM Em Hcs El part iM im Ep Hp Ei Ej He. destruct (clean_sta_same d b M m st cs Eb EM Em Hcs) as (c0 & Ec & Hg).
  destruct (signature_len _ _ d _ _ Hs Hg) as [_ Hl]. rewrite El in Hl.
  assert (E : exists st0, sub_state (VBlocksSta d b M m k) t st = Some st0 /\ same_get st0 st').
  { assert (Hc0 : forall v, edited st ((Idx d, Some v) :: dropped [d; b; M; m]) st' -> same_get (with_ [(Idx d, v)] c0) st').
    { intros v Hv. revert Ec. unfold clean_blocks_sta. rewrite (has_not _ _ Eb), (has_not _ _ EM), (has_not _ _ Em). intros E. injection E as <-.
      unfold dropped in Hv. cbn [flat_map app] in Hv. eapply edited_same; [exact Hv|]. intros u.
      destruct (tag_eqb_spec u (Len b)) as [->|]; [tags|]. destruct (tag_eqb_spec u (Len M)) as [->|]; [tags|].
      destruct (tag_eqb_spec u (Len m)) as [->|]; tags. }
    unfold sub_state. cbn [view_sub_state]. unfold is_body. rewrite Ep, Ei, Ej. cbn [vstatic].
    destruct Hp as [-> | ->]; [change (u64 0) with 0|replace (u64 1) with 1 by (rewrite u64_small; [reflexivity|rewrite W_eq; lia])]; cbn [Z.eqb obind];
      rewrite Ec; cbn [obind]; [|rewrite Hl; cbn [obind]]; eexists; (split; [reflexivity|]); apply Hc0; exact He. }
  destruct E as (st0 & E & Hg'). destruct (follows_view (VBlocksSta d b M m k) t st st0 st' eq_refl eq_refl eq_refl Hs E Hg') as [A B].
  split; [exact A|]. intros q H1 H2 H3 H4 Hi. apply B; [simpl; intuition|exact Hi].
Qed.

Lemma sta_distinct d b M m k t : signature (View (VBlocksSta d b M m k) t) <> None -> (b =? M) = false /\ (b =? m) = false /\ (M =? m) = false.
Proof.
  intros Hs. simpl in Hs. destruct (signature t); [|congruence].
  destruct (b =? M), (b =? m), (M =? m); cbn [orb] in Hs; try (exfalso; apply Hs; reflexivity). auto.
Qed.

Lemma blocks_sta_lengths d b M m k t st cs l : signature (View (VBlocksSta d b M m k) t) <> None ->
  get (Len b) st = None -> get (Len M) st = None -> get (Len m) st = None ->
  edited st (dropped [d; b; M; m]) cs -> length_ t d cs = Some l -> get (Idx M) st = None -> get (Idx m) st = None ->
  (get (Idx b) st = None -> length_ (View (VBlocksSta d b M m k) t) b st = Some (Sta 2)) /\
  (get (Idx b) st = Some (Sta 0) ->
     length_ (View (VBlocksSta d b M m k) t) M st = Some (vdiv l k) /\ length_ (View (VBlocksSta d b M m k) t) m st = Some k) /\
  (get (Idx b) st = Some (Sta 1) ->
     length_ (View (VBlocksSta d b M m k) t) M st = Some (Sta 1) /\ length_ (View (VBlocksSta d b M m k) t) m st = Some (vmod l k)).
Proof.
  intros Hs Eb EM Em Hcs El Ei Ej. destruct (clean_sta_same d b M m st cs Eb EM Em Hcs) as (c0 & Ec & Hg).
  destruct (signature_len _ _ d _ _ Hs Hg) as [Hh Hl]. pose proof (length_has _ _ _ _ El) as Hc. rewrite El in Hl. rewrite Hc in Hh.
  destruct (sta_distinct _ _ _ _ _ _ Hs) as (N1 & N2 & N3).
  assert (N1' : (M =? b) = false) by (rewrite Z.eqb_sym; exact N1). assert (N2' : (m =? b) = false) by (rewrite Z.eqb_sym; exact N2).
  assert (N3' : (m =? M) = false) by (rewrite Z.eqb_sym; exact N3).
  refine (conj _ (conj _ _)); intros Hb.
  - rewrite length_View, has_length_View. cbn [view_has_length view_length]. unfold has. rewrite Hb, Eb, N1, N2, Z.eqb_refl. reflexivity.
  - split; rewrite length_View, has_length_View; cbn [view_has_length view_length view_sub_state]; unfold is_body, has; rewrite ?Ei, ?Ej, ?Hb;
      rewrite ?N1', ?N2', ?N3', ?N3, Z.eqb_refl; cbn [vstatic]; change (u64 0) with 0; cbn [Z.eqb obind]; rewrite ?Ec; cbn [obind]; rewrite ?Hh, ?Hl; reflexivity.
  - split; rewrite length_View, has_length_View; cbn [view_has_length view_length view_sub_state]; unfold is_body, has; rewrite ?Ei, ?Ej, ?Hb;
      rewrite ?N1', ?N2', ?N3', ?N3, Z.eqb_refl; cbn [vstatic]; replace (u64 1) with 1 by (rewrite u64_small; [reflexivity|rewrite W_eq; lia]); cbn [Z.eqb obind]; rewrite ?Ec; cbn [obind]; rewrite ?Hh, ?Hl; reflexivity.
Qed.

Lemma blocks_sta_cover n y : 0 < y -> 0 <= n ->
  (forall e, sta_inside n y e -> 0 <= sta_index n y e < n) /\
  (forall x, 0 <= x < n -> exists! e, sta_inside n y e /\ x = sta_index n y e).
Proof.
  intros Hy Hn. pose proof (Z.div_mod n y ltac:(lia)) as Dn. pose proof (Z.mod_pos_bound n y Hy) as Mn. pose proof (Z.div_pos n y Hn Hy) as Pn. split.
  - intros [[part a] b] [(-> & Ha & Hb)|(-> & Ha & Hb)]; unfold sta_index; cbn [Z.eqb]; nia.
  - intros x Hx. pose proof (Z.div_mod x y ltac:(lia)) as Dx. pose proof (Z.mod_pos_bound x y Hy) as Mx. pose proof (Z.div_pos x y ltac:(lia) Hy) as Px.
    destruct (Z_lt_dec (x / y) (n / y)) as [Hlt|Hge].
    + exists (0, x / y, x mod y). split.
      * split; [left; lia|]. unfold sta_index. cbn [Z.eqb]. lia.
      * intros [[part a] b] [[(-> & Ha & Hb)|(-> & Ha & Hb)] E]; unfold sta_index in E; cbn [Z.eqb] in E.
        -- f_equal; [f_equal|]; symmetry; [apply (Z.div_unique_pos x y a b)|apply (Z.mod_unique_pos x y a b)]; lia.
        -- exfalso. assert (n / y = x / y) by (apply (Z.div_unique_pos x y (n / y) b); lia). lia.
    + assert (Eq : x / y = n / y). { apply Z.le_antisymm; [apply Z.div_le_mono; lia|lia]. }
      exists (1, 0, x mod y). split.
      * split; [right; nia|]. unfold sta_index. cbn [Z.eqb]. lia.
      * intros [[part a] b] [[(-> & Ha & Hb)|(-> & Ha & Hb)] E]; unfold sta_index in E; cbn [Z.eqb] in E.
        -- exfalso. assert (a = x / y) by (apply (Z.div_unique_pos x y a b); lia). lia.
        -- replace a with 0 by lia. f_equal. symmetry. apply (Z.mod_unique_pos x y (n / y) b); lia.
Qed.

(** ** merge_zcurve *)

Lemma edit_look_app u l1 l2 : edit_look u (l1 ++ l2) = match edit_look u l1 with Some o => Some o | None => edit_look u l2 end.
Proof. induction l1 as [|[t o] r IH]; [reflexivity|]. cbn [app edit_look]. destruct (tag_eqb u t); auto. Qed.
Lemma edit_look_set u ds is : edit_look u (combine (map Idx ds) (map Some is)) = option_map Some (get u (combine (map Idx ds) is)).
Proof. revert is. induction ds as [|d ds IH]; intros [|i is]; try reflexivity. cbn [map combine edit_look get]. destruct (tag_eqb u (Idx d)); [reflexivity|apply IH]. Qed.
Lemma edit_look_dropped u ds : edit_look u (dropped ds) = if tag_mem u (map Idx ds) || tag_mem u (map Len ds) then Some None else None.
Proof.
  unfold dropped. induction ds as [|d ds IH]; [reflexivity|]. cbn [flat_map app edit_look map tag_mem existsb]. rewrite IH.
  destruct (tag_eqb u (Idx d)); [reflexivity|]. cbn [orb]. destruct (tag_eqb u (Len d)); cbn [orb]; [rewrite orb_true_r; reflexivity|reflexivity].
Qed.

Lemma tag_mem_app u a b : tag_mem u (a ++ b) = tag_mem u a || tag_mem u b.
Proof. unfold tag_mem. apply existsb_app. Qed.

Lemma clean_zcurve_same d ds st cs : edited st ((Idx d, None) :: dropped ds) cs -> forall u, get u (clean_zcurve d ds st) = get u cs.
Proof.
  intros He u. rewrite (He u). cbn [edit_look]. unfold clean_zcurve. rewrite get_remove, edit_look_dropped. cbn [tag_mem existsb].
  fold (tag_mem u (map Idx ds ++ map Len ds)). rewrite tag_mem_app. destruct (tag_eqb u (Idx d)); [reflexivity|]. cbn [orb]. destruct (_ || _); reflexivity.
Qed.

Lemma same_of st st' : (forall u, get u st = get u st') -> same_get st st'.
Proof. intros H d. auto. Qed.

Lemma omap_ext {A B} (f g : A -> option B) l : (forall x, In x l -> f x = g x) -> omap f l = omap g l.
Proof. induction l as [|x l IH]; intros H; [reflexivity|]. simpl. rewrite (H x) by (simpl; auto). rewrite IH; [reflexivity|]. intros y Hy. apply H. simpl. auto. Qed.

Lemma zcurve_follows sl gl d ds t st cs st' ls i : signature (View (VZCurve sl gl d ds) t) <> None ->
  edited st ((Idx d, None) :: dropped ds) cs -> omap (fun q => length_ t q cs) ds = Some ls -> get (Idx d) st = Some i ->
  edited st (combine (map Idx ds) (map Some (zc_indices sl gl i ls)) ++ (Idx d, None) :: dropped ds) st' ->
  works_as (View (VZCurve sl gl d ds) t) st t st' /\
  (forall q, q <> d -> get (Idx q) st = None -> length_as (View (VZCurve sl gl d ds) t) q st t q st').
Proof.
  intros Hs Hcs El Ei He. pose proof (clean_zcurve_same d ds st cs Hcs) as Hg.
  assert (E : exists st0, sub_state (VZCurve sl gl d ds) t st = Some st0 /\ same_get st0 st').
  { unfold sub_state. cbn [view_sub_state]. rewrite Ei. rewrite (omap_ext _ (fun q => length_ t q cs)).
    2: { intros q _. apply (signature_len _ _ q _ _ Hs). apply same_of. exact Hg. }
    rewrite El. cbn [obind]. eexists. split; [reflexivity|]. apply same_of. intros u. rewrite get_with, Hg, (He u), edit_look_app, edit_look_set.
    destruct (get u (combine (map Idx ds) (zc_indices sl gl i ls))); [reflexivity|]. cbn [option_map]. apply Hcs. }
  destruct E as (st0 & E & Hg'). destruct (follows_view (VZCurve sl gl d ds) t st st0 st' eq_refl eq_refl eq_refl Hs E Hg') as [A B].
  split; [exact A|]. intros q H1 Hi. apply B; [simpl; intuition|exact Hi].
Qed.

Lemma oall_true (l : list (option bool)) : (forall o, In o l -> o = Some true) -> oall l = Some true.
Proof. induction l as [|o l IH]; intros H; [reflexivity|]. simpl. rewrite (H o) by (simpl; auto). rewrite IH by (intros; apply H; simpl; auto). reflexivity. Qed.
Lemma omap_all {A B} (f : A -> option B) l ls : omap f l = Some ls -> forall x, In x l -> exists y, f x = Some y.
Proof.
  revert ls. induction l as [|x l IH]; intros ls E y Hy; [contradiction|]; simpl in E; destruct (f x) eqn:Ef; try discriminate. destruct Hy as [Hy|Hy]; [subst; eauto|].
  destruct (omap f l) eqn:Eo; [|discriminate]. eapply IH; eauto.
Qed.

Lemma fold_prod ls ns : omap vz ls = Some ns -> match ls with [] => True | l :: r => vz (fold_left (dyn2 Z.mul) r l) = Some (u64 (prodl ns)) end.
Proof.
  destruct ls as [|l r]; [auto|]. simpl. destruct (vz l) as [n|] eqn:El; [|discriminate]. destruct (omap vz r) as [nr|] eqn:Er; [|discriminate].
  simpl. intros E. injection E as <-. cbn [prodl fold_right]. fold (prodl nr).
  assert (H : forall r nr l n, omap vz r = Some nr -> vz l = Some n -> vz (fold_left (dyn2 Z.mul) r l) = Some (u64 (n * prodl nr))); [|apply H; assumption].
  clear. intros r. induction r as [|x r IH]; intros nr l n Er El.
  - injection Er as <-. simpl. rewrite Z.mul_1_r, El, u64_small; [reflexivity|eapply vz_range, El].
  - simpl in Er. destruct (vz x) as [nx|] eqn:Ex; [|discriminate]. destruct (omap vz r) as [n'|] eqn:En; [|discriminate]. injection Er as <-.
    cbn [fold_left]. rewrite (IH n' _ (u64 (n * nx)) eq_refl).
    + cbn [prodl fold_right]. fold (prodl n'). rewrite u64_mul_l. f_equal. f_equal. ring.
    + unfold dyn2. rewrite El, Ex. simpl. rewrite u64_u64. reflexivity.
Qed.

Lemma zcurve_length sl gl d ds t st cs ls ns : signature (View (VZCurve sl gl d ds) t) <> None ->
  edited st ((Idx d, None) :: dropped ds) cs -> omap (fun q => length_ t q cs) ds = Some ls -> omap vz ls = Some ns ->
  get (Idx d) st = None -> prodl ns < W -> Forall (fun n => 0 <= n) ns ->
  exists l, length_ (View (VZCurve sl gl d ds) t) d st = Some l /\ vz l = Some (prodl ns).
Proof.
  intros Hs Hcs El En Ei Hw Hp. pose proof (clean_zcurve_same d ds st cs Hcs) as Hg. apply same_of in Hg.
  assert (Hds : ds <> []).
  { intros ->. simpl in Hs. destruct (signature t); [|congruence]. rewrite andb_false_r in Hs. exfalso. apply Hs. reflexivity. }
  assert (Hfl : fold_left (dyn2 Z.mul) (tl ls) (hd (Sta 0) ls) = fold_left (dyn2 Z.mul) (tl ls) (hd (Sta 0) ls)) by reflexivity.
  pose proof (fold_prod ls ns En) as Hf. destruct ls as [|l r].
  { destruct ds; [congruence|]. simpl in El. destruct (length_ t d0 cs); [|discriminate]. destruct (omap _ ds); discriminate. }
  exists (fold_left (dyn2 Z.mul) r l). split.
  - rewrite length_View, has_length_View. cbn [view_has_length view_length view_sub_state]. unfold has. rewrite Ei, Z.eqb_refl. cbn [obind].
    rewrite oall_true.
    + cbn [guard]. rewrite (omap_ext _ (fun q => length_ t q cs)) by (intros q _; apply (signature_len _ _ q _ _ Hs Hg)). rewrite El. reflexivity.
    + intros o Ho. apply in_map_iff in Ho as (q & <- & Hq). destruct (signature_len _ _ q _ _ Hs Hg) as [-> _]. destruct (omap_all _ _ _ El q Hq) as [y Ey].
      eapply length_has, Ey.
  - rewrite Hf, u64_small; [reflexivity|]. split; [|exact Hw]. clear - Hp. induction Hp; simpl; [lia|]. fold (prodl l). nia.
Qed.

(** The indices computed depend on the numbers only. *)
Lemma zc_indices_num sl gl i z ls ns : vz i = Some z -> omap vz ls = Some ns -> Forall (fun n => 0 <= n < W) ns ->
  zc_indices sl gl i ls = zc_indices sl gl (Dyn z) (map Dyn ns).
Proof.
  intros Ei En Hr. unfold zc_indices. rewrite Ei, En, omap_vz_Dyn by exact Hr. cbn [vz]. rewrite (u64_small z) by (eapply vz_range, Ei).
  assert (E : List.length ls = List.length (map Dyn ns)).
  { rewrite map_length. clear - En. revert ns En. induction ls as [|x ls IH]; intros ns En; simpl in En; [injection En as <-; reflexivity|].
    destruct (vz x); [|discriminate]. destruct (omap vz ls); [|discriminate]. injection En as <-. simpl. f_equal. apply IH. reflexivity. }
  rewrite E. reflexivity.
Qed.

Lemma zc_indices_are sl gl z ns : (2 <= List.length ns <= 32)%nat -> (sl * List.length ns < 32)%nat -> Forall (fun n => 0 <= n < W) ns ->
  zc_indices sl gl (Dyn z) (map Dyn ns) = map Dyn (zc_f sl gl ns z).
Proof.
  intros Hn Hs Hr. unfold zc_f. rewrite map_map. rewrite <- (map_id (zc_indices _ _ _ _)) at 1. apply map_ext_in. intros v Hv.
  assert (Hd : Forall dz (zc_indices sl gl (Dyn z) (map Dyn ns))).
  { apply zc_indices_def; rewrite ?map_length; auto; [discriminate|]. apply Forall_forall. intros x Hx. apply in_map_iff in Hx as (y & <- & _). discriminate. }
  unfold zc_indices in Hv, Hd. rewrite omap_vz_Dyn in Hv, Hd by exact Hr. cbn [vz] in Hv, Hd. rewrite Forall_forall in Hd. specialize (Hd v Hv).
  apply in_map_iff in Hv as (k & <- & _). destruct (zc_special _ _ _); [|elim Hd; reflexivity].
  destruct (_ <? 32); [|elim Hd; reflexivity]. unfold vzd. cbn [vz]. rewrite u64_u64. reflexivity.
Qed.

(** One-to-one. *)
Lemma zcurve_bijection sl gl ls ns : (sl <= gl < 64)%nat -> (2 <= List.length ns <= 32)%nat -> (sl * List.length ns < 32)%nat ->
  omap vz ls = Some ns -> Forall (fun n => 0 < n < W) ns -> zc_good sl gl ns ->
  (forall i z, vz i = Some z -> z < prodl ns -> exists xs, zc_indices sl gl i ls = map Dyn xs /\ Forall2 (fun x n => 0 <= x < n) xs ns) /\
  (forall xs, Forall2 (fun x n => 0 <= x < n) xs ns -> exists! z, 0 <= z < prodl ns /\ zc_indices sl gl (Dyn z) ls = map Dyn xs).
Proof.
  intros Hg Hn Hs En Hp Hz. assert (Hr : Forall (fun n => 0 <= n < W) ns) by (eapply Forall_impl; [|exact Hp]; simpl; lia).
  assert (HW : prodl ns < W) by apply Hz.
  assert (Hinj : forall a b, map Dyn a = map Dyn b -> a = b).
  { intros a. induction a as [|x a IH]; intros [|y b] E; try discriminate; [reflexivity|]. simpl in E. injection E as E1 E2. f_equal; auto. }
  split.
  - intros i z Ei Hz'. exists (zc_f sl gl ns z). split.
    + rewrite (zc_indices_num sl gl i z ls ns) by assumption. apply zc_indices_are; assumption.
    + apply zc_f_range; auto. pose proof (vz_range _ _ Ei). lia.
  - intros xs Hx. destruct (zc_f_surj sl gl ns Hn Hg Hs Hz Hp xs Hx) as (z & Hzr & E). exists z.
    assert (Heq : forall y, 0 <= y < prodl ns -> zc_indices sl gl (Dyn y) ls = map Dyn (zc_f sl gl ns y)).
    { intros y Hy. rewrite (zc_indices_num sl gl (Dyn y) y ls ns); [apply zc_indices_are; assumption| |assumption|assumption].
      simpl. rewrite u64_small by lia. reflexivity. }
    split; [split; [exact Hzr|]; rewrite Heq by exact Hzr; congruence|].
    intros y [Hy E']. rewrite (Heq y Hy) in E'. apply Hinj in E'. eapply (zc_f_inj sl gl ns Hn Hg Hs Hz Hp); eauto. congruence.
Qed.

(** The low bits of the index are interleaved. *)
Lemma zcurve_bits sl gl z ns k b : (2 <= List.length ns <= 32)%nat -> (sl * List.length ns < 32)%nat -> Forall (fun n => 0 <= n < W) ns ->
  0 <= z < W -> (k < List.length ns)%nat -> 0 <= b < Z.of_nat sl ->
  Z.testbit (nthd (zc_f sl gl ns z) k) b = Z.testbit z (Z.of_nat (List.length ns) * b + (Z.of_nat (List.length ns) - 1 - Z.of_nat k)).
Proof.
  intros Hn Hs Hr Hz Hk Hb. unfold zc_f, zc_indices. rewrite omap_vz_Dyn by exact Hr. cbn [vz]. rewrite map_length, map_map, nthd_map_seq by exact Hk.
  rewrite (u64_small z) by exact Hz. set (N := List.length ns) in *. set (n := Z.of_nat N). set (s := Z.of_nat sl). fold s in Hb.
  assert (Hsn : s * n < 32) by (unfold s, n; lia).
  assert (Hspec : 0 <= Z.land z (2 ^ (s * n) - 1) < 2 ^ (n * s)).
  { rewrite <- (Z.mul_comm s n). replace (2 ^ (s * n) - 1) with (Z.ones (s * n)) by (rewrite Z.ones_equiv; lia). rewrite Z.land_ones by nia. apply Z.mod_pos_bound. apply Z.pow_pos_nonneg; nia. }
  destruct (zc_special_range n (Z.of_nat k) _ s ltac:(unfold n; lia) ltac:(unfold n; lia) ltac:(unfold s; lia) ltac:(lia) Hspec) as (r & Er & Hrr & Hrb).
  rewrite Er. destruct (Z.ltb_spec (s * n) 32); [|lia]. unfold vzd. cbn [vz]. rewrite u64_u64, u64_add_l. rewrite Z.shiftl_mul_pow2 by lia.
  unfold u64. rewrite W_eq. replace 18446744073709551616 with (2 ^ 64) by reflexivity.
  assert (Hs64 : s < 64) by (unfold n in Hsn; nia).
  rewrite Z.mod_pow2_bits_low by lia.
  replace (nthd (zc_general (gl - sl) (Z.shiftr z (s * n)) (map (fun l => Z.shiftr l s) ns)) k * 2 ^ s + r) with (r + nthd (zc_general (gl - sl) (Z.shiftr z (s * n)) (map (fun l => Z.shiftr l s) ns)) k * 2 ^ s) by ring.
  rewrite <- (Z.mod_pow2_bits_low _ s b) by lia. rewrite Z.mod_add by (apply Z.pow_nonzero; lia). rewrite Z.mod_pow2_bits_low by lia.
  rewrite Hrb by lia. replace (2 ^ (s * n) - 1) with (Z.ones (s * n)) by (rewrite Z.ones_equiv; lia). rewrite Z.land_ones by nia.
  rewrite Z.mod_pow2_bits_low by (unfold n in *; nia). f_equal. lia.
Qed.

(** ** Traversing split or merged dimensions *)

Lemma over_one v u : rearranges v u nolens -> (forall d, view_lenv v nolens d = None) -> over rearranges u (View v u) nolens.
Proof. intros H1 H2. constructor; [exact H1|]. constructor. exact H2. Qed.
Lemma over_two v1 v2 u : rearranges v2 (View v1 u) nolens -> rearranges v1 u (view_lenv v2 nolens) ->
  (forall d, view_lenv v1 (view_lenv v2 nolens) d = None) -> over rearranges u (View v2 (View v1 u)) nolens.
Proof. intros H1 H2 H3. constructor; [exact H1|]. constructor; [exact H2|]. constructor. exact H3. Qed.

Lemma blocks_lenv d M m n : M <> m -> forall q, fupd (fupds (fupd nolens m (Some n)) [(M, None); (m, None)]) d
  (match fupd nolens m (Some n) M, fupd nolens m (Some n) m with Some a, Some b => Some (u64 (a * b)) | _, _ => None end) q = None.
Proof.
  intros Hn q. cbn [fupds]. unfold fupd, nolens. destruct (Z.eqb_spec M m); [congruence|]. destruct (q =? d); [reflexivity|].
  destruct (q =? m), (q =? M); reflexivity.
Qed.

Section Traversals.
  Variables (ss : list struct) (l1 l2 : list state).
  Let u := Union ss.

  Lemma sig_of_done p : for_each (order (traverser ss) p) [] = Done l2 -> signature (top_struct (order (traverser ss) p)) <> None.
  Proof. intros H. eapply for_each_signature, H. Qed.

  Lemma blocks_traversal d M m k y : let t := order (traverser ss) (p_into_blocks d M m k) in
    vz k = Some y -> 0 < y -> (forall c, on_len (plen u nolens c d) (fun n => n mod y = 0)) ->
    uswf (top_struct t) = true -> lenok (top_struct t) nolens ->
    for_each (traverser ss) [] = Done l1 -> for_each t [] = Done l2 -> (forall st, In st l2 -> complete u st) ->
    Permutation (map (index_list u) l1) (map (index_list u) l2).
  Proof.
    intros t Ek Hy Hd Hw Hlo E1 E2 Hc. apply (order_perm ss (p_into_blocks d M m k) l1 l2 Hw Hlo); auto.
    assert (HMm : M <> m).
    { intros ->. pose proof (signature_sub _ _ (sig_of_done _ E2)) as Hs. apply Hs. simpl. destruct (match omap signature ss with Some (s :: ss) => sig_union s ss | _ => None end); [|reflexivity]. rewrite Z.eqb_refl. reflexivity. }
    assert (Ez : vzd k = y) by (unfold vzd; rewrite Ek; reflexivity).
    apply over_two; [|split; [split; [reflexivity|]|]|cbn [view_lenv]; apply blocks_lenv, HMm].
    - split; [split; [reflexivity|]|exact I]. intros c. exact I.
    - intros c. cbn [view_good view_lenv]. unfold fupd, nolens. rewrite Z.eqb_refl. destruct (Z.eqb_spec M m); [congruence|]. lia.
    - exists y. split; [left; cbn [view_lenv]; unfold fupd, nolens; rewrite Z.eqb_refl, Ez; destruct (Z.eqb_spec M m); [congruence|auto]|].
      intros c. rewrite (plen_ext _ _ nolens c c); [apply Hd| |apply eqf_refl]. cbn [view_lenv]. intros q. apply blocks_lenv, HMm.
  Qed.

  Lemma blocks_dyn_traversal d M m p k y : let t := order (traverser ss) (p_into_blocks_dynamic d M m p k) in
    vz k = Some y -> 0 < y -> (forall c, on_len (plen u nolens c d) (fun n => n + y <= W)) ->
    uswf (top_struct t) = true -> lenok (top_struct t) nolens ->
    for_each (traverser ss) [] = Done l1 -> for_each t [] = Done l2 -> (forall st, In st l2 -> complete u st) ->
    Permutation (map (index_list u) l1) (map (index_list u) l2).
  Proof.
    intros t Ek Hy Hd Hw Hlo E1 E2 Hc. apply (order_perm ss (p_into_blocks_dynamic d M m p k) l1 l2 Hw Hlo); auto.
    assert (HMm : M <> m).
    { intros ->. pose proof (signature_sub _ _ (sig_of_done _ E2)) as Hs. apply Hs. simpl. destruct (match omap signature ss with Some (s :: ss) => sig_union s ss | _ => None end); [|reflexivity]. rewrite Z.eqb_refl. reflexivity. }
    assert (Ez : vzd k = y) by (unfold vzd; rewrite Ek; reflexivity).
    apply over_two; [|split; [split; [reflexivity|]|]|cbn [view_lenv]; apply blocks_lenv, HMm].
    - split; [split; [reflexivity|]|exact I]. intros c. exact I.
    - intros c. unfold view_good. rewrite (plen_ext _ _ nolens c c d); [| |apply eqf_refl].
      + cbn [view_lenv]. unfold fupd, nolens. rewrite Z.eqb_refl. destruct (Z.eqb_spec M m); [congruence|]. rewrite Ez. split; [lia|apply Hd].
      + cbn [view_lenv]. intros q. apply blocks_lenv, HMm.
    - left. cbn [view_lenv]. unfold fupd, nolens. rewrite Z.eqb_refl. destruct (Z.eqb_spec M m); [congruence|]. split; [reflexivity|discriminate].
  Qed.

  Lemma blocks_sta_traversal d b M m k : let t := order (traverser ss) [LView (VBlocksSta d b M m k)] in
    uswf (top_struct t) = true -> lenok (top_struct t) nolens ->
    for_each (traverser ss) [] = Done l1 -> for_each t [] = Done l2 -> (forall st, In st l2 -> complete u st) ->
    Permutation (map (index_list u) l1) (map (index_list u) l2).
  Proof.
    intros t Hw Hlo E1 E2 Hc. apply (order_perm ss [LView (VBlocksSta d b M m k)] l1 l2 Hw Hlo); auto.
    apply over_one; [split; [split; [reflexivity|]|exact I]; intros c; exact I|]. intros q. cbn [view_lenv]. unfold fupd, nolens. destruct (q =? d); reflexivity.
  Qed.

  Lemma merge_traversal M m d : let t := order (traverser ss) [LView (VMerge M m d)] in
    (forall c x y, plen u nolens c M = Some x -> plen u nolens c m = Some y -> x * y < W) ->
    uswf (top_struct t) = true -> lenok (top_struct t) nolens ->
    for_each (traverser ss) [] = Done l1 -> for_each t [] = Done l2 -> (forall st, In st l2 -> complete u st) ->
    Permutation (map (index_list u) l1) (map (index_list u) l2).
  Proof.
    intros t Hd Hw Hlo E1 E2 Hc. apply (order_perm ss [LView (VMerge M m d)] l1 l2 Hw Hlo); auto.
    assert (He : eqf (view_lenv (VMerge M m d) nolens) nolens).
    { intros q. cbn [view_lenv fupds]. unfold fupd, nolens. destruct (q =? M), (q =? m), (q =? d); reflexivity. }
    apply over_one; [split; [split; [reflexivity|]|exact I]|exact He]. intros c. cbn [view_good]. change (tr_struct (order (traverser ss) [LView (VMerge M m d)])) with (Union ss).
    rewrite (plen_ext _ _ nolens c c M), (plen_ext _ _ nolens c c m) by (auto; apply eqf_refl).
    destruct (plen (Union ss) nolens c M) eqn:E; [|exact I]. destruct (plen (Union ss) nolens c m) eqn:E'; [|exact I]. eapply Hd; eauto.
  Qed.

  Lemma zcurve_traversal sl gl d ds : let t := order (traverser ss) [LView (VZCurve sl gl d ds)] in
    (forall c ns, omap (plen u nolens c) ds = Some ns -> zc_good sl gl ns) ->
    uswf (top_struct t) = true -> lenok (top_struct t) nolens ->
    for_each (traverser ss) [] = Done l1 -> for_each t [] = Done l2 -> (forall st, In st l2 -> complete u st) ->
    Permutation (map (index_list u) l1) (map (index_list u) l2).
  Proof.
    intros t Hd Hw Hlo E1 E2 Hc. apply (order_perm ss [LView (VZCurve sl gl d ds)] l1 l2 Hw Hlo); auto.
    assert (He : eqf (view_lenv (VZCurve sl gl d ds) nolens) nolens).
    { intros q. cbn [view_lenv]. clear. induction ds as [|x ds IH]; [reflexivity|]. cbn [map fupds]. unfold fupd at 1. destruct (q =? x); [reflexivity|exact IH]. }
    apply over_one; [split; [split; [reflexivity|]|exact I]|exact He]. intros c. unfold view_good. change (tr_struct (order (traverser ss) [LView (VZCurve sl gl d ds)])) with (Union ss).
    rewrite (omap_ext _ (plen (Union ss) nolens c)) by (intros q _; apply plen_ext; [exact He|apply eqf_refl]).
    destruct (omap (plen (Union ss) nolens c) ds) eqn:E; [|exact I]. eapply Hd; eauto.
  Qed.
End Traversals.

Lemma zcurve_bits_of sl gl i z ls ns xs k b : (2 <= List.length ns <= 32)%nat -> (sl * List.length ns < 32)%nat ->
  vz i = Some z -> omap vz ls = Some ns -> zc_indices sl gl i ls = map Dyn xs ->
  (k < List.length ns)%nat -> 0 <= b < Z.of_nat sl ->
  Z.testbit (nth k xs 0) b = Z.testbit z (Z.of_nat (List.length ns) * b + (Z.of_nat (List.length ns) - 1 - Z.of_nat k)).
Proof.
  intros Hn Hs Ei En Ex Hk Hb.
  assert (Hr : Forall (fun n => 0 <= n < W) ns).
  { clear - En. revert ns En. induction ls as [|x ls IH]; intros ns En; simpl in En; [injection En as <-; constructor|].
    destruct (vz x) eqn:E; [|discriminate]. destruct (omap vz ls); [|discriminate]. injection En as <-. constructor; [eapply vz_range, E|auto]. }
  rewrite (zc_indices_num sl gl i z ls ns Ei En Hr), zc_indices_are in Ex by assumption.
  assert (Hinj : forall a b, map Dyn a = map Dyn b -> a = b).
  { intros a. induction a as [|x a IH]; intros [|y b'] E; try discriminate; [reflexivity|]. simpl in E. injection E as E1 E2. f_equal; auto. }
  apply Hinj in Ex. subst xs. change (nth k (zc_f sl gl ns z) 0) with (nthd (zc_f sl gl ns z) k).
  apply zcurve_bits; auto. eapply vz_range, Ei.
Qed.

Lemma blocks_cover n y : 0 < y -> 0 <= n -> n mod y = 0 ->
  (forall a b, 0 <= a < n / y -> 0 <= b < y -> 0 <= a * y + b < n) /\
  (forall x, 0 <= x < n -> exists! ab, (0 <= fst ab < n / y /\ 0 <= snd ab < y) /\ x = fst ab * y + snd ab).
Proof.
  intros Hy Hn Hm. pose proof (Z.div_mod n y ltac:(lia)) as E. split.
  - intros a b Ha Hb. split; [nia|]. assert (a <= n / y - 1) by lia. nia.
  - intros x Hx. exists (x / y, x mod y). split.
    + simpl. pose proof (Z.div_mod x y ltac:(lia)). pose proof (Z.mod_pos_bound x y Hy). pose proof (Z.div_pos x y ltac:(lia) Hy).
      split; [split; [split; [lia|]|lia]|lia]. apply Z.div_lt_upper_bound; nia.
    + intros [a b] [[Ha Hb] E']. simpl in *. subst x. f_equal.
      * symmetry. apply (Z.div_unique_pos _ _ _ b); lia.
      * symmetry. apply (Z.mod_unique_pos _ _ a); lia.
Qed.
