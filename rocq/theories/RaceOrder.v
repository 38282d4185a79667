(** * Orders that regroup the outermost dimension *)

From Verif Require Import PropsLayout Select.
From Verif Require Export RaceFacts.

(** The index of [x] above a view, from the index [i] below it; [n] is the length below. *)
Definition back (v : view) (l : lenv) (x : dim) (n i : Z) : Z :=
  match v with
  | VShift d s | VSlice d s _ | VSpan d s _ => if x =? d then i - vzd s else i
  | VStep d s r => if x =? d then (i - vzd s) / vzd r else i
  | VReverse d => if x =? d then n - 1 - i else i
  | VBlocks d M m => if x =? M then i / minor_len l M m n else if x =? m then i mod minor_len l M m n else i
  | VBlocksDyn d M m p => if x =? p then 0 else if x =? M then i / minor_len_up l M m n else if x =? m then i mod minor_len_up l M m n else i
  | VBlocksSta d b M m ml =>
      if x =? b then (if i <? n / vzd ml * vzd ml then 0 else 1)
      else if x =? M then (if i <? n / vzd ml * vzd ml then i / vzd ml else 0)
      else if x =? m then (if i <? n / vzd ml * vzd ml then i mod vzd ml else i - n / vzd ml * vzd ml) else i
  | _ => i
  end.
Definition uses_length (v : view) (x : dim) : bool :=
  match v with
  | VReverse d => x =? d
  | VBlocks d M m => mem x [M; m]
  | VBlocksDyn d M m p => mem x [M; m; p]
  | VBlocksSta d b M m _ => mem x [b; M; m]
  | _ => false
  end.

Lemma back_length v l x n n' i : uses_length v x = false -> back v l x n i = back v l x n' i.
Proof.
  intros H. destruct v; cbn [uses_length back mem existsb] in *; try reflexivity;
    repeat match goal with |- context [x =? ?d] => destruct (x =? d) eqn:?; cbn [orb] in H; try discriminate end; reflexivity.
Qed.

Lemma alone_inv t d y : alone t d = Some y -> y = d /\ ldeps t d = [].
Proof. unfold alone. destruct (ldeps t d) eqn:E; [|discriminate]. intros H. injection H as <-. auto. Qed.

Lemma blocks_outside d M m s0 sg a p' x k : view_sig (VBlocks d M m) s0 = Some sg -> spath s0 a = Some p' -> In (x, k) p' -> x <> d -> mem x [M; m] = false.
Proof.
  intros Ev Ep Hk Hne. pose proof (spath_accept _ _ _ Ep _ Hk) as Ha. cbn [fst] in Ha. cbn [view_sig] in Ev. apply mem_false. intros [<-|[<-|[]]];
    rewrite Ha, (proj2 (Z.eqb_neq _ _) Hne) in Ev; cbn [negb andb] in Ev; rewrite ?orb_true_r in Ev; discriminate.
Qed.
Lemma blocks_dyn_outside d M m pd s0 sg a p' x k : view_sig (VBlocksDyn d M m pd) s0 = Some sg -> spath s0 a = Some p' -> In (x, k) p' -> x <> d -> mem x [M; m; pd] = false.
Proof.
  intros Ev Ep Hk Hne. pose proof (spath_accept _ _ _ Ep _ Hk) as Ha. cbn [fst] in Ha. cbn [view_sig] in Ev. apply mem_false. intros [<-|[<-|[<-|[]]]];
    rewrite Ha, (proj2 (Z.eqb_neq _ _) Hne) in Ev; cbn [negb andb] in Ev; rewrite ?orb_true_r in Ev; discriminate.
Qed.
Lemma blocks_sta_outside d b M m ml s0 sg a p' x k : view_sig (VBlocksSta d b M m ml) s0 = Some sg -> spath s0 a = Some p' -> In (x, k) p' -> x <> d -> mem x [b; M; m] = false.
Proof.
  intros Ev Ep Hk Hne. pose proof (spath_accept _ _ _ Ep _ Hk) as Ha. cbn [fst] in Ha. cbn [view_sig] in Ev. apply mem_false. intros [<-|[<-|[<-|[]]]];
    rewrite Ha, (proj2 (Z.eqb_neq _ _) Hne) in Ev; cbn [negb andb] in Ev; rewrite ?orb_true_r in Ev; discriminate.
Qed.

Lemma view_back v t l a sg p x y : uswf (View v t) = true -> lrange l -> respected v t l -> pvalid (View v t) l a sg p ->
  under v t x = Some y -> In x (map fst p) -> 
  exists s0 p', pvalid t (view_lenv v l) (view_asg v (ilen t) l a) s0 p' /\ In y (map fst p') /\
    exists n, a x = back v l x n (view_asg v (ilen t) l a y) /\
      (uses_length v x = true -> ldeps t y = [] /\ In (y, None) p' /\ n = ilen t (view_lenv v l) (view_asg v (ilen t) l a) y).
Proof.
  intros Hw Hr Hg V Hu Hx. destruct (pvalid_view v t l a sg p Hw Hr (Hg _) V) as (s0 & p' & Ev & R & Hsn & Hnd & V').
  exists s0, p'. split; [exact V'|]. destruct (uswf_view _ _ Hw) as [Hvw Ht]. pose proof V as (Es & Ep & Fp). pose proof V' as (E0 & Ep' & Fp').
  pose proof (vfacts_ok v t s0 sg l a p' p (uswf_loc _ Ht) Hvw Ht E0 Ev Ep' R Hnd Hr (Hg _) Fp) as Hf.
  destruct (fst_in _ _ Hx) as [k Hk].
  assert (Hplain : y = x -> In x (map fst p') -> (forall n i, back v l x n i = i) -> uses_length v x = false -> view_asg v (ilen t) l a x = a x ->
    In y (map fst p') /\ exists n, a x = back v l x n (view_asg v (ilen t) l a y) /\
      (uses_length v x = true -> ldeps t y = [] /\ In (y, None) p' /\ n = ilen t (view_lenv v l) (view_asg v (ilen t) l a) y)).
  { intros -> Hin Hb Hul Ha. split; [exact Hin|]. exists 0. rewrite Hb, Ha, Hul. split; [reflexivity|discriminate]. }
  pose proof (fun d => Lof_fun v t s0 l a p' E0 Ep' Hnd d) as HLf.
  unfold view_swf in Hvw. rewrite E0 in Hvw.
  destruct v as [d|d i|d n|d s|d s len|d s en|d s r|d|d M m|d M m pd|d b M m ml|M m d|sl gl d ds|ds|d|ps|xa xb d]; cbn [under vfacts prel] in *.
  - destruct (Z.eqb_spec x d) as [|Hne]; [discriminate|]. injection Hu as <-. subst p. destruct Hk as [Hk|Hk]; [congruence|]. apply Hplain; auto. eapply in_fst; eauto.
  - destruct (Z.eqb_spec x d) as [|Hne]; [discriminate|]. injection Hu as <-. subst p. apply in_pm in Hk. destruct Hk as [[Hk _]|(n & _ & [])].
    apply Hplain; auto; [eapply in_fst; eauto|]. cbn [view_asg]. rewrite fupd_neq by exact Hne. reflexivity.
  - injection Hu as <-. destruct R as [-> _]. apply Hplain; auto.
  - injection Hu as <-. subst p. apply in_pm in Hk. destruct Hk as [[Hk Hne]|(n & Hn & [Hk|[]])].
    + cbn [fst] in Hne. apply Hplain; auto; [eapply in_fst; eauto|intros; cbn [back]; rewrite (proj2 (Z.eqb_neq _ _) Hne); reflexivity|cbn [view_asg]; rewrite fupd_neq by exact Hne; reflexivity].
    + injection Hk as <- _. split; [eapply in_fst; eauto|]. exists 0. cbn [back uses_length]. rewrite Z.eqb_refl. destruct (Hf _ Hn) as (-> & _). split; [lia|discriminate].
  - injection Hu as <-. subst p. apply in_pm in Hk. destruct Hk as [[Hk Hne]|(n & Hn & [Hk|[]])].
    + cbn [fst] in Hne. apply Hplain; auto; [eapply in_fst; eauto|intros; cbn [back]; rewrite (proj2 (Z.eqb_neq _ _) Hne); reflexivity|cbn [view_asg]; rewrite fupd_neq by exact Hne; reflexivity].
    + injection Hk as <- _. split; [eapply in_fst; eauto|]. exists 0. cbn [back uses_length]. rewrite Z.eqb_refl. destruct (Hf _ Hn) as (-> & _). split; [lia|discriminate].
  - injection Hu as <-. subst p. apply in_pm in Hk. destruct Hk as [[Hk Hne]|(n & Hn & [Hk|[]])].
    + cbn [fst] in Hne. apply Hplain; auto; [eapply in_fst; eauto|intros; cbn [back]; rewrite (proj2 (Z.eqb_neq _ _) Hne); reflexivity|cbn [view_asg]; rewrite fupd_neq by exact Hne; reflexivity].
    + injection Hk as <- _. split; [eapply in_fst; eauto|]. exists 0. cbn [back uses_length]. rewrite Z.eqb_refl. destruct (Hf _ Hn) as (-> & _). split; [lia|discriminate].
  - injection Hu as <-. subst p. apply in_pm in Hk. destruct Hk as [[Hk Hne]|(n & Hn & [Hk|[]])].
    + cbn [fst] in Hne. apply Hplain; auto; [eapply in_fst; eauto|intros; cbn [back]; rewrite (proj2 (Z.eqb_neq _ _) Hne); reflexivity|cbn [view_asg]; rewrite fupd_neq by exact Hne; reflexivity].
    + injection Hk as <- _. split; [eapply in_fst; eauto|]. exists 0. cbn [back uses_length]. rewrite Z.eqb_refl. destruct (Hf _ Hn) as (-> & _). split; [|discriminate].
      apply andb_true_iff in Hvw. destruct Hvw as [Hvr _]. destruct (vz s); [|discriminate]. destruct (vz r) as [zr|] eqn:Er; [|discriminate]. rewrite (vzd_vz _ _ Er).
      replace (a d * zr + vzd s - vzd s) with (a d * zr) by lia. rewrite Z.div_mul by lia. reflexivity.
  - subst p. destruct (Z.eqb_spec x d) as [Hxd|Hne].
    + apply alone_inv in Hu. destruct Hu as [-> Hld]. subst x. apply andb_true_iff in Hvw. destruct Hvw as [Hd _]. apply negb_true_iff, mem_false in Hd.
      assert (k = None) as -> by (destruct k; [exfalso; apply Hd; eapply spath_sdep; eauto|reflexivity]).
      split; [exact Hx|]. exists (Lof (VReverse d) t l a d). cbn [back uses_length]. rewrite Z.eqb_refl. destruct (Hf _ Hk) as (-> & _). split; [lia|]. intros _. auto.
    + injection Hu as <-. apply Hplain; auto; [intros; cbn [back]|cbn [uses_length]|cbn [view_asg]; rewrite fupd_neq by exact Hne; reflexivity];
        rewrite (proj2 (Z.eqb_neq _ _) Hne); reflexivity.
  - destruct R as [-> Hfun]. apply in_pm in Hk. destruct Hk as [[Hk Hne]|(n & Hn & Hk)].
    + cbn [fst] in Hne. assert (HxM : mem x [M; m] = false) by (eapply blocks_outside; eauto). rewrite HxM in Hu. rewrite (proj2 (Z.eqb_neq _ _) Hne) in Hu. injection Hu as <-.
      cbn [mem existsb] in HxM. rewrite !orb_false_iff in HxM. destruct HxM as (HxM & Hxm & _).
      apply Hplain; auto; [eapply in_fst; eauto|intros; cbn [back]; rewrite HxM, Hxm; reflexivity|cbn [uses_length mem existsb]; rewrite HxM, Hxm; reflexivity|cbn [view_asg]; rewrite fupd_neq by exact Hne; reflexivity].
    + pose proof (Hfun _ Hn) as ->. assert (HxM : mem x [M; m] = true) by (apply mem_In; destruct Hk as [Hk|[Hk|[]]]; injection Hk as <- _; simpl; auto).
      rewrite HxM in Hu. apply alone_inv in Hu. destruct Hu as [-> Hld]. split; [eapply in_fst; eauto|].
      exists (Lof (VBlocks d M m) t l a d). cbn [uses_length]. split; [|intros _; auto]. destruct (Hf _ Hn) as (-> & A & B & _). set (n := minor_len _ _ _ _) in *.
      cbn [back]. fold n. destruct Hk as [Hk|[Hk|[]]]; injection Hk as <-.
      * rewrite Z.eqb_refl, Z.div_add_l, Z.div_small by lia. lia.
      * assert (HMm : M =? m = false) by (cbn [view_sig] in Ev; destruct (M =? m); [discriminate|reflexivity]). rewrite Z.eqb_sym, HMm, Z.eqb_refl.
        rewrite Z.add_comm, Z.mod_add, Z.mod_small by lia. reflexivity.
  - destruct R as [-> Hfun]. apply in_pm in Hk. destruct Hk as [[Hk Hne]|(n & Hn & Hk)].
    + cbn [fst] in Hne. assert (HxM : mem x [M; m; pd] = false) by (eapply blocks_dyn_outside; eauto). rewrite HxM in Hu. rewrite (proj2 (Z.eqb_neq _ _) Hne) in Hu. injection Hu as <-.
      cbn [mem existsb] in HxM. rewrite !orb_false_iff in HxM. destruct HxM as (HxM & Hxm & Hxp & _).
      apply Hplain; auto; [eapply in_fst; eauto|intros; cbn [back]; rewrite HxM, Hxm, Hxp; reflexivity|cbn [uses_length mem existsb]; rewrite HxM, Hxm, Hxp; reflexivity|cbn [view_asg]; rewrite fupd_neq by exact Hne; reflexivity].
    + pose proof (Hfun _ Hn) as ->. assert (HxM : mem x [M; m; pd] = true) by (apply mem_In; destruct Hk as [Hk|[Hk|[Hk|[]]]]; injection Hk as <- _; simpl; auto).
      rewrite HxM in Hu. apply alone_inv in Hu. destruct Hu as [-> Hld]. split; [eapply in_fst; eauto|].
      exists (Lof (VBlocksDyn d M m pd) t l a d). cbn [uses_length]. split; [|intros _; auto]. destruct (Hf _ Hn) as (-> & A & B & _ & C). set (n := minor_len_up _ _ _ _) in *.
      assert (HMm : (M =? m = false /\ M =? pd = false) /\ m =? pd = false) by (cbn [view_sig] in Ev; destruct (M =? m), (M =? pd), (m =? pd); cbn [orb] in Ev; try discriminate; auto).
      destruct HMm as [[HMm HMp] Hmp]. cbn [back]. fold n. destruct Hk as [Hk|[Hk|[Hk|[]]]]; injection Hk as <-.
      * rewrite HMp, Z.eqb_refl, Z.div_add_l, Z.div_small by lia. lia.
      * rewrite Hmp, Z.eqb_sym, HMm, Z.eqb_refl. rewrite Z.add_comm, Z.mod_add, Z.mod_small by lia. reflexivity.
      * rewrite Z.eqb_refl. exact C.
  - destruct R as [-> Hfun]. apply in_pm in Hk. destruct Hk as [[Hk Hne]|(n & Hn & Hk)].
    + cbn [fst] in Hne. assert (HxM : mem x [b; M; m] = false) by (eapply blocks_sta_outside; eauto). rewrite HxM in Hu. rewrite (proj2 (Z.eqb_neq _ _) Hne) in Hu. injection Hu as <-.
      cbn [mem existsb] in HxM. rewrite !orb_false_iff in HxM. destruct HxM as (Hxb & HxM & Hxm & _).
      apply Hplain; auto; [eapply in_fst; eauto|intros; cbn [back]; rewrite HxM, Hxm, Hxb; reflexivity|cbn [uses_length mem existsb]; rewrite HxM, Hxm, Hxb; reflexivity|cbn [view_asg]; rewrite fupd_neq by exact Hne; reflexivity].
    + pose proof (Hfun _ Hn) as ->. assert (HxM : mem x [b; M; m] = true) by (apply mem_In; destruct Hk as [Hk|[Hk|[Hk|[]]]]; injection Hk as <- _; simpl; auto).
      rewrite HxM in Hu. apply alone_inv in Hu. destruct Hu as [-> Hld]. split; [eapply in_fst; eauto|].
      exists (Lof (VBlocksSta d b M m ml) t l a d). cbn [uses_length back]. split; [|intros _; auto]. destruct (Hf _ Hn) as (A & B & C). set (L := Lof _ _ _ _ _) in *. clearbody L. set (n := vzd ml) in *. clearbody n.
      assert (HMm : (b =? M = false /\ b =? m = false) /\ M =? m = false) by (cbn [view_sig] in Ev; destruct (M =? m), (b =? M), (b =? m); cbn [orb] in Ev; try discriminate; auto).
      destruct HMm as [[HbM Hbm] HMm]. set (i := view_asg _ _ _ _ _) in *. clearbody i. clear -A B C Hk HbM Hbm HMm.
      assert (HMb : M =? b = false) by lia. assert (Hmb : m =? b = false) by lia. assert (HmM : m =? M = false) by lia.
      destruct C as [(C1 & C2 & C3 & C4 & C5)|(C1 & C2 & C3 & C4 & C5)].
      * rewrite (proj2 (Z.ltb_lt i _) C5). destruct Hk as [Hk|[Hk|[Hk|[]]]]; injection Hk as <-.
        -- rewrite Z.eqb_refl. exact C1.
        -- rewrite HMb, Z.eqb_refl, C4, Z.div_add_l, Z.div_small by lia. lia.
        -- rewrite Hmb, HmM, Z.eqb_refl, C4. rewrite Z.add_comm, Z.mod_add, Z.mod_small by lia. reflexivity.
      * rewrite (proj2 (Z.ltb_ge i _) (proj1 C5)). destruct Hk as [Hk|[Hk|[Hk|[]]]]; injection Hk as <-.
        -- rewrite Z.eqb_refl. exact C1.
        -- rewrite HMb, Z.eqb_refl. exact C2.
        -- rewrite Hmb, HmM, Z.eqb_refl. lia.
  - destruct (mem x [d; M; m]) eqn:Em; [discriminate|]. injection Hu as <-. destruct (peeled_inv _ _ _ _ _ _ _ R Hk) as [(-> & _)|[Hk' Hout]].
    + simpl in Em. rewrite Z.eqb_refl in Em. discriminate.
    + apply Hplain; auto; [eapply in_fst; eauto|]. cbn [view_asg]. rewrite fupds_out by exact Hout. reflexivity.
  - destruct (mem x (d :: ds)) eqn:Em; [discriminate|]. injection Hu as <-. destruct (peeled_inv _ _ _ _ _ _ _ R Hk) as [(-> & _)|[Hk' Hout]].
    + simpl in Em. rewrite Z.eqb_refl in Em. discriminate.
    + apply Hplain; auto; [eapply in_fst; eauto|]. cbn [view_asg]. rewrite fupds_out by (rewrite map_fst_combine; [exact Hout|rewrite map_length, zc_indices_length, map_length; reflexivity]). reflexivity.
  - injection Hu as <-. apply Hplain; auto. eapply Permutation_in; [apply Permutation_map, R|exact Hx].
  - injection Hu as <-. destruct R as [Hd ->]. apply Hplain; auto. destruct Hk as [Hk|Hk]; [injection Hk as <- _; eapply in_fst; eauto|].
    apply in_pm in Hk. destruct Hk as [[Hk _]|(n & _ & [])]. eapply in_fst; eauto.
  - injection Hu as <-. subst p. apply in_map_iff in Hk. destruct Hk as ([x' k'] & E & Hk). cbn [fst snd] in E. injection E as <- _.
    assert (Hback : rename_dim (swap_pairs ps) (rename_dim ps x') = x').
    { cbn [view_sig] in Ev. destruct (nodupb (map fst ps) && _ && _) eqn:Er in Ev; [|discriminate]. exact (rename_back ps s0 x' Er (spath_accept _ _ _ Ep' _ Hk)). }
    rewrite Hback. split; [eapply in_fst; eauto|]. exists 0. cbn [back uses_length view_asg]. split; [reflexivity|discriminate].
  - discriminate.
Qed.

(** Along all views: equal indices below come from equal indices above. *)
Lemma chain_source u s l : (forall v t, u <> View v t) -> over respected u s l -> forall a1 a2 sg p1 p2 x y, uswf s = true -> lenok s l -> lrange l ->
  pvalid s l a1 sg p1 -> pvalid s l a2 sg p2 -> source s x = Some y -> In x (map fst p1) -> In x (map fst p2) ->
  exists c1 c2,
    (forall st r, agree st l a1 -> state_at u s st = Some r -> agree r nolens c1) /\
    (forall st r, agree st l a2 -> state_at u s st = Some r -> agree r nolens c2) /\
    (c1 y = c2 y -> a1 x = a2 x).
Proof.
  intros Hu. induction 1 as [l Hl|v t l Hd Ho IH]; intros a1 a2 sg p1 p2 x y Hw Hlk Hr V1 V2 Hs I1 I2.
  - assert (y = x) as -> by (destruct u; try (injection Hs as <-; reflexivity); exfalso; eapply Hu; reflexivity).
    exists a1, a2. split; [|split; [|auto]]; intros st r Ha E; apply state_at_self in E; try exact Hu; subst r; exact (Select.agree_ext _ l nolens _ Hl Ha).
  - cbn [source] in Hs. destruct (under v t x) as [z|] eqn:Ez; [|discriminate]. cbn [obind] in Hs.
    assert (Hst : same_type u (View v t) = false) by (destruct u; try reflexivity; exfalso; eapply Hu; reflexivity).
    pose proof V1 as (Es & _ & _). destruct (uswf_view _ _ Hw) as [_ Ht].
    destruct (view_back v t l a1 sg p1 x z Hw Hr Hd V1 Ez I1) as (s1 & q1 & W1 & J1 & n1 & B1 & U1).
    destruct (view_back v t l a2 sg p2 x z Hw Hr Hd V2 Ez I2) as (s2 & q2 & W2 & J2 & n2 & B2 & U2).
    assert (s2 = s1) by (destruct W1 as (A & _), W2 as (B & _); congruence). subst s2.
    destruct (IH _ _ _ _ _ z y Ht (proj2 Hlk) (view_lrange v l Hr) W1 W2 Hs J1 J2) as (c1 & c2 & S1 & S2 & Hc).
    exists c1, c2. split; [|split].
    + intros st r Ha E. rewrite state_at_view in E by exact Hst. destruct (sub_state v t st) as [st1|] eqn:E1; [|discriminate]. cbn [obind] in E.
      apply (S1 st1 r); [|exact E]. eapply sub_state_refines; eauto. congruence.
    + intros st r Ha E. rewrite state_at_view in E by exact Hst. destruct (sub_state v t st) as [st1|] eqn:E1; [|discriminate]. cbn [obind] in E.
      apply (S2 st1 r); [|exact E]. eapply sub_state_refines; eauto. congruence.
    + intros E. specialize (Hc E). rewrite B1, B2, Hc. destruct (uses_length v x) eqn:Eu; [|apply back_length, Eu].
      destruct (U1 eq_refl) as (Hld & Hin & ->). destruct (U2 eq_refl) as (_ & _ & ->). f_equal. symmetry.
      destruct W1 as (E0 & Ep & _). apply (uswf_loc t Ht (view_lenv v l) s1 _ _ q1 z E0 Ep Hin). rewrite Hld. intros ? [].
Qed.

(** The calls of a piece are on elements of the traversed structure. *)
Lemma piece_element t r b e w st : (forall v u, tr_struct t <> View v u) -> distinct_dims (top_struct t) -> lenok (top_struct t) nolens -> range_of t = Done r ->
  0 <= b <= e -> e <= rg_end r -> rg_for_each (rg_set r b e) = Done w -> In st w ->
  exists e0 k sg p, matches t e0 st /\ get (Idx (rg_dim r)) e0 = Some (Dyn k) /\ b <= k < e /\
    pvalid (top_struct t) nolens (asg_of e0) sg p /\ agree e0 nolens (asg_of e0) /\ In (rg_dim r) (map fst p) /\ k < W.
Proof.
  intros Hx Hd Hlk Hr Hb He Hw Hin. destruct (range_inv t r Hd Hr) as (al & sgr & len & n & Hs & Hn & Hlen & Hvz & Hn0 & Er).
  assert (Ee : rg_end r = n) by (rewrite Er; reflexivity). assert (Et : rg_trav r = t) by (rewrite Er; reflexivity).
  assert (Hres : restricts t (rg_dim r) al sgr (slice_of (rg_set r b e)) (interval b e)).
  { assert (Hne : length_ (top_struct t) (rg_dim r) [] <> None) by congruence. apply restrict_slice; auto. cbn [rg_size rg_end rg_begin rg_set]. apply u64_range. }
  unfold rg_for_each, as_traverser in Hw. cbn [rg_set rg_trav] in Hw. rewrite Et in Hw.
  destruct (restrict_each t _ al sgr Hx Hs Hn _ _ w Hres Hw) as (sts & Hp & Hm). apply In_nth_error in Hin. destruct Hin as [i Hi].
  assert (H : exists e0, In e0 sts /\ matches t e0 st).
  { clear -Hm Hi. revert i Hi. induction Hm as [|e0 s sts l H0 _ IH]; intros [|i] Hi; try discriminate.
    - injection Hi as <-. exists e0. split; [left; reflexivity|exact H0].
    - destruct (IH i Hi) as (e1 & A & B). exists e1. split; [right; exact A|exact B]. }
  destruct H as (e0 & Hin0 & Hm0). exists e0. unfold part in Hp. destruct (proj1 (out_cat_map_In _ _ _ e0 Hp) Hin0) as (k & y & Hk & Hy & Hey).
  assert (Hk' : b <= k < e) by (rewrite interval_zseq in Hk by lia; apply in_map_iff in Hk; destruct Hk as (j & <- & Hj); apply TravFacts.zseq_In in Hj; lia).
  pose proof (vz_range _ _ Hvz) as Hnr. exists k.
  assert (Hfr : TravFacts.fresh (sig_dim_tree sgr) [(Idx (rg_dim r), Dyn k)]).
  { intros q Hq. cbn [get tag_eqb]. destruct (Z.eqb_spec q (rg_dim r)) as [E|]; [|reflexivity]. subst q. rewrite tree_contains in Hq. rewrite (d_fresh (rg_dim r) al sgr Hn) in Hq. discriminate. }
  assert (Hnr' : snodup sgr = true) by (simpl in Hn; apply andb_true_iff in Hn; apply Hn).
  destruct (proj1 (fe_run_visits _ _ _ _ _ (tree_tnodup _ Hnr') Hfr Hy e0) Hey) as (e' & -> & Hv).
  assert (Hvis : visits (top_struct t) (SFun (rg_dim r) al sgr) (sig_dim_tree (SFun (rg_dim r) al sgr)) [] ([(Idx (rg_dim r), Dyn k)] ++ e')).
  { cbn [app sig_dim_tree]. eapply (v_fun _ _ (rg_dim r) (sig_dim_tree sgr) [] (rg_dim r) al sgr len n k); eauto; [|lia]. simpl. rewrite Z.eqb_refl. reflexivity. }
  destruct (visits_names _ _ _ Hs Hn Hvis) as (p & Hne & Em). exists (SFun (rg_dim r) al sgr), p.
  split; [exact Hm0|]. split; [cbn [app get tag_eqb]; rewrite Z.eqb_refl; reflexivity|]. split; [exact Hk'|].
  assert (Hnl : forall d, get (Len d) ([(Idx (rg_dim r), Dyn k)] ++ e') = None) by (eapply map_fst_Idx; eauto).
  destruct (names_valid _ _ Hs Hlk _ p Hne Hnl) as [Hsp Hfp].
  split; [split; [exact Hs|split; assumption]|]. split; [destruct (agree_of ([(Idx (rg_dim r), Dyn k)] ++ e')) as [_ H2]; split; [|exact H2]; intros d; rewrite Hnl; exact I|].
  split; [|lia]. cbn [app map fst] in Em. destruct p as [|[x q] p]; [discriminate|]. cbn [map fst] in Em. injection Em as -> _. left. reflexivity.
Qed.

(** Calls on different pieces have different indices. *)
Lemma pieces_differ' ss p r tr works i j w1 w2 st1 st2 v1 v2 x1 x2 : let t := order (traverser ss) p in
  uswf (top_struct t) = true -> lenok (top_struct t) nolens -> over respected (tr_struct t) (top_struct t) nolens -> range_of t = Done r ->
  source (top_struct t) (rg_dim r) = Some (rg_dim r) ->
  Forall2 (fun piece w => rg_for_each piece = Done w) (pieces tr r) works ->
  nth_error works i = Some w1 -> nth_error works j = Some w2 -> i <> j -> In st1 w1 -> In st2 w2 ->
  get (Idx (rg_dim r)) st1 = Some v1 -> get (Idx (rg_dim r)) st2 = Some v2 -> vz v1 = Some x1 -> vz v2 = Some x2 -> x1 <> x2.
Proof.
  intros t Hwf Hlk Ho Hr Hk Hw Hi Hj Hij Hin1 Hin2 G1 G2 V1 V2 Ex. pose proof (order_not_view ss p) as Hx. fold t in Hx.
  assert (Hd : distinct_dims (top_struct t)).
  { apply uswf_distinct; [exact Hwf|]. intros E. unfold range_of, top_dim in Hr. rewrite E in Hr. discriminate. }
  destruct (range_inv t r Hd Hr) as (_ & _ & _ & n & _ & _ & _ & _ & Hn & Er). assert (Hb : rg_begin r = 0) by (rewrite Er; reflexivity). assert (He : rg_end r = n) by (rewrite Er; reflexivity).
  destruct (split_follows tr r) as [F G]; try lia. rewrite Hb in F.
  assert (Hnth : forall k w, nth_error works k = Some w -> exists x, nth_error (pieces tr r) k = Some x /\ rg_for_each x = Done w).
  { clear -Hw. induction Hw as [|x w xs ws H _ IH]; intros [|k] w' E; try discriminate; [injection E as <-; exists x; auto|]. exact (IH k w' E). }
  destruct (Hnth i w1 Hi) as (p1 & P1 & W1). destruct (Hnth j w2 Hj) as (p2 & P2 & W2).
  pose proof (G p1 (nth_error_In _ _ P1)) as E1. pose proof (G p2 (nth_error_In _ _ P2)) as E2.
  pose proof (follows_bounds _ _ _ _ F (nth_error_In _ _ P1)) as B1. pose proof (follows_bounds _ _ _ _ F (nth_error_In _ _ P2)) as B2.
  rewrite E1 in W1. rewrite E2 in W2.
  destruct (piece_element t r (rg_begin p1) (rg_end p1) w1 st1 Hx Hd Hlk Hr ltac:(lia) ltac:(lia) W1 Hin1) as (e1 & k1 & sg1 & q1 & (s1 & S1 & Q1) & K1 & R1 & Va1 & A1 & N1 & M1).
  destruct (piece_element t r (rg_begin p2) (rg_end p2) w2 st2 Hx Hd Hlk Hr ltac:(lia) ltac:(lia) W2 Hin2) as (e2 & k2 & sg2 & q2 & (s2 & S2 & Q2) & K2 & R2 & Va2 & A2 & N2 & M2).
  assert (sg2 = sg1) by (destruct Va1 as (X & _), Va2 as (Y & _); congruence). subst sg2.
  assert (Hlr : lrange nolens) by (intros d x Hdx; discriminate).
  destruct (chain_source (tr_struct t) (top_struct t) nolens Hx Ho _ _ _ _ _ _ _ Hwf Hlk Hlr Va1 Va2 Hk N1 N2) as (c1 & c2 & C1 & C2 & Hc).
  specialize (C1 e1 s1 A1 S1). specialize (C2 e2 s2 A2 S2).
  destruct (Q1 (rg_dim r)) as [Q1' _]. destruct (Q2 (rg_dim r)) as [Q2' _]. rewrite G1 in Q1'. rewrite G2 in Q2'.
  pose proof (ag_idx _ _ _ C1 _ _ Q1') as X1. pose proof (ag_idx _ _ _ C2 _ _ Q2') as X2. unfold vagree in X1, X2. rewrite V1 in X1. rewrite V2 in X2.
  assert (Hkk : k1 = k2).
  { assert (Hc' : asg_of e1 (rg_dim r) = asg_of e2 (rg_dim r)) by (apply Hc; congruence). unfold asg_of in Hc'. rewrite K1, K2 in Hc'. unfold vzd in Hc'. cbn [vz] in Hc'. rewrite !u64_small in Hc' by lia. exact Hc'. }
  subst k2. destruct (Nat.lt_total i j) as [H|[H|H]]; [|contradiction|].
  - pose proof (follows_apart _ _ _ _ _ _ _ F P1 P2 H). lia.
  - pose proof (follows_apart _ _ _ _ _ _ _ F P2 P1 H). lia.
Qed.

Theorem race_free_regrouped ss p out r tr works i j w1 w2 st1 st2 u1 u2 p1 p2 o1 o2 : let t := order (traverser ss) p in
  uswf (top_struct t) = true -> lenok (top_struct t) nolens -> over respected (tr_struct t) (top_struct t) nolens -> range_of t = Done r ->
  source (top_struct t) (rg_dim r) = Some (rg_dim r) -> shares t out = Some true -> nobcast out = true ->
  Forall2 (fun piece w => rg_for_each piece = Done w) (pieces tr r) works ->
  nth_error works i = Some w1 -> nth_error works j = Some w2 -> i <> j -> In st1 w1 -> In st2 w2 ->
  get (Idx (rg_dim r)) u1 = get (Idx (rg_dim r)) st1 -> get (Idx (rg_dim r)) u2 = get (Idx (rg_dim r)) st2 -> same_lengths u1 u2 ->
  used_correctly out u1 -> used_correctly out u2 -> fits out u1 -> names_element out u1 p1 -> names_element out u2 p2 ->
  offset out u1 = Some o1 -> offset out u2 = Some o2 -> apart out u1 u2.
Proof.
  intros t Hwf Hlk Ho Hr Hk Hsh Hnb Hw Hi Hj Hij Hin1 Hin2. apply (race_core t out r st1 st2); auto.
  - apply uswf_distinct; [exact Hwf|]. intros E. unfold range_of, top_dim in Hr. rewrite E in Hr. discriminate.
  - intros v1 v2 x1 x2. apply (pieces_differ' ss p r tr works i j w1 w2 st1 st2 v1 v2 x1 x2 Hwf Hlk Ho Hr Hk Hw Hi Hj Hij Hin1 Hin2).
Qed.
