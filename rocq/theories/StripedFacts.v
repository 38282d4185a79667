(** * Proofs about striped structures *)

From Verif Require Export SpecStriped BagFacts.

(** ** The widths *)

Lemma pad_spec v m : 0 <= v -> 0 < m -> v + m < W -> let p := pad_to_multiple v m in v <= p < v + m /\ p mod m = 0.
Proof.
  intros Hv Hm Hw. cbv zeta. unfold pad_to_multiple. rewrite (u64_small (v + m)) by lia. rewrite (u64_small (v + m - 1)) by lia.
  set (q := (v + m - 1) / m). assert (Hq : m * q + (v + m - 1) mod m = v + m - 1) by (unfold q; symmetry; apply Z.div_mod; lia).
  pose proof (Z.mod_pos_bound (v + m - 1) m Hm) as Hr. rewrite u64_small by nia. split; [nia|]. apply Z.mod_mul. lia.
Qed.

Record wspec (p : striped) (w : widths) : Prop := {
  ws_elem : 0 < w_elem w;
  ws_padded : w_elem w <= w_padded w;
  ws_padded_mod : w_padded w mod sp_width p = 0;
  ws_elems : w_elems w = w_padded w / w_elem w;
  ws_elems1 : 1 <= w_elems w;
  ws_stripe : w_stripe w = w_elems w * w_elem w;
  ws_stripe_le : w_stripe w <= w_padded w;
  ws_total : w_padded w * sp_num p <= w_total w;
  ws_total_mod : w_total w mod (sp_banks p * sp_width p) = 0;
  ws_total_pos : 0 < w_total w;
  ws_total_w : w_total w < W;
  ws_bw : sp_banks p * sp_width p < W
}.

Lemma widths_elem p w : widths_of p = Some w -> exists e, size_ (sp_elem p) [] = Some e /\ vstatic e = Some (w_elem w).
Proof.
  unfold widths_of. destruct (size_ (sp_elem p) []) as [e|]; [|discriminate]. cbn [obind]. destruct (vstatic e) as [E|] eqn:Ee; [|discriminate]. cbn [obind].
  destruct (_ || _); [discriminate|]. intros H. injection H as <-. exists e. split; [reflexivity|exact Ee].
Qed.

Lemma widths_spec p w : widths_of p = Some w -> reasonable p (w_elem w) -> wspec p w.
Proof.
  unfold widths_of. destruct (size_ (sp_elem p) []) as [e|]; [|discriminate]. cbn [obind]. destruct (vstatic e) as [E|] eqn:Ee; [|discriminate]. cbn [obind].
  destruct (_ || _) eqn:Ez; [discriminate|]. intros H. injection H as <-. cbn [w_elem]. intros (HN & HB & HW & HE & Hs).
  set (N := sp_num p) in *. set (B := sp_banks p) in *. set (BW := sp_width p) in *.
  assert (Hbw : 0 < B * BW < W) by nia. assert (Hdiv : 0 <= B / N <= B). { split; [apply Z.div_pos; lia|]. apply Z.div_le_upper_bound; nia. }
  rewrite (u64_small (B / N * BW)) by nia. rewrite (u64_small (B * BW)) by lia.
  set (tmp := B / N * BW). set (padded := if tmp <? E then pad_to_multiple E BW else tmp).
  assert (Hp : E <= padded /\ padded mod BW = 0 /\ padded * N + B * BW < W).
  { unfold padded. destruct (Z.ltb_spec tmp E) as [Ht|Ht].
    - destruct (pad_spec E BW ltac:(lia) HW ltac:(nia)) as [H1 H2]. split; [lia|]. split; [exact H2|]. nia.
    - split; [exact Ht|]. split; [apply Z.mod_mul; lia|]. assert (N * (B / N) <= B) by (apply Z.mul_div_le; lia). unfold tmp. nia. }
  destruct Hp as (Hp1 & Hp2 & Hp3).
  assert (Hel : 1 <= padded / E) by (apply Z.div_le_lower_bound; lia). assert (Hst : padded / E * E <= padded) by (rewrite Z.mul_comm; apply Z.mul_div_le; lia).
  rewrite (u64_small (padded / E * E)) by nia. rewrite (u64_small (padded * N)) by nia.
  destruct (pad_spec (padded * N) (B * BW) ltac:(nia) ltac:(lia) ltac:(nia)) as [Ht1 Ht2].
  constructor; cbn [w_elem w_padded w_elems w_stripe w_total]; try assumption; try lia; try nia.
Qed.

(** ** Positions, as integers *)

Section Positions.
  Variables (p : striped) (w : widths).
  Hypothesis Hw : wspec p w.
  Let E := w_elem w.

  (** Where byte [o] of the sub-structure is in stripe [i]. *)
  Definition place (i o : Z) : Z := o / w_stripe w * w_total w + i * w_padded w + o mod w_stripe w.

  Lemma stripe_pos : 0 < w_stripe w.
  Proof using Hw. destruct Hw as [? ? ? ? ? -> ? ? ? ? ?]. nia. Qed.

  Lemma in_stripe o n : 0 <= o -> 0 <= n -> o mod E + n <= E -> o mod w_stripe w + n <= w_stripe w.
  Proof using Hw.
    intros Ho Hn H. pose proof stripe_pos as Hp. destruct Hw as [HE _ _ _ He Hs _ _ _ _ _]. fold E in HE, Hs.
    pose proof (Z.mod_pos_bound o (w_stripe w) Hp) as Hb. set (r := o mod w_stripe w) in *.
    assert (Hr : r mod E = o mod E). { unfold r. rewrite Hs. rewrite (Z.mul_comm (w_elems w) E). rewrite Z.rem_mul_r by lia. rewrite Z.mul_comm, Z_mod_plus_full. apply Z.mod_mod. lia. }
    pose proof (Z.div_mod r E ltac:(lia)) as Hd. rewrite Hr in Hd. assert (r / E < w_elems w) by (apply Z.div_lt_upper_bound; nia). nia.
  Qed.

  Lemma place_in i o n : 0 <= i < sp_num p -> 0 <= o -> 0 <= n -> o mod E + n <= E ->
    o / w_stripe w * w_total w <= place i o /\ place i o + n <= o / w_stripe w * w_total w + w_total w /\
    o / w_stripe w * w_total w + i * w_padded w <= place i o /\ place i o + n <= o / w_stripe w * w_total w + (i + 1) * w_padded w.
  Proof using Hw.
    intros Hi Ho Hn H. pose proof (in_stripe o n Ho Hn H) as Hs. pose proof stripe_pos as Hp. pose proof (Z.mod_pos_bound o (w_stripe w) Hp) as Hb. unfold place.
    destruct Hw as [HE Hpd _ _ He _ Hsp Ht _ _ _]. nia.
  Qed.

  Lemma place_apart i j o1 n1 o2 n2 : 0 <= i < sp_num p -> 0 <= j < sp_num p -> 0 <= o1 -> 0 <= o2 -> 0 <= n1 -> 0 <= n2 ->
    o1 mod E + n1 <= E -> o2 mod E + n2 <= E -> i <> j \/ o1 + n1 <= o2 \/ o2 + n2 <= o1 ->
    place i o1 + n1 <= place j o2 \/ place j o2 + n2 <= place i o1.
  Proof using Hw.
    intros Hi Hj H1 H2 Hn1 Hn2 He1 He2 H. pose proof (place_in i o1 n1 Hi H1 Hn1 He1) as (A1 & A2 & A3 & A4). pose proof (place_in j o2 n2 Hj H2 Hn2 He2) as (B1 & B2 & B3 & B4).
    pose proof Hw as [HE Hpd _ _ He _ Hsp Ht _ Htp _ _]. pose proof stripe_pos as Hp.
    pose proof (Z.div_mod o1 (w_stripe w) ltac:(clear -Hp; lia)) as D1. pose proof (Z.div_mod o2 (w_stripe w) ltac:(clear -Hp; lia)) as D2. clear H1 H2 He1 He2. unfold place in *.
    set (r1 := o1 mod w_stripe w) in *. set (r2 := o2 mod w_stripe w) in *. set (q1 := o1 / w_stripe w) in *. set (q2 := o2 / w_stripe w) in *. clearbody r1 r2 q1 q2.
    destruct (Z.lt_trichotomy q1 q2) as [Hq|[Hq|Hq]].
    { left. assert ((q1 + 1) * w_total w <= q2 * w_total w) by (apply Z.mul_le_mono_nonneg_r; lia). lia. }
    2:{ right. assert ((q2 + 1) * w_total w <= q1 * w_total w) by (apply Z.mul_le_mono_nonneg_r; lia). lia. }
    subst q2. destruct (Z.lt_trichotomy i j) as [Hij|[Hij|Hij]].
    { left. assert ((i + 1) * w_padded w <= j * w_padded w) by (apply Z.mul_le_mono_nonneg_r; lia). lia. }
    2:{ right. assert ((j + 1) * w_padded w <= i * w_padded w) by (apply Z.mul_le_mono_nonneg_r; lia). lia. }
    destruct H as [H|H]; [contradiction|]. subst j. lia.
  Qed.

  (** The number of bytes. *)
  Definition all_bytes (k : Z) : Z := (k + w_elems w - 1) / w_elems w * w_total w.

  Lemma place_below i o n k : 0 <= i < sp_num p -> 0 <= o -> 0 <= n -> o mod E + n <= E -> o + n <= k * E -> 0 <= k -> (0 < n \/ o < k * E) -> place i o + n <= all_bytes k.
  Proof using Hw.
    intros Hi Ho Hn H Hk Hk0 Hpos. pose proof (place_in i o n Hi Ho Hn H) as (_ & A2 & _ & _). unfold all_bytes. pose proof Hw as [HE Hpd _ _ He Hs Hsp Ht _ Htp _]. fold E in HE, Hs.
    set (q := o / w_stripe w) in *. assert (Hq : w_stripe w * q <= o) by (apply Z.mul_div_le; apply stripe_pos).
    assert (q + 1 <= (k + w_elems w - 1) / w_elems w); [|nia]. apply Z.div_le_lower_bound; [lia|].
    assert (w_elems w * q < k); [|lia]. assert (o < k * E) by lia. rewrite Hs in Hq. nia.
  Qed.
End Positions.

(** ** The offset *)

Lemma sub_same st : same_get (stripe_sub_state st) st.
Proof. intros d. unfold stripe_sub_state. rewrite !get_remove. split; reflexivity. Qed.

Lemma scalar_sub s st : signature s <> None -> scalar_t s (stripe_sub_state st) = scalar_t s st.
Proof.
  intros Hs. apply (scalar_t_rel eq (mentions s) s s (stripe_sub_state st) st congruence_eq (struct_rel_refl eq (fun x => eq_refl) s) (in_mentions s)).
  apply same_entries_srel. intros d _. apply sub_same.
Qed.

Lemma elem_offset s st o c x : sound_struct s -> element s st -> offset s st = Some o -> scalar_t s st = Some c -> vz o = Some x ->
  0 <= x /\ 0 <= ct_size c /\ x + ct_size c <= isize s nolens.
Proof.
  intros Hs Hel Eo Ec Ex. destruct (element_used _ _ Hs Hel) as [Hu Hf]. destruct Hel as [[pp Hp] Hl].
  destruct (access_offset _ _ _ _ Hu Hp Eo) as (sg & c' & Es & Hv & Ec' & El & Ho). assert (c' = c) by congruence. subst c'.
  pose proof Hu as (Hw & Hlk & Hg & Hd). destruct (int_in_bounds _ _ _ sg pp Hw (lrange_of st) Hg Hv) as (c' & El' & H1 & H2 & H3). assert (c' = c) by congruence. subst c'.
  unfold fits in Hf. rewrite u64_small in Ho by lia. rewrite Ex in Ho. injection Ho as ->. rewrite (isize_ext _ _ _ (element_lenv st Hl)). auto.
Qed.

Lemma vz_mul_small a b x y : vz a = Some x -> vz b = Some y -> 0 <= x * y < W -> vz (vmul a b) = Some (x * y).
Proof. intros Ha Hb H. rewrite (vz_vmul' a b x y Ha Hb), u64_small by exact H. reflexivity. Qed.
Lemma vz_add_small a b x y : vz a = Some x -> vz b = Some y -> 0 <= x + y < W -> vz (vadd a b) = Some (x + y).
Proof. intros Ha Hb H. rewrite (vz_vadd' a b x y Ha Hb), u64_small by exact H. reflexivity. Qed.
Lemma vz_sta z : 0 <= z < W -> vz (Sta z) = Some z.
Proof. intros H. cbn [vz]. rewrite u64_small by exact H. reflexivity. Qed.
Lemma vz_dyn z : 0 <= z < W -> vz (Dyn z) = Some z.
Proof. intros H. cbn [vz]. rewrite u64_small by exact H. reflexivity. Qed.

Lemma same_scalar c s : same_type (Scalar c) s = true -> s = Scalar c.
Proof. destruct s; cbn [same_type]; try discriminate. intros H. apply cty_eqb_eq in H. subst. reflexivity. Qed.

(** Arithmetic, apart from the rest. *)
Lemma ar_one a b c : 0 < b -> 0 <= a -> a * b <= c -> c < W -> a < W.
Proof. nia. Qed.
Lemma ar_quot o n S E k : 0 < E -> E <= S -> 0 <= o -> 0 <= n -> o + n <= k * E -> 0 <= o / S <= k.
Proof.
  intros HE HS Ho Hn H. split; [apply Z.div_pos; lia|]. apply Z.div_le_upper_bound; [lia|]. assert (0 <= k) by nia. nia.
Qed.
Lemma ar_tot q k T e : 0 <= q <= k -> 0 < T -> 1 <= e -> (k + 1) * T + e < W -> 0 <= q * T /\ q * T + T < W.
Proof. nia. Qed.
Lemma ar_mul_le i N P T : 0 <= i < N -> 0 <= P -> P * N <= T -> T < W -> 0 <= i * P < W.
Proof. nia. Qed.
Lemma ar_elem N E BW r : 0 < N -> 0 < BW -> 0 < E -> 0 <= r -> N * (E + BW) + r < W -> 0 <= E < W.
Proof. nia. Qed.

Theorem access_place p w tid st i x n : striped_well p w -> access p tid st i x n ->
  exists o xo c, offset (sp_sub p) (stripe_sub_state st) = Some o /\ vz o = Some xo /\ scalar_t (sp_sub p) (stripe_sub_state st) = Some c /\ n = ct_size c /\
    x = place w i xo /\ 0 <= xo /\ 0 <= n /\ xo mod w_elem w + n <= w_elem w /\ xo + n <= isize (sp_sub p) nolens /\ isize (sp_sub p) nolens mod w_elem w = 0.
Proof.
  intros [Hwd Hpar Hsub Hel Hfit] (Hst & Hi & Hib & v & c & Ev & Ex & Ec & Hn). pose proof (widths_spec p w Hwd Hpar) as Hws.
  unfold striped_offset in Ev. rewrite Hwd in Ev. cbn [obind] in Ev. rewrite Ec in Ev. cbn [obind] in Ev.
  assert (Hsg : signature (sp_sub p) <> None) by (intros E; unfold scalar_t in Ec; rewrite E in Ec; discriminate).
  destruct (offset_of (Scalar c) (sp_sub p) (stripe_sub_state st) (Sta 0)) as [o|] eqn:Eo; [|discriminate]. cbn [obind] in Ev.
  assert (Ec' : scalar_t (sp_sub p) (stripe_sub_state st) = Some c) by (rewrite scalar_sub by exact Hsg; exact Ec).
  assert (Eoff : offset (sp_sub p) (stripe_sub_state st) = Some o) by (unfold offset; rewrite Ec'; exact Eo).
  destruct (vz o) as [xo|] eqn:Exo.
  2:{ exfalso. destruct (element_used _ _ Hsub Hst) as [Hu _]. destruct Hst as [[pp Hp] _]. destruct (access_offset _ _ _ _ Hu Hp Eoff) as (? & ? & _ & _ & _ & _ & Ho). congruence. }
  destruct (elem_offset _ _ _ _ _ Hsub Hst Eoff Ec' Exo) as (H0 & Hc & Hle). destruct (Hel _ _ _ _ Hst Eoff Ec' Exo) as [Hmod Hsz].
  exists o, xo, c. split; [exact Eoff|]. split; [exact Exo|]. split; [exact Ec'|]. split; [exact Hn|]. rewrite Hn.
  split; [|repeat (split; [assumption|]); exact Hsz].
  pose proof (stripe_pos p w Hws) as Hsp. pose proof Hws as [HE Hpd _ He He1 Hs Hsl Ht _ Htp HtW HbW].
  destruct Hsub as (_ & _ & _ & HszW).
  assert (Epd : 0 <= w_padded w < W). { destruct Hpar as (HN & _). split; [lia|]. eapply ar_one; [exact HN| |exact Ht|exact HtW]. lia. }
  assert (HsW : w_stripe w < W) by lia.
  assert (Emaj : vz (vdiv o (Sta (w_stripe w))) = Some (xo / w_stripe w)). { apply vz_vdiv; [exact Exo|apply vz_sta; lia|lia]. }
  assert (Hkk : isize (sp_sub p) nolens = (isize (sp_sub p) nolens / w_elem w) * w_elem w). { pose proof (Z.div_mod (isize (sp_sub p) nolens) (w_elem w) ltac:(lia)). lia. }
  set (k := isize (sp_sub p) nolens / w_elem w) in *. assert (Hk0 : 0 <= k) by (apply Z.div_pos; lia).
  destruct (place_in p w Hws i xo (ct_size c) Hib H0 Hc Hmod) as (P1 & P2 & P3 & P4).
  assert (Hq : 0 <= xo / w_stripe w <= k). { apply (ar_quot xo (ct_size c) (w_stripe w) (w_elem w)); auto; [|lia]. rewrite Hs. clear -He1 HE. nia. }
  assert (Htot : 0 <= xo / w_stripe w * w_total w /\ xo / w_stripe w * w_total w + w_total w < W) by (apply (ar_tot _ k _ (w_elems w)); auto).
  assert (Estr : vz (match get stripe_tag st with Some i0 => vmul i0 (Sta (w_padded w)) | None => Dyn (u64 (tid mod sp_num p * w_padded w)) end) = Some (i * w_padded w)).
  { unfold stripe_of in Hi. destruct (get stripe_tag st) as [iv|].
    - apply vz_mul_small; [exact Hi|apply vz_sta; exact Epd|eapply ar_mul_le; eauto; lia].
    - injection Hi as <-. cbn [vz]. rewrite u64_u64, u64_small by (eapply ar_mul_le; eauto; lia). reflexivity. }
  pose proof (Z.mod_pos_bound xo (w_stripe w) Hsp) as Hmb.
  assert (Hin : forall start r, vz start = Some r -> r = xo mod w_stripe w -> vz (offset_inner p w tid st (vdiv o (Sta (w_stripe w))) start) = Some (place w i xo)).
  { intros start r Hr ->. unfold offset_inner, place. rewrite (vz_add_small _ start (xo / w_stripe w * w_total w + i * w_padded w) (xo mod w_stripe w)); [reflexivity| |exact Hr|].
    - apply vz_add_small; [apply vz_mul_small; [exact Emaj|apply vz_sta; lia|lia]|exact Estr|unfold place in *; lia].
    - unfold place in *. lia. }
  destruct (same_type (Scalar c) (sp_elem p) && (w_elems w =? 1)) eqn:Eb.
  - injection Ev as <-. apply andb_true_iff in Eb. destruct Eb as [Eb1 Eb2]. apply Z.eqb_eq in Eb2. apply same_scalar in Eb1.
    destruct (widths_elem _ _ Hwd) as (e & Ee & Evs). rewrite Eb1 in Ee. cbn in Ee. injection Ee as <-. cbn [vstatic] in Evs. injection Evs as Evs.
    assert (Hsame : w_stripe w = w_elem w) by (rewrite Hs, Eb2; lia).
    assert (Hcs : ct_size c = w_elem w). { rewrite <- Evs. symmetry. apply u64_small. lia. }
    assert (H00 : xo mod w_stripe w = 0). { rewrite Hsame. pose proof (Z.mod_pos_bound xo (w_elem w) HE). lia. }
    rewrite (Hin (Sta 0) 0 ltac:(apply vz_sta; pose proof W_pos; lia) (eq_sym H00)) in Ex. congruence.
  - assert (Er : vz (vadd (Sta 0) (vmod o (Sta (w_stripe w)))) = Some (xo mod w_stripe w)).
    { rewrite (vz_add_small (Sta 0) _ 0 (xo mod w_stripe w)); [reflexivity|apply vz_sta; pose proof W_pos; lia|apply vz_vmod; [exact Exo|apply vz_sta; lia|lia]|lia]. }
    assert (Ev' : v = offset_inner p w tid st (vdiv o (Sta (w_stripe w))) (vadd (Sta 0) (vmod o (Sta (w_stripe w))))) by congruence.
    rewrite Ev', (Hin _ _ Er eq_refl) in Ex. congruence.
Qed.

Theorem striped_disjoint p w tid1 tid2 st1 st2 i j x y n m : striped_well p w -> nobcast (sp_sub p) = true ->
  access p tid1 st1 i x n -> access p tid2 st2 j y m ->
  (i = j /\ same_element (sp_sub p) (stripe_sub_state st1) (stripe_sub_state st2)) \/ x + n <= y \/ y + m <= x.
Proof.
  intros Hw Hnb A1 A2. destruct (access_place _ _ _ _ _ _ _ Hw A1) as (o1 & x1 & c1 & E1 & V1 & C1 & N1 & P1 & Z1 & M1 & D1 & _).
  destruct (access_place _ _ _ _ _ _ _ Hw A2) as (o2 & x2 & c2 & E2 & V2 & C2 & N2 & P2 & Z2 & M2 & D2 & _).
  pose proof (widths_spec p w (sw_widths _ _ Hw) (sw_params _ _ Hw)) as Hws. destruct A1 as (L1 & _ & I1 & _), A2 as (L2 & _ & I2 & _). rewrite P1, P2.
  destruct (Z.eq_dec i j) as [Eij|Eij]; [|right; apply (place_apart p w Hws); auto].
  destruct (element_used _ _ (sw_sub _ _ Hw) L1) as [U1 F1]. destruct (element_used _ _ (sw_sub _ _ Hw) L2) as [U2 F2]. pose proof L1 as [[p1 Q1] K1]. pose proof L2 as [[p2 Q2] K2].
  destruct (access_no_alias (sp_sub p) (stripe_sub_state st1) (stripe_sub_state st2) p1 p2 o1 o2 Hnb) as [[F3 F4]|(d1 & d2 & y1 & y2 & G1 & G2 & G3 & G4 & G5)]; eauto.
  { intros d. rewrite K1, K2. reflexivity. }
  { left. split; [exact Eij|]. eapply same_elements; eauto. }
  right. apply (place_apart p w Hws); auto. right. assert (d1 = c1) by congruence. assert (d2 = c2) by congruence. assert (y1 = x1) by congruence. assert (y2 = x2) by congruence. subst. lia.
Qed.

Theorem striped_size_spec p w v : striped_well p w -> striped_size p [] = Some v -> signature (sp_sub p) <> None ->
  vz v = Some (all_bytes w (isize (sp_sub p) nolens / w_elem w)) /\ 0 <= isize (sp_sub p) nolens.
Proof.
  intros [Hwd Hpar Hsub Hel Hfit] E Hsg. pose proof (widths_spec p w Hwd Hpar) as Hws. unfold striped_size in E. rewrite Hwd in E. cbn [obind] in E.
  destruct (size_ (sp_sub p) (stripe_sub_state [])) as [sz|] eqn:Es; [|discriminate]. cbn [obind] in E. injection E as <-. change (stripe_sub_state []) with (@nil (tag * val)) in Es.
  destruct Hsub as (Hw & Hlk & Hg & HW).
  assert (Hag : agree [] nolens (asg_of [])). { destruct (agree_of []) as [A1 A2]. split; [intros q; exact I|exact A2]. }
  pose proof (size_spec _ Hw Hsg [] nolens (asg_of []) sz Hlk Hag ltac:(intros d u Hu; discriminate) Es) as Hs.
  assert (Hpos : 0 <= isize (sp_sub p) nolens). { apply isize_nonneg; [exact Hw|exact Hsg|intros d x Hx; discriminate]. }
  rewrite u64_small in Hs by lia. pose proof Hws as [HE Hpd _ He He1 Hst Hsl Ht _ Htp HtW HbW]. split; [|exact Hpos]. unfold all_bytes. set (k := isize (sp_sub p) nolens / w_elem w) in *.
  assert (Hk : 0 <= k) by (apply Z.div_pos; lia). assert (Hpdw : w_padded w < W) by (destruct Hpar as (? & _); nia).
  assert (HelW : w_elems w < W) by nia. assert (Hd0 : 0 <= (k + w_elems w - 1) / w_elems w) by (apply Z.div_pos; lia).
  assert (Hd : (k + w_elems w - 1) / w_elems w <= k + 1). { apply Z.div_le_upper_bound; nia. }
  replace (k + w_elems w - 1) with (k + (w_elems w - 1)) in * by lia.
  apply vz_mul_small; [|apply vz_sta; lia|nia].
  apply vz_vdiv; [|apply vz_sta; lia|lia]. apply vz_add_small; [|apply vz_sta; lia|nia].
  apply vz_vdiv; [exact Hs|apply vz_sta; lia|lia].
Qed.

Theorem striped_in_size p w tid st i x n v : striped_well p w -> access p tid st i x n -> 0 < n -> striped_size p [] = Some v ->
  exists z, vz v = Some z /\ 0 <= x /\ x + n <= z.
Proof.
  intros Hw A Hn0 Ev. destruct (access_place _ _ _ _ _ _ _ Hw A) as (o1 & x1 & c1 & E1 & V1 & C1 & N1 & P1 & Z1 & M1 & D1 & S1 & S2).
  pose proof (widths_spec p w (sw_widths _ _ Hw) (sw_params _ _ Hw)) as Hws. destruct A as (L1 & _ & I1 & _).
  assert (Hsg : signature (sp_sub p) <> None) by (intros E; unfold scalar_t in C1; rewrite E in C1; discriminate).
  destruct (striped_size_spec p w v Hw Ev Hsg) as [Hv Hpos]. eexists. split; [exact Hv|]. rewrite P1.
  pose proof (ws_elem _ _ Hws) as HE. pose proof (Z.div_mod (isize (sp_sub p) nolens) (w_elem w) ltac:(lia)) as Hdm.
  split; [destruct (place_in p w Hws i x1 n I1 Z1 M1 D1) as (B1 & _); assert (0 <= x1 / w_stripe w) by (apply Z.div_pos; [lia|apply (stripe_pos p w Hws)]); pose proof (ws_total_pos _ _ Hws); nia|].
  apply (place_below p w Hws); auto; [lia|apply Z.div_pos; lia].
Qed.

Theorem striped_neighbours p w tid1 tid2 st1 st2 i x y n m : striped_well p w -> access p tid1 st1 i x n -> access p tid2 st2 (i + 1) y m ->
  same_get (stripe_sub_state st1) (stripe_sub_state st2) -> y - x = w_padded w /\ n = m.
Proof.
  intros Hw A1 A2 Hg. destruct (access_place _ _ _ _ _ _ _ Hw A1) as (o1 & x1 & c1 & E1 & V1 & C1 & N1 & P1 & _). destruct (access_place _ _ _ _ _ _ _ Hw A2) as (o2 & x2 & c2 & E2 & V2 & C2 & N2 & P2 & _).
  assert (Hsg : signature (sp_sub p) <> None) by (intros E; unfold scalar_t in C1; rewrite E in C1; discriminate).
  destruct (foreign_ignored (sp_sub p) _ _ Hsg (fun d _ => Hg d)) as (_ & _ & _ & _ & Ho & _).
  assert (o1 = o2) by congruence. subst o2. assert (x1 = x2) by congruence. subst x2.
  pose proof (scalar_t_rel eq (mentions (sp_sub p)) _ _ _ _ congruence_eq (struct_rel_refl eq (fun x => eq_refl) (sp_sub p)) (in_mentions _) (same_entries_srel _ _ _ (fun d _ => Hg d))) as Ht.
  split; [rewrite P1, P2; unfold place; lia|congruence].
Qed.

(** ** Banks *)

Lemma ar_slot i r pd BW : 0 < BW -> i * (BW * pd) <= r < (i + 1) * (BW * pd) -> i * pd <= r / BW < (i + 1) * pd.
Proof.
  intros HB [H1 H2]. split; [apply Z.div_le_lower_bound; [exact HB|]|apply Z.div_lt_upper_bound; [exact HB|]]; lia.
Qed.
Lemma ar_slot2 r B BW K : 0 < BW -> 0 <= r < B * BW * K -> 0 <= r / BW < B * K.
Proof. intros HB [H1 H2]. split; [apply Z.div_pos; lia|apply Z.div_lt_upper_bound; [exact HB|lia]]. Qed.
Lemma ar_bank b Q K B BW : 0 < BW -> 0 < B -> b / BW mod B = ((b - Q * (B * BW * K)) / BW) mod B.
Proof.
  intros HW HB. replace b with ((b - Q * (B * BW * K)) + Q * K * B * BW) at 1 by ring. rewrite Z.div_add by lia. apply Z_mod_plus_full.
Qed.
Lemma ar_pos a b : 0 < a -> 0 < b -> 0 < a * b.
Proof. nia. Qed.
Lemma exact_div a b : 0 < b -> a mod b = 0 -> a = b * (a / b).
Proof. intros Hb H. pose proof (Z.div_mod a b ltac:(lia)) as D. rewrite H in D. lia. Qed.

Lemma place_slot p w i o b n : wspec p w -> reasonable p (w_elem w) -> 0 <= i < sp_num p -> 0 <= o -> 0 <= n -> o mod w_elem w + n <= w_elem w ->
  place w i o <= b < place w i o + n ->
  exists t, 0 <= t < max_conflict p w /\ bank_of p b + t * sp_banks p = (b - o / w_stripe w * w_total w) / sp_width p /\
    i * (w_padded w / sp_width p) <= bank_of p b + t * sp_banks p < (i + 1) * (w_padded w / sp_width p).
Proof.
  intros Hws (HN & HB & HBW & HE & Hs) Hi Ho Hn Hm Hb. destruct (place_in p w Hws i o n Hi Ho Hn Hm) as (P1 & P2 & P3 & P4).
  pose proof Hws as [_ Hpd Hpm _ _ _ _ Ht Htm Htp HtW HbW]. set (Q := o / w_stripe w) in *. set (r := b - Q * w_total w).
  clearbody Q. set (pl := place w i o) in *. clearbody pl.
  assert (Hr : i * w_padded w <= r < (i + 1) * w_padded w) by (unfold r; clear -P3 P4 Hb; lia). assert (Hrt : 0 <= r < w_total w) by (unfold r; clear -P1 P2 Hb; lia).
  pose proof (ar_pos _ _ HB HBW) as Hbp.
  assert (HK : w_total w = sp_banks p * sp_width p * max_conflict p w). { unfold max_conflict. rewrite u64_small by (split; [apply Z.lt_le_incl, Hbp|exact HbW]). exact (exact_div _ _ Hbp Htm). }
  pose proof (exact_div _ _ HBW Hpm) as Hpd2. rewrite Hpd2 in Hr. rewrite HK in Hrt.
  pose proof (ar_slot _ _ _ _ HBW Hr) as Hsl. pose proof (ar_slot2 _ _ _ _ HBW Hrt) as Hsl2.
  assert (Hbk : bank_of p b = r / sp_width p mod sp_banks p). { unfold bank_of, r. rewrite HK. apply ar_bank; assumption. }
  set (slot := r / sp_width p) in *. clearbody slot.
  assert (Hdm : slot mod sp_banks p + slot / sp_banks p * sp_banks p = slot). { rewrite (Z.div_mod slot (sp_banks p)) at 3 by (clear -HB; lia). ring. }
  exists (slot / sp_banks p). rewrite Hbk, Hdm. split; [|split; [reflexivity|exact Hsl]].
  split; [apply Z.div_pos; clear -HB Hsl2; lia|apply Z.div_lt_upper_bound; clear -HB Hsl2; lia].
Qed.

Theorem striped_conflicts p w bank is_ : striped_well p w -> NoDup is_ -> (forall i, In i is_ -> exists b, touches p i b /\ bank_of p b = bank) ->
  Z.of_nat (length is_) <= max_conflict p w.
Proof.
  intros Hw Hn H. pose proof (widths_spec p w (sw_widths _ _ Hw) (sw_params _ _ Hw)) as Hws. pose proof (sw_params _ _ Hw) as Hpar.
  assert (Hslot : forall i, In i is_ -> exists t, 0 <= t < max_conflict p w /\ i * (w_padded w / sp_width p) <= bank + t * sp_banks p < (i + 1) * (w_padded w / sp_width p)).
  { intros i Hi. destruct (H i Hi) as (b & (tid & st & x & n & A & Hb) & <-). destruct (access_place _ _ _ _ _ _ _ Hw A) as (o1 & x1 & c1 & _ & _ & _ & _ & P1 & Z1 & M1 & D1 & _). destruct A as (_ & _ & I1 & _). rewrite P1 in Hb.
    destruct (place_slot p w i x1 b n Hws Hpar I1 Z1 M1 D1 Hb) as (t & Ht & _ & Hr). exists t. auto. }
  assert (Hex : exists ts, Forall2 (fun i t => 0 <= t < max_conflict p w /\ i * (w_padded w / sp_width p) <= bank + t * sp_banks p < (i + 1) * (w_padded w / sp_width p)) is_ ts).
  { clear Hn H. induction is_ as [|i l IH]; [exists []; constructor|]. destruct (Hslot i (or_introl eq_refl)) as [t Ht]. destruct IH as [ts Hts]; [intros j Hj; apply Hslot; right; exact Hj|]. exists (t :: ts). constructor; assumption. }
  destruct Hex as [ts F].
  assert (Hpd : 0 < w_padded w / sp_width p). { destruct Hpar as (_ & _ & HBW & HE & _). pose proof (ws_padded _ _ Hws) as Hq. pose proof (exact_div _ _ HBW (ws_padded_mod _ _ Hws)) as Hx. clear -HBW HE Hq Hx.
    set (z := w_padded w / sp_width p) in *. clearbody z. nia. }
  assert (Hnd : NoDup ts).
  { clear -F Hn Hpd. revert Hn. induction F as [|i t l ts [_ Hi] F IH]; intros Hn; [constructor|]. apply NoDup_cons_iff in Hn. destruct Hn as [Hni Hn]. constructor; [|apply IH, Hn].
    intros Hin. destruct (Forall2_In_r _ _ _ _ F Hin) as (j & Hj & _ & Hjr). assert (i = j) by nia. subst j. contradiction. }
  assert (Hlen : length is_ = length ts) by (clear -F; induction F; cbn; congruence). rewrite Hlen.
  assert (Hinc : incl ts (zseq (max_conflict p w))). { intros t Ht. destruct (Forall2_In_r _ _ _ _ F Ht) as (j & _ & Hb & _). apply Lib.zseq_In. lia. }
  pose proof (NoDup_incl_length Hnd Hinc) as Hl. rewrite zseq_length in Hl. destruct ts as [|t ts]; [|destruct (Forall2_In_r _ _ _ _ F (or_introl eq_refl)) as (? & _ & Hb & _); lia].
  cbn [length]. unfold max_conflict. apply Z.div_pos; [pose proof (ws_total_pos _ _ Hws); lia|]. destruct Hpar as (_ & HB & HBW & _). rewrite u64_small by (pose proof (ws_bw _ _ Hws); nia). nia.
Qed.

(** If a stripe is wide enough for an element there are no conflicts. *)
Theorem no_conflicts p w : striped_well p w -> w_elem w <= sp_banks p / sp_num p * sp_width p -> max_conflict p w = 1.
Proof.
  intros Hw He. pose proof (widths_spec p w (sw_widths _ _ Hw) (sw_params _ _ Hw)) as Hws. pose proof (sw_params _ _ Hw) as (HN & HB & HBW & HE & Hs).
  pose proof (sw_widths _ _ Hw) as Hwd. unfold widths_of in Hwd. destruct (size_ (sp_elem p) []) as [e|]; [|discriminate]. cbn [obind] in Hwd. destruct (vstatic e) as [E|] eqn:Ee; [|discriminate]. cbn [obind] in Hwd.
  destruct (_ || _) eqn:Ez; [discriminate|]. injection Hwd as Hwd. assert (HEe : w_elem w = E) by (rewrite <- Hwd; reflexivity). rewrite HEe in *.
  set (N := sp_num p) in *. set (B := sp_banks p) in *. set (BW := sp_width p) in *. assert (Hd : N * (B / N) <= B) by (apply Z.mul_div_le; lia). assert (0 <= B / N) by (apply Z.div_pos; lia).
  rewrite (u64_small (B / N * BW)) in Hwd by nia. destruct (Z.ltb_spec (B / N * BW) E); [lia|]. rewrite (u64_small (B * BW)) in Hwd by nia. rewrite (u64_small (B / N * BW * N)) in Hwd by nia.
  assert (Ht : w_total w = pad_to_multiple (B / N * BW * N) (B * BW)) by (rewrite <- Hwd; reflexivity).
  destruct (pad_spec (B / N * BW * N) (B * BW) ltac:(nia) ltac:(nia) ltac:(nia)) as [H1 H2]. rewrite <- Ht in H1, H2.
  unfold max_conflict. fold B BW. rewrite u64_small by nia. apply Z.mod_divide in H2; [|nia]. destruct H2 as [k Hk]. rewrite Hk, Z.div_mul by nia.
  assert (Hx : 0 < B / N * BW * N <= B * BW) by (set (q := B / N) in *; clearbody q; clear -Hd He HE HN HBW; split; [apply ar_pos; lia|]; replace (q * BW * N) with (N * q * BW) by ring; apply Z.mul_le_mono_nonneg_r; lia). rewrite Hk in H1. clear -Hx H1. set (X := B / N * BW * N) in *. set (Y := B * BW) in *. clearbody X Y. nia.
Qed.

Theorem conflict_free p w i j b b' : striped_well p w -> w_elem w <= sp_banks p / sp_num p * sp_width p -> touches p i b -> touches p j b' -> bank_of p b = bank_of p b' -> i = j.
Proof.
  intros Hw He Hi Hj Hb. destruct (Z.eq_dec i j) as [|Hne]; [assumption|exfalso].
  assert (Hnd : NoDup [i; j]). { constructor; [intros [->|[]]; contradiction|]. constructor; [intros []|constructor]. }
  pose proof (striped_conflicts p w (bank_of p b) [i; j] Hw Hnd) as H. rewrite (no_conflicts p w Hw He) in H. cbn [length] in H.
  assert (2 <= 1); [apply H|lia]. intros k [<-|[<-|[]]]; [exists b|exists b']; auto.
Qed.

(** ** Threads *)

Theorem stripe_threads_spec p block tid : 0 < sp_num p -> 0 <= tid < block ->
  0 <= current_stripe p tid < sp_num p /\ 0 <= stripe_rank p tid < stripe_threads p tid block /\ tid = stripe_rank p tid * sp_num p + current_stripe p tid /\
  forall k, 0 <= k < stripe_threads p tid block ->
    let t := k * sp_num p + current_stripe p tid in 0 <= t < block /\ current_stripe p t = current_stripe p tid /\ stripe_rank p t = k /\ stripe_threads p t block = stripe_threads p tid block.
Proof.
  intros HN Ht. unfold stripe_rank, stripe_threads, current_stripe. set (N := sp_num p) in *. pose proof (Z.mod_pos_bound tid N HN) as Hm. pose proof (Z.div_mod tid N ltac:(lia)) as Hd.
  set (i := tid mod N) in *. set (T := (block + N - i - 1) / N). assert (HT : N * T + (block + N - i - 1) mod N = block + N - i - 1) by (symmetry; apply Z.div_mod; lia). pose proof (Z.mod_pos_bound (block + N - i - 1) N HN) as HTm.
  split; [exact Hm|]. split; [split; [apply Z.div_pos; lia|]; apply (Zmult_lt_reg_r _ _ N HN); clearbody T i; lia|]. split; [lia|].
  intros k Hk. cbv zeta. assert (Hmod : (k * N + i) mod N = i) by (rewrite Z.add_comm, Z_mod_plus_full; apply Z.mod_small; lia). rewrite Hmod.
  split; [nia|]. split; [reflexivity|]. split; [rewrite Z.add_comm, Z.div_add, Z.div_small by lia; lia|reflexivity].
Qed.

(** ** One scalar type *)

Lemma plain_facts s : one_type s = true -> exists c, (forall l a, leaf s l a = Some c) /\ (forall l, isize s l mod ct_size c = 0) /\ (forall l a, ioff s l a mod ct_size c = 0).
Proof.
  assert (M : forall x y c, y mod c = 0 -> (x * y) mod c = 0). { intros x y c H. destruct (Z.eq_dec c 0) as [->|Hc]; [rewrite Zmod_0_r in *; nia|]. rewrite Z.mul_mod, H, Z.mul_0_r by exact Hc. apply Z.mod_0_l, Hc. }
  assert (Ad : forall x y c, x mod c = 0 -> y mod c = 0 -> (x + y) mod c = 0). { intros x y c H1 H2. destruct (Z.eq_dec c 0) as [->|Hc]; [rewrite Zmod_0_r in *; lia|]. rewrite Z.add_mod, H1, H2 by exact Hc. apply Z.mod_0_l, Hc. }
  induction s as [c|d ts IH|d t IH|v t IH|ts IH] using struct_ind'; intros H; try discriminate; cbn [one_type] in H.
  - exists c. split; [reflexivity|]. split; [intros l; cbn; destruct (Z.eq_dec (ct_size c) 0) as [->|]; [rewrite Zmod_0_r; reflexivity|apply Z.mod_same; assumption]|]. intros l a. reflexivity.
  - destruct (IH H) as (c & H1 & H2 & H3). exists c. split; [intros l a; apply H1|]. split; [intros l; cbn [isize]; apply M, H2|]. intros l a. cbn [ioff]. apply Ad; [apply M, H2|apply H3].
  - destruct (IH H) as (c & H1 & H2 & H3). exists c. split; [intros l a; apply H1|]. split; [intros l; apply H2|]. intros l a. apply H3.
Qed.

Lemma scalar_empty sg : forall st0 st c, (forall d, get (Idx d) st0 = None) -> sig_get_scalar sg st0 = Some c -> sig_get_scalar sg st = Some c.
Proof.
  induction sg as [c0| |d al r IH|d rs IH] using sig_ind'; intros st0 st c Hn H; cbn [sig_get_scalar] in *; try exact H.
  - eapply IH; [|exact H]. intros q. rewrite get_remove. destruct (tag_mem _ _); auto.
  - rewrite Hn in H. discriminate.
Qed.

Theorem scalar_in_elements n b bw s p w : scalar_striped n b bw s = Some p -> widths_of p = Some w -> one_type s = true -> sound_struct s -> in_elements (sp_sub p) (w_elem w).
Proof.
  unfold scalar_striped. destruct (scalar_t s []) as [c|] eqn:Ec; [|discriminate]. cbn [obind]. intros H. injection H as <-. intros Hwd Hp Hs. cbn [sp_sub].
  intros st o c' x Hel Eo Ec' Ex. destruct (plain_facts s Hp) as (c0 & L & S & O). destruct (element_used _ _ Hs Hel) as [Hu Hf]. pose proof Hel as [[pp Hpp] Hl].
  destruct (access_offset _ _ _ _ Hu Hpp Eo) as (sg & c1 & Es & Hv & Ec1 & El & Ho). rewrite L in El. injection El as <-. assert (c' = c0) by congruence. subst c'.
  assert (c = c0). { unfold scalar_t in Ec, Ec'. rewrite Es in Ec, Ec'. cbn [obind] in *. rewrite (scalar_empty sg [] st c (fun d => eq_refl) Ec) in Ec'. congruence. } subst c0.
  destruct (elem_offset s st o c x Hs Hel Eo Ec' Ex) as (H1 & H2 & H3). destruct (widths_elem _ _ Hwd) as (e & Ee & Evs). cbn in Ee. injection Ee as <-. cbn [vstatic] in Evs. injection Evs as Evs.
  destruct Hs as (_ & _ & _ & HW). rewrite u64_small in Evs by lia. rewrite <- Evs.
  assert (Hxx : x = ioff s (lenv_of st) (asg_of st)).
  { destruct Hu as (Hw & Hlk & Hg & Hd). destruct (int_in_bounds _ _ _ sg pp Hw (lrange_of st) Hg Hv) as (c1 & El' & B1 & B2 & B3). rewrite L in El'. injection El' as <-. unfold fits in Hf. rewrite u64_small in Ho by lia. congruence. }
  split; [rewrite Hxx, O; lia|apply S].
Qed.
