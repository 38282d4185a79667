(** * Proofs about the text of integers *)

From Verif Require Export SpecMangle.

Lemma digit_ok d : 0 <= d < 10 -> (48 <=? d + 48) && (d + 48 <=? 57) = true.
Proof. intros H. apply andb_true_iff. rewrite !Z.leb_le. lia. Qed.

Lemma mod10 v : 0 <= v -> 0 <= v mod 10 < 10. Proof. intros _. apply Z.mod_pos_bound. lia. Qed.
Lemma div10 v : 0 <= v -> 10 * (v / 10) + v mod 10 = v. Proof. intros _. symmetry. apply Z.div_mod. lia. Qed.

Definition nz_head (x : text) : Prop := match x with [] => False | c :: _ => c <> 48 end.

(** The compile-time digits. *)
Lemma mi_spec fuel : forall v acc, 0 <= v < 2 ^ Z.of_nat fuel -> (0 < fuel)%nat ->
  exists x, mangle_integral fuel v acc = Some x /\ read_from 0 x = read_from v acc /\ x <> [] /\
    (0 < v -> nz_head x) /\ (v = 0 -> x = 48 :: acc).
Proof.
  induction fuel as [|n IH]; intros v acc Hv Hn; [lia|]. cbn [mangle_integral].
  destruct (Z.leb_spec 10 v) as [H|H].
  - assert (Hp : 2 ^ Z.of_nat (S n) = 2 * 2 ^ Z.of_nat n) by (rewrite Nat2Z.inj_succ, Z.pow_succ_r by lia; reflexivity).
    assert (Hd : 0 <= v / 10 < 2 ^ Z.of_nat n). { split; [apply Z.div_pos; lia|]. apply Z.div_lt_upper_bound; [lia|]. pose proof (Z.pow_pos_nonneg 2 (Z.of_nat n) eq_refl (Nat2Z.is_nonneg n)). lia. }
    assert (0 < n)%nat by (destruct n; [cbn in Hd; pose proof (Z.div_le_lower_bound v 10 1); lia|lia]).
    destruct (IH (v / 10) (v mod 10 + c_zero :: acc) Hd H0) as (x & -> & Hr & Hx & Hz & _).
    exists x. split; [reflexivity|]. split; [|split; [exact Hx|split; [|lia]]].
    + rewrite Hr. cbn [read_from]. unfold c_zero. rewrite digit_ok by (apply mod10; lia). f_equal. rewrite <- (div10 v) at 3 by lia. lia.
    + intros _. apply Hz. apply Z.div_str_pos. lia.
  - destruct (Z.leb_spec 0 v) as [H0|]; [|lia]. rewrite Z.mod_small by lia. eexists. split; [reflexivity|]. unfold c_zero.
    cbn [read_from]. rewrite digit_ok by lia. split; [f_equal; lia|]. split; [discriminate|]. split; [cbn; lia|]. intros ->. reflexivity.
Qed.

Lemma read_ne x : x <> [] -> read_decimal x = read_from 0 x. Proof. destruct x; [contradiction|reflexivity]. Qed.

Lemma ity_max_bits t : is_ity t -> ity_max t < 2 ^ (8 * it_bytes t).
Proof.
  intros H. unfold is_ity in H. unfold ity_max. assert (2 ^ (8 * it_bytes t - (if it_signed t then 1 else 0)) <= 2 ^ (8 * it_bytes t)); [|lia].
  apply Z.pow_le_mono_r; destruct (it_signed t); lia.
Qed.

Lemma ity_min_le t : is_ity t -> ity_min t <= 0.
Proof. intros H. unfold ity_min. destruct (it_signed t); [|lia]. pose proof (Z.pow_nonneg 2 (8 * it_bytes t - 1)). lia. Qed.

Theorem value_text t v : is_ity t -> holds t v -> 0 <= v ->
  exists x, mangle_value t v = Some x /\ read_decimal x = Some v /\ no_leading_zero x.
Proof.
  intros Ht [H1 H2] Hv. unfold mangle_value. rewrite (proj2 (Z.leb_le _ _) H1), (proj2 (Z.leb_le _ _) H2). cbn [andb].
  pose proof (ity_max_bits t Ht) as Hm. unfold is_ity in Ht. set (fuel := Z.to_nat (8 * it_bytes t)). assert (Z.of_nat fuel = 8 * it_bytes t) by (unfold fuel; lia).
  destruct (mi_spec fuel v [] ltac:(rewrite H; lia) ltac:(lia)) as (x & -> & Hr & Hx & Hz & H0).
  exists x. split; [reflexivity|]. split; [rewrite read_ne by exact Hx; exact Hr|].
  destruct (Z.eq_dec v 0) as [->|]; [rewrite (H0 eq_refl); exact I|]. specialize (Hz ltac:(lia)). destruct x as [|c [|]]; [contradiction|exact I|exact Hz].
Qed.

Theorem value_negative t v : v < 0 -> mangle_value t v = None.
Proof.
  intros Hv. unfold mangle_value. destruct (_ && _); [|reflexivity]. destruct (Z.to_nat _) as [|n]; [reflexivity|]. cbn [mangle_integral].
  destruct (Z.leb_spec 10 v); [lia|]. destruct (Z.leb_spec 0 v); [lia|reflexivity].
Qed.

Theorem value_inj t t' v v' x : is_ity t -> is_ity t' -> mangle_value t v = Some x -> mangle_value t' v' = Some x -> v = v'.
Proof.
  assert (H : forall t v x, is_ity t -> mangle_value t v = Some x -> read_decimal x = Some v).
  { intros t0 v0 x0 Ht E. destruct (Z.ltb_spec v0 0) as [Hn|Hn]; [rewrite value_negative in E by exact Hn; discriminate|].
    assert (holds t0 v0). { unfold mangle_value in E. destruct (ity_min t0 <=? v0) eqn:E1; [|discriminate]. destruct (v0 <=? ity_max t0) eqn:E2; [|discriminate]. split; apply Z.leb_le; assumption. }
    destruct (value_text t0 v0 Ht H Hn) as (y & Ey & Hy & _). congruence. }
  intros Ht Ht' E E'. pose proof (H _ _ _ Ht E). pose proof (H _ _ _ Ht' E'). congruence.
Qed.

(** The run-time digits. *)
Lemma ad_spec fuel : forall k u b, 0 <= u < 2 ^ Z.of_nat fuel -> (0 < fuel)%nat -> u < 10 ^ Z.of_nat k -> (0 < k)%nat -> Z.of_nat k <= ab_ptr b ->
  exists b' x, append_digits fuel u b = Some b' /\ ab_chars b' = x ++ ab_chars b /\ ab_sz b' = ab_sz b + Z.of_nat (length x) /\
    ab_ptr b - Z.of_nat k <= ab_ptr b' /\
    (forall y, read_from 0 (x ++ y) = read_from u y) /\ x <> [] /\ (0 < u -> nz_head x) /\ (u = 0 -> x = [48]).
Proof.
  induction fuel as [|n IH]; intros k u b Hu Hn Hk Hk0 Hp; [lia|]. cbn [append_digits]. unfold ab_push.
  destruct (Z.ltb_spec 0 (ab_ptr b)); [|lia]. cbn [ab_ptr ab_chars ab_sz]. destruct (Z.eqb_spec (u / 10) 0) as [E|E].
  - assert (Hs : u < 10). { pose proof (div10 u ltac:(lia)). pose proof (mod10 u ltac:(lia)). lia. }
    rewrite (Z.mod_small u) by lia. exists {| ab_ptr := ab_ptr b - 1; ab_chars := c_zero + u :: ab_chars b; ab_sz := ab_sz b + 1 |}, [c_zero + u].
    cbn [ab_ptr ab_chars ab_sz length app]. split; [reflexivity|]. split; [reflexivity|]. split; [lia|]. split; [lia|]. unfold c_zero. split; [|split; [discriminate|split; [unfold nz_head; lia|intros ->; reflexivity]]].
    intros y. cbn [read_from]. replace (48 + u) with (u + 48) by lia. rewrite digit_ok by lia. f_equal. lia.
  - assert (Hp2 : 2 ^ Z.of_nat (S n) = 2 * 2 ^ Z.of_nat n) by (rewrite Nat2Z.inj_succ, Z.pow_succ_r by lia; reflexivity).
    assert (Hpos : 0 <= u / 10) by (apply Z.div_pos; lia).
    assert (Hd : 0 <= u / 10 < 2 ^ Z.of_nat n). { split; [exact Hpos|]. apply Z.div_lt_upper_bound; [lia|]. pose proof (Z.pow_pos_nonneg 2 (Z.of_nat n) eq_refl (Nat2Z.is_nonneg n)). lia. }
    assert (0 < n)%nat by (destruct n; [cbn in Hd; lia|lia]).
    destruct k as [|k]; [lia|]. assert (Hk10 : 10 ^ Z.of_nat (S k) = 10 * 10 ^ Z.of_nat k) by (rewrite Nat2Z.inj_succ, Z.pow_succ_r by lia; reflexivity).
    assert (Hdk : u / 10 < 10 ^ Z.of_nat k) by (apply Z.div_lt_upper_bound; lia).
    assert (0 < k)%nat by (destruct k; [cbn in Hdk; lia|lia]).
    destruct (IH k (u / 10) {| ab_ptr := ab_ptr b - 1; ab_chars := c_zero + u mod 10 :: ab_chars b; ab_sz := ab_sz b + 1 |} Hd ltac:(lia) Hdk ltac:(lia) ltac:(cbn [ab_ptr]; lia))
      as (b' & x & -> & Hc & Hsz & Hpt & Hr & Hx & Hz & _). cbn [ab_ptr ab_chars ab_sz] in *.
    exists b', (x ++ [c_zero + u mod 10]). split; [reflexivity|]. split; [rewrite Hc, <- app_assoc; reflexivity|]. split; [rewrite app_length; cbn [length]; lia|]. split; [lia|].
    split; [|split; [destruct x; discriminate|split; [intros _|intros ->; cbn in E; lia]]].
    + intros y. rewrite <- app_assoc, Hr. cbn [app read_from]. unfold c_zero. replace (48 + u mod 10) with (u mod 10 + 48) by lia. rewrite digit_ok by (apply mod10; lia).
      f_equal. rewrite <- (div10 u) at 3 by lia. lia.
    + specialize (Hz ltac:(lia)). destruct x; [contradiction|exact Hz].
Qed.

Lemma pow_bytes b : 1 <= b -> 2 ^ (8 * b) <= 10 ^ (3 * b).
Proof. intros H. rewrite !Z.pow_mul_r by lia. apply Z.pow_le_mono_l. cbn. lia. Qed.

Theorem int_text bytes u : 1 <= bytes -> 0 <= u < 2 ^ (8 * bytes) ->
  exists x, append_int bytes false u = Some x /\ read_decimal x = Some u /\ no_leading_zero x.
Proof.
  intros Hb Hu. unfold append_int. set (fuel := Z.to_nat (8 * bytes)). assert (Hf : Z.of_nat fuel = 8 * bytes) by (unfold fuel; lia).
  pose proof (pow_bytes bytes Hb) as Hp. assert (Hk : Z.of_nat (Z.to_nat (3 * bytes)) = 3 * bytes) by lia.
  destruct (ad_spec fuel (Z.to_nat (3 * bytes)) u {| ab_ptr := bytes * 3 + 1; ab_chars := []; ab_sz := 0 |} ltac:(rewrite Hf; exact Hu) ltac:(lia) ltac:(rewrite Hk; lia) ltac:(lia) ltac:(cbn [ab_ptr]; lia))
    as (b' & x & -> & Hc & Hsz & _ & Hr & Hx & Hz & H0).
  cbn [ab_ptr ab_chars ab_sz] in *. rewrite app_nil_r in Hc. rewrite Hc, Hsz, Z.add_0_l, Nat2Z.id, firstn_all. exists x. split; [reflexivity|].
  specialize (Hr []). rewrite app_nil_r in Hr. split; [rewrite read_ne by exact Hx; exact Hr|].
  destruct (Z.eq_dec u 0) as [->|]; [rewrite (H0 eq_refl); exact I|]. specialize (Hz ltac:(lia)). destruct x as [|c [|]]; [contradiction|exact I|exact Hz].
Qed.

(** With the sign no write leaves the buffer either. *)
Theorem int_defined bytes neg u : 1 <= bytes -> 0 <= u < 2 ^ (8 * bytes) -> append_int bytes neg u <> None.
Proof.
  intros Hb Hu. unfold append_int. set (fuel := Z.to_nat (8 * bytes)). assert (Hf : Z.of_nat fuel = 8 * bytes) by (unfold fuel; lia).
  pose proof (pow_bytes bytes Hb) as Hp. assert (Hk : Z.of_nat (Z.to_nat (3 * bytes)) = 3 * bytes) by lia.
  destruct (ad_spec fuel (Z.to_nat (3 * bytes)) u {| ab_ptr := bytes * 3 + 1; ab_chars := []; ab_sz := 0 |} ltac:(rewrite Hf; exact Hu) ltac:(lia) ltac:(rewrite Hk; lia) ltac:(lia) ltac:(cbn [ab_ptr]; lia))
    as (b' & x & -> & Hc & Hsz & Hpt & _). cbn [ab_ptr] in Hpt. rewrite Hk in Hpt.
  destruct neg; [unfold ab_push; destruct (Z.ltb_spec 0 (ab_ptr b')); [discriminate|lia]|discriminate].
Qed.

Theorem append_text t v : is_ity t -> holds t v -> 0 <= v ->
  exists x, append_value t v = Some x /\ read_decimal x = Some v /\ no_leading_zero x.
Proof.
  intros Ht [H1 H2] Hv. pose proof (ity_max_bits t Ht) as Hm. unfold append_value. unfold is_ity in Ht.
  destruct (it_signed t) eqn:Es.
  - destruct (Z.eqb_spec v (ity_min t)) as [E|_].
    + exfalso. unfold ity_min in E. rewrite Es in E. pose proof (Z.pow_pos_nonneg 2 (8 * it_bytes t - 1)). lia.
    + destruct (Z.ltb_spec v 0); [lia|]. rewrite Z.mod_small by lia. apply int_text; lia.
  - apply int_text; lia.
Qed.

Theorem append_defined t v : is_ity t -> holds t v -> append_value t v <> None.
Proof.
  intros Ht [H1 H2]. pose proof (ity_max_bits t Ht) as Hm. unfold append_value. unfold is_ity in Ht.
  assert (forall z, 0 <= z mod 2 ^ (8 * it_bytes t) < 2 ^ (8 * it_bytes t)) by (intros z; apply Z.mod_pos_bound, Z.pow_pos_nonneg; lia).
  destruct (it_signed t) eqn:Es.
  - destruct (_ =? _); apply int_defined; try lia; apply H.
  - unfold ity_min in H1. rewrite Es in H1. apply int_defined; lia.
Qed.

Theorem append_inj t v v' x : is_ity t -> holds t v -> holds t v' -> 0 <= v -> 0 <= v' ->
  append_value t v = Some x -> append_value t v' = Some x -> v = v'.
Proof.
  intros Ht H H' Hv Hv' E E'. destruct (append_text t v Ht H Hv) as (y & Ey & Ry & _). destruct (append_text t v' Ht H' Hv') as (y' & Ey' & Ry' & _). congruence.
Qed.

Lemma between_inj (a b x y : text) : a ++ x ++ b = a ++ y ++ b -> x = y.
Proof. intros H. apply app_inv_head in H. apply app_inv_tail in H. exact H. Qed.

Theorem lit_inj L L' x : 0 <= L < 2 ^ 64 -> 0 <= L' < 2 ^ 64 -> append_lit L = Some x -> append_lit L' = Some x -> L = L'.
Proof.
  intros H H' E E'. unfold append_lit in *. destruct (int_text 8 L ltac:(lia) H) as (y & Ey & Ry & _). destruct (int_text 8 L' ltac:(lia) H') as (y' & Ey' & Ry' & _).
  rewrite Ey in E. rewrite Ey' in E'. injection E as <-. injection E' as E'. apply app_inv_tail in E'. congruence.
Qed.

Theorem lit_name L : 0 <= L -> (scalar_name_lit L <> None <-> L <= ity_max t_int) /\
  forall L' x, 0 <= L' -> scalar_name_lit L = Some x -> scalar_name_lit L' = Some x -> L = L'.
Proof.
  assert (Hi : is_ity t_int) by (unfold is_ity, t_int; cbn; lia). intros H. split.
  - unfold scalar_name_lit. split.
    + intros Hn. destruct (Z.leb_spec L (ity_max t_int)); [lia|]. unfold mangle_value in Hn. rewrite (proj2 (Z.leb_gt L (ity_max t_int))) in Hn by lia. rewrite andb_false_r in Hn. contradiction.
    + intros Hm. destruct (value_text t_int L Hi) as (x & -> & _); [split; [cbn; lia|exact Hm]|exact H|discriminate].
  - intros L' x H' E E'. unfold scalar_name_lit in *. destruct (mangle_value t_int L) as [y|] eqn:E1; [|discriminate]. destruct (mangle_value t_int L') as [y'|] eqn:E2; [|discriminate].
    injection E as <-. injection E' as E'. apply app_inv_tail in E'. subst y'. eapply value_inj; [| |exact E1|exact E2]; exact Hi.
Qed.

(** Negative values lose their last digit. *)
Theorem negative_refuted : exists v v' x, holds t_int v /\ holds t_int v' /\ v <> v' /\ append_value t_int v = Some x /\ append_value t_int v' = Some x.
Proof. exists (-12), (-13), [45; 49]. unfold holds. split; [cbn; lia|]. split; [cbn; lia|]. split; [lia|]. split; vm_compute; reflexivity. Qed.
