(** * The Z-curve arithmetic is a bijection *)

From Verif Require Export ZCurveBits.

(** ** Finite products *)

Definition prodn (f : nat -> Z) (l : list nat) : Z := fold_right (fun j acc => f j * acc) 1 l.

Lemma prodn_ext f g l : (forall j, In j l -> f j = g j) -> prodn f l = prodn g l.
Proof.
  induction l as [|x l IH]; simpl; intros H; [reflexivity|]. rewrite (H x), IH; auto.
Qed.

Lemma prodn_app f l1 l2 : prodn f (l1 ++ l2) = prodn f l1 * prodn f l2.
Proof. induction l1 as [|x l IH]; cbn [app prodn fold_right]; [rewrite Z.mul_1_l; reflexivity|].
  fold (prodn f (l ++ l2)). fold (prodn f l). rewrite IH. ring. Qed.

Lemma prodn_pos f l : (forall j, In j l -> 0 < f j) -> 0 < prodn f l.
Proof. induction l as [|x l IH]; simpl; intros H; [lia|]. apply Z.mul_pos_pos; auto. Qed.

Lemma prodn_le f g l : (forall j, In j l -> 0 < f j <= g j) -> prodn f l <= prodn g l.
Proof.
  induction l as [|x l IH]; simpl; intros H; [lia|].
  assert (0 < prodn f l) by (apply prodn_pos; intros; apply H; auto).
  apply Z.mul_le_mono_nonneg; [destruct (H x); auto; lia|apply H; auto|lia|auto].
Qed.

(** Replace the factor at [i]. *)
Definition at1 (f : nat -> Z) (i : nat) : nat -> Z := fun j => if (j =? i)%nat then 1 else f j.

Lemma prodn_split f i n : (i < n)%nat -> prodn f (seq 0 n) = f i * prodn (at1 f i) (seq 0 n).
Proof.
  intros Hi. replace n with (i + (1 + (n - i - 1)))%nat by lia.
  rewrite !seq_app, !prodn_app. simpl (seq (0 + i) 1). cbn [prodn fold_right].
  rewrite (prodn_ext (at1 f i) f (seq 0 i)).
  2:{ intros j Hj. apply in_seq in Hj. unfold at1. destruct (Nat.eqb_spec j i); [lia|reflexivity]. }
  rewrite (prodn_ext (at1 f i) f (seq (0 + i + 1) (n - i - 1))).
  2:{ intros j Hj. apply in_seq in Hj. unfold at1. destruct (Nat.eqb_spec j i); [lia|reflexivity]. }
  unfold at1. rewrite Nat.eqb_refl. ring.
Qed.

Lemma fold_u64 f l : forall acc, 0 < acc -> (forall j, In j l -> 0 < f j) -> acc * prodn f l < W ->
  fold_left (fun a j => u64 (a * f j)) l acc = acc * prodn f l.
Proof.
  induction l as [|x l IH]; simpl; intros acc Ha H Hw; [lia|].
  assert (Hp : 0 < prodn f l) by (apply prodn_pos; auto).
  assert (Hx : 0 < f x) by auto.
  rewrite u64_small by nia. rewrite IH; [lia|nia|auto|nia].
Qed.

(** ** The general part: halving boxes *)

Lemma nthd_upd l i x j : (i < List.length l)%nat -> nthd (upd l i x) j = if (j =? i)%nat then x else nthd l j.
Proof.
  revert i j. induction l as [|y l IH]; simpl; intros i j Hi; [lia|].
  destruct i as [|i]; simpl.
  - destruct j; reflexivity.
  - destruct j as [|j]; [reflexivity|]. simpl. apply IH. lia.
Qed.

Lemma upd_length l i x : List.length (upd l i x) = List.length l.
Proof. revert i. induction l as [|y l IH]; intros i; simpl; [reflexivity|]. destruct i; simpl; auto. Qed.

Lemma list_nthd_eq (a b : list Z) : List.length a = List.length b ->
  (forall j, (j < List.length a)%nat -> nthd a j = nthd b j) -> a = b.
Proof.
  revert b. induction a as [|x a IH]; intros [|y b] Hl H; simpl in *; try lia; [reflexivity|].
  f_equal; [apply (H 0%nat); lia|]. apply IH; [lia|]. intros j Hj. apply (H (S j)). lia.
Qed.

Section General.
Variable ss : list Z.
Let N := List.length ss.
Let sz j := nthd ss j.

Definition zext (T : nat -> Z) (r : list Z) (j : nat) : Z := Z.min (T j) (sz j - nthd r j).

Definition box (T : nat -> Z) (s : Z * list Z) : Prop :=
  List.length (snd s) = N /\
  (forall j, (j < N)%nat -> 0 <= nthd (snd s) j < sz j /\ (T j | nthd (snd s) j)) /\
  0 <= fst s < prodn (zext T (snd s)) (seq 0 N).

Definition win (T : nat -> Z) (r rf : list Z) : Prop :=
  List.length rf = N /\ forall j, (j < N)%nat -> nthd r j <= nthd rf j < nthd r j + T j.

Definition inside_ss (rf : list Z) : Prop := forall j, (j < N)%nat -> 0 <= nthd rf j < sz j.

Definition tiles (level i : nat) : nat -> Z :=
  fun j => if (j <? i)%nat then 2 ^ Z.of_nat level else 2 ^ Z.of_nat (S level).

(** A run from boxes of size [T] down to single elements. *)
Definition zspec (T : nat -> Z) (G : Z * list Z -> Z * list Z) : Prop :=
  (forall s, box T s -> win T (snd s) (snd (G s)) /\ inside_ss (snd (G s))) /\
  (forall z1 z2 r, box T (z1, r) -> box T (z2, r) -> snd (G (z1, r)) = snd (G (z2, r)) -> z1 = z2) /\
  (forall z r rf, box T (z, r) -> win T r rf -> inside_ss rf -> exists z', box T (z', r) /\ snd (G (z', r)) = rf).

Lemma zspec_base T : (forall j, (j < N)%nat -> T j = 1) -> zspec T (fun s => s).
Proof.
  intros HT.
  assert (Hz : forall z r, box T (z, r) -> z = 0).
  { intros z r (HL & Hr & Hz). simpl in *.
    rewrite (prodn_ext _ (fun _ => 1)) in Hz.
    - replace (prodn (fun _ => 1) (seq 0 N)) with 1 in Hz; [lia|].
      generalize (seq 0 N). intros l. induction l as [|x l IH]; simpl; [reflexivity|]. rewrite <- IH. reflexivity.
    - intros j Hj. apply in_seq in Hj. unfold zext. rewrite HT by lia. destruct (Hr j); [lia|]. lia. }
  split; [|split].
  - intros [z r] (HL & Hr & _). simpl in *. split.
    + split; [exact HL|]. intros j Hj. rewrite HT by exact Hj. lia.
    + intros j Hj. apply Hr, Hj.
  - intros z1 z2 r B1 B2 _. rewrite (Hz _ _ B1), (Hz _ _ B2). reflexivity.
  - intros z r rf B [HL Hw] _. exists z. split; [exact B|]. simpl. destruct B as (HL' & _ & _). simpl in HL'.
    apply list_nthd_eq; [congruence|]. intros j Hj. rewrite HL' in Hj. specialize (Hw j Hj).
    rewrite HT in Hw by exact Hj. lia.
Qed.

Hypothesis Hpos : forall j, (j < N)%nat -> 0 < sz j < W.

(** The extent computed by the code is the extent of the box. *)
Lemma zc_extent_eq k j r : (j < N)%nat -> (k < 64)%nat -> 0 <= r < sz j -> (2 ^ Z.of_nat k | r) ->
  zc_extent (2 ^ Z.of_nat k) (sz j) r = Z.min (2 ^ Z.of_nat k) (sz j - r).
Proof.
  intros Hj Hk Hr Hd. pose proof (Hpos j Hj) as Hs. unfold zc_extent. set (T := 2 ^ Z.of_nat k) in *.
  assert (HT : 0 < T) by (unfold T; apply Z.pow_pos_nonneg; lia).
  assert (HTW : T < W).
  { unfold T. rewrite W_eq. change 18446744073709551616 with (2 ^ 64). apply Z.pow_lt_mono_r; lia. }
  assert (Hland : Z.land (sz j) (u64 (- T)) = sz j - sz j mod T).
  { replace (u64 (- T)) with (W - T).
    2:{ symmetry. rewrite <- (u64_small (W - T)) by lia. unfold u64.
        replace (W - T) with (- T + 1 * W) by lia. rewrite Z_mod_plus_full. reflexivity. }
    assert (E : W - T = Z.shiftl (Z.ones (64 - Z.of_nat k)) (Z.of_nat k)).
    { rewrite Z.shiftl_mul_pow2 by lia. rewrite Z.ones_equiv. unfold Z.pred. rewrite Z.mul_add_distr_r.
      rewrite <- Z.pow_add_r by lia. replace (64 - Z.of_nat k + Z.of_nat k) with 64 by lia.
      rewrite W_eq. change (2 ^ 64) with 18446744073709551616. fold T. lia. }
    rewrite E. apply Z.bits_inj'. intros n Hn. rewrite Z.land_spec.
    assert (E2 : sz j - sz j mod T = Z.shiftl (Z.shiftr (sz j) (Z.of_nat k)) (Z.of_nat k)).
    { rewrite Z.shiftl_mul_pow2, Z.shiftr_div_pow2 by lia. fold T. pose proof (Z.div_mod (sz j) T). lia. }
    rewrite E2, !Z.shiftl_spec by lia.
    destruct (Z.ltb_spec n (Z.of_nat k)).
    - rewrite !(Z.testbit_neg_r _ (n - Z.of_nat k)) by lia. apply andb_false_r.
    - rewrite Z.shiftr_spec by lia. replace (n - Z.of_nat k + Z.of_nat k) with n by lia.
      destruct (Z.ltb_spec n 64).
      + rewrite Z.ones_spec_low by lia. apply andb_true_r.
      + rewrite Z.ones_spec_high by lia. rewrite andb_false_r. symmetry.
        apply Z.bits_above_log2; [lia|]. apply Z.log2_lt_pow2; [lia|].
        eapply Z.lt_le_trans; [apply Hs|]. rewrite W_eq. change 18446744073709551616 with (2 ^ 64).
        apply Z.pow_le_mono_r; lia. }
  rewrite Hland. destruct Hd as [q ->].
  assert (Hmod : u64 (sz j - 1) = sz j - 1) by (apply u64_small; lia).
  assert (Hones : forall x, Z.land x (T - 1) = x mod T).
  { intros x. unfold T. rewrite <- Z.land_ones by lia. rewrite Z.ones_equiv. reflexivity. }
  rewrite Hmod, Hones. rewrite u64_small by (pose proof (Z.mod_pos_bound (sz j - 1) T); lia).
  assert (Hq : forall a b, a * T <= b < a * T + T -> b / T = a /\ b mod T = b - a * T).
  { intros a b H. assert (b / T = a) by (symmetry; apply Z.div_unique with (b - a * T); lia).
    pose proof (Z.div_mod b T). split; [assumption|]. lia. }
  pose proof (Z.div_mod (sz j) T). pose proof (Z.mod_pos_bound (sz j) T).
  destruct (Z.eqb_spec (sz j - sz j mod T) (q * T)) as [E|E].
  - assert (Hin : q * T <= sz j - 1 < q * T + T) by lia.
    destruct (Hq _ _ Hin) as [_ ->]. lia.
  - assert (q * T + T <= sz j); [|lia].
    set (d := sz j / T) in *. assert (q <> d) by nia. assert (q < d) by nia. nia.
Qed.

Variable levels : nat.
Hypothesis Hlev : (levels < 64)%nat.
Hypothesis Hcap : forall i, (i < N)%nat -> prodn (at1 sz i) (seq 0 N) * 2 ^ (Z.of_nat levels - 1) < W.

Lemma tiles_pos level i j : 0 < tiles level i j.
Proof. unfold tiles. destruct (j <? i)%nat; apply Z.pow_pos_nonneg; lia. Qed.

Lemma zext_pos T r j : (forall j, 0 < T j) -> 0 <= nthd r j < sz j -> 0 < zext T r j.
Proof. intros HT H. unfold zext. specialize (HT j). lia. Qed.

Lemma zc_half level i z r : (i < N)%nat -> (level < levels)%nat -> box (tiles level i) (z, r) ->
  u64 (Z.shiftl (zc_facet level i ss r) (Z.of_nat level))
  = prodn (at1 (zext (tiles level i) r) i) (seq 0 N) * 2 ^ Z.of_nat level.
Proof.
  intros Hi Hl (HL & Hr & Hz). cbn [fst snd] in *.
  set (e := at1 (zext (tiles level i) r) i).
  assert (He : forall j, In j (seq 0 N) -> 0 < e j).
  { intros j Hj. apply in_seq in Hj. unfold e, at1. destruct (Nat.eqb_spec j i); [lia|].
    apply zext_pos; [intros; apply tiles_pos|]. apply Hr. lia. }
  assert (Hle : prodn e (seq 0 N) <= prodn (at1 sz i) (seq 0 N)).
  { apply prodn_le. intros j Hj. split; [apply He, Hj|]. apply in_seq in Hj. unfold e, at1.
    destruct (Nat.eqb_spec j i); [lia|]. unfold zext. destruct (Hr j); lia. }
  assert (Hp : 0 < prodn e (seq 0 N)) by (apply prodn_pos, He).
  assert (H2 : 0 < 2 ^ Z.of_nat level) by (apply Z.pow_pos_nonneg; lia).
  assert (H2' : 2 ^ Z.of_nat level <= 2 ^ (Z.of_nat levels - 1)) by (apply Z.pow_le_mono_r; lia).
  specialize (Hcap i Hi).
  assert (Hw : prodn e (seq 0 N) * 2 ^ Z.of_nat level < W) by nia.
  assert (Hf : zc_facet level i ss r = prodn e (seq 0 N)).
  { unfold zc_facet. fold N.
    rewrite <- (Z.mul_1_l (prodn e (seq 0 N))), <- fold_u64; [|lia|exact He|nia].
    assert (G : forall l acc, (forall j, In j l -> (j < N)%nat) ->
      fold_left (fun acc j => u64 (acc * (if (j =? i)%nat then 1 else
        zc_extent ((if (i <? j)%nat then 2 else 1) * 2 ^ Z.of_nat level) (nthd ss j) (nthd r j)))) l acc
      = fold_left (fun a j => u64 (a * e j)) l acc).
    { induction l as [|x l IH]; simpl; intros acc Hin; [reflexivity|].
      rewrite IH by auto. do 3 f_equal. unfold e, at1. destruct (Nat.eqb_spec x i) as [|Hx]; [reflexivity|].
      assert (Hx' : (x < N)%nat) by auto. destruct (Hr x Hx') as [Hrx Hdx]. unfold zext. unfold tiles in *.
      destruct (Nat.ltb_spec i x).
      - destruct (Nat.ltb_spec x i); [lia|].
        replace (2 * 2 ^ Z.of_nat level) with (2 ^ Z.of_nat (S level)).
        + apply zc_extent_eq; auto; lia.
        + rewrite Nat2Z.inj_succ, Z.pow_succ_r by lia. reflexivity.
      - destruct (Nat.ltb_spec x i); [|lia]. rewrite Z.mul_1_l.
        apply zc_extent_eq; auto; lia. }
    apply G. intros j Hj. apply in_seq in Hj. lia. }
  rewrite Hf, Z.shiftl_mul_pow2 by lia. apply u64_small. lia.
Qed.

(** The two halves of a box. *)
Lemma box_upper level i z r : (i < N)%nat -> (level < levels)%nat ->
  box (tiles level i) (z, r) ->
  prodn (at1 (zext (tiles level i) r) i) (seq 0 N) * 2 ^ Z.of_nat level <= z ->
  box (tiles level (S i))
      (z - prodn (at1 (zext (tiles level i) r) i) (seq 0 N) * 2 ^ Z.of_nat level,
       upd r i (nthd r i + 2 ^ Z.of_nat level)).
Proof.
  intros Hi Hl (HL & Hr & Hz) Hge. cbn [fst snd] in *. set (P := 2 ^ Z.of_nat level) in *.
  assert (HP : 0 < P) by (apply Z.pow_pos_nonneg; lia).
  set (F := prodn (at1 (zext (tiles level i) r) i) (seq 0 N)) in *.
  rewrite (prodn_split _ i N Hi) in Hz. fold F in Hz.
  assert (HTi : tiles level i i = 2 * P).
  { unfold tiles. rewrite Nat.ltb_irrefl, Nat2Z.inj_succ, Z.pow_succ_r by lia. reflexivity. }
  destruct (Hr i Hi) as [Hri Hdi]. rewrite HTi in Hdi.
  assert (HF : 0 < F).
  { apply prodn_pos. intros j Hj. apply in_seq in Hj. unfold at1. destruct (Nat.eqb_spec j i); [lia|].
    apply zext_pos; [intros; apply tiles_pos|apply Hr; lia]. }
  unfold zext in Hz at 1. rewrite HTi in Hz.
  assert (He : P < Z.min (2 * P) (sz i - nthd r i)) by nia.
  assert (Hiff : (i < List.length r)%nat) by lia.
  split; [cbn [snd]; rewrite upd_length; exact HL|]. split; cbn [fst snd].
  - intros j Hj. rewrite nthd_upd by exact Hiff. destruct (Nat.eqb_spec j i) as [->|Hji].
    + split; [lia|]. unfold tiles. replace (i <? S i)%nat with true by (symmetry; apply Nat.ltb_lt; lia).
      fold P. apply Z.divide_add_r; [|apply Z.divide_refl]. eapply Z.divide_trans; [|exact Hdi]. exists 2. lia.
    + destruct (Hr j Hj) as [A B]. split; [exact A|]. unfold tiles in *.
      destruct (Nat.ltb_spec j i), (Nat.ltb_spec j (S i)); try lia; exact B.
  - rewrite (prodn_split _ i N Hi).
    rewrite (prodn_ext (at1 (zext (tiles level (S i)) (upd r i (nthd r i + P))) i)
                       (at1 (zext (tiles level i) r) i)).
    2:{ intros j Hj. apply in_seq in Hj. unfold at1. destruct (Nat.eqb_spec j i) as [|Hji]; [reflexivity|].
        unfold zext. rewrite nthd_upd by exact Hiff. destruct (Nat.eqb_spec j i); [contradiction|].
        f_equal. unfold tiles. destruct (Nat.ltb_spec j i), (Nat.ltb_spec j (S i)); try lia; reflexivity. }
    fold F. unfold zext. rewrite nthd_upd, Nat.eqb_refl by exact Hiff.
    replace (tiles level (S i) i) with P by (unfold tiles; replace (i <? S i)%nat with true by (symmetry; apply Nat.ltb_lt; lia); reflexivity).
    split; [lia|]. nia.
Qed.

Lemma box_lower level i z r : (i < N)%nat -> (level < levels)%nat ->
  box (tiles level i) (z, r) ->
  z < prodn (at1 (zext (tiles level i) r) i) (seq 0 N) * 2 ^ Z.of_nat level ->
  box (tiles level (S i)) (z, r).
Proof.
  intros Hi Hl (HL & Hr & Hz) Hlt. cbn [fst snd] in *. set (P := 2 ^ Z.of_nat level) in *.
  assert (HP : 0 < P) by (apply Z.pow_pos_nonneg; lia).
  set (F := prodn (at1 (zext (tiles level i) r) i) (seq 0 N)) in *.
  rewrite (prodn_split _ i N Hi) in Hz. fold F in Hz.
  assert (HTi : tiles level i i = 2 * P).
  { unfold tiles. rewrite Nat.ltb_irrefl, Nat2Z.inj_succ, Z.pow_succ_r by lia. reflexivity. }
  destruct (Hr i Hi) as [Hri Hdi]. rewrite HTi in Hdi.
  unfold zext in Hz at 1. rewrite HTi in Hz.
  assert (HF : 0 < F).
  { apply prodn_pos. intros j Hj. apply in_seq in Hj. unfold at1. destruct (Nat.eqb_spec j i); [lia|].
    apply zext_pos; [intros; apply tiles_pos|apply Hr; lia]. }
  split; [exact HL|]. split; cbn [fst snd].
  - intros j Hj. destruct (Hr j Hj) as [A B]. split; [exact A|]. unfold tiles in *.
    destruct (Nat.ltb_spec j i), (Nat.ltb_spec j (S i)); try lia; try exact B.
    assert (j = i) by lia. subst. eapply Z.divide_trans; [|exact Hdi]. exists 2. lia.
  - rewrite (prodn_split _ i N Hi).
    rewrite (prodn_ext (at1 (zext (tiles level (S i)) r) i) (at1 (zext (tiles level i) r) i)).
    2:{ intros j Hj. apply in_seq in Hj. unfold at1. destruct (Nat.eqb_spec j i) as [|Hji]; [reflexivity|].
        unfold zext. f_equal. unfold tiles. destruct (Nat.ltb_spec j i), (Nat.ltb_spec j (S i)); try lia; reflexivity. }
    fold F. unfold zext.
    replace (tiles level (S i) i) with P by (unfold tiles; replace (i <? S i)%nat with true by (symmetry; apply Nat.ltb_lt; lia); reflexivity).
    split; [lia|]. nia.
Qed.

Lemma zspec_step level i G : (i < N)%nat -> (level < levels)%nat ->
  zspec (tiles level (S i)) G -> zspec (tiles level i) (fun s => G (zc_step level ss s i)).
Proof.
  intros Hi Hl (G1 & G2 & G3). set (P := 2 ^ Z.of_nat level).
  assert (HP : 0 < P) by (apply Z.pow_pos_nonneg; lia).
  assert (HTi : tiles level i i = 2 * P).
  { unfold tiles. rewrite Nat.ltb_irrefl, Nat2Z.inj_succ, Z.pow_succ_r by lia. reflexivity. }
  assert (HTi' : tiles level (S i) i = P).
  { unfold tiles. replace (i <? S i)%nat with true by (symmetry; apply Nat.ltb_lt; lia). reflexivity. }
  assert (HTj : forall j, j <> i -> tiles level (S i) j = tiles level i j).
  { intros j Hj. unfold tiles. destruct (Nat.ltb_spec j i), (Nat.ltb_spec j (S i)); try lia; reflexivity. }
  set (F := fun r => prodn (at1 (zext (tiles level i) r) i) (seq 0 N)).
  (* what the step does *)
  assert (Hstep : forall z r, box (tiles level i) (z, r) ->
     (F r * P <= z /\ zc_step level ss (z, r) i = (z - F r * P, upd r i (nthd r i + P)) /\
      box (tiles level (S i)) (z - F r * P, upd r i (nthd r i + P)))
     \/ (z < F r * P /\ zc_step level ss (z, r) i = (z, r) /\ box (tiles level (S i)) (z, r))).
  { intros z r B. unfold zc_step. rewrite (zc_half level i z r Hi Hl B).
    change (2 ^ Z.of_nat level) with P. change (prodn (at1 (zext (tiles level i) r) i) (seq 0 N)) with (F r).
    destruct (Z.leb_spec (F r * P) z) as [Hge|Hlt].
    - left. split; [exact Hge|]. pose proof (box_upper level i z r Hi Hl B Hge) as BU.
      split; [|exact BU]. f_equal. f_equal. apply u64_small.
      destruct BU as (_ & Hr & _). destruct (Hr i Hi) as [H _]. cbn [snd] in H.
      destruct B as (HL & _ & _). cbn [snd] in HL.
      rewrite nthd_upd, Nat.eqb_refl in H by lia. pose proof (Hpos i Hi). fold P in H. lia.
    - right. split; [exact Hlt|]. split; [reflexivity|]. apply box_lower; assumption. }
  assert (HLr : forall z r, box (tiles level i) (z, r) -> (i < List.length r)%nat).
  { intros z r (HL & _). cbn [snd] in HL. lia. }
  split; [|split].
  - intros [z r] B. cbn [snd]. destruct (Hstep z r B) as [(Hge & E & B')|(Hlt & E & B')]; rewrite E.
    + destruct (G1 _ B') as [[HL Hw] Hin]. split; [|exact Hin]. split; [exact HL|]. cbn [snd] in Hw.
      intros j Hj. specialize (Hw j Hj). rewrite nthd_upd in Hw by (eapply HLr; eauto).
      destruct (Nat.eqb_spec j i) as [E0|Hji]; [subst j; rewrite HTi' in Hw; rewrite HTi; lia|].
      rewrite HTj in Hw by exact Hji. exact Hw.
    + destruct (G1 _ B') as [[HL Hw] Hin]. split; [|exact Hin]. split; [exact HL|]. cbn [snd] in Hw.
      intros j Hj. specialize (Hw j Hj).
      destruct (Nat.eq_dec j i) as [E0|Hji]; [subst j; rewrite HTi' in Hw; rewrite HTi; lia|].
      rewrite HTj in Hw by exact Hji. exact Hw.
  - intros z1 z2 r B1 B2 Heq.
    destruct (Hstep z1 r B1) as [(Hge1 & E1 & B1')|(Hlt1 & E1 & B1')];
      destruct (Hstep z2 r B2) as [(Hge2 & E2 & B2')|(Hlt2 & E2 & B2')]; rewrite E1, E2 in Heq.
    + pose proof (G2 _ _ _ B1' B2' Heq). lia.
    + exfalso. destruct (G1 _ B1') as [[_ W1] _]. destruct (G1 _ B2') as [[_ W2] _].
      specialize (W1 i Hi). specialize (W2 i Hi). rewrite Heq in W1. cbn [snd] in W1, W2.
      rewrite nthd_upd, Nat.eqb_refl in W1 by (eapply HLr; eauto). rewrite HTi' in W1, W2. lia.
    + exfalso. destruct (G1 _ B1') as [[_ W1] _]. destruct (G1 _ B2') as [[_ W2] _].
      specialize (W1 i Hi). specialize (W2 i Hi). rewrite Heq in W1. cbn [snd] in W1, W2.
      rewrite nthd_upd, Nat.eqb_refl in W2 by (eapply HLr; eauto). rewrite HTi' in W1, W2. lia.
    + exact (G2 _ _ _ B1' B2' Heq).
  - intros z r rf B [HL Hw] Hin.
    pose proof B as (HLr' & Hr & _). cbn [snd] in HLr', Hr.
    assert (HF : 0 < F r).
    { apply prodn_pos. intros j Hj. apply in_seq in Hj. unfold at1. destruct (Nat.eqb_spec j i); [lia|].
      apply zext_pos; [intros; apply tiles_pos|apply Hr; lia]. }
    assert (Hprod : prodn (zext (tiles level i) r) (seq 0 N) = Z.min (2 * P) (sz i - nthd r i) * F r).
    { rewrite (prodn_split _ i N Hi). fold (F r). unfold zext. rewrite HTi. reflexivity. }
    destruct (Hr i Hi) as [Hri Hdi]. pose proof (Hw i Hi) as Hwi. rewrite HTi in Hwi.
    pose proof (Hin i Hi) as Hini.
    destruct (Z.le_gt_cases (nthd r i + P) (nthd rf i)) as [Hup|Hlow].
    + (* upper half: the box is at least one element past the middle *)
      assert (Bz : box (tiles level i) (F r * P, r)).
      { split; [exact HLr'|]. split; [exact Hr|]. cbn [fst snd]. rewrite Hprod. split; [nia|]. nia. }
      destruct (Hstep _ _ Bz) as [(_ & _ & B')|(H & _)]; [|lia].
      destruct (G3 _ _ rf B') as (z' & Bz' & Ez').
      * split; [exact HL|]. intros j Hj. rewrite nthd_upd by lia.
        destruct (Nat.eqb_spec j i) as [E0|Hji]; [subst j; rewrite HTi'; lia|]. rewrite HTj by exact Hji. apply Hw, Hj.
      * exact Hin.
      * exists (z' + F r * P).
        assert (Bz'' : box (tiles level i) (z' + F r * P, r)).
        { split; [exact HLr'|]. split; [exact Hr|]. cbn [fst snd]. rewrite Hprod.
          destruct Bz' as (_ & _ & Hz'). cbn [fst snd] in Hz'. rewrite (prodn_split _ i N Hi) in Hz'.
          rewrite (prodn_ext _ (at1 (zext (tiles level i) r) i)) in Hz'.
          2:{ intros j Hj. apply in_seq in Hj. unfold at1. destruct (Nat.eqb_spec j i) as [|Hji]; [reflexivity|].
              unfold zext. rewrite nthd_upd by lia. destruct (Nat.eqb_spec j i); [contradiction|].
              rewrite HTj by exact Hji. reflexivity. }
          fold (F r) in Hz'. unfold zext in Hz'. rewrite nthd_upd, Nat.eqb_refl, HTi' in Hz' by lia. nia. }
        split; [exact Bz''|].
        destruct (Hstep _ _ Bz'') as [(_ & E & _)|(H & _)].
        -- rewrite E. replace (z' + F r * P - F r * P) with z' by lia. exact Ez'.
        -- destruct Bz' as (_ & _ & Hz'). cbn [fst] in Hz'. lia.
    + assert (Bz : box (tiles level i) (0, r)).
      { split; [exact HLr'|]. split; [exact Hr|]. cbn [fst snd]. rewrite Hprod. nia. }
      destruct (Hstep _ _ Bz) as [(H & _)|(_ & _ & B')]; [nia|].
      destruct (G3 _ _ rf B') as (z' & Bz' & Ez').
      * split; [exact HL|]. intros j Hj.
        destruct (Nat.eq_dec j i) as [E0|Hji]; [subst j; rewrite HTi'; lia|]. rewrite HTj by exact Hji. apply Hw, Hj.
      * exact Hin.
      * exists z'.
        assert (Hz' : 0 <= z' < Z.min P (sz i - nthd r i) * F r).
        { destruct Bz' as (_ & _ & Hz'). cbn [fst snd] in Hz'. rewrite (prodn_split _ i N Hi) in Hz'.
          rewrite (prodn_ext _ (at1 (zext (tiles level i) r) i)) in Hz'.
          2:{ intros j Hj. apply in_seq in Hj. unfold at1. destruct (Nat.eqb_spec j i) as [|Hji]; [reflexivity|].
              unfold zext. rewrite HTj by exact Hji. reflexivity. }
          fold (F r) in Hz'. unfold zext in Hz'. rewrite HTi' in Hz'. exact Hz'. }
        assert (Bz'' : box (tiles level i) (z', r)).
        { split; [exact HLr'|]. split; [exact Hr|]. cbn [fst snd]. rewrite Hprod. nia. }
        split; [exact Bz''|].
        destruct (Hstep _ _ Bz'') as [(H & _)|(_ & E & _)]; [nia|]. rewrite E. exact Ez'.
Qed.

Lemma zspec_level level G k : forall i, (i + k = N)%nat -> (level < levels)%nat ->
  zspec (tiles level N) G -> zspec (tiles level i) (fun s => G (fold_left (zc_step level ss) (seq i k) s)).
Proof.
  induction k as [|k IH]; intros i Hik Hl HG.
  - simpl. replace i with N by lia. exact HG.
  - cbn [seq fold_left]. apply (zspec_step level i (fun s => G (fold_left (zc_step level ss) (seq (S i) k) s))); [lia|exact Hl|].
    apply IH; [lia|exact Hl|exact HG].
Qed.

Lemma zspec_T T T' G : (forall j, (j < N)%nat -> T j = T' j) -> zspec T G -> zspec T' G.
Proof.
  intros HT.
  assert (Hb : forall s, box T' s -> box T s).
  { intros s (HL & Hr & Hz). split; [exact HL|]. split.
    - intros j Hj. rewrite HT by exact Hj. apply Hr, Hj.
    - rewrite (prodn_ext _ (zext T' (snd s))); [exact Hz|]. intros j Hj. apply in_seq in Hj.
      unfold zext. rewrite HT by lia. reflexivity. }
  assert (Hb' : forall s, box T s -> box T' s).
  { intros s (HL & Hr & Hz). split; [exact HL|]. split.
    - intros j Hj. rewrite <- HT by exact Hj. apply Hr, Hj.
    - rewrite (prodn_ext _ (zext T (snd s))); [exact Hz|]. intros j Hj. apply in_seq in Hj.
      unfold zext. rewrite HT by lia. reflexivity. }
  intros (G1 & G2 & G3). split; [|split].
  - intros s B. destruct (G1 s (Hb s B)) as [[HL Hw] Hin]. split; [|exact Hin]. split; [exact HL|].
    intros j Hj. rewrite <- HT by exact Hj. apply Hw, Hj.
  - intros z1 z2 r B1 B2 E. exact (G2 _ _ _ (Hb _ B1) (Hb _ B2) E).
  - intros z r rf B [HL Hw] Hin. destruct (G3 z r rf (Hb _ B)) as (z' & B' & E').
    + split; [exact HL|]. intros j Hj. rewrite HT by exact Hj. apply Hw, Hj.
    + exact Hin.
    + exists z'. split; [apply Hb', B'|exact E'].
Qed.

Lemma zspec_levels n : (n <= levels)%nat -> zspec (fun _ => 2 ^ Z.of_nat n) (zc_levels n ss).
Proof.
  induction n as [|level IH]; intros Hn.
  - apply zspec_base. reflexivity.
  - simpl zc_levels. apply zspec_T with (T := tiles level 0); [reflexivity|].
    apply (zspec_level level (zc_levels level ss) N 0); [lia|lia|].
    apply zspec_T with (T := fun _ => 2 ^ Z.of_nat level).
    + intros j Hj. unfold tiles. destruct (Nat.ltb_spec j N); [reflexivity|lia].
    + apply IH. lia.
Qed.

Hypothesis Hmax : forall j, (j < N)%nat -> sz j <= 2 ^ Z.of_nat levels.

Lemma zc_start z : 0 <= z < prodn sz (seq 0 N) -> box (fun _ => 2 ^ Z.of_nat levels) (z, map (fun _ => 0) ss).
Proof.
  intros Hz.
  assert (Hn0 : forall j, nthd (map (fun _ : Z => 0) ss) j = 0).
  { intros j. unfold nthd. generalize ss. intros l. revert j. induction l as [|x l IH]; intros [|j]; simpl; auto. }
  split; [cbn [snd]; apply map_length|]. split; cbn [fst snd].
  - intros j Hj. rewrite Hn0. split; [pose proof (Hpos j Hj); lia|apply Z.divide_0_r].
  - rewrite (prodn_ext _ sz); [exact Hz|]. intros j Hj. apply in_seq in Hj. unfold zext. rewrite Hn0.
    specialize (Hmax j). lia.
Qed.

Theorem zc_general_bij :
  (forall z, 0 <= z < prodn sz (seq 0 N) ->
     List.length (zc_general levels z ss) = N /\
     forall j, (j < N)%nat -> 0 <= nthd (zc_general levels z ss) j < sz j) /\
  (forall z1 z2, 0 <= z1 < prodn sz (seq 0 N) -> 0 <= z2 < prodn sz (seq 0 N) ->
     zc_general levels z1 ss = zc_general levels z2 ss -> z1 = z2) /\
  (forall rf, List.length rf = N -> (forall j, (j < N)%nat -> 0 <= nthd rf j < sz j) ->
     exists z, 0 <= z < prodn sz (seq 0 N) /\ zc_general levels z ss = rf).
Proof.
  destruct (zspec_levels levels (le_n _)) as (G1 & G2 & G3). unfold zc_general.
  assert (Hn0 : forall j, nthd (map (fun _ : Z => 0) ss) j = 0).
  { intros j. unfold nthd. generalize ss. intros l. revert j. induction l as [|x l IH]; intros [|j]; simpl; auto. }
  split; [|split].
  - intros z Hz. destruct (G1 _ (zc_start z Hz)) as [[HL _] Hin]. split; [exact HL|exact Hin].
  - intros z1 z2 H1 H2 E. exact (G2 _ _ _ (zc_start z1 H1) (zc_start z2 H2) E).
  - intros rf HL Hin.
    assert (Hp : 0 < prodn sz (seq 0 N)).
    { apply prodn_pos. intros j Hj. apply in_seq in Hj. apply Hpos. lia. }
    destruct (G3 0 (map (fun _ => 0) ss) rf (zc_start 0 ltac:(lia))) as (z' & B & E).
    + split; [exact HL|]. intros j Hj. rewrite Hn0. specialize (Hin j Hj). specialize (Hmax j Hj). lia.
    + exact Hin.
    + exists z'. split; [|exact E]. destruct B as (_ & _ & Hz). cbn [fst snd] in Hz.
      rewrite (prodn_ext _ sz) in Hz; [exact Hz|]. intros j Hj. apply in_seq in Hj. unfold zext. rewrite Hn0.
      specialize (Hmax j). lia.
Qed.
End General.

(** ** The whole index computation *)

Lemma bits_exist (b : Z -> bool) n : exists x, 0 <= x < 2 ^ Z.of_nat n /\
  forall j, 0 <= j < Z.of_nat n -> Z.testbit x j = b j.
Proof.
  induction n as [|n (x & Hx & Hb)].
  - exists 0. split; [simpl; lia|]. intros j Hj. lia.
  - exists (x + Z.b2z (b (Z.of_nat n)) * 2 ^ Z.of_nat n).
    assert (H2 : 0 < 2 ^ Z.of_nat n) by (apply Z.pow_pos_nonneg; lia).
    rewrite Nat2Z.inj_succ, Z.pow_succ_r by lia. split.
    + destruct (b (Z.of_nat n)); simpl Z.b2z; lia.
    + intros j Hj. destruct (Z.eq_dec j (Z.of_nat n)) as [->|Hne].
      * apply Z.b2z_inj. rewrite Z.testbit_spec' by lia. rewrite Z.div_add by lia.
        rewrite Z.div_small by lia. destruct (b (Z.of_nat n)); reflexivity.
      * rewrite <- (Hb j) by lia.
        rewrite <- (Z.mod_pow2_bits_low (x + _) (Z.of_nat n)) by lia.
        rewrite Z_mod_plus_full, Z.mod_small by lia. reflexivity.
Qed.

Lemma zc_special_range n d z sl :
  2 <= n <= 32 -> 0 <= d < n -> 0 <= sl -> n * sl < 32 -> 0 <= z < 2 ^ (n * sl) ->
  exists r, zc_special n d z = Some r /\ 0 <= r < 2 ^ sl /\
            forall i, 0 <= i -> Z.testbit r i = Z.testbit z (n * i + (n - d - 1)).
Proof.
  intros Hn Hd Hsl Hs Hz.
  assert (Hz' : 0 <= z < 2 ^ 32).
  { split; [lia|]. eapply Z.lt_le_trans; [apply Hz|]. apply Z.pow_le_mono_r; lia. }
  destruct (zc_special_bits n d z 0 Hn Hd Hz' (Z.le_refl 0)) as (r & Er & _). exists r. split; [exact Er|].
  assert (Hb : forall i, 0 <= i -> Z.testbit r i = Z.testbit z (n * i + (n - d - 1))).
  { intros i Hi. destruct (zc_special_bits n d z i Hn Hd Hz' Hi) as (r' & Er' & H). congruence. }
  split; [|exact Hb].
  assert (Hhi : forall i, sl <= i -> Z.testbit r i = false).
  { intros i Hi. rewrite Hb by lia. destruct (Z.eq_dec z 0) as [->|Hz0]; [apply Z.bits_0|].
    apply Z.bits_above_log2; [lia|]. apply Z.log2_lt_pow2; [lia|].
    eapply Z.lt_le_trans; [apply Hz|]. apply Z.pow_le_mono_r; nia. }
  assert (E : r = r mod 2 ^ sl).
  { apply Z.bits_inj'. intros i Hi. destruct (Z.ltb_spec i sl).
    - rewrite Z.mod_pow2_bits_low by lia. reflexivity.
    - rewrite Z.mod_pow2_bits_high by lia. apply Hhi. lia. }
  rewrite E. apply Z.mod_pos_bound. apply Z.pow_pos_nonneg; lia.
Qed.

Lemma eucl_uniq p q1 q2 r1 r2 : 0 <= r1 < p -> 0 <= r2 < p -> q1 * p + r1 = q2 * p + r2 -> q1 = q2 /\ r1 = r2.
Proof.
  intros H1 H2 E. assert (q1 = q2); [|subst; lia].
  destruct (Z.lt_trichotomy q1 q2) as [H|[H|H]]; [nia|exact H|nia].
Qed.

Lemma nthd_map f l j : (j < List.length l)%nat -> nthd (map f l) j = f (nthd l j).
Proof. unfold nthd. intros H. rewrite (nth_indep _ 0 (f 0)) by (rewrite map_length; exact H). apply map_nth. Qed.

Lemma nthd_map_seq (f : nat -> Z) n j : (j < n)%nat -> nthd (map f (seq 0 n)) j = f j.
Proof.
  unfold nthd. intros H. rewrite (nth_indep _ 0 (f 0%nat)) by (rewrite map_length, seq_length; exact H).
  rewrite map_nth. rewrite seq_nth by exact H. reflexivity.
Qed.

Lemma prodn_scale f c l : prodn (fun j => f j * c) l = prodn f l * c ^ Z.of_nat (List.length l).
Proof.
  induction l as [|x l IH]; simpl prodn; [simpl; lia|]. rewrite IH. cbn [List.length].
  rewrite Nat2Z.inj_succ, Z.pow_succ_r by lia. ring.
Qed.

Section Indices.
Variable ls : list Z.
Variables sl gl : nat.
Let N := List.length ls.
Let n := Z.of_nat N.
Let s := Z.of_nat sl.
Hypothesis HN : (2 <= N <= 32)%nat.
Hypothesis Hsg : (sl <= gl < 64)%nat.
Hypothesis Hs32 : n * s < 32.
Hypothesis Hl : forall j, (j < N)%nat -> 0 < nthd ls j < W /\ (2 ^ s | nthd ls j) /\ nthd ls j <= 2 ^ Z.of_nat gl.
Let sizes := map (fun x => Z.shiftr x s) ls.
Hypothesis Hcap : forall i, (i < N)%nat ->
  prodn (at1 (nthd sizes) i) (seq 0 N) * 2 ^ (Z.of_nat (gl - sl) - 1) < W.
Hypothesis HprodW : prodn (nthd ls) (seq 0 N) < W.

(** The integer value of the index computation. *)
Definition zc_ix (z : Z) : list Z :=
  map (fun k => nthd (zc_general (gl - sl) (Z.shiftr z (s * n)) sizes) k * 2 ^ s
                + match zc_special n (Z.of_nat k) (Z.land z (2 ^ (s * n) - 1)) with Some r => r | None => 0 end)
      (seq 0 N).

Lemma sizes_length : List.length sizes = N.
Proof. unfold sizes. apply map_length. Qed.

Lemma ls_sizes j : (j < N)%nat -> nthd ls j = nthd sizes j * 2 ^ s /\ 0 < nthd sizes j < W.
Proof.
  intros Hj. destruct (Hl j Hj) as (Hr & [q Hq] & _). unfold sizes.
  rewrite nthd_map by exact Hj. rewrite Z.shiftr_div_pow2 by lia.
  assert (H2 : 0 < 2 ^ s) by (apply Z.pow_pos_nonneg; lia).
  rewrite Hq at 2 3. rewrite Z.div_mul by lia. split; [exact Hq|].
  rewrite Hq in Hr. rewrite Hq. rewrite Z.div_mul by lia. nia.
Qed.

Lemma prod_sizes : prodn (nthd ls) (seq 0 N) = prodn (nthd sizes) (seq 0 N) * 2 ^ (s * n).
Proof.
  rewrite (prodn_ext _ (fun j => nthd sizes j * 2 ^ s)).
  - rewrite prodn_scale, seq_length, <- Z.pow_mul_r by lia. reflexivity.
  - intros j Hj. apply in_seq in Hj. apply ls_sizes. lia.
Qed.

Lemma zc_gen :
  (forall z, 0 <= z < prodn (nthd sizes) (seq 0 N) ->
     List.length (zc_general (gl - sl) z sizes) = N /\
     forall j, (j < N)%nat -> 0 <= nthd (zc_general (gl - sl) z sizes) j < nthd sizes j) /\
  (forall z1 z2, 0 <= z1 < prodn (nthd sizes) (seq 0 N) -> 0 <= z2 < prodn (nthd sizes) (seq 0 N) ->
     zc_general (gl - sl) z1 sizes = zc_general (gl - sl) z2 sizes -> z1 = z2) /\
  (forall rf, List.length rf = N -> (forall j, (j < N)%nat -> 0 <= nthd rf j < nthd sizes j) ->
     exists z, 0 <= z < prodn (nthd sizes) (seq 0 N) /\ zc_general (gl - sl) z sizes = rf).
Proof.
  rewrite <- sizes_length. apply zc_general_bij.
  - rewrite sizes_length. intros j Hj. apply ls_sizes, Hj.
  - lia.
  - rewrite sizes_length. exact Hcap.
  - rewrite sizes_length. intros j Hj. destruct (Hl j Hj) as (_ & _ & Hle). destruct (ls_sizes j Hj) as [E _].
    rewrite E in Hle. assert (H2 : 0 < 2 ^ s) by (apply Z.pow_pos_nonneg; lia).
    apply Z.mul_le_mono_pos_r with (p := 2 ^ s); [exact H2|]. rewrite <- Z.pow_add_r by lia.
    replace (Z.of_nat (gl - sl) + s) with (Z.of_nat gl) by lia. exact Hle.
Qed.

Lemma spec_of z : 0 <= z -> 0 <= Z.land z (2 ^ (s * n) - 1) < 2 ^ (n * s) /\
  z = Z.shiftr z (s * n) * 2 ^ (s * n) + Z.land z (2 ^ (s * n) - 1).
Proof.
  intros Hz. assert (Hn0 : 0 <= s * n) by nia.
  assert (E : Z.land z (2 ^ (s * n) - 1) = z mod 2 ^ (s * n)).
  { rewrite <- Z.land_ones by exact Hn0. rewrite Z.ones_equiv. reflexivity. }
  rewrite E, Z.shiftr_div_pow2 by exact Hn0. rewrite (Z.mul_comm n s).
  assert (0 < 2 ^ (s * n)) by (apply Z.pow_pos_nonneg; lia).
  split; [apply Z.mod_pos_bound; lia|]. pose proof (Z.div_mod z (2 ^ (s * n))). lia.
Qed.

Lemma zc_ix_at z k : 0 <= z -> (k < N)%nat -> exists r,
  zc_special n (Z.of_nat k) (Z.land z (2 ^ (s * n) - 1)) = Some r /\
  nthd (zc_ix z) k = nthd (zc_general (gl - sl) (Z.shiftr z (s * n)) sizes) k * 2 ^ s + r /\
  0 <= r < 2 ^ s /\
  forall i, 0 <= i -> Z.testbit r i = Z.testbit (Z.land z (2 ^ (s * n) - 1)) (n * i + (n - Z.of_nat k - 1)).
Proof.
  intros Hz Hk. destruct (spec_of z Hz) as [Hsp _].
  destruct (zc_special_range n (Z.of_nat k) _ s ltac:(lia) ltac:(lia) ltac:(lia) Hs32 Hsp) as (r & Er & Hr & Hb).
  exists r. split; [exact Er|]. split; [|split; [exact Hr|exact Hb]].
  unfold zc_ix. rewrite nthd_map_seq by exact Hk. rewrite Er. reflexivity.
Qed.

Lemma shift_range z : 0 <= z < prodn (nthd ls) (seq 0 N) ->
  0 <= Z.shiftr z (s * n) < prodn (nthd sizes) (seq 0 N).
Proof.
  intros Hz. rewrite prod_sizes in Hz. destruct (spec_of z ltac:(lia)) as [Hsp E].
  rewrite (Z.mul_comm n s) in Hsp. split; [apply Z.shiftr_nonneg; lia|].
  assert (0 < 2 ^ (s * n)) by (apply Z.pow_pos_nonneg; lia). nia.
Qed.

Theorem zc_ix_range z : 0 <= z < prodn (nthd ls) (seq 0 N) ->
  List.length (zc_ix z) = N /\ forall j, (j < N)%nat -> 0 <= nthd (zc_ix z) j < nthd ls j.
Proof.
  intros Hz. split; [unfold zc_ix; rewrite map_length, seq_length; reflexivity|]. intros j Hj.
  destruct (zc_ix_at z j ltac:(lia) Hj) as (r & _ & -> & Hr & _).
  destruct zc_gen as (G & _ & _). destruct (G _ (shift_range z Hz)) as [_ Hg]. specialize (Hg j Hj).
  destruct (ls_sizes j Hj) as [-> _]. nia.
Qed.

Theorem zc_ix_inj z1 z2 : 0 <= z1 < prodn (nthd ls) (seq 0 N) -> 0 <= z2 < prodn (nthd ls) (seq 0 N) ->
  zc_ix z1 = zc_ix z2 -> z1 = z2.
Proof.
  intros H1 H2 E. destruct zc_gen as (G1 & G2 & _).
  destruct (G1 _ (shift_range z1 H1)) as [L1 _]. destruct (G1 _ (shift_range z2 H2)) as [L2 _].
  assert (Hp : 0 < 2 ^ s) by (apply Z.pow_pos_nonneg; lia).
  assert (Hboth : forall k, (k < N)%nat ->
    nthd (zc_general (gl - sl) (Z.shiftr z1 (s * n)) sizes) k = nthd (zc_general (gl - sl) (Z.shiftr z2 (s * n)) sizes) k
    /\ forall i, 0 <= i -> Z.testbit (Z.land z1 (2 ^ (s * n) - 1)) (n * i + (n - Z.of_nat k - 1))
                       = Z.testbit (Z.land z2 (2 ^ (s * n) - 1)) (n * i + (n - Z.of_nat k - 1))).
  { intros k Hk. destruct (zc_ix_at z1 k ltac:(lia) Hk) as (r1 & _ & E1 & R1 & B1).
    destruct (zc_ix_at z2 k ltac:(lia) Hk) as (r2 & _ & E2 & R2 & B2). rewrite E, E2 in E1.
    destruct (eucl_uniq _ _ _ _ _ R1 R2 (eq_sym E1)) as [Eq Er]. split; [exact Eq|]. intros i Hi. rewrite <- B1, <- B2 by exact Hi. congruence. }
  assert (Eg : Z.shiftr z1 (s * n) = Z.shiftr z2 (s * n)).
  { apply (G2 _ _ (shift_range _ H1) (shift_range _ H2)). apply list_nthd_eq; [congruence|].
    rewrite L1. intros j Hj. apply Hboth, Hj. }
  assert (Es : Z.land z1 (2 ^ (s * n) - 1) = Z.land z2 (2 ^ (s * n) - 1)).
  { apply Z.bits_inj'. intros j Hj.
    assert (Hn : 2 <= n) by lia. pose proof (Z.div_mod j n). pose proof (Z.mod_pos_bound j n).
    destruct (Hboth (Z.to_nat (n - 1 - j mod n)) ltac:(lia)) as [_ Hb].
    specialize (Hb (j / n) ltac:(apply Z.div_pos; lia)). rewrite Z2Nat.id in Hb by lia.
    replace (n * (j / n) + (n - (n - 1 - j mod n) - 1)) with j in Hb by lia. exact Hb. }
  destruct (spec_of z1 ltac:(lia)) as [_ ->]. destruct (spec_of z2 ltac:(lia)) as [_ ->]. congruence.
Qed.

Theorem zc_ix_surj rf : List.length rf = N -> (forall j, (j < N)%nat -> 0 <= nthd rf j < nthd ls j) ->
  exists z, 0 <= z < prodn (nthd ls) (seq 0 N) /\ zc_ix z = rf.
Proof.
  intros HL Hr. destruct zc_gen as (G1 & _ & G3).
  assert (Hp : 0 < 2 ^ s) by (apply Z.pow_pos_nonneg; lia).
  destruct (G3 (map (fun k => nthd rf k / 2 ^ s) (seq 0 N))) as (zg & Hzg & Eg).
  - rewrite map_length, seq_length. reflexivity.
  - intros j Hj. rewrite nthd_map_seq by exact Hj. specialize (Hr j Hj). destruct (ls_sizes j Hj) as [E _].
    split; [apply Z.div_pos; lia|]. apply Z.div_lt_upper_bound; lia.
  - assert (Hn0 : 0 <= s * n) by nia.
    destruct (bits_exist (fun j => Z.testbit (nthd rf (Z.to_nat (n - 1 - j mod n))) (j / n)) (Z.to_nat (s * n)))
      as (zs & Hzs & Bs). rewrite Z2Nat.id in Hzs, Bs by exact Hn0.
    exists (zg * 2 ^ (s * n) + zs). assert (Hp' : 0 < 2 ^ (s * n)) by (apply Z.pow_pos_nonneg; lia).
    assert (Hz : 0 <= zg * 2 ^ (s * n) + zs < prodn (nthd ls) (seq 0 N)) by (rewrite prod_sizes; nia).
    split; [exact Hz|].
    assert (E1 : Z.shiftr (zg * 2 ^ (s * n) + zs) (s * n) = zg).
    { rewrite Z.shiftr_div_pow2 by exact Hn0. symmetry. apply Z.div_unique with zs; lia. }
    assert (E2 : Z.land (zg * 2 ^ (s * n) + zs) (2 ^ (s * n) - 1) = zs).
    { destruct (spec_of (zg * 2 ^ (s * n) + zs) ltac:(lia)) as [_ E]. rewrite E1 in E. lia. }
    destruct (zc_ix_range _ Hz) as [HL' _].
    apply list_nthd_eq; [congruence|]. rewrite HL'. intros k Hk.
    destruct (zc_ix_at _ k ltac:(apply Hz) Hk) as (r & _ & -> & Rr & Br).
    rewrite E1, Eg, nthd_map_seq by exact Hk. rewrite E2 in Br.
    assert (Er : r = nthd rf k mod 2 ^ s).
    { apply Z.bits_inj'. intros i Hi. rewrite Br by exact Hi. destruct (Z.ltb_spec i s).
      - rewrite Z.mod_pow2_bits_low by lia. rewrite Bs by nia.
        assert (Hq : (n * i + (n - Z.of_nat k - 1)) / n = i)
          by (symmetry; apply Z.div_unique with (n - Z.of_nat k - 1); lia).
        assert (Hm : (n * i + (n - Z.of_nat k - 1)) mod n = n - Z.of_nat k - 1)
          by (symmetry; apply Z.mod_unique with i; lia).
        rewrite Hq, Hm. f_equal. f_equal. lia.
      - rewrite Z.mod_pow2_bits_high by lia.
        destruct (Z.eq_dec zs 0) as [->|Hz0]; [apply Z.bits_0|].
        apply Z.bits_above_log2; [lia|]. apply Z.log2_lt_pow2; [lia|].
        eapply Z.lt_le_trans; [apply Hzs|]. apply Z.pow_le_mono_r; nia. }
    rewrite Er. pose proof (Z.div_mod (nthd rf k) (2 ^ s)). lia.
Qed.
End Indices.
