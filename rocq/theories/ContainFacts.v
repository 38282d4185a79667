(** * Proofs about the storage of members *)
From Coq Require Import ZArith List Bool Lia ZifyBool.
From Verif Require Import Base Struct Refine Contain Lib.
From Verif Require Export SpecContain.
Import ListNotations.
Open Scope Z_scope.

Lemma cls_ind2 (P : cls -> Prop) : (forall s a, P (Leaf s a)) -> (forall i, P (Const i)) ->
  (forall n ms, Forall P ms -> P (Class n ms)) -> forall c, P c.
Proof.
  intros HL HC HK. fix IH 1. intros [s a|i|n ms]; [apply HL|apply HC|]. apply HK. induction ms as [|x ms IHm]; constructor; [apply IH|exact IHm].
Qed.

Lemma f2len {A B} (P : A -> B -> Prop) l l2 : Forall2 P l l2 -> length l = length l2.
Proof. induction 1; cbn; congruence. Qed.

(** ** Layouts *)

Lemma round_up_ge x a : 0 < a -> x <= round_up x a.
Proof. intros Ha. unfold round_up. pose proof (Z.div_mod (x + a - 1) a ltac:(lia)) as H. pose proof (Z.mod_pos_bound (x + a - 1) a Ha). lia. Qed.

Lemma round_up_mult x a : 0 < a -> (a | round_up x a).
Proof. intros _. exists ((x + a - 1) / a). reflexivity. Qed.

Lemma round_up_same x a : 0 < a -> (a | x) -> round_up x a = x.
Proof.
  intros Ha [k ->]. unfold round_up. replace (k * a + a - 1) with (a - 1 + k * a) by lia. rewrite Z.div_add, Z.div_small by lia. lia.
Qed.

Definition pow2 (a : Z) : Prop := exists k, 0 <= k /\ a = 2 ^ k.

Lemma pow2_pos a : pow2 a -> 0 < a.
Proof. intros (k & Hk & ->). apply Z.pow_pos_nonneg; lia. Qed.

Lemma pow2_max a b : pow2 a -> pow2 b -> pow2 (Z.max a b) /\ (a | Z.max a b) /\ (b | Z.max a b).
Proof.
  intros (k & Hk & ->) (j & Hj & ->).
  assert (Hd : forall x y, 0 <= x <= y -> (2 ^ x | 2 ^ y)). { intros x y H. exists (2 ^ (y - x)). rewrite <- Z.pow_add_r by lia. f_equal. lia. }
  destruct (Z.le_ge_cases k j) as [H|H].
  - pose proof (Z.pow_le_mono_r 2 k j ltac:(lia) H). rewrite Z.max_r by lia. repeat split; [exists j; auto|apply Hd; lia|apply Z.divide_refl].
  - pose proof (Z.pow_le_mono_r 2 j k ltac:(lia) H). rewrite Z.max_l by lia. repeat split; [exists k; auto|apply Z.divide_refl|apply Hd; lia].
Qed.

Definition lay_ok (l : layout) : Prop := 0 < lsize l /\ pow2 (lalign l) /\ (lalign l | lsize l).

Lemma pow2_1 : pow2 1.
Proof. exists 0. split; [lia|reflexivity]. Qed.

Lemma lay_ok1 l : lay_ok (Layout 1 1 l).
Proof. split; [cbn; lia|]. split; [apply pow2_1|apply Z.divide_refl]. Qed.

Lemma lays_ok ms : Forall (fun c => lay_ok (lay c)) ms -> lay_ok (lays lay ms).
Proof.
  induction ms as [|t ts IH]; intros H.
  - apply lay_ok1.
  - inversion H as [|? ? Ht Hts]; subst. specialize (IH Hts). cbn [lays]. destruct ts as [|t2 ts].
    + destruct (empty_cls t); [apply lay_ok1|exact Ht].
    + set (r := lays lay (t2 :: ts)) in *. destruct (empty_cls t); [exact IH|]. destruct Ht as (Hs & Ha & Hd), IH as (Hs2 & Ha2 & Hd2).
      pose proof (pow2_pos _ Ha) as Hp. pose proof (pow2_pos _ Ha2) as Hp2. destruct (forallb empty_cls (t2 :: ts)).
      * unfold lay_ok. cbn [lsize lalign]. pose proof (round_up_ge (field_at r (lay t) + lsize (lay t)) _ Hp).
        assert (0 <= field_at r (lay t)) by (unfold field_at; destruct (clash _ _); lia).
        split; [lia|]. split; [exact Ha|]. apply round_up_mult. exact Hp.
      * unfold lay_ok. cbn [lsize lalign]. pose proof (pow2_max _ _ Ha Ha2) as (Hm & _). pose proof (pow2_pos _ Hm) as Hmp.
        pose proof (round_up_ge (lsize (lay t)) _ Hp2). pose proof (round_up_ge (round_up (lsize (lay t)) (lalign r) + lsize r) _ Hmp).
        split; [lia|]. split; [exact Hm|]. apply round_up_mult. exact Hmp.
Qed.

Lemma lay_fine c : a_type c -> lay_ok (lay c).
Proof.
  induction c as [s a|i|n ms IH] using cls_ind2; intros H; inversion H; subst.
  - pose proof (Z.pow_pos_nonneg 2 k ltac:(lia) ltac:(lia)). unfold lay_ok. cbn [lay lsize lalign]. split; [nia|]. split; [exists k; auto|]. eexists. reflexivity.
  - apply lay_ok1.
  - cbn [lay]. apply lays_ok. rewrite Forall_forall in *. auto.
Qed.

Lemma lays_fine ms : Forall a_type ms -> lay_ok (lays lay ms).
Proof. intros H. apply lays_ok. eapply Forall_impl; [|exact H]. intros c. apply lay_fine. Qed.

Lemma field_at_range r t : lay_ok t -> 0 <= field_at r t /\ (lalign t | field_at r t).
Proof.
  intros (Hs & Ha & Hd). pose proof (pow2_pos _ Ha). unfold field_at. destruct (clash _ _); split; try lia; [apply Z.divide_refl|apply Z.divide_0_r].
Qed.

(** ** Empty members *)

Lemma empty_value c : forall v, empty_cls c = true -> is_a c v -> v = made c.
Proof.
  induction c as [s a|i|n ms IH] using cls_ind2; intros v He Hv; inversion Hv; subst; cbn [empty_cls] in He; try discriminate; [reflexivity|].
  cbn [made]. f_equal. match goal with H : Forall2 _ _ _ |- _ => rename H into Hf end. revert He. induction Hf as [|x y ms vs Hxy Hf IHf]; intros He; [reflexivity|].
  cbn [forallb] in He. apply andb_true_iff in He. destruct He as [H1 H2]. inversion IH as [|? ? Hx Hms]; subst. cbn [map]. f_equal; [apply Hx; assumption|].
  apply IHf; [exact Hms|constructor; exact Hf|exact H2].
Qed.

(** ** Memory *)

Lemma poke_out bs : forall a m x, ~ (a <= x < a + Z.of_nat (length bs)) -> poke bs a m x = m x.
Proof.
  induction bs as [|b bs IH]; intros a m x H; [reflexivity|]. cbn [poke length] in *. rewrite IH by lia. destruct (x =? a) eqn:E; [lia|reflexivity].
Qed.

Lemma poke_in bs : forall a m k, (k < length bs)%nat -> poke bs a m (a + Z.of_nat k) = nth k bs 0.
Proof.
  induction bs as [|b bs IH]; intros a m k H; cbn [length] in H; [lia|]. cbn [poke]. destruct k as [|k].
  - rewrite poke_out by lia. cbn. replace (a + 0 =? a) with true by lia. reflexivity.
  - replace (a + Z.of_nat (S k)) with (a + 1 + Z.of_nat k) by lia. rewrite IH by lia. reflexivity.
Qed.

Lemma peek_poke bs a m : peek (Z.of_nat (length bs)) a (poke bs a m) = bs.
Proof.
  unfold peek. rewrite Nat2Z.id. apply (nth_ext _ _ 0 0); [now rewrite map_length, seq_length|]. intros n Hn. rewrite map_length, seq_length in Hn.
  rewrite (nth_indep _ 0 ((fun k => poke bs a m (a + Z.of_nat k)) 0%nat)) by (rewrite map_length, seq_length; exact Hn).
  rewrite (map_nth (fun k => poke bs a m (a + Z.of_nat k))). rewrite seq_nth by exact Hn. cbn [Nat.add]. apply poke_in. exact Hn.
Qed.

Lemma peek_ext n a m m2 : (forall x, a <= x < a + n -> m x = m2 x) -> peek n a m = peek n a m2.
Proof. intros H. unfold peek. apply map_ext_in. intros k Hk. apply in_seq in Hk. apply H. lia. Qed.

(** Where things lie, in the three cases with several members. *)
Section cases.
  Variables (t t2 : cls) (ts : list cls).
  Hypothesis (Ht : a_type t) (Hts : Forall a_type (t2 :: ts)).
  Let r := lays lay (t2 :: ts).

  Lemma size_base : empty_cls t = true -> lsize (lays lay (t :: t2 :: ts)) = lsize r /\ lalign (lays lay (t :: t2 :: ts)) = lalign r.
  Proof using. intros E. change (lays lay (t :: t2 :: ts)) with (let r := lays lay (t2 :: ts) in
          if empty_cls t then Layout (lsize r) (lalign r) ((if forallb empty_cls (t2 :: ts) then [(0, t :: t2 :: ts)] else []) ++ lempty r)
          else if forallb empty_cls (t2 :: ts) then
            let o := field_at r (lay t) in
            Layout (round_up (o + lsize (lay t)) (lalign (lay t))) (lalign (lay t)) (lempty r ++ moved o (lempty (lay t)))
          else
            let o := round_up (lsize (lay t)) (lalign r) in
            let a := Z.max (lalign (lay t)) (lalign r) in
            Layout (round_up (o + lsize r) a) a (lempty (lay t) ++ moved o (lempty r))). cbv zeta. rewrite E. split; reflexivity. Qed.

  Lemma size_field : empty_cls t = false -> forallb empty_cls (t2 :: ts) = true ->
    field_at r (lay t) + lsize (lay t) <= lsize (lays lay (t :: t2 :: ts)) /\ 0 <= field_at r (lay t) /\
    lalign (lays lay (t :: t2 :: ts)) = lalign (lay t) /\ (lalign (lay t) | field_at r (lay t)).
  Proof using All.
    intros E E2. cbn [lays]. fold r. rewrite E, E2. cbn [lsize lalign]. pose proof (lay_fine _ Ht) as Hl. destruct (field_at_range r _ Hl) as [H1 H2].
    destruct Hl as (_ & Ha & _). split; [apply round_up_ge, pow2_pos, Ha|]. auto.
  Qed.

  Lemma size_two : empty_cls t = false -> forallb empty_cls (t2 :: ts) = false ->
    let o := round_up (lsize (lay t)) (lalign r) in
    lsize (lay t) <= o /\ o + lsize r <= lsize (lays lay (t :: t2 :: ts)) /\ (lalign (lay t) | lalign (lays lay (t :: t2 :: ts))) /\
    (lalign r | lalign (lays lay (t :: t2 :: ts))) /\ (lalign r | o).
  Proof using All.
    intros E E2. cbn [lays]. fold r. rewrite E, E2. cbn [lsize lalign]. pose proof (lay_fine _ Ht) as (Hs & Ha & Hd). pose proof (lays_fine _ Hts) as (Hs2 & Ha2 & Hd2).
    fold r in Hs2, Ha2, Hd2. destruct (pow2_max _ _ Ha Ha2) as (Hm & H1 & H2). repeat split; [apply round_up_ge, pow2_pos, Ha2|apply round_up_ge, pow2_pos, Hm|exact H1|exact H2|].
    apply round_up_mult, pow2_pos, Ha2.
  Qed.
End cases.

Lemma puts_more t t2 ts v vs a m : puts put (t :: t2 :: ts) (v :: vs) a m =
  if empty_cls t then puts put (t2 :: ts) vs a m
  else if forallb empty_cls (t2 :: ts) then put t v (a + field_at (lays lay (t2 :: ts)) (lay t)) m
  else puts put (t2 :: ts) vs (a + round_up (lsize (lay t)) (lalign (lays lay (t2 :: ts)))) (put t v a m).
Proof. reflexivity. Qed.

Lemma get_more t t2 ts i a m : get_member read (t :: t2 :: ts) i a m =
  match i with
  | O => Some (if empty_cls t then made t
               else if forallb empty_cls (t2 :: ts) then read t (a + field_at (lays lay (t2 :: ts)) (lay t)) m
               else read t a m)
  | S i => if empty_cls t then get_member read (t2 :: ts) i a m
           else if forallb empty_cls (t2 :: ts) then get_member read (t2 :: ts) i a m
           else get_member read (t2 :: ts) i (a + round_up (lsize (lay t)) (lalign (lays lay (t2 :: ts)))) m
  end.
Proof. reflexivity. Qed.

(** ** Writing touches the object only *)

Section frame.
  Variable P : cls -> Prop.
  Hypothesis HP : forall c, P c -> a_type c -> forall v a m x, is_a c v -> ~ (a <= x < a + sizeof c) -> put c v a m x = m x.

  Lemma puts_frame ms : Forall P ms -> Forall a_type ms -> forall vs a m x, Forall2 is_a ms vs -> ~ (a <= x < a + lsize (lays lay ms)) ->
    puts put ms vs a m x = m x.
  Proof using HP.
    induction ms as [|t ts IH]; intros HF Ht vs a m x Hv Hx; [reflexivity|]. inversion HF as [|? ? HF1 HF2]; inversion Ht as [|? ? Ht1 Ht2]; inversion Hv as [|? v ? vs' Hv1 Hv2]; subst.
    destruct ts as [|t2 ts].
    - cbn [puts]. cbn [lays] in Hx. destruct (empty_cls t); [reflexivity|]. apply HP; auto.
    - rewrite puts_more. destruct (empty_cls t) eqn:E.
      + apply IH; auto. destruct (size_base t t2 ts E) as [Hs _]. rewrite <- Hs. exact Hx.
      + destruct (forallb empty_cls (t2 :: ts)) eqn:E2.
        * destruct (size_field t t2 ts Ht1 Ht2 E E2) as (H1 & H2 & _). apply HP; auto. unfold sizeof. lia.
        * destruct (size_two t t2 ts Ht1 Ht2 E E2) as (H1 & H2 & _). pose proof (lays_fine _ Ht2) as (H3 & _). pose proof (lay_fine _ Ht1) as (H4 & _).
          rewrite IH; auto; [|lia]. apply HP; auto. unfold sizeof. lia.
  Qed.
End frame.

Lemma put_frame c : a_type c -> forall v a m x, is_a c v -> ~ (a <= x < a + sizeof c) -> put c v a m x = m x.
Proof.
  induction c as [s al|i|n ms IH] using cls_ind2; intros Ht v a m x Hv Hx; inversion Hv; subst.
  - cbn [put]. apply poke_out. exact Hx.
  - reflexivity.
  - cbn [put]. inversion Ht; subst. eapply puts_frame; [|exact IH|assumption|eassumption|exact Hx]. cbn beta. intros c H. exact H.
Qed.

Lemma puts_keep ms vs a m x : Forall a_type ms -> Forall2 is_a ms vs -> ~ (a <= x < a + lsize (lays lay ms)) -> puts put ms vs a m x = m x.
Proof.
  intros Ht. apply (puts_frame a_type); auto. intros c _ Hc. apply put_frame. exact Hc.
Qed.

Lemma puts_empty ms : forall vs a m, forallb empty_cls ms = true -> puts put ms vs a m = m.
Proof.
  induction ms as [|t ts IH]; intros vs a m E; [reflexivity|]. destruct vs as [|v vs]; [reflexivity|]. cbn [forallb] in E. apply andb_true_iff in E. destruct E as [E1 E2].
  cbn [puts]. destruct ts as [|t2 ts]; rewrite E1; [reflexivity|]. apply IH. exact E2.
Qed.

Lemma put_empty c v a m : empty_cls c = true -> put c v a m = m.
Proof. destruct c as [s al|i|n ms]; cbn [empty_cls]; intros E; [discriminate|reflexivity|]. destruct v; try reflexivity. cbn [put]. apply puts_empty. exact E. Qed.

(** ** Reading looks at the object only *)

Definition reads_within (c : cls) : Prop := a_type c -> forall a m m2, (forall x, a <= x < a + sizeof c -> m x = m2 x) -> read c a m = read c a m2.

Lemma get_within ms : Forall reads_within ms -> Forall a_type ms -> forall i a m m2, (forall x, a <= x < a + lsize (lays lay ms) -> m x = m2 x) ->
  get_member read ms i a m = get_member read ms i a m2.
Proof.
  induction ms as [|t ts IH]; intros HF Ht i a m m2 Hm; [reflexivity|]. inversion HF as [|? ? HF1 HF2]; inversion Ht as [|? ? Ht1 Ht2]; subst.
  destruct ts as [|t2 ts].
  - cbn [get_member]. cbn [lays] in Hm. destruct i; [|reflexivity]. destruct (empty_cls t); [reflexivity|]. rewrite (HF1 Ht1 a m m2); auto.
  - rewrite !get_more. destruct (empty_cls t) eqn:E.
    + destruct i; [reflexivity|]. apply IH; auto. destruct (size_base t t2 ts E) as [Hs _]. rewrite <- Hs. exact Hm.
    + destruct (forallb empty_cls (t2 :: ts)) eqn:E2.
      * destruct (size_field t t2 ts Ht1 Ht2 E E2) as (H1 & H2 & _). destruct i.
        -- f_equal. apply HF1; auto. intros x Hx. apply Hm. unfold sizeof in Hx. lia.
        -- assert (Hall : forall ts i a, forallb empty_cls ts = true -> get_member read ts i a m = get_member read ts i a m2).
           { clear. induction ts as [|t ts IH]; intros i a E; [reflexivity|]. cbn [forallb] in E. apply andb_true_iff in E. destruct E as [E1 E2]. 
             destruct ts as [|t2 ts]; [cbn [get_member]; rewrite E1; reflexivity|]. rewrite !get_more, E1. destruct i; [reflexivity|]. apply IH. exact E2. }
           apply Hall. exact E2.
      * destruct (size_two t t2 ts Ht1 Ht2 E E2) as (H1 & H2 & _). pose proof (lays_fine _ Ht2) as (H3 & _). pose proof (lay_fine _ Ht1) as (H4 & _). destruct i.
        -- f_equal. apply HF1; auto. intros x Hx. apply Hm. unfold sizeof in Hx. lia.
        -- apply IH; auto. intros x Hx. apply Hm. lia.
Qed.

Lemma read_within c : reads_within c.
Proof.
  induction c as [s al|i|n ms IH] using cls_ind2; intros Ht a m m2 Hm.
  - cbn [read]. f_equal. apply peek_ext. exact Hm.
  - reflexivity.
  - cbn [read]. f_equal. apply map_ext. intros i. inversion Ht; subst. rewrite (get_within ms IH) with (m2 := m2); auto.
Qed.

(** ** Reading back *)

Definition reads_back (c : cls) : Prop := a_type c -> forall v a m, is_a c v -> read c a (put c v a m) = v.

Lemma get_empty ms : forall vs i a m, forallb empty_cls ms = true -> Forall2 is_a ms vs -> get_member read ms i a m = nth_error vs i.
Proof.
  induction ms as [|t ts IH]; intros vs i a m E Hv; inversion Hv as [|? v ? vs' Hv1 Hv2]; subst; [destruct i; reflexivity|].
  cbn [forallb] in E. apply andb_true_iff in E. destruct E as [E1 E2]. pose proof (empty_value _ _ E1 Hv1) as ->. destruct ts as [|t2 ts].
  - cbn [get_member]. rewrite E1. inversion Hv2; subst. destruct i as [|[|i]]; reflexivity.
  - rewrite get_more, E1. destruct i; [reflexivity|]. cbn [nth_error]. apply IH; assumption.
Qed.

Lemma get_back ms : Forall reads_back ms -> Forall a_type ms -> forall vs i a m, Forall2 is_a ms vs ->
  get_member read ms i a (puts put ms vs a m) = nth_error vs i.
Proof.
  induction ms as [|t ts IH]; intros HF Ht vs i a m Hv; inversion Hv as [|? v ? vs' Hv1 Hv2]; subst; [destruct i; reflexivity|].
  inversion HF as [|? ? HF1 HF2]; inversion Ht as [|? ? Ht1 Ht2]; subst. destruct ts as [|t2 ts].
  - cbn [get_member puts]. inversion Hv2; subst. destruct i as [|[|i]]; try reflexivity. cbn [nth_error]. f_equal. destruct (empty_cls t) eqn:E; [symmetry; apply empty_value; assumption|].
    apply HF1; assumption.
  - rewrite get_more, puts_more. destruct (empty_cls t) eqn:E.
    + destruct i; [cbn [nth_error]; f_equal; symmetry; apply empty_value; assumption|]. cbn [nth_error]. apply IH; assumption.
    + destruct (forallb empty_cls (t2 :: ts)) eqn:E2.
      * destruct i; [cbn [nth_error]; f_equal; apply HF1; assumption|]. cbn [nth_error]. apply get_empty; assumption.
      * destruct (size_two t t2 ts Ht1 Ht2 E E2) as (H1 & H2 & _). destruct i.
        -- cbn [nth_error]. f_equal. transitivity (read t a (put t v a m)); [|apply HF1; assumption]. apply read_within; [exact Ht1|]. intros x Hx. apply puts_keep; auto. unfold sizeof in Hx. lia.
        -- cbn [nth_error]. apply IH; assumption.
Qed.

Lemma read_back c : reads_back c.
Proof.
  induction c as [s al|i|n ms IH] using cls_ind2; intros Ht v a m Hv; inversion Hv; subst.
  - cbn [read put]. f_equal. apply peek_poke.
  - reflexivity.
  - cbn [read put]. inversion Ht as [| |? ? Htm]; subst. f_equal. match goal with H : Forall2 _ _ _ |- _ => rename H into Hf end.
    transitivity (map (fun i => nth i vs OConst) (seq 0 (length ms))).
    + apply map_ext_in. intros i Hi. rewrite (get_back ms IH Htm vs i a m Hf). apply in_seq in Hi. rewrite (f2len _ _ _ Hf) in Hi. destruct (nth_error vs i) eqn:E; [|apply nth_error_None in E; lia].
      symmetry. apply nth_error_nth. exact E.
    + rewrite (f2len _ _ _ Hf). apply (nth_ext _ _ OConst OConst); [now rewrite map_length, seq_length|]. intros k Hk. rewrite map_length, seq_length in Hk.
      rewrite (nth_indep _ OConst ((fun i => nth i vs OConst) 0%nat)) by (rewrite map_length, seq_length; exact Hk). rewrite (map_nth (fun i => nth i vs OConst)). rewrite seq_nth by exact Hk. reflexivity.
Qed.

Lemma get_ok ms : Forall a_type ms -> forall vs i a m, Forall2 is_a ms vs -> get_member read ms i a (puts put ms vs a m) = nth_error vs i.
Proof. intros Ht. apply get_back; [|exact Ht]. rewrite Forall_forall. intros c _. apply read_back. Qed.

(** ** The parts of an object *)

Lemma ford_app {A} (R : A -> A -> Prop) l l2 : ForallOrdPairs R l -> ForallOrdPairs R l2 -> (forall x y, In x l -> In y l2 -> R x y) -> ForallOrdPairs R (l ++ l2).
Proof.
  intros H1 H2. induction H1 as [|x l Hx H1 IH]; intros H; cbn [app]; [exact H2|]. constructor.
  - apply Forall_app. split; [exact Hx|]. rewrite Forall_forall. intros y Hy. apply H; [left; reflexivity|exact Hy].
  - apply IH. intros y z Hy Hz. apply H; [right; exact Hy|exact Hz].
Qed.

Lemma part_weaken a n b k l : a <= b -> b + k <= a + n -> Forall (part_fits b k) l -> Forall (part_fits a n) l.
Proof. intros H1 H2. apply Forall_impl. intros [[x s] al] (H3 & H4 & H5). cbn. lia. Qed.

Definition parts_good (c : cls) : Prop := a_type c -> forall a, (alignof c | a) ->
  Forall (part_fits a (sizeof c)) (parts c a) /\ ForallOrdPairs parts_apart (parts c a).

Lemma parts_more t t2 ts a : parts_of parts (t :: t2 :: ts) a =
  if empty_cls t then parts_of parts (t2 :: ts) a
  else if forallb empty_cls (t2 :: ts) then parts t (a + field_at (lays lay (t2 :: ts)) (lay t))
  else parts t a ++ parts_of parts (t2 :: ts) (a + round_up (lsize (lay t)) (lalign (lays lay (t2 :: ts)))).
Proof. reflexivity. Qed.

Lemma parts_list ms : Forall parts_good ms -> Forall a_type ms -> forall a, (lalign (lays lay ms) | a) ->
  Forall (part_fits a (lsize (lays lay ms))) (parts_of parts ms a) /\ ForallOrdPairs parts_apart (parts_of parts ms a).
Proof.
  induction ms as [|t ts IH]; intros HF Ht a Ha; [split; constructor|]. inversion HF as [|? ? HF1 HF2]; inversion Ht as [|? ? Ht1 Ht2]; subst. destruct ts as [|t2 ts].
  - cbn [parts_of]. cbn [lays] in Ha |- *. destruct (empty_cls t); [split; constructor|]. apply HF1; assumption.
  - rewrite parts_more. destruct (empty_cls t) eqn:E.
    + destruct (size_base t t2 ts E) as [Hs Hal]. rewrite Hs. apply IH; auto. rewrite <- Hal. exact Ha.
    + destruct (forallb empty_cls (t2 :: ts)) eqn:E2.
      * destruct (size_field t t2 ts Ht1 Ht2 E E2) as (H1 & H2 & H3 & H4). rewrite H3 in Ha. destruct (HF1 Ht1 (a + field_at (lays lay (t2 :: ts)) (lay t))) as [P1 P2].
        { apply Z.divide_add_r; assumption. }
        split; [|exact P2]. eapply part_weaken; [| |exact P1]; unfold sizeof; lia.
      * destruct (size_two t t2 ts Ht1 Ht2 E E2) as (H1 & H2 & H3 & H4 & H5). pose proof (lays_fine _ Ht2) as (Hs2 & _). pose proof (lay_fine _ Ht1) as (Hs1 & _).
        destruct (HF1 Ht1 a) as [P1 P2]. { apply (Z.divide_trans _ _ _ H3 Ha). }
        destruct (IH HF2 Ht2 (a + round_up (lsize (lay t)) (lalign (lays lay (t2 :: ts))))) as [P3 P4].
        { apply Z.divide_add_r; [apply (Z.divide_trans _ _ _ H4 Ha)|exact H5]. }
        split.
        -- apply Forall_app. split; (eapply part_weaken; [| |eassumption]); unfold sizeof; lia.
        -- apply ford_app; auto. intros x y Hx Hy. rewrite Forall_forall in P1, P3. specialize (P1 _ Hx). specialize (P3 _ Hy). destruct x as [[x s] al], y as [[y s2] al2]. cbn in *.
           unfold sizeof in P1. lia.
Qed.

Lemma parts_fine c : parts_good c.
Proof.
  induction c as [s al|i|n ms IH] using cls_ind2; intros Ht a Ha.
  - cbn [parts]. split; [|constructor; constructor]. constructor; [|constructor]. cbn. unfold sizeof. cbn. inversion Ht; subst. split; [lia|]. split; [lia|].
    apply Z.mod_divide; [|exact Ha]. pose proof (Z.pow_pos_nonneg 2 k). lia.
  - split; constructor.
  - cbn [parts]. inversion Ht; subst. apply parts_list; assumption.
Qed.

(** ** How much space *)

Lemma words_type c : words c -> a_type c.
Proof.
  induction c as [s a|i|n ms IH] using cls_ind2; intros H; inversion H; subst.
  - apply (a_leaf 3 1); lia.
  - constructor.
  - constructor. rewrite Forall_forall in *. auto.
Qed.

Lemma count_empty c : empty_cls c = true -> word_count c = 0.
Proof.
  induction c as [s a|i|n ms IH] using cls_ind2; cbn [empty_cls word_count]; intros H; [discriminate|reflexivity|].
  induction ms as [|x ms IHm]; [reflexivity|]. inversion IH as [|? ? Hx Hm]; subst. cbn [forallb] in H. apply andb_true_iff in H. destruct H as [H1 H2]. cbn [map fold_right]. rewrite (IHm Hm H2), (Hx H1). reflexivity.
Qed.

Lemma count_nonneg c : 0 <= word_count c.
Proof.
  induction c as [s a|i|n ms IH] using cls_ind2; cbn [word_count]; [lia|lia|]. induction IH as [|x l Hx Hl IHl]; cbn [map fold_right]; lia.
Qed.

Lemma count_pos c : empty_cls c = false -> 0 < word_count c.
Proof.
  induction c as [s a|i|n ms IH] using cls_ind2; cbn [empty_cls word_count]; intros H; [lia|discriminate|].
  induction IH as [|x l Hx Hl IHl]; cbn [map fold_right forallb] in *; [discriminate|]. apply andb_false_iff in H. pose proof (count_nonneg x).
  assert (0 <= fold_right Z.add 0 (map word_count l)). { clear. induction l as [|y l IH]; cbn [map fold_right]; [lia|]. pose proof (count_nonneg y). lia. }
  destruct H as [H|H]; [specialize (Hx H); lia|specialize (IHl H); lia].
Qed.

Definition held (m : cls) : list cls := if empty_cls m then [m] else empties m.

Lemma list_eqb_head l l2 : l <> [] -> list_eqb cls_eqb l l2 = true -> exists x y r r2, l = x :: r /\ l2 = y :: r2 /\ cls_eqb x y = true.
Proof.
  destruct l as [|x r]; [congruence|]. destruct l2 as [|y r2]; cbn [list_eqb]; [discriminate|]. intros _ H. apply andb_true_iff in H. destruct H as [H _]. exists x, y, r, r2. auto.
Qed.

Lemma zlist_eq l : forall l2, list_eqb Z.eqb l l2 = true -> l = l2.
Proof.
  induction l as [|x l IH]; intros [|y l2]; cbn [list_eqb]; intros H; try discriminate; [reflexivity|]. apply andb_true_iff in H. destruct H as [H1 H2]. apply Z.eqb_eq in H1. subst. f_equal. apply IH. exact H2.
Qed.

Lemma cls_eq c : forall c2, cls_eqb c c2 = true -> c = c2.
Proof.
  induction c as [s a|i|n ms IH] using cls_ind2; intros [s2 a2|j|n2 ms2] H; cbn [cls_eqb] in H; try discriminate.
  - apply andb_true_iff in H. destruct H as [H1 H2]. apply Z.eqb_eq in H1, H2. congruence.
  - apply Z.eqb_eq in H. congruence.
  - apply andb_true_iff in H. destruct H as [H1 H2]. apply zlist_eq in H1. subst. f_equal. revert ms2 H2. induction IH as [|x l Hx Hl IHl]; intros [|y l2] H; try discriminate; [reflexivity|].
    apply andb_true_iff in H. destruct H as [H1 H2]. f_equal; [apply Hx; exact H1|apply IHl; exact H2].
Qed.

(** The types of the empty subobjects begin with members of empty types. *)
Definition keyed (ks : list cls) (l : list (Z * list cls)) : Prop := Forall (fun e => exists x r, snd e = x :: r /\ In x ks) l.

Lemma keyed_app ks l l2 : keyed ks l -> keyed ks l2 -> keyed ks (l ++ l2).
Proof. intros H1 H2. apply Forall_app. auto. Qed.

Lemma keyed_moved ks o l : keyed ks l -> keyed ks (moved o l).
Proof. unfold keyed, moved. intros H. rewrite Forall_forall in H |- *. intros e He. apply in_map_iff in He. destruct He as (e0 & <- & He). exact (H e0 He). Qed.

Lemma keyed_more ks ks2 l : (forall x, In x ks -> In x ks2) -> keyed ks l -> keyed ks2 l.
Proof. intros H. apply Forall_impl. intros e (x & r & E & Hx). exists x, r. auto. Qed.

Lemma lays_more t t2 ts : lays lay (t :: t2 :: ts) = let r := lays lay (t2 :: ts) in
          if empty_cls t then Layout (lsize r) (lalign r) ((if forallb empty_cls (t2 :: ts) then [(0, t :: t2 :: ts)] else []) ++ lempty r)
          else if forallb empty_cls (t2 :: ts) then
            let o := field_at r (lay t) in
            Layout (round_up (o + lsize (lay t)) (lalign (lay t))) (lalign (lay t)) (lempty r ++ moved o (lempty (lay t)))
          else
            let o := round_up (lsize (lay t)) (lalign r) in
            let a := Z.max (lalign (lay t)) (lalign r) in
            Layout (round_up (o + lsize r) a) a (lempty (lay t) ++ moved o (lempty r)).
Proof. reflexivity. Qed.

Lemma keyed_list ms : Forall (fun c => empty_cls c = false -> keyed (empties c) (lempty (lay c))) ms -> ms <> [] -> keyed (flat_map held ms) (lempty (lays lay ms)).
Proof.
  induction ms as [|t ts IH]; intros HF Hn; [congruence|]. inversion HF as [|? ? HF1 HF2]; subst. destruct ts as [|t2 ts].
  - cbn [lays flat_map]. rewrite app_nil_r. unfold held. destruct (empty_cls t) eqn:E.
    + cbn [lempty]. constructor; [|constructor]. exists t, []. split; [reflexivity|left; reflexivity].
    + apply HF1. exact eq_refl.
  - assert (Hr : keyed (flat_map held (t :: t2 :: ts)) (lempty (lays lay (t2 :: ts)))).
    { eapply keyed_more; [|apply IH; [exact HF2|discriminate]]. intros x Hx. change (flat_map held (t :: t2 :: ts)) with (held t ++ flat_map held (t2 :: ts)). apply in_or_app. right. exact Hx. }
    assert (Ht : empty_cls t = false -> keyed (flat_map held (t :: t2 :: ts)) (lempty (lay t))).
    { intros E. eapply keyed_more; [|apply HF1; exact E]. intros x Hx. cbn [flat_map]. apply in_or_app. left. unfold held. rewrite E. exact Hx. }
    rewrite lays_more. cbv zeta. destruct (empty_cls t) eqn:E.
    + cbn [lempty]. apply keyed_app; [|exact Hr]. destruct (forallb empty_cls (t2 :: ts)); [|constructor]. constructor; [|constructor].
      exists t, (t2 :: ts). split; [reflexivity|]. cbn [flat_map]. apply in_or_app. left. unfold held. rewrite E. left. reflexivity.
    + destruct (forallb empty_cls (t2 :: ts)); cbn [lempty]; apply keyed_app; auto using keyed_moved.
Qed.

Lemma keyed_lay c : empty_cls c = false -> keyed (empties c) (lempty (lay c)).
Proof.
  induction c as [s a|i|n ms IH] using cls_ind2; intros E; [constructor|discriminate|]. cbn [lay empties]. apply keyed_list; [exact IH|]. intros ->. discriminate.
Qed.

Lemma no_clash ks ks2 l l2 : keyed ks l -> keyed ks2 l2 -> (forall x, In x ks -> In x ks2 -> False) -> clash l l2 = false.
Proof.
  intros H1 H2 H. apply Bool.not_true_is_false. intros Hc. unfold clash in Hc. apply existsb_exists in Hc. destruct Hc as (e & He & Hc). apply existsb_exists in Hc. destruct Hc as (e2 & He2 & Hc).
  apply andb_true_iff in Hc. destruct Hc as [_ Hc]. unfold keyed in H1, H2. rewrite Forall_forall in H1, H2. destruct (H1 _ He) as (x & r & Ex & Hx), (H2 _ He2) as (y & r2 & Ey & Hy).
  rewrite Ex, Ey in Hc. cbn [list_eqb] in Hc. apply andb_true_iff in Hc. destruct Hc as [Hc _]. apply cls_eq in Hc. subst. exact (H _ Hx Hy).
Qed.

Definition all_count (ms : list cls) : Z := fold_right Z.add 0 (map word_count ms).

Definition sized (c : cls) : Prop := words c -> empty_cls c = false ->
  alignof c = 8 /\ 8 * word_count c <= sizeof c <= 8 * (word_count c + Z.of_nat (length (empties c))) /\ (NoDup (empties c) -> sizeof c = 8 * word_count c).

Lemma all_empty_count ms : forallb empty_cls ms = true -> all_count ms = 0.
Proof. intros H. apply (count_empty (Class [] ms)). exact H. Qed.

Lemma held_empty ms : forallb empty_cls ms = true -> flat_map held ms = ms.
Proof. induction ms as [|t ts IH]; cbn [forallb flat_map]; intros H; [reflexivity|]. apply andb_true_iff in H. destruct H as [H1 H2]. unfold held at 1. rewrite H1, IH by exact H2. reflexivity. Qed.

Lemma div8 x : (8 | x) -> round_up x 8 = x.
Proof. intros H. apply round_up_same; [lia|exact H]. Qed.

Lemma nodup_app {A} (l l2 : list A) : NoDup (l ++ l2) -> NoDup l /\ NoDup l2 /\ forall x, In x l -> In x l2 -> False.
Proof.
  induction l as [|x l IH]; cbn [app]; intros H; [repeat split; [constructor|exact H|intros y []]|]. inversion H as [|? ? Hx Hl]; subst. destruct (IH Hl) as (H1 & H2 & H3).
  split; [constructor; [|exact H1]; intros Hi; apply Hx, in_or_app; left; exact Hi|]. split; [exact H2|]. intros y [->|Hy] Hy2; [apply Hx, in_or_app; right; exact Hy2|exact (H3 y Hy Hy2)].
Qed.

Lemma sized_list ms : Forall sized ms -> Forall words ms -> forallb empty_cls ms = false ->
  lalign (lays lay ms) = 8 /\ 8 * all_count ms <= lsize (lays lay ms) <= 8 * (all_count ms + Z.of_nat (length (flat_map held ms))) /\
  (NoDup (flat_map held ms) -> lsize (lays lay ms) = 8 * all_count ms).
Proof.
  induction ms as [|t ts IH]; intros HF Hw Ee; [discriminate|]. inversion HF as [|? ? HF1 HF2]; inversion Hw as [|? ? Hw1 Hw2]; subst.
  assert (Hty : Forall a_type ts) by (eapply Forall_impl; [|exact Hw2]; intros c; apply words_type). pose proof (words_type _ Hw1) as Hty1. pose proof (lay_fine _ Hty1) as (Hs1 & Ha1 & Hd1).
  assert (Hc : all_count (t :: ts) = word_count t + all_count ts) by reflexivity.
  change (flat_map held (t :: ts)) with (held t ++ flat_map held ts). rewrite app_length. rewrite Hc. destruct ts as [|t2 ts].
  - cbn [lays]. cbn [forallb] in Ee. rewrite andb_true_r in Ee. rewrite Ee. destruct (HF1 Hw1 Ee) as (H1 & H2 & H3). unfold held. rewrite Ee. unfold alignof, sizeof in *.
    cbn [flat_map length app]. rewrite app_nil_r. change (all_count []) with 0. split; [exact H1|]. split; [lia|]. intros Hn. specialize (H3 Hn). lia.
  - rewrite lays_more. cbv zeta. unfold held at 1 3. destruct (empty_cls t) eqn:E.
    + change (forallb empty_cls (t :: t2 :: ts)) with (empty_cls t && forallb empty_cls (t2 :: ts)) in Ee. rewrite E in Ee. rewrite andb_true_l in Ee.
      destruct (IH HF2 Hw2 Ee) as (H1 & H2 & H3). cbn [lsize lalign length]. rewrite (count_empty t E). split; [exact H1|]. split; [lia|]. intros Hn. cbn [app] in Hn. inversion Hn; subst. rewrite H3 by assumption. lia.
    + destruct (HF1 Hw1 E) as (H1 & H2 & H3). unfold alignof, sizeof in *. rewrite H1 in Hd1.
      destruct (forallb empty_cls (t2 :: ts)) eqn:E2; cbn [lsize lalign].
      * rewrite (all_empty_count _ E2), (held_empty _ E2), H1. destruct (field_at_range (lays lay (t2 :: ts)) (lay t) (lay_fine _ Hty1)) as [Hf1 Hf2]. rewrite H1 in Hf2.
        rewrite div8 by (apply Z.divide_add_r; assumption). split; [reflexivity|]. split.
        -- cbn [length]. assert (field_at (lays lay (t2 :: ts)) (lay t) <= 8) by (unfold field_at; destruct (clash _ _); lia). lia.
        -- intros Hn. destruct (nodup_app _ _ Hn) as (Hn1 & Hn2 & Hn3). specialize (H3 Hn1). assert (Hf : field_at (lays lay (t2 :: ts)) (lay t) = 0); [|lia].
           unfold field_at. rewrite (no_clash (t2 :: ts) (empties t)); [reflexivity| |apply keyed_lay; exact E|intros x Hx Hy; exact (Hn3 x Hy Hx)].
           rewrite <- (held_empty _ E2) at 1. apply keyed_list; [|discriminate]. rewrite Forall_forall. intros c _. apply keyed_lay.
      * destruct (IH HF2 Hw2 eq_refl) as (H4 & H5 & H6). pose proof (lays_fine _ Hty) as (Hs2 & Ha2 & Hd2). rewrite H1, H4 in *. rewrite Z.max_id. rewrite (div8 (lsize (lay t))) by exact Hd1.
        rewrite div8 by (apply Z.divide_add_r; assumption). split; [reflexivity|]. split; [lia|]. intros Hn. destruct (nodup_app _ _ Hn) as (Hn1 & Hn2 & Hn3). rewrite (H3 Hn1), (H6 Hn2). lia.
Qed.

Lemma size_fine c : sized c.
Proof.
  induction c as [s a|i|n ms IH] using cls_ind2; intros Hw E; [|discriminate|].
  - inversion Hw; subst. cbn. unfold alignof, sizeof. cbn. lia.
  - inversion Hw; subst. unfold alignof, sizeof. cbn [lay word_count empties empty_cls] in *. apply sized_list; assumption.
Qed.

Lemma empty_size c : a_type c -> empty_cls c = true -> sizeof c = 1.
Proof.
  intros _. destruct c as [s a|i|n ms]; cbn [empty_cls]; intros E; [discriminate|reflexivity|]. unfold sizeof. cbn [lay]. induction ms as [|t ts IH]; [reflexivity|].
  cbn [forallb] in E. apply andb_true_iff in E. destruct E as [E1 E2]. destruct ts as [|t2 ts]; [cbn [lays]; rewrite E1; reflexivity|]. rewrite lays_more. cbv zeta. rewrite E1. cbn [lsize]. apply IH. exact E2.
Qed.

(** ** Structures *)

Lemma val_words v : words (val_cls v).
Proof. destruct v; constructor. Qed.

Lemma struct_words s : words (struct_cls s).
Proof.
  revert s. fix IH 1. intros [c|d ts|d t|v t|ts]; cbn [struct_cls]; constructor.
  - constructor.
  - induction ts as [|x ts IHt]; constructor; [apply IH|exact IHt].
  - constructor; [apply IH|constructor].
  - constructor; [apply IH|]. rewrite Forall_forall. intros c Hc. apply in_map_iff in Hc. destruct Hc as (x & <- & _). apply val_words.
  - induction ts as [|x ts IHt]; constructor; [apply IH|exact IHt].
Qed.

Lemma bytes_length n : forall z, length (bytes_of n z) = n.
Proof. induction n as [|n IH]; intros z; cbn; [reflexivity|]. now rewrite IH. Qed.

Lemma val_is v : is_a (val_cls v) (val_obj v).
Proof. destruct v; constructor; now rewrite bytes_length. Qed.

Lemma vals_are vs : Forall2 is_a (map val_cls vs) (map val_obj vs).
Proof. induction vs as [|v vs IH]; cbn [map]; constructor; [apply val_is|exact IH]. Qed.

Lemma struct_is s : is_a (struct_cls s) (struct_obj s).
Proof.
  revert s. fix IH 1. intros [c|d ts|d t|v t|ts]; cbn [struct_cls struct_obj]; constructor.
  - constructor.
  - induction ts as [|x ts IHt]; cbn [map]; constructor; [apply IH|exact IHt].
  - constructor; [apply IH|constructor].
  - constructor; [apply IH|apply vals_are].
  - induction ts as [|x ts IHt]; cbn [map]; constructor; [apply IH|exact IHt].
Qed.

Lemma dyn_app l l2 : Z.of_nat (length (filter dynamic (l ++ l2))) = Z.of_nat (length (filter dynamic l)) + Z.of_nat (length (filter dynamic l2)).
Proof. rewrite filter_app, app_length. lia. Qed.

Lemma vals_count vs : fold_right Z.add 0 (map word_count (map val_cls vs)) = Z.of_nat (length (filter dynamic vs)).
Proof. induction vs as [|[z|z|] vs IH]; cbn [map fold_right filter dynamic length word_count val_cls] in *; lia. Qed.

Lemma view_vals_ok v : view_vals v = numbers_of_view v.
Proof. destruct v; reflexivity. Qed.

Lemma struct_count s : word_count (struct_cls s) = dyn_count s.
Proof.
  revert s. fix IH 1. intros [c|d ts|d t|v t|ts]; unfold dyn_count; cbn [struct_cls numbers word_count]; rewrite ?view_vals_ok.
  - reflexivity.
  - induction ts as [|x ts IHt]; [reflexivity|]. cbn [map fold_right flat_map]. rewrite dyn_app, IHt, IH. reflexivity.
  - cbn [map fold_right]. rewrite IH. unfold dyn_count. lia.
  - cbn [map fold_right]. rewrite IH, dyn_app, vals_count. reflexivity.
  - induction ts as [|x ts IHt]; [reflexivity|]. cbn [map fold_right flat_map]. rewrite dyn_app, IHt, IH. reflexivity.
Qed.

Lemma bytes_inj n : forall x y, 0 <= x < 256 ^ Z.of_nat n -> 0 <= y < 256 ^ Z.of_nat n -> bytes_of n x = bytes_of n y -> x = y.
Proof.
  induction n as [|n IH]; intros x y Hx Hy H; [cbn in *; lia|]. cbn [bytes_of] in H. injection H as H1 H2. rewrite Nat2Z.inj_succ, Z.pow_succ_r in Hx, Hy by lia.
  assert (x / 256 = y / 256). { apply IH; [| |exact H2]; (split; [apply Z.div_pos; lia|apply Z.div_lt_upper_bound; lia]). }
  rewrite (Z.div_mod x 256), (Z.div_mod y 256) by lia. congruence.
Qed.

Lemma val_inj v v2 : val_cls v = val_cls v2 -> val_obj v = val_obj v2 -> v <> Undef -> v2 <> Undef -> vz v = vz v2.
Proof.
  destruct v as [z|z|], v2 as [z2|z2|]; cbn [val_cls val_obj]; intros H1 H2 H3 H4; try congruence.
  - injection H1 as H1. cbn [vz]. congruence.
  - cbn [vz]. f_equal. apply (bytes_inj 8); [| |injection H2 as H2a; cbn [bytes_of]; congruence]; pose proof (u64_range z); pose proof (u64_range z2); rewrite W_eq in *; lia.
Qed.

Lemma word_inj v v2 : val_cls v = val_cls v2 -> val_obj v = val_obj v2 -> is_word v -> is_word v2 -> v = v2.
Proof.
  intros H1 H2 H3 H4. assert (E : vz v = vz v2) by (apply val_inj; auto; intros ->; assumption).
  destruct v as [z|z|], v2 as [z2|z2|]; cbn [is_word vz val_cls] in *; try discriminate; try contradiction; injection E as E; rewrite !u64_small in E by assumption; congruence.
Qed.

Lemma words_inj vs : forall vs2, map val_cls vs = map val_cls vs2 -> map val_obj vs = map val_obj vs2 -> Forall is_word vs -> Forall is_word vs2 -> vs = vs2.
Proof.
  induction vs as [|v vs IH]; intros [|v2 vs2] H1 H2 Hu Hu2; cbn [map] in *; try discriminate; [reflexivity|]. injection H1 as H1 H1'. injection H2 as H2 H2'.
  inversion Hu; inversion Hu2; subst. f_equal; [apply word_inj; assumption|apply IH; assumption].
Qed.

Lemma rename_name_inj : forall ps ps2 : list (dim * dim), flat_map (fun p => [fst p; snd p]) ps = flat_map (fun p => [fst p; snd p]) ps2 -> ps = ps2.
Proof.
  induction ps as [|[x y] ps IH]; intros [|[x2 y2] ps2] H; cbn [flat_map app fst snd] in H; try discriminate; [reflexivity|]. injection H as -> -> H. now rewrite (IH _ H).
Qed.

(** A view is determined by its name and its numbers. *)
Lemma view_inj v v2 : view_name v = view_name v2 -> numbers_of_view v = numbers_of_view v2 -> v = v2.
Proof.
  destruct v, v2; cbn [view_name numbers_of_view]; intros H1 H2; try discriminate H1; injection H1; try injection H2; intros; subst; try reflexivity.
  - f_equal; apply Nat2Z.inj; assumption.
  - f_equal. apply rename_name_inj. assumption.
Qed.

Lemma struct_inj s : forall s2, struct_cls s = struct_cls s2 -> struct_obj s = struct_obj s2 -> Forall is_word (numbers s) -> Forall is_word (numbers s2) -> s = s2.
Proof.
  assert (Hl : forall ts, Forall (fun s => forall s2, struct_cls s = struct_cls s2 -> struct_obj s = struct_obj s2 -> Forall is_word (numbers s) -> Forall is_word (numbers s2) -> s = s2) ts ->
            forall ts2, map struct_cls ts = map struct_cls ts2 -> map struct_obj ts = map struct_obj ts2 ->
            Forall is_word (flat_map numbers ts) -> Forall is_word (flat_map numbers ts2) -> ts = ts2).
  { induction 1 as [|x ts Hx _ IHt]; intros [|y ts2] H1 H2 Hu Hu2; cbn [map flat_map] in *; try discriminate; [reflexivity|]. injection H1 as H1 H1'. injection H2 as H2 H2'.
    apply Forall_app in Hu, Hu2. destruct Hu, Hu2. f_equal; [apply Hx; assumption|apply IHt; assumption]. }
  induction s as [c|d ts IH|d t IH|v t IH|ts IH] using struct_ind'; intros [c2|d2 ts2|d2 t2|v2 t2|ts2]; cbn [struct_cls struct_obj numbers]; intros H1 H2 Hu Hu2; try discriminate H1.
  - destruct c, c2. cbn in H1. congruence.
  - injection H1 as -> H1. injection H2 as H2. f_equal. apply Hl; assumption.
  - injection H1 as -> H1. injection H2 as H2. f_equal. apply IH; assumption.
  - injection H1 as H0 H1 H1'. injection H2 as H2 H2'. rewrite !view_vals_ok in *. apply Forall_app in Hu, Hu2. destruct Hu, Hu2.
    rewrite (IH t2), (view_inj v v2); auto. apply words_inj; assumption.
  - injection H1 as H1. injection H2 as H2. f_equal. apply Hl; assumption.
Qed.

(** ** The statements of C53 *)

Lemma get_api n ms vs i a m : Forall a_type ms -> Forall2 is_a ms vs ->
  get_member read ms i a (put (Class n ms) (OClass vs) a m) = nth_error vs i.
Proof. intros Ht Hv. apply get_ok; assumption. Qed.

Lemma put_api c v a m : a_type c -> is_a c v ->
  stands c v a (put c v a m) /\ untouched_but a (if empty_cls c then 0 else sizeof c) m (put c v a m).
Proof.
  intros Ht Hv. split; [apply read_back; assumption|]. intros x Hx. destruct (empty_cls c) eqn:E; [now rewrite put_empty|]. apply put_frame; assumption.
Qed.

Lemma parts_api c a : a_type c -> (alignof c | a) ->
  Forall (part_fits a (sizeof c)) (parts c a) /\ ForallOrdPairs parts_apart (parts c a).
Proof. intros Ht Ha. apply parts_fine; assumption. Qed.

Lemma copy_api c v a b m m2 : a_type c -> is_a c v -> stands c v a m -> (forall k, 0 <= k < sizeof c -> m2 (b + k) = m (a + k)) -> stands c v b m2.
Proof.
  intros Ht Hv Hs Hm. unfold stands in *. rewrite <- Hs. clear Hs Hv.
  (* reading at another address *)
  assert (Hshift : forall c, a_type c -> forall a b m, read c b (fun x => m (x - b + a)) = read c a m).
  { clear. intros c. induction c as [s al|i|n ms IH] using cls_ind2; intros Ht a b m.
    - cbn [read]. f_equal. unfold peek. apply map_ext. intros k. f_equal. lia.
    - reflexivity.
    - cbn [read]. f_equal. apply map_ext. intros i. inversion Ht as [| |? ? Hms]; subst.
      assert (Hg : get_member read ms i b (fun x => m (x - b + a)) = get_member read ms i a m); [|now rewrite Hg].
      clear Ht. revert i a b. induction ms as [|t ts IHt]; intros i a b; [reflexivity|]. inversion IH as [|? ? I1 I2]; inversion Hms as [|? ? M1 M2]; subst. destruct ts as [|t2 ts].
      + cbn [get_member]. destruct i; [|reflexivity]. destruct (empty_cls t); [reflexivity|]. now rewrite I1.
      + rewrite !get_more.
        assert (Hr : forall o, read t (b + o) (fun x => m (x - b + a)) = read t (a + o) m).
        { intros o. rewrite <- (I1 M1 (a + o) (b + o) m). apply read_within; [exact M1|]. intros x _. f_equal. lia. }
        assert (Hr0 : read t b (fun x => m (x - b + a)) = read t a m) by (apply I1; exact M1).
        assert (Hg : forall i o, get_member read (t2 :: ts) i (b + o) (fun x => m (x - b + a)) = get_member read (t2 :: ts) i (a + o) m).
        { intros j o. rewrite <- (IHt I2 M2 j (a + o) (b + o)). apply get_within; [rewrite Forall_forall; intros c _; apply read_within|exact M2|]. intros x _. f_equal. lia. }
        destruct i; [destruct (empty_cls t), (forallb empty_cls (t2 :: ts)); rewrite ?Hr, ?Hr0; reflexivity|].
        destruct (empty_cls t); [apply IHt; assumption|]. destruct (forallb empty_cls (t2 :: ts)); [apply IHt; assumption|apply Hg]. }
  rewrite <- (Hshift c Ht a b m). apply read_within; [exact Ht|]. intros x Hx. specialize (Hm (x - b) ltac:(lia)). replace (b + (x - b)) with x in Hm by lia. rewrite Hm. f_equal. lia.
Qed.

Lemma space_api c : words c -> empty_cls c = false ->
  8 * word_count c <= sizeof c <= 8 * (word_count c + Z.of_nat (length (empties c))) /\ (NoDup (empties c) -> sizeof c = 8 * word_count c).
Proof. intros Hw E. exact (proj2 (size_fine c Hw E)). Qed.

Lemma struct_space_api s : (empty_cls (struct_cls s) = true <-> dyn_count s = 0) /\
  (dyn_count s = 0 -> sizeof (struct_cls s) = 1) /\
  (0 < dyn_count s -> 8 * dyn_count s <= sizeof (struct_cls s)) /\
  (0 < dyn_count s -> NoDup (empties (struct_cls s)) -> sizeof (struct_cls s) = 8 * dyn_count s).
Proof.
  rewrite <- struct_count. pose proof (struct_words s) as Hw. destruct (empty_cls (struct_cls s)) eqn:E.
  - pose proof (count_empty _ E) as H. pose proof (empty_size _ (words_type _ Hw) E) as H2. repeat split; auto; lia.
  - pose proof (count_pos _ E) as H. destruct (space_api _ Hw E) as [H1 H2]. repeat split; auto; try lia; try discriminate.
Qed.

Lemma struct_bytes_api s s2 a b m m2 : struct_cls s = struct_cls s2 -> Forall is_word (numbers s) -> Forall is_word (numbers s2) ->
  stands (struct_cls s) (struct_obj s) a m -> stands (struct_cls s2) (struct_obj s2) b m2 ->
  (forall k, 0 <= k < sizeof (struct_cls s) -> m2 (b + k) = m (a + k)) -> s = s2.
Proof.
  intros Hc Hu Hu2 Hs Hs2 Hm. apply struct_inj; auto. pose proof (copy_api _ _ a b m m2 (words_type _ (struct_words s)) (struct_is s) Hs Hm) as H. unfold stands in *. rewrite Hc in H. congruence.
Qed.

Lemma join_app {A} (c1 c2 : list A) : contain_join c1 c2 = c1 ++ c2.
Proof.
  assert (H : forall l n, map (@snd nat A) (combine (seq n (length l)) l) = l). { induction l as [|x l IH]; intros n; cbn; [reflexivity|]. now rewrite IH. }
  unfold contain_join. now rewrite !H.
Qed.

Lemma cat_api {A} (cs : list (list A)) : contain_cat cs = concat cs.
Proof.
  destruct cs as [|c cs]; [reflexivity|]. cbn [contain_cat concat]. revert c. induction cs as [|c2 cs IH]; intros c; cbn [contain_cat_from concat]; [now rewrite app_nil_r|].
  rewrite IH, join_app. now rewrite app_assoc.
Qed.
