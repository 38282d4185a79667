(** * Threads that use different bytes *)

From Coq Require Import Permutation.
From Verif Require Import BagFacts.
From Verif Require Export SpecPar.

Definition locs := nat -> Prop.

Definition alike (b b' : bag) : Prop :=
  bg_struct b' = bg_struct b /\ bg_policy b' = bg_policy b /\ length (bg_data b') = length (bg_data b).

Lemma alike_refl b : alike b b. Proof. repeat split. Qed.
Lemma alike_sym b c : alike b c -> alike c b. Proof. intros (A & B & C). repeat split; congruence. Qed.
Lemma alike_trans b c d : alike b c -> alike c d -> alike b d. Proof. intros (A & B & C) (A' & B' & C'). repeat split; congruence. Qed.
Lemma alike_ref b c st : alike b c -> bag_ref c st = bag_ref b st.
Proof. intros (A & _ & C). apply ref_size; assumption. Qed.

Definition same_on (L : locs) (b c : bag) : Prop := alike b c /\ forall x, L x -> nth_error (bg_data c) x = nth_error (bg_data b) x.

(** The bytes of the element are in [L]. *)
Definition bytes_in (L : locs) (b : bag) (st : state) : Prop :=
  forall o n, bag_ref b st = Done (o, n) -> 0 <= o /\ 0 <= n /\ o + n <= Z.of_nat (length (bg_data b)) /\ forall x, (Z.to_nat o <= x < Z.to_nat o + Z.to_nat n)%nat -> L x.

Definition within (L : locs) (b : bag) (p : prog) : Prop := touches_only (bytes_in L b) p.

Lemma touches_mono (P Q : state -> Prop) : (forall st, P st -> Q st) -> forall p, touches_only P p -> touches_only Q p.
Proof. intros H p. induction p as [|st k IH|st v k IH]; cbn [touches_only]; [auto|intros [A B]; split; auto|intros [A B]; split; auto]. Qed.

Lemma within_alike L b c p : alike b c -> within L b p -> within L c p.
Proof.
  intros H. apply touches_mono. intros st Hb o n E. rewrite (alike_ref _ _ _ H) in E. destruct (Hb o n E) as (A & B & C & D).
  destruct H as (_ & _ & E'). rewrite E'. auto.
Qed.

Lemma read_inv b st v : bag_read b st = Done v -> exists o n, bag_ref b st = Done (o, n) /\ v = window (bg_data b) o n.
Proof. unfold bag_read. destruct (bag_ref b st) as [| |[o n]]; try discriminate. cbn [out_map]. intros H. injection H as <-. exists o, n. auto. Qed.

Lemma patch_nth data o v i : 0 <= o -> o + Z.of_nat (length v) <= Z.of_nat (length data) ->
  nth_error (patch data o v) i = if ((Z.to_nat o <=? i) && (i <? Z.to_nat o + length v))%nat then nth_error v (i - Z.to_nat o) else nth_error data i.
Proof. intros H0 H. rewrite <- (nth_patch data (Z.to_nat o) v i) by lia. rewrite Z2Nat.id by lia. reflexivity. Qed.

Lemma same_on_window L b c o n : same_on L b c -> (forall x, (Z.to_nat o <= x < Z.to_nat o + Z.to_nat n)%nat -> L x) -> window (bg_data c) o n = window (bg_data b) o n.
Proof.
  intros [_ H] Hin. apply nth_error_ext. intros i. unfold window. rewrite !nth_error_first, !nth_error_skip.
  destruct (Nat.ltb_spec i (Z.to_nat n)); [|reflexivity]. apply H, Hin. lia.
Qed.

Lemma acts_local L p b q b' c : acts p b q b' -> within L b p -> same_on L b c ->
  exists c', acts p c q c' /\ same_on L b' c' /\ within L b q /\ alike b b' /\ alike c c' /\
    (forall x, ~ L x -> nth_error (bg_data c') x = nth_error (bg_data c) x) /\ (forall x, ~ L x -> nth_error (bg_data b') x = nth_error (bg_data b) x).
Proof.
  intros Ha Hw Hs. pose proof Hs as [Hal Hon]. inversion Ha as [b0 st k v Er|b0 st v k b0' Ew]; subst.
  - destruct Hw as [Hb Hk]. destruct (read_inv _ _ _ Er) as (o & n & Eo & ->). destruct (Hb o n Eo) as (H0 & Hn & Hle & Hin).
    exists c. split.
    { assert (Ec : bag_read c st = Done (window (bg_data b') o n)).
      { unfold bag_read. rewrite (alike_ref _ _ _ Hal), Eo. cbn [out_map fst snd]. f_equal. exact (same_on_window L b' c o n Hs Hin). }
      apply acts_load. exact Ec. }
    split; [exact Hs|]. split; [apply Hk|]. split; [apply alike_refl|]. split; [apply alike_refl|]. split; auto.
  - destruct Hw as [Hb Hk]. destruct (write_inv _ _ _ _ Ew) as (o & Eo & Hp & Eb'). destruct (Hb _ _ Eo) as (H0 & Hn & Hle & Hin).
    set (c' := {| bg_struct := bg_struct c; bg_policy := bg_policy c; bg_data := patch (bg_data c) o v |}).
    assert (Hlc : o + Z.of_nat (length v) <= Z.of_nat (length (bg_data c))) by (destruct Hal as (_ & _ & ->); exact Hle).
    assert (A1 : alike b b').
    { rewrite Eb'. split; [reflexivity|]. split; [reflexivity|]. cbn [bg_data]. rewrite <- (Z2Nat.id o) by lia. apply patch_length. lia. }
    assert (A2 : alike c c').
    { split; [reflexivity|]. split; [reflexivity|]. cbn [bg_data c']. rewrite <- (Z2Nat.id o) by lia. apply patch_length. lia. }
    exists c'. split.
    { apply acts_store. unfold bag_write. rewrite (alike_ref _ _ _ Hal), Eo. cbn [out_bind fst snd]. rewrite Z.eqb_refl.
      pose proof Hal as (_ & Hpc & _). fold c'. rewrite Hpc. destruct (bg_policy b) eqn:Epb; [| |contradiction]; unfold c'; reflexivity. }
    assert (Hb' : forall x, nth_error (bg_data b') x = if ((Z.to_nat o <=? x) && (x <? Z.to_nat o + length v))%nat then nth_error v (x - Z.to_nat o) else nth_error (bg_data b) x)
      by (intros x; rewrite Eb'; cbn [bg_data]; apply patch_nth; assumption).
    assert (Hc' : forall x, nth_error (bg_data c') x = if ((Z.to_nat o <=? x) && (x <? Z.to_nat o + length v))%nat then nth_error v (x - Z.to_nat o) else nth_error (bg_data c) x)
      by (intros x; cbn [bg_data c']; apply patch_nth; assumption).
    assert (Hout : forall x, ~ L x -> ((Z.to_nat o <=? x) && (x <? Z.to_nat o + length v))%nat = false).
    { intros x Hx. apply not_true_is_false. intros E. apply andb_true_iff in E. destruct E as [E1 E2]. apply Nat.leb_le in E1. apply Nat.ltb_lt in E2.
      apply Hx, Hin. rewrite Nat2Z.id. lia. }
    split.
    { split; [eapply alike_trans; [apply alike_sym; exact A1|]; eapply alike_trans; [exact Hal|exact A2]|]. intros x Hx. rewrite Hb', Hc'. destruct (_ && _)%bool; auto. }
    split; [exact Hk|]. split; [exact A1|]. split; [exact A2|]. split; intros x Hx; [rewrite Hc'|rewrite Hb']; rewrite (Hout x Hx); reflexivity.
Qed.

Lemma acts_det p b q b' q' b'' : acts p b q b' -> acts p b q' b'' -> q = q' /\ b' = b''.
Proof. intros H1 H2. inversion H1; subst; inversion H2; subst; split; congruence. Qed.

(** ** A call alone *)

Inductive alone : prog -> bag -> prog -> bag -> Prop :=
| alone_refl p b : alone p b p b
| alone_more p b q c q' c' : alone p b q c -> acts q c q' c' -> alone p b q' c'.

Lemma alone_first p b q b' r c : acts p b q b' -> alone q b' r c -> alone p b r c.
Proof. intros H A. induction A as [q b'|q b' r c r' c' A IH Hs]; [eapply alone_more; [apply alone_refl|exact H]|]. eapply alone_more; [apply IH; exact H|exact Hs]. Qed.

Lemma alone_trans p b q c r d : alone p b q c -> alone q c r d -> alone p b r d.
Proof. intros H A. induction A as [|q c r d r' d' A IH Hs]; [exact H|]. eapply alone_more; [apply IH; exact H|exact Hs]. Qed.

(** An unfinished run continues to the end. *)
Lemma alone_continue p b q c d : alone p b q c -> alone p b Stop d -> alone q c Stop d.
Proof.
  intros H. induction H as [p b|p b q c q' c' H IH Hs]; intros E; [exact E|]. specialize (IH E). clear - IH Hs.
  assert (Hinv : forall q c r d, alone q c r d -> (q = r /\ c = d) \/ exists q1 c1, acts q c q1 c1 /\ alone q1 c1 r d).
  { clear. intros q c r d A. induction A as [p b|p b q c q' c' A IH Hs]; [left; auto|]. right.
    destruct IH as [[-> ->]|(q1 & c1 & H1 & H2)]; [exists q', c'; split; [exact Hs|apply alone_refl]|exists q1, c1; split; [exact H1|eapply alone_more; eauto]]. }
  destruct (Hinv _ _ _ _ IH) as [[-> ->]|(q1 & c1 & H1 & H2)]; [inversion Hs|]. destruct (acts_det _ _ _ _ _ _ Hs H1) as [<- <-]. exact H2.
Qed.

Lemma alone_progress q c d : alone q c Stop d -> q = Stop \/ exists q1 c1, acts q c q1 c1.
Proof.
  remember Stop as r. intros A. induction A as [p b|p b q c q' c' A IH Hs]; [auto|].
  clear IH. right. clear Heqr. revert Hs. revert q' c'. induction A as [p b|p b q c q2 c2 A IH Hs2]; intros q' c' Hs; [eauto|]. eapply IH. exact Hs2.
Qed.

Lemma alone_unique p b d d' : alone p b Stop d -> alone p b Stop d' -> d = d'.
Proof.
  intros H H'. pose proof (alone_continue _ _ _ _ _ H H') as A. clear - A.
  assert (Hn : forall q c r d, alone q c r d -> q = Stop -> r = Stop /\ c = d).
  { clear. intros q c r d A. induction A as [|p b q c q' c' A IH Hs]; intros E; [auto|]. destruct (IH E) as [-> _]. inversion Hs. }
  destruct (Hn _ _ _ _ A eq_refl) as [_ E]. exact E.
Qed.

Lemma run_alone p : forall b d, run p b = Done d -> alone p b Stop d.
Proof.
  induction p as [|st k IH|st v k IH]; intros b d E; cbn [run] in E.
  - injection E as <-. apply alone_refl.
  - destruct (bag_read b st) as [| |v] eqn:Er; try discriminate. eapply alone_first; [apply acts_load; exact Er|]. apply IH. exact E.
  - destruct (bag_write b st v) as [| |b'] eqn:Ew; try discriminate. eapply alone_first; [apply acts_store; exact Ew|]. apply IH. exact E.
Qed.

(** ** Many calls *)

Record call := { c_prog : prog; c_locs : locs; c_now : prog; c_bag : bag }.
Definition given (c : call) : prog * locs := (c_prog c, c_locs c).
Definition apart_locs (L M : locs) : Prop := forall x, L x -> M x -> False.
Definition all_apart (us : list (prog * locs)) : Prop := ForallOrdPairs (fun u v => apart_locs (snd u) (snd v)) us.

Lemma all_apart_perm us vs : Permutation us vs -> all_apart us -> all_apart vs.
Proof.
  intros P. induction P as [|x us vs P IH|x y us|us vs ws P1 IH1 P2 IH2]; intros H; auto.
  - inversion H as [|? ? F R]; subst. constructor; [|apply IH; exact R]. rewrite Forall_forall in *. intros z Hz. apply F. eapply Permutation_in; [symmetry; exact P|exact Hz].
  - inversion H as [|? ? F R]; subst. inversion R as [|? ? F' R']; subst. inversion F as [|? ? F1 F2]; subst. constructor; [|constructor; assumption].
    constructor; [|exact F']. intros z Hz1 Hz2. exact (F1 z Hz2 Hz1).
Qed.

Section Threads.
  Variables (b0 : bag) (us : list (prog * locs)).
  Hypothesis Hapart : all_apart us.
  Hypothesis Hwithin : forall u, In u us -> within (snd u) b0 (fst u).

  Definition call_ok (b : bag) (c : call) : Prop :=
    alone (c_prog c) b0 (c_now c) (c_bag c) /\ within (c_locs c) b0 (c_now c) /\ same_on (c_locs c) b (c_bag c).

  (** Every call has got as far as it would have got alone. *)
  Definition reached (ths : list (list prog)) (b : bag) : Prop :=
    exists ended cs, map (map c_now) cs = ths /\ (forall c, In c ended -> c_now c = Stop) /\
      Permutation (map given (ended ++ concat cs)) us /\ alike b0 b /\ (forall c, In c (ended ++ concat cs) -> call_ok b c) /\
      (forall x, (forall u, In u us -> ~ snd u x) -> nth_error (bg_data b) x = nth_error (bg_data b0) x).

  Lemma reached_start ths : Permutation (concat ths) us -> reached (map (map fst) ths) b0.
  Proof.
    intros P. exists [], (map (map (fun u => {| c_prog := fst u; c_locs := snd u; c_now := fst u; c_bag := b0 |})) ths).
    split. { rewrite map_map. apply map_ext. intros l. rewrite map_map. reflexivity. }
    split; [intros c []|]. cbn [app]. rewrite concat_map, map_map.
    assert (E : forall l : list (prog * locs), map given (map (fun u => {| c_prog := fst u; c_locs := snd u; c_now := fst u; c_bag := b0 |}) l) = l).
    { intros l. rewrite map_map. rewrite <- (map_id l) at 2. apply map_ext. intros [p L]. reflexivity. }
    split. { rewrite (map_ext _ _ E), map_id. exact P. }
    split; [apply alike_refl|]. split; [|auto]. intros c Hc. apply in_concat in Hc. destruct Hc as (l & Hl & Hc). apply in_map_iff in Hl. destruct Hl as (l0 & <- & Hl0).
    apply in_map_iff in Hc. destruct Hc as (u & <- & Hu). unfold call_ok. cbn [c_prog c_now c_bag c_locs]. split; [apply alone_refl|].
    split; [apply Hwithin; eapply Permutation_in; [exact P|]; apply in_concat; eauto|]. split; [apply alike_refl|auto].
  Qed.

  Lemma split_map {A B} (g : A -> B) l x y z : map g l = x ++ y :: z -> exists l1 a l2, l = l1 ++ a :: l2 /\ map g l1 = x /\ g a = y /\ map g l2 = z.
  Proof.
    revert l. induction x as [|x0 x IH]; intros l E; cbn [app] in E.
    - destruct l as [|a l]; [discriminate|]. injection E as E1 E2. exists [], a, l. auto.
    - destruct l as [|a l]; [discriminate|]. injection E as E1 E2. destruct (IH l E2) as (l1 & a' & l2 & -> & A1 & A2 & A3). exists (a :: l1), a', l2. cbn [app map]. rewrite A1, E1. auto.
  Qed.

  Lemma concat_mid {A} (l1 : list (list A)) a l l2 : Permutation (concat (l1 ++ (a :: l) :: l2)) (a :: concat (l1 ++ l :: l2)).
  Proof. rewrite !concat_app. cbn [concat app]. symmetry. apply Permutation_middle. Qed.

  Lemma reached_step ths b ths' b' : reached ths b -> step ths b ths' b' -> reached ths' b'.
  Proof.
    intros (ended & cs & E & He & P & Hal & Hok & Hrest) Hs. inversion Hs as [t1 t2 r bb E1 E2 E3 E4|t1 t2 p q r bb bb' Ha E1 E2 E3 E4]; subst.
    - symmetry in E1. apply split_map in E1. destruct E1 as (cs1 & c0 & cs2 & -> & <- & Ec & <-). destruct c0 as [|c c0]; [discriminate|]. cbn [map] in Ec. injection Ec as Ec <-.
      exists (c :: ended), (cs1 ++ c0 :: cs2). split; [rewrite map_app; reflexivity|].
      assert (P' : Permutation (ended ++ concat (cs1 ++ (c :: c0) :: cs2)) ((c :: ended) ++ concat (cs1 ++ c0 :: cs2))).
      { rewrite (concat_mid cs1 c c0 cs2). cbn [app]. symmetry. apply Permutation_middle. }
      split; [intros c' [<-|Hc']; auto|]. split; [rewrite <- (Permutation_map given P'); exact P|]. split; [exact Hal|]. split; [|exact Hrest].
      intros c' Hc'. apply Hok. eapply Permutation_in; [symmetry; exact P'|exact Hc'].
    - symmetry in E1. apply split_map in E1. destruct E1 as (cs1 & c0 & cs2 & -> & <- & Ec & <-). destruct c0 as [|c c0]; [discriminate|]. cbn [map] in Ec. injection Ec as Ec <-.
      assert (P' : Permutation (ended ++ concat (cs1 ++ (c :: c0) :: cs2)) (c :: ended ++ concat (cs1 ++ c0 :: cs2))).
      { rewrite (concat_mid cs1 c c0 cs2). symmetry. apply Permutation_middle. }
      destruct (Hok c) as (Hc1 & Hc2 & Hc3). { eapply Permutation_in; [symmetry; exact P'|left; reflexivity]. }
      rewrite Ec in *.
      destruct (acts_local (c_locs c) p b q b' (c_bag c) Ha (within_alike _ _ _ _ Hal Hc2) Hc3) as (d & Hd & Hon & Hw & Hbb & Hcd & Hout & Hout').
      set (c' := {| c_prog := c_prog c; c_locs := c_locs c; c_now := q; c_bag := d |}).
      assert (P'' : Permutation (ended ++ concat (cs1 ++ (c' :: c0) :: cs2)) (c' :: ended ++ concat (cs1 ++ c0 :: cs2))).
      { rewrite (concat_mid cs1 c' c0 cs2). symmetry. apply Permutation_middle. }
      assert (Pg : Permutation (given c :: map given (ended ++ concat (cs1 ++ c0 :: cs2))) us) by (rewrite <- P; symmetry; exact (Permutation_map given P')).
      exists ended, (cs1 ++ (c' :: c0) :: cs2). split; [rewrite map_app; cbn [map c_now c']; reflexivity|]. split; [exact He|].
      split; [rewrite (Permutation_map given P''); exact Pg|]. split; [eapply alike_trans; eauto|]. split.
      + intros e Hin. apply (Permutation_in e P'') in Hin. destruct Hin as [<-|Hin].
        * unfold call_ok. cbn [c_prog c_now c_bag c_locs c']. split; [eapply alone_more; [exact Hc1|exact Hd]|]. split; [|exact Hon].
          eapply within_alike; [apply alike_sym; exact Hal|exact Hw].
        * destruct (Hok e) as (He1 & He2 & He3). { eapply Permutation_in; [symmetry; exact P'|right; exact Hin]. }
          split; [exact He1|]. split; [exact He2|]. destruct He3 as [He3 He4]. split; [eapply alike_trans; [apply alike_sym; exact Hbb|exact He3]|].
          intros x Hx. rewrite Hout'; [apply He4; exact Hx|]. intros Hcx.
          pose proof (all_apart_perm _ _ (Permutation_sym Pg) Hapart) as Hap. inversion Hap as [|? ? F _]; subst. rewrite Forall_forall in F.
          exact (F (given e) (in_map given _ _ Hin) x Hcx Hx).
      + intros x Hx. rewrite Hout'; [apply Hrest; exact Hx|]. intros Hcx. apply (Hx (given c)); [|exact Hcx]. eapply Permutation_in; [exact Pg|left; reflexivity].
  Qed.

  Lemma reached_steps ths b ths' b' : reached ths b -> steps ths b ths' b' -> reached ths' b'.
  Proof. intros H S. induction S as [|ths b ths' b' ths'' b'' S IH Hs]; [exact H|]. eapply reached_step; [apply IH; exact H|exact Hs]. Qed.

  (** Everything is determined by the calls alone. *)
  Lemma reached_end ths b : reached ths b -> finished ths -> exists cs, Permutation (map given cs) us /\ alike b0 b /\
    (forall c, In c cs -> alone (c_prog c) b0 Stop (c_bag c) /\ same_on (c_locs c) b (c_bag c)) /\
    (forall x, (forall u, In u us -> ~ snd u x) -> nth_error (bg_data b) x = nth_error (bg_data b0) x).
  Proof.
    intros (ended & cs & E & He & P & Hal & Hok & Hrest) Hf. assert (Ec : concat cs = []).
    { subst ths. clear - Hf. induction cs as [|l cs IH]; [reflexivity|]. inversion Hf as [|? ? H1 H2]; subst. destruct l; [|discriminate]. cbn [concat app]. apply IH. exact H2. }
    rewrite Ec, app_nil_r in *. exists ended. split; [exact P|]. split; [exact Hal|]. split; [|exact Hrest].
    intros c Hc. destruct (Hok c Hc) as (A & _ & B). rewrite (He c Hc) in A. auto.
  Qed.

  Lemma ends_equal ths1 ths2 b1 b2 : reached ths1 b1 -> finished ths1 -> reached ths2 b2 -> finished ths2 -> b1 = b2.
  Proof.
    intros R1 F1 R2 F2. destruct (reached_end _ _ R1 F1) as (cs1 & P1 & A1 & C1 & D1). destruct (reached_end _ _ R2 F2) as (cs2 & P2 & A2 & C2 & D2).
    assert (Hc : forall u, In u us -> exists d, alone (fst u) b0 Stop d /\ same_on (snd u) b1 d /\ same_on (snd u) b2 d).
    { intros u Hu. pose proof (Permutation_in u (Permutation_sym P1) Hu) as H1. pose proof (Permutation_in u (Permutation_sym P2) Hu) as H2.
      apply in_map_iff in H1. destruct H1 as (c1 & E1 & I1). apply in_map_iff in H2. destruct H2 as (c2 & E2 & I2).
      destruct (C1 c1 I1) as [X1 Y1]. destruct (C2 c2 I2) as [X2 Y2]. subst u. unfold given in E2. injection E2 as Ep El. rewrite Ep in X2. rewrite El in Y2.
      rewrite <- (alone_unique _ _ _ _ X1 X2) in Y2. exists (c_bag c1). auto. }
    assert (Hd : bg_data b1 = bg_data b2).
    { apply nth_error_ext. intros x.
      assert (Hdec : {nth_error (bg_data b1) x = nth_error (bg_data b2) x} + {nth_error (bg_data b1) x <> nth_error (bg_data b2) x})
        by (destruct (nth_error (bg_data b1) x) as [y1|], (nth_error (bg_data b2) x) as [y2|]; try (right; congruence); [destruct (Z.eq_dec y1 y2); [left|right]; congruence|left; reflexivity]).
      destruct Hdec as [E|N]; [exact E|]. exfalso. apply N.
      assert (Hno : forall u, In u us -> ~ snd u x).
      { intros u Hu Hx. destruct (Hc u Hu) as (d & _ & [_ S1] & [_ S2]). apply N. rewrite <- (S1 x Hx), <- (S2 x Hx). reflexivity. }
      rewrite (D1 x Hno), (D2 x Hno). reflexivity. }
    destruct A1 as (A1 & B1 & _), A2 as (A2 & B2 & _). destruct b1, b2. cbn in *. congruence.
  Qed.

  (** A call that finishes alone is never stuck. *)
  Lemma reached_progress ths b : (forall u, In u us -> exists d, alone (fst u) b0 Stop d) -> reached ths b ->
    forall t1 p r t2, ths = t1 ++ (p :: r) :: t2 -> p = Stop \/ exists q b', acts p b q b'.
  Proof.
    intros Hend (ended & cs & E & He & P & Hal & Hok & Hrest) t1 p r t2 E1. rewrite E1 in E. apply split_map in E.
    destruct E as (cs1 & c0 & cs2 & -> & _ & Ec & _). destruct c0 as [|c c0]; [discriminate|]. cbn [map] in Ec. injection Ec as Ec _.
    assert (Hin : In c (ended ++ concat (cs1 ++ (c :: c0) :: cs2))) by (apply in_or_app; right; apply in_concat; exists (c :: c0); split; [apply in_or_app; right; left; reflexivity|left; reflexivity]).
    destruct (Hok c Hin) as (Hc1 & Hc2 & Hc3). rewrite Ec in *.
    destruct (Hend (given c)) as (d & Hd). { eapply Permutation_in; [exact P|]. apply in_map. exact Hin. }
    pose proof (alone_continue _ _ _ _ _ Hc1 Hd) as A. destruct (alone_progress _ _ _ A) as [->|(q & e & Hq)]; [left; reflexivity|right].
    assert (Hs : same_on (c_locs c) (c_bag c) b). { destruct Hc3 as [Hl Ho]. split; [apply alike_sym; exact Hl|]. intros x Hx. symmetry. apply Ho. exact Hx. }
    destruct (acts_local (c_locs c) p (c_bag c) q e b Hq) as (b' & Hb' & _); [eapply within_alike; [|exact Hc2]; eapply alike_trans; [exact Hal|apply Hc3]|exact Hs|eauto].
  Qed.
End Threads.

(** ** One thread makes the calls one after another *)

Lemma steps_first ths b ths' b' ths'' b'' : step ths b ths' b' -> steps ths' b' ths'' b'' -> steps ths b ths'' b''.
Proof. intros H S. induction S as [ths' b'|ths' b' x y z w S IH Hs]; [eapply steps_more; [apply steps_refl|exact H]|]. eapply steps_more; [apply IH; exact H|exact Hs]. Qed.

Lemma steps_alone p b q c r : alone p b q c -> steps [p :: r] b [q :: r] c.
Proof.
  intros A. induction A as [p b|p b q c q' c' A IH Hs]; [apply steps_refl|]. eapply steps_more; [exact IH|]. exact (step_acts [] [] q q' r c c' Hs).
Qed.

Lemma steps_app ths b ths' b' ths'' b'' : steps ths b ths' b' -> steps ths' b' ths'' b'' -> steps ths b ths'' b''.
Proof. intros H S. induction S as [|ths' b' x y z w S IH Hs]; [exact H|]. eapply steps_more; [apply IH; exact H|exact Hs]. Qed.

Lemma run_all_steps ps : forall b d, run_all ps b = Done d -> steps [ps] b [[]] d.
Proof.
  induction ps as [|p ps IH]; intros b d E; cbn [run_all] in E; [injection E as <-; apply steps_refl|].
  destruct (run p b) as [| |c] eqn:Er; try discriminate. cbn [out_bind] in E. eapply steps_app; [apply (steps_alone p b Stop c ps); apply run_alone; exact Er|].
  eapply steps_first; [exact (step_next [] [] ps c)|]. apply IH. exact E.
Qed.

Theorem threads_deterministic b0 (us : list (prog * locs)) (ths : list (list (prog * locs))) result :
  all_apart us -> (forall u, In u us -> within (snd u) b0 (fst u)) -> Permutation (concat ths) us -> run_all (map fst us) b0 = Done result ->
  always_ends_in (map (map fst) ths) b0 result.
Proof.
  intros Hap Hw P Hrun ths' b' S.
  assert (R0 : reached b0 us [[]] result).
  { eapply reached_steps; [exact Hap|apply (reached_start b0 us Hw [us]); cbn [concat]; rewrite app_nil_r; reflexivity|]. cbn [map]. apply run_all_steps. exact Hrun. }
  assert (R : reached b0 us ths' b') by (eapply reached_steps; [exact Hap|apply (reached_start b0 us Hw ths P)|exact S]).
  assert (F0 : finished [[] : list prog]) by (constructor; [reflexivity|constructor]).
  split.
  - eapply reached_progress; [|exact R]. intros u Hu. destruct (reached_end _ _ _ _ R0 F0) as (cs & Pc & _ & C & _).
    pose proof (Permutation_in u (Permutation_sym Pc) Hu) as H. apply in_map_iff in H. destruct H as (c & <- & Hc). destruct (C c Hc) as [A _]. exists (c_bag c). exact A.
  - intros F. eapply ends_equal; [exact R|exact F|exact R0|exact F0].
Qed.
