(** * Programs that name elements by their indices: which ones compile *)

From Verif Require Export AgnosticThms.
From Verif Require Import SpecAgnostic.

Definition has_dim_dec s q : {has_dim s q} + {~ has_dim s q}.
Proof. unfold has_dim. destruct (signature s) as [sg|]; [|right; tauto]. destruct (any_accept q sg); [left; reflexivity|right; discriminate]. Defined.

Lemma plain_types s st st' : plainly_named s st -> plainly_named s st' -> same_entry_types (mentions s) st st'.
Proof.
  intros [L1 P1] [L2 P2] d Hd. rewrite (L1 d), (L2 d). split; [|exact I]. destruct (P1 d Hd) as [A1 B1]. destruct (P2 d Hd) as [A2 B2].
  destruct (has_dim_dec s d) as [H|H]; [destruct (A1 H) as [i ->]; destruct (A2 H) as [j ->]; reflexivity|rewrite (B1 H), (B2 H); exact I].
Qed.

(** Whether a plain access compiles does not depend on the indices. *)
Lemma access_alike b st st' : signature (bg_struct b) <> None -> plainly_named (bg_struct b) st -> plainly_named (bg_struct b) st' -> bag_ref b st <> Rejected -> bag_ref b st' <> Rejected.
Proof.
  intros Hs H1 H2 H. pose proof (plain_types _ _ _ H1 H2) as Ht. set (s := bg_struct b) in *.
  assert (Hr : struct_rel same_vtype s s) by (apply struct_rel_refl; reflexivity).
  destruct (compile_time s s st st' Hr Hs Ht) as (_ & _ & _ & _ & Ho & _).
  assert (Ec : scalar_t s st = scalar_t s st').
  { apply (scalar_t_rel same_vtype (mentions s)); [exact congruence_same_vtype|exact Hr|intros d Hd; exact Hd|exact Ht]. }
  unfold bag_ref in *. fold s in H |- *. rewrite Ec in H. destruct (scalar_t s st') as [c|]; [|contradiction]. destruct (offset s st) as [o|]; [|contradiction].
  destruct (offset s st') as [o'|]; [|destruct Ho]. destruct (vz o') as [x|]; [|discriminate]. destruct (_ <=? _); discriminate.
Qed.

Lemma good_signature b l : good_bag b l -> signature (bg_struct b) <> None.
Proof. intros ((H & _) & _) E. unfold nodep in H. rewrite E in H. discriminate. Qed.

Definition kind (b : bag) : struct * policy := (bg_struct b, bg_policy b).

Lemma bag_write_kind b st v b' : bag_write b st v = Done b' -> kind b' = kind b.
Proof.
  unfold bag_write. destruct (bg_policy b) eqn:Ep; try discriminate; destruct (bag_ref b st) as [| |[o n]]; try discriminate; cbn [out_bind fst snd];
    (destruct (_ =? _); [|discriminate]); intros E; injection E as <-; unfold kind; cbn; rewrite Ep; reflexivity.
Qed.

Lemma kind_nth bags0 bags b y : map kind bags = map kind bags0 -> nth_error bags0 b = Some y -> exists x, nth_error bags b = Some x /\ kind x = kind y.
Proof.
  revert b bags. induction bags0 as [|z bags0 IH]; intros [|b] [|x bags] E En; try discriminate; pose proof (f_equal (@tl _) E) as E2; cbn in En, E2.
  - injection En as <-. exists x. split; [reflexivity|]. injection E. unfold kind. congruence.
  - apply (IH b bags); [exact E2|exact En].
Qed.

Lemma kinds_all bags0 bags ns : map kind bags = map kind bags0 -> forall zs, omap (nth_error bags0) ns = Some zs -> exists ys, omap (nth_error bags) ns = Some ys /\ map kind ys = map kind zs.
Proof.
  intros E. induction ns as [|n ns IH]; intros zs Ez; cbn in Ez; [injection Ez as <-; exists []; auto|].
  destruct (nth_error bags0 n) as [z|] eqn:En; [|discriminate]. destruct (omap (nth_error bags0) ns) as [zs'|] eqn:Eo; [|discriminate]. injection Ez as <-.
  destruct (kind_nth _ _ _ _ E En) as (x & Ex & Hx). destruct (IH _ eq_refl) as (ys & Ey & Hy). exists (x :: ys). cbn. rewrite Ex, Ey. split; [reflexivity|cbn; congruence].
Qed.

Lemma kinds_structs ys zs : map kind ys = map kind zs -> map bg_struct ys = map bg_struct zs.
Proof. intros E. assert (H : forall l, map bg_struct l = map fst (map kind l)) by (intros l; rewrite map_map; reflexivity). rewrite !H, E. reflexivity. Qed.

Section Accepted.
  Variables (b y : bag) (a : array) (st : state) (is : list Z).
  Hypothesis Hh : holds_array b a.
  Hypothesis Hi : indices (ar_dims a) st = Some is.
  Hypothesis Hk : kind b = kind y.
  Hypothesis Hy : accessible y.
  Hypothesis Hp : plainly_named (bg_struct y) st.

  Lemma ref_accepted : bag_ref b st <> Rejected.
  Proof.
    destruct Hy as (st0 & P0 & R0). destruct Hh as (_ & Hg & _). injection Hk as Ek _.
    assert (R : bag_ref y st <> Rejected) by (apply (access_alike y st0 st); [rewrite <- Ek; exact (good_signature _ _ Hg)|exact P0|exact Hp|exact R0]).
    unfold bag_ref in *. rewrite Ek. destruct (scalar_t _ st) as [c|]; [|contradiction]. destruct (offset _ st) as [o|]; [|contradiction]. clear. destruct (vz o) as [x|]; [destruct (_ <=? _)|]; discriminate.
  Qed.

  Lemma read_done : bag_read b st = Done (ar_at a is).
  Proof.
    destruct (read_array b a st is Hh Hi) as [E|E]; [|exact E]. exfalso. apply ref_accepted. unfold bag_read in E. destruct (bag_ref b st); [reflexivity|discriminate|discriminate].
  Qed.

  Lemma write_done v c : ar_writable a = true -> bg_policy y <> ConstRaw -> scalar_t (bg_struct y) st = Some c -> Z.of_nat (length v) = ct_size c ->
    exists b', bag_write b st v = Done b' /\ kind b' = kind b /\ holds_array b' (update a is v).
  Proof.
    intros Hw Hc Es Hl. destruct (write_array b a st is Hh Hi v Hw) as [E|(b' & E & _ & H)]; [exfalso|exists b'; split; [exact E|]; split; [exact (bag_write_kind _ _ _ _ E)|exact H]].
    pose proof ref_accepted as Hr. pose proof (f_equal fst Hk) as Ek. pose proof (f_equal snd Hk) as Ep. cbn in Ek, Ep. rewrite <- Ep in Hc. rewrite <- Ek in Es. unfold bag_write in E.
    assert (E' : out_bind (bag_ref b st) (fun r => if Z.of_nat (length v) =? snd r then Done {| bg_struct := bg_struct b; bg_policy := bg_policy b; bg_data := patch (bg_data b) (fst r) v |} else Rejected) = Rejected)
      by (destruct (bg_policy b); [exact E|exact E|contradiction]).
    destruct (bag_ref b st) as [| |[o n]] eqn:Er; [contradiction|discriminate|]. cbn [out_bind snd] in E'. unfold bag_ref in Er. rewrite Es in Er. destruct (offset _ st) as [p|]; [|discriminate].
    destruct (vz p) as [x|]; [|discriminate]. destruct (_ <=? _); [|discriminate]. injection Er as _ <-. rewrite Hl, Z.eqb_refl in E'. discriminate.
  Qed.
End Accepted.

Theorem program_done {A} (p : program A) : forall bags0 bags xs r xs', hold bags xs -> map kind bags = map kind bags0 -> compiles p bags0 xs -> meaning p xs = Some (r, xs') ->
  exists bags', exec p bags = Done (r, bags') /\ hold bags' xs' /\ map kind bags' = map kind bags0.
Proof.
  induction p as [r0|b st k IH|b st v k IH|b d k IH|bs w ds k IH]; intros bags0 bags xs r xs' Hh Hk Hc E; cbn [meaning] in E; cbn [exec]; cbn [compiles] in Hc.
  - injection E as <- <-. exists bags. auto.
  - destruct (nth_error xs b) as [a|] eqn:En; [|discriminate]. cbn [obind] in E. destruct (indices (ar_dims a) st) as [is|] eqn:Ei; [|discriminate]. cbn [obind] in E.
    destruct Hc as ((y & Ey & Ha & Hp) & Hc). destruct (hold_nth _ _ _ _ _ Hh En) as (x & Ex & Hx). destruct (kind_nth _ _ _ _ Hk Ey) as (x' & Ex' & Hkx). rewrite Ex in Ex'. injection Ex' as <-.
    unfold with_bag. rewrite Ex, (read_done x y a st is Hx Ei Hkx Ha Hp). cbn [out_bind]. eapply IH; eauto.
  - destruct (nth_error xs b) as [a|] eqn:En; [|discriminate]. cbn [obind] in E. destruct (indices (ar_dims a) st) as [is|] eqn:Ei; [|discriminate]. cbn [obind] in E. destruct (ar_writable a) eqn:Ew; [|discriminate].
    destruct Hc as ((y & c & Ey & Ha & Hp & Hpol & Es & Hl) & Hc). destruct (hold_nth _ _ _ _ _ Hh En) as (x & Ex & Hx). destruct (kind_nth _ _ _ _ Hk Ey) as (x' & Ex' & Hkx). rewrite Ex in Ex'. injection Ex' as <-.
    destruct (write_done x y a st is Hx Ei Hkx Ha Hp v c Ew Hpol Es Hl) as (x' & Ew' & Hk' & Hx'). unfold with_bag. rewrite Ex, Ew'. cbn [out_bind].
    apply (IH bags0 (put b x' bags) (put b (update a is v) xs)); [exact (hold_put _ _ _ b x' _ Hh Hx')| |exact (Hc a is eq_refl Ei)|exact E]. rewrite <- Hk. eapply put_map; eauto.
  - destruct (nth_error xs b) as [a|] eqn:En; [|discriminate]. cbn [obind] in E. destruct (length_in d a) as [n|] eqn:El; [|discriminate]. cbn [obind] in E.
    destruct (hold_nth _ _ _ _ _ Hh En) as (x & Ex & Hx). unfold with_bag. rewrite Ex, (length_array x a d n Hx El). cbn [out_bind]. eapply IH; eauto.
  - destruct (omap (nth_error xs) bs) as [ys|] eqn:En; [|discriminate]. cbn [obind] in E. destruct (common ds ys) as [ls|] eqn:El; [|discriminate]. cbn [obind] in E.
    destruct Hc as ((zs0 & Ez0 & Hz0) & Hc). destruct (hold_all _ _ _ _ Hh _ En) as (zs & Ez & Hz). destruct (kinds_all _ _ bs Hk _ Ez0) as (zs' & Ez' & Hkz). rewrite Ez in Ez' |- *. injection Ez' as <-.
    destruct (calls_array w ds zs ys ls Hz El) as [H|(sts & -> & Es)]; [exfalso; apply Hz0; unfold calls_in in *; rewrite <- (kinds_structs _ _ Hkz); exact H|]. cbn [out_bind]. rewrite Es. eapply IH; eauto.
Qed.
