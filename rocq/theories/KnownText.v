(** * Structures whose lengths are known: text (C67) *)

From Verif Require Import PropsLayout KernelThms BagFacts ReduceBagThms KnownThms CopyFacts.
From Verif Require Import SpecAgnostic SpecKernel SpecKnown.

Lemma calls_known b lens : good_bag b lens -> lengths_known (bg_struct b) -> exists calls, for_each (traverser [bg_struct b]) [] = Done calls.
Proof.
  intros (Hc & Hs & _) Hk. pose proof (outs_defined _ _ Hc Hs) as H1.
  assert (H2 : for_each (traverser [bg_struct b]) [] <> Rejected).
  { apply known_traversal; [split; [eexists; reflexivity|constructor]|]. apply union_known; [discriminate|]. intros s [<-|[]]. exact Hk. }
  destruct (for_each _ []) as [| |calls]; try congruence. eauto.
Qed.

(** A named element of a bag whose lengths are known. *)
Lemma element_known b lens st : good_bag b lens -> lengths_known (bg_struct b) -> named (bg_struct b) (asg_of st) st -> in_box lens (asg_of st) ->
  exists c o, scalar_t (bg_struct b) st = Some c /\ bag_ref b st = Done (o, ct_size c).
Proof.
  intros Hb Hk Hn Hi. pose proof Hb as (_ & (Hw & _) & _).
  assert (Hnr : bag_ref b st <> Rejected) by (apply (known_ref b st Hk Hw (proj1 Hn)); intros d Hdd; destruct (proj2 Hn d Hdd) as (i & -> & _); discriminate).
  destruct (ref_named b lens Hb (asg_of st) st Hi Hn) as [H|(c' & _ & H & _)]; [contradiction|]. pose proof H as H'. unfold bag_ref in H'. destruct (scalar_t (bg_struct b) st) as [c|]; [|discriminate].
  exists c. destruct (offset _ st); [|discriminate]. destruct (vz _); [|discriminate]. destruct (_ <=? _); [|discriminate]. injection H' as E1 E2. rewrite E2. eauto.
Qed.

Theorem text_written print b lens : good_bag b lens -> NoDup (map fst lens) -> lengths_known (bg_struct b) -> exists txt, serialize print b = Done txt.
Proof.
  intros Hb Hnd Hk. destruct (calls_known b lens Hb Hk) as [calls E]. unfold serialize. rewrite E. cbn [out_bind].
  assert (Hc : forall st, In st calls -> named (bg_struct b) (asg_of st) st /\ in_box lens (asg_of st)) by (intros st Hst; exact (outs_named _ lens calls (proj1 Hb) (proj1 (proj2 Hb)) Hnd E st Hst)).
  clear E. induction calls as [|st calls IH]; [eexists; reflexivity|]. destruct (Hc st (or_introl eq_refl)) as [Hn Hi]. destruct (element_known b lens st Hb Hk Hn Hi) as (c & o & E1 & E2).
  destruct IH as [txt Et]; [intros s Hs; apply Hc; right; exact Hs|]. cbn [serialize_states]. rewrite E1. unfold bag_read. rewrite E2. cbn [out_map out_bind]. rewrite Et. eexists; reflexivity.
Qed.

Theorem text_read scan b lens inp : (forall c t v r, scan c t = Some (v, r) -> Z.of_nat (length v) = ct_size c) -> good_bag b lens -> NoDup (map fst lens) -> lengths_known (bg_struct b) -> bg_policy b <> ConstRaw ->
  exists b' r, deserialize scan inp b = Done (b', r).
Proof.
  intros Hsc Hb Hnd Hk Hp. destruct (calls_known b lens Hb Hk) as [calls E]. unfold deserialize. rewrite E. cbn [out_bind].
  assert (Hc : forall st, In st calls -> named (bg_struct b) (asg_of st) st /\ in_box lens (asg_of st)) by (intros st Hst; exact (outs_named _ lens calls (proj1 Hb) (proj1 (proj2 Hb)) Hnd E st Hst)).
  clear E. revert b inp Hb Hk Hp Hc. induction calls as [|st calls IH]; intros b inp Hb Hk Hp Hc; [do 2 eexists; reflexivity|]. destruct (Hc st (or_introl eq_refl)) as [Hn Hi]. destruct (element_known b lens st Hb Hk Hn Hi) as (c & o & E1 & E2).
  cbn [deserialize_states]. rewrite E1, E2. cbn [out_bind]. destruct (scan c inp) as [[v rest]|] eqn:Es; [|do 2 eexists; reflexivity]. pose proof (Hsc c inp v rest Es) as Hl.
  destruct (bag_write b st v) as [| |b1] eqn:Ew.
  - exfalso. unfold bag_write in Ew. rewrite E2 in Ew. cbn [out_bind snd] in Ew. rewrite Hl, Z.eqb_refl in Ew. destruct (bg_policy b); try discriminate. congruence.
  - exfalso. exact (write_defined b lens Hb _ st v Hi Hn Ew).
  - destruct (write_ref _ _ _ _ Ew) as (_ & _ & _ & S1 & P1 & _). destruct (write_effect b lens Hb _ st v b1 Hi Hn Ew) as (_ & L1 & _). cbn [out_bind].
    apply IH; [exact (write_good b lens Hb st v b1 Ew L1)|rewrite S1; exact Hk|rewrite P1; exact Hp|]. intros s Hs. rewrite S1. apply Hc. right. exact Hs.
Qed.

(** Reading decimal numbers. *)
Lemma bytes_length k : forall z, length (le_bytes k z) = k.
Proof. induction k as [|k IH]; intros z; [reflexivity|]. cbn [le_bytes length]. f_equal. apply IH. Qed.

Lemma read_pos d : forall a z, 0 <= a -> read_from a d = Some z -> 0 <= z.
Proof. induction d as [|c d IH]; intros a z Ha; cbn [read_from]; [intros E; injection E as <-; exact Ha|]. destruct (_ && _) eqn:E; [|discriminate]. apply IH. lia. Qed.

Lemma scan_length c x v r : scan_uint c x = Some (v, r) -> Z.of_nat (length v) = ct_size c.
Proof.
  unfold scan_uint. destruct (take_digits _) as [d rest]. destruct (read_decimal d) as [z|] eqn:E; [|discriminate]. destruct (Z.ltb_spec z (2 ^ (8 * ct_size c))) as [H|]; [|discriminate].
  intros H'. injection H' as <- _. rewrite bytes_length. apply Z2Nat.id. assert (0 <= z) by (unfold read_decimal in E; destruct d; [discriminate|]; exact (read_pos _ 0 z (Z.le_refl 0) E)).
  destruct (Z_lt_le_dec (ct_size c) 0) as [Hc|]; [|assumption]. rewrite Z.pow_neg_r in H by lia. lia.
Qed.
