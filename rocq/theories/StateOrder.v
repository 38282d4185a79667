(** * Proofs about the order of states *)

From Verif Require Import StateProofs.

Lemma eqb_leb a b : st_eqb a b = true -> st_leb a b = true.
Proof.
  rewrite st_eqb_spec, st_leb_spec. intros [H1 H2] t x Hx. destruct (H2 t x Hx) as (y & n & Hy & Hn & Hm). exists y, n, n. repeat split; auto. lia.
Qed.

Lemma lC03_lt_meaning : forall a b, st_ltb a b = true <-> st_leb a b = true /\ ~ st_leb b a = true.
Proof.
  intros a b. rewrite lC03_lt. split; intros [H1 H2]; (split; [exact H1|]).
  - intros H3. rewrite (st_leb_antisym a b H1 H3) in H2. discriminate.
  - destruct (st_eqb a b) eqn:E; [|reflexivity]. exfalso. apply H2. apply eqb_leb. apply st_eqb_sym. exact E.
Qed.

Lemma lC03_exchanged : forall a b, (st_gtb a b = true <-> st_ltb b a = true) /\ (st_geb a b = true <-> st_leb b a = true).
Proof. intros a b. split; reflexivity. Qed.

Lemma lC03_lt_trans : forall a b c, st_ltb a b = true -> st_ltb b c = true -> st_ltb a c = true.
Proof.
  intros a b c. rewrite !lC03_lt_meaning. intros [H1 H2] [H3 H4]. split; [exact (st_leb_trans a b c H1 H3)|].
  intros H5. apply H4. exact (st_leb_trans c a b H5 H1).
Qed.
