(** * Fixing indices of static and dynamic blocks (C74) *)

From Verif Require Import Contig Views Views2 Views3 Views4 Views5 ViewFacts.
From Verif Require Import Selects ToolFacts.
From Verif Require Export FixLengths.
From Verif Require Import Tiles.

Lemma sta_neq d b M m k t : signature (View (VBlocksSta d b M m k) t) <> None -> b <> M /\ b <> m /\ M <> m.
Proof.
  simpl. destruct (signature t); [|congruence]. cbn [obind]. destruct (Z.eqb_spec b M); [cbn; congruence|]. destruct (Z.eqb_spec b m); [cbn; congruence|].
  destruct (Z.eqb_spec M m); [cbn; congruence|]. auto.
Qed.

Lemma fix_static d b M m k part x y t st st2 cs l :
  let j := vadd (vmul (if part =? 0 then x else vdiv l k) k) y in
  let s := View (VFix m y) (View (VFix M x) (View (VFix b (Sta part)) (View (VBlocksSta d b M m k) t))) in
  signature s <> None -> signature (View (VFix d j) t) <> None -> (part = 0 \/ part = 1) ->
  edited st (dropped [d; b; M; m]) cs -> length_ t d cs = Some l -> edited st (dropped [b; M; m]) st2 ->
  works_as s st (View (VFix d j) t) st2 /\
  (forall q, ~ In q [d; b; M; m] -> get (Idx q) st = None -> length_as s q st (View (VFix d j) t) q st2).
Proof.
  intros j s Hs Hs2 Hp Hc El H2. pose proof (signature_sub _ _ Hs) as Hs'. pose proof (signature_sub _ _ Hs') as Hs''. pose proof (signature_sub _ _ Hs'') as Hs3.
  destruct (sta_neq _ _ _ _ _ _ Hs3) as (N1 & N2 & N3).
  destruct (edited_ex st [(Idx m, Some y); (Len m, None)]) as (s1 & H1). destruct (edited_ex s1 [(Idx M, Some x); (Len M, None)]) as (s3 & H3).
  destruct (edited_ex s3 [(Idx b, Some (Sta part)); (Len b, None)]) as (s4 & H4). destruct (edited_ex st2 [(Idx d, Some j); (Len d, None)]) as (st' & H').
  assert (F : works_as (View (VBlocksSta d b M m k) t) s4 t st' /\
    (forall q, q <> d -> q <> b -> q <> M -> q <> m -> get (Idx q) s4 = None -> length_as (View (VBlocksSta d b M m k) t) q s4 t q st')).
  { apply (blocks_sta_follows d b M m k t s4 cs st' l Hs3) with (part := part) (iM := x) (im := y); auto.
    - rewrite (H4 (Len b)). looks.
    - rewrite (H4 (Len M)). specialize (H3 (Len M)). looks2.
    - rewrite (H4 (Len m)). specialize (H3 (Len m)). specialize (H1 (Len m)). looks2.
    - intros u. rewrite (Hc u). specialize (H1 u). specialize (H3 u). specialize (H4 u). looks2.
    - rewrite (H4 (Idx b)). looks.
    - rewrite (H4 (Idx M)). specialize (H3 (Idx M)). looks2.
    - rewrite (H4 (Idx m)). specialize (H3 (Idx m)). specialize (H1 (Idx m)). looks2.
    - intros u. rewrite (H' u). specialize (H1 u). specialize (H2 u). specialize (H3 u). specialize (H4 u). fold j. looks2. }
  destruct F as [F1 F2]. split.
  - eapply works_comp; [exact (proj1 (fix_follows _ _ _ _ _ Hs H1))|]. eapply works_comp; [exact (proj1 (fix_follows _ _ _ _ _ Hs' H3))|].
    eapply works_comp; [exact (proj1 (fix_follows _ _ _ _ _ Hs'' H4))|]. eapply works_comp; [exact F1|]. apply works_sym. exact (proj1 (fix_follows _ _ _ _ _ Hs2 H')).
  - intros q Hq Hi. assert (Q : q <> d /\ q <> b /\ q <> M /\ q <> m) by (repeat split; intros ->; apply Hq; simpl; auto). destruct Q as (Qd & Qb & QM & Qm).
    assert (I1 : get (Idx q) s1 = None) by (rewrite (H1 (Idx q)); looks). assert (I2 : get (Idx q) st2 = None) by (rewrite (H2 (Idx q)); looks).
    assert (I3 : get (Idx q) s3 = None) by (rewrite (H3 (Idx q)); looks). assert (I4 : get (Idx q) s4 = None) by (rewrite (H4 (Idx q)); looks).
    eapply length_comp; [exact (proj1 (proj2 (fix_follows _ _ _ _ _ Hs H1)) q Qm Hi)|]. eapply length_comp; [exact (proj1 (proj2 (fix_follows _ _ _ _ _ Hs' H3)) q QM I1)|].
    eapply length_comp; [exact (proj1 (proj2 (fix_follows _ _ _ _ _ Hs'' H4)) q Qb I3)|]. eapply length_comp; [exact (F2 q Qd Qb QM Qm I4)|].
    apply length_sym. exact (proj1 (proj2 (fix_follows _ _ _ _ _ Hs2 H')) q Qd I2).
Qed.

Lemma fix_dynamic d M m p n a b c t st st2 :
  let j := vadd (vmul a n) b in
  let s := View (VFix p c) (View (VFix m b) (View (VFix M a) (apply (p_into_blocks_dynamic d M m p n) t))) in
  signature s <> None -> signature (View (VFix d j) t) <> None -> edited st (dropped [M; m; p]) st2 ->
  works_as s st (View (VFix d j) t) st2 /\
  (forall q, ~ In q [d; M; m; p] -> get (Idx q) st = None -> length_as s q st (View (VFix d j) t) q st2).
Proof.
  intros j s Hs Hs2 H2. pose proof (signature_sub _ _ Hs) as Hs'. pose proof (signature_sub _ _ Hs') as Hs''. pose proof (signature_sub _ _ Hs'') as Hs3.
  destruct (blocks_dyn_neq _ _ _ _ _ _ Hs3) as (N1 & N2 & N3).
  destruct (edited_ex st [(Idx p, Some c); (Len p, None)]) as (s1 & H1). destruct (edited_ex s1 [(Idx m, Some b); (Len m, None)]) as (s3 & H3).
  destruct (edited_ex s3 [(Idx M, Some a); (Len M, None)]) as (s4 & H4). destruct (edited_ex st2 [(Idx d, Some j); (Len d, None)]) as (st' & H').
  assert (F : works_as (apply (p_into_blocks_dynamic d M m p n) t) s4 t st' /\
    (forall q, q <> d -> q <> M -> q <> m -> q <> p -> get (Idx q) s4 = None -> length_as (apply (p_into_blocks_dynamic d M m p n) t) q s4 t q st')).
  { apply (into_blocks_dyn_works d M m p n t s4 st' a b c Hs3).
    - rewrite (H4 (Len M)). looks.
    - rewrite (H4 (Len p)). specialize (H3 (Len p)). specialize (H1 (Len p)). looks2.
    - rewrite (H4 (Idx M)). looks.
    - rewrite (H4 (Idx m)). specialize (H3 (Idx m)). looks2.
    - rewrite (H4 (Idx p)). specialize (H3 (Idx p)). specialize (H1 (Idx p)). looks2.
    - intros u. rewrite (H' u). specialize (H1 u). specialize (H2 u). specialize (H3 u). specialize (H4 u). fold j. looks2. }
  destruct F as [F1 F2]. split.
  - eapply works_comp; [exact (proj1 (fix_follows _ _ _ _ _ Hs H1))|]. eapply works_comp; [exact (proj1 (fix_follows _ _ _ _ _ Hs' H3))|].
    eapply works_comp; [exact (proj1 (fix_follows _ _ _ _ _ Hs'' H4))|]. eapply works_comp; [exact F1|]. apply works_sym. exact (proj1 (fix_follows _ _ _ _ _ Hs2 H')).
  - intros q Hq Hi. assert (Q : q <> d /\ q <> M /\ q <> m /\ q <> p) by (repeat split; intros ->; apply Hq; simpl; auto). destruct Q as (Qd & QM & Qm & Qp).
    assert (I1 : get (Idx q) s1 = None) by (rewrite (H1 (Idx q)); looks). assert (I2 : get (Idx q) st2 = None) by (rewrite (H2 (Idx q)); looks).
    assert (I3 : get (Idx q) s3 = None) by (rewrite (H3 (Idx q)); looks). assert (I4 : get (Idx q) s4 = None) by (rewrite (H4 (Idx q)); looks).
    eapply length_comp; [exact (proj1 (proj2 (fix_follows _ _ _ _ _ Hs H1)) q Qp Hi)|]. eapply length_comp; [exact (proj1 (proj2 (fix_follows _ _ _ _ _ Hs' H3)) q Qm I1)|].
    eapply length_comp; [exact (proj1 (proj2 (fix_follows _ _ _ _ _ Hs'' H4)) q QM I3)|]. eapply length_comp; [exact (F2 q Qd QM Qm Qp I4)|].
    apply length_sym. exact (proj1 (proj2 (fix_follows _ _ _ _ _ Hs2 H')) q Qd I2).
Qed.
