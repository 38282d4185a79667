(** * Lengths of a view with a fixed index (C74) *)

From Verif Require Import Contig Views Views2 Views3 Views4 Views5 ViewFacts.
From Verif Require Import Selects ToolFacts.
From Verif Require Export Fixes.
From Verif Require Import Tiles.

Lemma fix_step_length d b r i t st q : signature (View (VFix d i) (View (VStep d b r) t)) <> None -> signature (View (VFix d (vadd (vmul i r) b)) t) <> None ->
  q <> d -> get (Idx q) st = None ->
  length_as (View (VFix d i) (View (VStep d b r) t)) q st (View (VFix d (vadd (vmul i r) b)) t) q st.
Proof.
  intros Hs Hs2 Hq Hi. destruct (edited_ex st [(Idx d, Some i); (Len d, None)]) as (st1 & H1). destruct (edited_ex st [(Idx d, Some (vadd (vmul i r) b)); (Len d, None)]) as (st' & H').
  eapply length_comp; [exact (proj1 (proj2 (fix_follows _ _ _ _ _ Hs H1)) q Hq Hi)|]. eapply length_comp; [|apply length_sym; exact (proj1 (proj2 (fix_follows _ _ _ _ _ Hs2 H')) q Hq Hi)].
  refine (proj1 (proj2 (step_follows d b r t st1 st' (signature_sub _ _ Hs) _)) q Hq _).
  - assert (E : get (Idx d) st1 = Some i) by (rewrite (H1 (Idx d)); looks). intros u. unfold moved. rewrite E. rewrite (H' u). specialize (H1 u). looks.
  - rewrite (H1 (Idx q)). looks.
Qed.

Lemma fix_join_length a b d i t st st2 cs h q : signature (View (VFix d i) (View (VJoin a b d) t)) <> None -> signature (View (VFix b i) (View (VFix a i) t)) <> None ->
  edited st (dropped [d; a; b]) cs -> has_length t a cs = Some h -> has_length t b cs = Some h -> edited st (dropped [d]) st2 ->
  ~ In q [a; b; d] -> get (Idx q) st = None ->
  length_as (View (VFix d i) (View (VJoin a b d) t)) q st (View (VFix b i) (View (VFix a i) t)) q st2.
Proof.
  intros Hs Hs2 Hc Ha Hb H2 Hq Hi. assert (Na : q <> a) by (intros ->; apply Hq; simpl; auto). assert (Nb : q <> b) by (intros ->; apply Hq; simpl; auto).
  assert (Nd : q <> d) by (intros ->; apply Hq; simpl; auto).
  destruct (edited_ex st [(Idx d, Some i); (Len d, None)]) as (st1 & H1).
  destruct (edited_ex st2 [(Idx b, Some i); (Len b, None)]) as (st3 & H3). destruct (edited_ex st3 [(Idx a, Some i); (Len a, None)]) as (st' & H').
  assert (I2 : get (Idx q) st2 = None) by (rewrite (H2 (Idx q)); looks).
  assert (I3 : get (Idx q) st3 = None) by (rewrite (H3 (Idx q)); looks).
  eapply length_comp; [exact (proj1 (proj2 (fix_follows _ _ _ _ _ Hs H1)) q Nd Hi)|].
  eapply length_comp; [|apply length_sym; eapply length_comp; [exact (proj1 (proj2 (fix_follows _ _ _ _ _ Hs2 H3)) q Nb I2)|exact (proj1 (proj2 (fix_follows _ _ _ _ _ (signature_sub _ _ Hs2) H')) q Na I3)]].
  assert (E : get (Len d) st1 = None) by (rewrite (H1 (Len d)); looks).
  refine (proj2 (join_follows a b d t st1 cs h i st' (signature_sub _ _ Hs) _ Ha Hb _ (or_introl E) _) q _).
  - intros u. rewrite (Hc u). specialize (H1 u). looks.
  - rewrite (H1 (Idx d)). looks.
  - rewrite E. intros u. rewrite (H' u). specialize (H1 u). specialize (H2 u). specialize (H3 u). looks2.
  - rewrite (H1 (Idx q)). looks.
Qed.

Lemma fix_merge_length M m d i t st st2 cs lM lm q : signature (View (VFix d i) (View (VMerge M m d) t)) <> None ->
  signature (View (VFix m (vmod i lm)) (View (VFix M (vdiv i lm)) t)) <> None ->
  edited st (dropped [d; M; m]) cs -> length_ t M cs = Some lM -> length_ t m cs = Some lm -> edited st (dropped [d]) st2 ->
  ~ In q [M; m; d] -> get (Idx q) st = None ->
  length_as (View (VFix d i) (View (VMerge M m d) t)) q st (View (VFix m (vmod i lm)) (View (VFix M (vdiv i lm)) t)) q st2.
Proof.
  intros Hs Hs2 Hc EM Em H2 Hq Hi. assert (Na : q <> M) by (intros ->; apply Hq; simpl; auto). assert (Nb : q <> m) by (intros ->; apply Hq; simpl; auto).
  assert (Nd : q <> d) by (intros ->; apply Hq; simpl; auto).
  destruct (edited_ex st [(Idx d, Some i); (Len d, None)]) as (st1 & H1).
  destruct (edited_ex st2 [(Idx m, Some (vmod i lm)); (Len m, None)]) as (st3 & H3). destruct (edited_ex st3 [(Idx M, Some (vdiv i lm)); (Len M, None)]) as (st' & H').
  assert (I2 : get (Idx q) st2 = None) by (rewrite (H2 (Idx q)); looks).
  assert (I3 : get (Idx q) st3 = None) by (rewrite (H3 (Idx q)); looks).
  eapply length_comp; [exact (proj1 (proj2 (fix_follows _ _ _ _ _ Hs H1)) q Nd Hi)|].
  eapply length_comp; [|apply length_sym; eapply length_comp; [exact (proj1 (proj2 (fix_follows _ _ _ _ _ Hs2 H3)) q Nb I2)|exact (proj1 (proj2 (fix_follows _ _ _ _ _ (signature_sub _ _ Hs2) H')) q Na I3)]].
  refine (proj2 (merge_follows d M m t st1 cs st' lM lm i (signature_sub _ _ Hs) _ EM Em _ _) q Nd Na Nb _).
  - intros u. rewrite (Hc u). specialize (H1 u). looks.
  - rewrite (H1 (Idx d)). looks.
  - intros u. rewrite (H' u). specialize (H1 u). specialize (H2 u). specialize (H3 u). looks2.
  - rewrite (H1 (Idx q)). looks.
Qed.

Lemma moves_length v d b t st st' q : moves_by v d b -> signature (View v t) <> None -> get (Len d) st = None ->
  edited st [moved d (fun i => vadd i b) st] st' -> q <> d -> get (Idx q) st = None -> length_as (View v t) q st t q st'.
Proof.
  intros [->|[[n ->]|[e ->]]] Hs El He; [|eapply slice_follows; eauto|eapply span_follows; eauto].
  eapply (shift_follows d b t st st'); auto. rewrite El. intros u. rewrite (He u). unfold moved. looks.
Qed.

Lemma fix_moved_length v d b i t st q : moves_by v d b -> signature (View (VFix d i) (View v t)) <> None -> signature (View (VFix d (vadd i b)) t) <> None ->
  q <> d -> get (Idx q) st = None ->
  length_as (View (VFix d i) (View v t)) q st (View (VFix d (vadd i b)) t) q st.
Proof.
  intros Hv Hs Hs2 Hq Hi. destruct (edited_ex st [(Idx d, Some i); (Len d, None)]) as (st1 & H1). destruct (edited_ex st [(Idx d, Some (vadd i b)); (Len d, None)]) as (st' & H').
  eapply length_comp; [exact (proj1 (proj2 (fix_follows _ _ _ _ _ Hs H1)) q Hq Hi)|]. eapply length_comp; [|apply length_sym; exact (proj1 (proj2 (fix_follows _ _ _ _ _ Hs2 H')) q Hq Hi)].
  apply (moves_length v d b t st1 st' q Hv (signature_sub _ _ Hs)); auto.
  - rewrite (H1 (Len d)). looks.
  - assert (E : get (Idx d) st1 = Some i) by (rewrite (H1 (Idx d)); looks). intros u. unfold moved. rewrite E. rewrite (H' u). specialize (H1 u). looks.
  - rewrite (H1 (Idx q)). looks.
Qed.

Lemma fix_rename_length ps q i t st st2 x : signature (View (VFix (rename_dim ps q) i) (View (VRename ps) t)) <> None -> signature (View (VFix q i) t) <> None ->
  mem q (map snd ps) && negb (mem q (map fst ps)) = false -> renamed ps st st2 ->
  mem x (map snd ps) && negb (mem x (map fst ps)) = false -> x <> q -> get (Idx x) st2 = None ->
  length_as (View (VFix (rename_dim ps q) i) (View (VRename ps) t)) (rename_dim ps x) st (View (VFix q i) t) x st2.
Proof.
  intros Hs Hs2 Hq Hr Hx Nx Ix. destruct (rename_conds _ _ (signature_sub _ _ Hs)) as [N1 N2].
  assert (Hb : forall y, mem y (map snd ps) && negb (mem y (map fst ps)) = false -> rename_dim (swap_pairs ps) (rename_dim ps y) = y).
  { intros y Hy. apply rename_there_back; auto. rewrite ext_name_alt, Hy. reflexivity. }
  assert (Nr : rename_dim ps x <> rename_dim ps q) by (intros E; apply Nx; rewrite <- (Hb x Hx), E; apply Hb; exact Hq).
  assert (Ir : get (Idx (rename_dim ps x)) st = None).
  { specialize (Hr x). cbv zeta in Hr. rewrite Hx in Hr. destruct Hr as [A _]. congruence. }
  destruct (edited_ex st [(Idx (rename_dim ps q), Some i); (Len (rename_dim ps q), None)]) as (st1 & H1).
  destruct (edited_ex st2 [(Idx q, Some i); (Len q, None)]) as (st' & H').
  eapply length_comp; [exact (proj1 (proj2 (fix_follows _ _ _ _ _ Hs H1)) _ Nr Ir)|]. eapply length_comp; [|apply length_sym; exact (proj1 (proj2 (fix_follows _ _ _ _ _ Hs2 H')) x Nx Ix)].
  refine (proj2 (rename_follows ps t st1 st' (signature_sub _ _ Hs) _) x Hx).
  intros y. cbv zeta. specialize (Hr y). cbv zeta in Hr. destruct (mem y (map snd ps) && negb (mem y (map fst ps))) eqn:Ey.
  - rewrite (H' (Idx y)), (H' (Len y)). cbn [edit_look tag_eqb]. destruct (Z.eqb_spec y q) as [->|]; [congruence|exact Hr].
  - rewrite (H' (Idx y)), (H' (Len y)), (H1 (Idx (rename_dim ps y))), (H1 (Len (rename_dim ps y))). cbn [edit_look tag_eqb].
    destruct (Z.eqb_spec y q) as [->|Hy]; [rewrite !Z.eqb_refl; auto|].
    destruct (Z.eqb_spec (rename_dim ps y) (rename_dim ps q)) as [E|_]; [|exact Hr].
    exfalso. apply Hy. rewrite <- (Hb y Ey), E. apply Hb. exact Hq.
Qed.

Lemma fix_blocks_length d M m n a b t st st2 q : let s := apply (p_into_blocks d M m n) t in
  signature (View (VFix m b) (View (VFix M a) s)) <> None -> signature (View (VFix d (vadd (vmul a n) b)) t) <> None ->
  edited st (dropped [M; m]) st2 -> ~ In q [d; M; m] -> get (Idx q) st = None ->
  length_as (View (VFix m b) (View (VFix M a) s)) q st (View (VFix d (vadd (vmul a n) b)) t) q st2.
Proof.
  intros s Hs Hs2 H2 Hq Hi. pose proof (blocks_neq _ _ _ _ _ (signature_sub _ _ (signature_sub _ _ Hs))) as Hn.
  assert (Nd : q <> d) by (intros ->; apply Hq; simpl; auto). assert (NM : q <> M) by (intros ->; apply Hq; simpl; auto). assert (Nm : q <> m) by (intros ->; apply Hq; simpl; auto).
  destruct (edited_ex st [(Idx m, Some b); (Len m, None)]) as (st1 & H1). destruct (edited_ex st1 [(Idx M, Some a); (Len M, None)]) as (st3 & H3).
  destruct (edited_ex st2 [(Idx d, Some (vadd (vmul a n) b)); (Len d, None)]) as (st' & H').
  assert (I1 : get (Idx q) st1 = None) by (rewrite (H1 (Idx q)); looks).
  assert (I2 : get (Idx q) st2 = None) by (rewrite (H2 (Idx q)); looks).
  assert (I3 : get (Idx q) st3 = None) by (rewrite (H3 (Idx q)); looks).
  eapply length_comp; [eapply length_comp; [exact (proj1 (proj2 (fix_follows _ _ _ _ _ Hs H1)) q Nm Hi)|exact (proj1 (proj2 (fix_follows _ _ _ _ _ (signature_sub _ _ Hs) H3)) q NM I1)]|].
  eapply length_comp; [|apply length_sym; exact (proj1 (proj2 (fix_follows _ _ _ _ _ Hs2 H')) q Nd I2)].
  refine (proj2 (into_blocks_works d M m n t st3 st' a b (signature_sub _ _ (signature_sub _ _ Hs)) _ _ _ _) q Nd NM Nm I3).
  - rewrite (H3 (Len M)). looks.
  - rewrite (H3 (Idx M)). looks.
  - rewrite (H3 (Idx m)). specialize (H1 (Idx m)). looks2.
  - intros u. rewrite (H' u). specialize (H1 u). specialize (H2 u). specialize (H3 u). looks2.
Qed.
