(** * Fixing an index of a view is fixing indices of the structure below (C74) *)

From Verif Require Import Contig Views Views2 Views3 Views4 Views5 ViewFacts.
From Verif Require Export Strips.
From Verif Require Import Tiles.

Ltac looks2 := looks; repeat match goal with H : context [tag_eqb ?a ?b] |- _ => destruct (tag_eqb_spec a b); subst; cbn [option_map] in * end; try congruence; auto.

Lemma fix_moved v d b i t st : moves_by v d b -> signature (View (VFix d i) (View v t)) <> None -> signature (View (VFix d (vadd i b)) t) <> None ->
  works_as (View (VFix d i) (View v t)) st (View (VFix d (vadd i b)) t) st.
Proof.
  intros Hv Hs Hs2. destruct (edited_ex st [(Idx d, Some i); (Len d, None)]) as (st1 & H1). destruct (edited_ex st [(Idx d, Some (vadd i b)); (Len d, None)]) as (st' & H').
  eapply works_comp; [exact (proj1 (fix_follows _ _ _ _ _ Hs H1))|]. eapply works_comp; [|apply works_sym; exact (proj1 (fix_follows _ _ _ _ _ Hs2 H'))].
  apply (moves_works v d b t st1 st' Hv (signature_sub _ _ Hs)).
  - rewrite (H1 (Len d)). looks.
  - assert (E : get (Idx d) st1 = Some i) by (rewrite (H1 (Idx d)); looks). intros u. unfold moved. rewrite E. rewrite (H' u). specialize (H1 u). looks.
Qed.

Lemma fix_step d b r i t st : signature (View (VFix d i) (View (VStep d b r) t)) <> None -> signature (View (VFix d (vadd (vmul i r) b)) t) <> None ->
  works_as (View (VFix d i) (View (VStep d b r) t)) st (View (VFix d (vadd (vmul i r) b)) t) st.
Proof.
  intros Hs Hs2. destruct (edited_ex st [(Idx d, Some i); (Len d, None)]) as (st1 & H1). destruct (edited_ex st [(Idx d, Some (vadd (vmul i r) b)); (Len d, None)]) as (st' & H').
  eapply works_comp; [exact (proj1 (fix_follows _ _ _ _ _ Hs H1))|]. eapply works_comp; [|apply works_sym; exact (proj1 (fix_follows _ _ _ _ _ Hs2 H'))].
  refine (proj1 (step_follows d b r t st1 st' (signature_sub _ _ Hs) _)).
  assert (E : get (Idx d) st1 = Some i) by (rewrite (H1 (Idx d)); looks). intros u. unfold moved. rewrite E. rewrite (H' u). specialize (H1 u). looks.
Qed.

Lemma fix_reverse d i t st cs l : signature (View (VFix d i) (View (VReverse d) t)) <> None -> signature (View (VFix d (vsub (vsub l (Sta 1)) i)) t) <> None ->
  edited st (dropped [d]) cs -> length_ t d cs = Some l ->
  works_as (View (VFix d i) (View (VReverse d) t)) st (View (VFix d (vsub (vsub l (Sta 1)) i)) t) st.
Proof.
  intros Hs Hs2 Hc El. destruct (edited_ex st [(Idx d, Some i); (Len d, None)]) as (st1 & H1). destruct (edited_ex st [(Idx d, Some (vsub (vsub l (Sta 1)) i)); (Len d, None)]) as (st' & H').
  eapply works_comp; [exact (proj1 (fix_follows _ _ _ _ _ Hs H1))|]. eapply works_comp; [|apply works_sym; exact (proj1 (fix_follows _ _ _ _ _ Hs2 H'))].
  apply (reverse_follows d t st1 cs i l st' (signature_sub _ _ Hs)).
  - rewrite (H1 (Idx d)). looks.
  - intros u. rewrite (Hc u). specialize (H1 u). looks.
  - exact El.
  - intros u. rewrite (H' u). specialize (H1 u). looks.
Qed.

Lemma fix_join a b d i t st st2 cs h : signature (View (VFix d i) (View (VJoin a b d) t)) <> None -> signature (View (VFix b i) (View (VFix a i) t)) <> None ->
  edited st (dropped [d; a; b]) cs -> has_length t a cs = Some h -> has_length t b cs = Some h -> edited st (dropped [d]) st2 ->
  works_as (View (VFix d i) (View (VJoin a b d) t)) st (View (VFix b i) (View (VFix a i) t)) st2.
Proof.
  intros Hs Hs2 Hc Ha Hb H2. destruct (edited_ex st [(Idx d, Some i); (Len d, None)]) as (st1 & H1).
  destruct (edited_ex st2 [(Idx b, Some i); (Len b, None)]) as (st3 & H3). destruct (edited_ex st3 [(Idx a, Some i); (Len a, None)]) as (st' & H').
  eapply works_comp; [exact (proj1 (fix_follows _ _ _ _ _ Hs H1))|].
  eapply works_comp; [|apply works_sym; eapply works_comp; [exact (proj1 (fix_follows _ _ _ _ _ Hs2 H3))|exact (proj1 (fix_follows _ _ _ _ _ (signature_sub _ _ Hs2) H'))]].
  assert (E : get (Len d) st1 = None) by (rewrite (H1 (Len d)); looks).
  refine (proj1 (join_follows a b d t st1 cs h i st' (signature_sub _ _ Hs) _ Ha Hb _ (or_introl E) _)).
  - intros u. rewrite (Hc u). specialize (H1 u). looks.
  - rewrite (H1 (Idx d)). looks.
  - rewrite E. intros u. rewrite (H' u). specialize (H1 u). specialize (H2 u). specialize (H3 u). looks2.
Qed.

Lemma fix_merge M m d i t st st2 cs lM lm : signature (View (VFix d i) (View (VMerge M m d) t)) <> None ->
  signature (View (VFix m (vmod i lm)) (View (VFix M (vdiv i lm)) t)) <> None ->
  edited st (dropped [d; M; m]) cs -> length_ t M cs = Some lM -> length_ t m cs = Some lm -> edited st (dropped [d]) st2 ->
  works_as (View (VFix d i) (View (VMerge M m d) t)) st (View (VFix m (vmod i lm)) (View (VFix M (vdiv i lm)) t)) st2.
Proof.
  intros Hs Hs2 Hc EM Em H2. destruct (edited_ex st [(Idx d, Some i); (Len d, None)]) as (st1 & H1).
  destruct (edited_ex st2 [(Idx m, Some (vmod i lm)); (Len m, None)]) as (st3 & H3). destruct (edited_ex st3 [(Idx M, Some (vdiv i lm)); (Len M, None)]) as (st' & H').
  eapply works_comp; [exact (proj1 (fix_follows _ _ _ _ _ Hs H1))|].
  eapply works_comp; [|apply works_sym; eapply works_comp; [exact (proj1 (fix_follows _ _ _ _ _ Hs2 H3))|exact (proj1 (fix_follows _ _ _ _ _ (signature_sub _ _ Hs2) H'))]].
  refine (proj1 (merge_follows d M m t st1 cs st' lM lm i (signature_sub _ _ Hs) _ EM Em _ _)).
  - intros u. rewrite (Hc u). specialize (H1 u). looks.
  - rewrite (H1 (Idx d)). looks.
  - intros u. rewrite (H' u). specialize (H1 u). specialize (H2 u). specialize (H3 u). looks2.
Qed.

Lemma fix_blocks d M m n a b t st st2 : let s := apply (p_into_blocks d M m n) t in
  signature (View (VFix m b) (View (VFix M a) s)) <> None -> signature (View (VFix d (vadd (vmul a n) b)) t) <> None ->
  edited st (dropped [M; m]) st2 ->
  works_as (View (VFix m b) (View (VFix M a) s)) st (View (VFix d (vadd (vmul a n) b)) t) st2.
Proof.
  intros s Hs Hs2 H2. pose proof (blocks_neq _ _ _ _ _ (signature_sub _ _ (signature_sub _ _ Hs))) as Hn.
  destruct (edited_ex st [(Idx m, Some b); (Len m, None)]) as (st1 & H1). destruct (edited_ex st1 [(Idx M, Some a); (Len M, None)]) as (st3 & H3).
  destruct (edited_ex st2 [(Idx d, Some (vadd (vmul a n) b)); (Len d, None)]) as (st' & H').
  eapply works_comp; [eapply works_comp; [exact (proj1 (fix_follows _ _ _ _ _ Hs H1))|exact (proj1 (fix_follows _ _ _ _ _ (signature_sub _ _ Hs) H3))]|].
  eapply works_comp; [|apply works_sym; exact (proj1 (fix_follows _ _ _ _ _ Hs2 H'))].
  refine (proj1 (into_blocks_works d M m n t st3 st' a b (signature_sub _ _ (signature_sub _ _ Hs)) _ _ _ _)).
  - rewrite (H3 (Len M)). looks.
  - rewrite (H3 (Idx M)). looks.
  - rewrite (H3 (Idx m)). specialize (H1 (Idx m)). looks2.
  - intros u. rewrite (H' u). specialize (H1 u). specialize (H2 u). specialize (H3 u). looks2.
Qed.

Lemma fix_rename ps q i t st st2 : signature (View (VFix (rename_dim ps q) i) (View (VRename ps) t)) <> None -> signature (View (VFix q i) t) <> None ->
  mem q (map snd ps) && negb (mem q (map fst ps)) = false -> renamed ps st st2 ->
  works_as (View (VFix (rename_dim ps q) i) (View (VRename ps) t)) st (View (VFix q i) t) st2.
Proof.
  intros Hs Hs2 Hq Hr. destruct (rename_conds _ _ (signature_sub _ _ Hs)) as [N1 N2].
  destruct (edited_ex st [(Idx (rename_dim ps q), Some i); (Len (rename_dim ps q), None)]) as (st1 & H1).
  destruct (edited_ex st2 [(Idx q, Some i); (Len q, None)]) as (st' & H').
  eapply works_comp; [exact (proj1 (fix_follows _ _ _ _ _ Hs H1))|]. eapply works_comp; [|apply works_sym; exact (proj1 (fix_follows _ _ _ _ _ Hs2 H'))].
  refine (proj1 (rename_follows ps t st1 st' (signature_sub _ _ Hs) _)).
  assert (Hb : forall x, mem x (map snd ps) && negb (mem x (map fst ps)) = false -> rename_dim (swap_pairs ps) (rename_dim ps x) = x).
  { intros x Hx. apply rename_there_back; auto. rewrite ext_name_alt, Hx. reflexivity. }
  intros x. cbv zeta. specialize (Hr x). cbv zeta in Hr. destruct (mem x (map snd ps) && negb (mem x (map fst ps))) eqn:Ex.
  - rewrite (H' (Idx x)), (H' (Len x)). cbn [edit_look tag_eqb]. destruct (Z.eqb_spec x q) as [->|]; [congruence|exact Hr].
  - rewrite (H' (Idx x)), (H' (Len x)), (H1 (Idx (rename_dim ps x))), (H1 (Len (rename_dim ps x))). cbn [edit_look tag_eqb].
    destruct (Z.eqb_spec x q) as [->|Hx]; [rewrite !Z.eqb_refl; auto|].
    destruct (Z.eqb_spec (rename_dim ps x) (rename_dim ps q)) as [E|_]; [|exact Hr].
    exfalso. apply Hx. rewrite <- (Hb x Ex), E. apply Hb. exact Hq.
Qed.
