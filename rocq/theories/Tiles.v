(** * A block is a slice, a position in all blocks is a step (C72) *)

From Verif Require Import Contig Views Views2 Views3 Views4 Views5 ViewFacts.
From Verif Require Export Strips.

Lemma vadd_comm a b : vadd a b = vadd b a.
Proof.
  destruct a as [x|x|], b as [y|y|]; unfold vadd; cbn [is_sta]; unfold dyn2; cbn [vz]; try reflexivity.
  - rewrite Z.add_comm. reflexivity.
  - destruct (u64 x =? 0); [reflexivity|]. rewrite Z.add_comm. reflexivity.
  - destruct (u64 y =? 0); [reflexivity|]. rewrite Z.add_comm. reflexivity.
  - rewrite Z.add_comm. reflexivity.
Qed.

Ltac looks := unfold dropped, moved in *; cbn [flat_map app edit_look option_map] in *;
  repeat match goal with |- context [tag_eqb ?a ?b] => destruct (tag_eqb_spec a b); subst; cbn [option_map] in * end; try congruence; auto.

Section Tiles.
  Variables (d M m : dim) (n k : val) (t : struct) (st st2 : state).

  Section Plain.
    Let b := apply (p_into_blocks d M m n) t.

    Lemma block_works im : signature (View (VFix M k) b) <> None -> signature (View (VSlice d (vmul k n) n) t) <> None ->
      get (Idx m) st = Some im -> edited st ((Idx d, Some im) :: dropped [d; M; m]) st2 ->
      works_as (View (VFix M k) b) st (View (VSlice d (vmul k n) n) t) st2.
    Proof.
      intros Hs Hs2 Ei He. pose proof (blocks_neq _ _ _ _ _ (signature_sub _ _ Hs)) as Hn. destruct (edited_ex st [(Idx M, Some k); (Len M, None)]) as (st1 & H1).
      destruct (fix_follows M k b st st1 Hs H1) as (A & _). eapply works_comp; [exact A|].
      destruct (edited_ex st ((Idx d, Some (vadd (vmul k n) im)) :: dropped [d; M; m])) as (st' & H').
      destruct (into_blocks_works d M m n t st1 st' k im (signature_sub _ _ Hs)) as (B & _).
      - rewrite (H1 (Len M)). looks.
      - rewrite (H1 (Idx M)). looks.
      - rewrite (H1 (Idx m)). looks.
      - intros u. rewrite (H' u). specialize (H1 u). looks.
      - eapply works_comp; [exact B|]. apply works_sym.
        refine (proj1 (slice_follows d (vmul k n) n t st2 st' Hs2 _)). intros u. rewrite (H' u).
        assert (E : get (Idx d) st2 = Some im) by (rewrite (He (Idx d)); looks). unfold moved. rewrite E. cbn [option_map].
        rewrite (vadd_comm im). specialize (He u). looks.
    Qed.

    Lemma block_length l cs : signature (View (VFix M k) b) <> None -> signature (View (VSlice d (vmul k n) n) t) <> None ->
      get (Idx m) st = None -> edited st (dropped [d; M; m]) cs -> length_ t d cs = Some l ->
      length_ (View (VFix M k) b) m st = Some n /\ length_ (View (VSlice d (vmul k n) n) t) d cs = Some n.
    Proof.
      intros Hs Hs2 Ei He El. pose proof (blocks_neq _ _ _ _ _ (signature_sub _ _ Hs)) as Hn. destruct (edited_ex st [(Idx M, Some k); (Len M, None)]) as (st1 & H1). split.
      - destruct (fix_follows M k b st st1 Hs H1) as (_ & A & _). destruct (A m) as [_ ->]; [congruence|exact Ei|].
        destruct (into_blocks_lengths d M m n t st1 cs l (signature_sub _ _ Hs)) as (B & _).
        + rewrite (H1 (Len M)). looks.
        + intros u. rewrite (He u). specialize (H1 u). looks.
        + exact El.
        + apply B. rewrite (H1 (Idx m)). looks.
      - assert (Ec : get (Idx d) cs = None) by (rewrite (He (Idx d)); looks).
        destruct (slice_follows d (vmul k n) n t cs cs Hs2) as (_ & _ & _ & B).
        + intros u. unfold moved. rewrite Ec. cbn [option_map edit_look]. destruct (tag_eqb_spec u (Idx d)) as [->|]; [exact Ec|reflexivity].
        + apply B. exact (length_has _ _ _ _ El).
    Qed.

    Lemma stride_works iM : signature (View (VFix m k) b) <> None -> signature (View (VStep d k n) t) <> None ->
      get (Len M) st = None -> get (Idx M) st = Some iM -> edited st ((Idx d, Some iM) :: dropped [d; M; m]) st2 ->
      works_as (View (VFix m k) b) st (View (VStep d k n) t) st2.
    Proof.
      intros Hs Hs2 El Ei He. pose proof (blocks_neq _ _ _ _ _ (signature_sub _ _ Hs)) as Hn. destruct (edited_ex st [(Idx m, Some k); (Len m, None)]) as (st1 & H1).
      destruct (fix_follows m k b st st1 Hs H1) as (A & _). eapply works_comp; [exact A|].
      destruct (edited_ex st ((Idx d, Some (vadd (vmul iM n) k)) :: dropped [d; M; m])) as (st' & H').
      destruct (into_blocks_works d M m n t st1 st' iM k (signature_sub _ _ Hs)) as (B & _).
      - rewrite (H1 (Len M)). looks.
      - rewrite (H1 (Idx M)). looks.
      - rewrite (H1 (Idx m)). looks.
      - intros u. rewrite (H' u). specialize (H1 u). looks.
      - eapply works_comp; [exact B|]. apply works_sym.
        refine (proj1 (step_follows d k n t st2 st' Hs2 _)). intros u. rewrite (H' u).
        assert (E : get (Idx d) st2 = Some iM) by (rewrite (He (Idx d)); looks). unfold moved. rewrite E. cbn [option_map].
        specialize (He u). looks.
    Qed.

    Lemma stride_length l cs len x y : signature (View (VFix m k) b) <> None -> signature (View (VStep d k n) t) <> None ->
      unused M st -> edited st (dropped [d; M; m]) cs -> length_ t d cs = Some l ->
      vz l = Some len -> vz n = Some x -> vz k = Some y -> y < x -> len mod x = 0 -> len + x <= W ->
      exists w w', length_ (View (VFix m k) b) M st = Some w /\ length_ (View (VStep d k n) t) d cs = Some w' /\
        vz w = Some (len / x) /\ vz w' = Some (len / x).
    Proof.
      intros Hs Hs2 [Ei Em] He El Hl Hx Hy Hlt Hd Hw. pose proof (blocks_neq _ _ _ _ _ (signature_sub _ _ Hs)) as Hn. destruct (edited_ex st [(Idx m, Some k); (Len m, None)]) as (st1 & H1).
      pose proof (vz_range _ _ Hy) as Ry. pose proof (vz_range _ _ Hl) as Rl. pose proof (vz_range _ _ Hx) as Rx.
      assert (Ec : get (Idx d) cs = None) by (rewrite (He (Idx d)); looks).
      destruct (step_length_num d k n t cs l len x y Hs2 Ec El Hl Hx Hy) as (w' & E1 & E2); [lia|lia|exact Hw|].
      exists (vdiv l n), w'. split; [|split; [exact E1|split]].
      - destruct (fix_follows m k b st st1 Hs H1) as (_ & A & _). destruct (A M) as [_ ->]; [congruence|exact Ei|].
        destruct (into_blocks_lengths d M m n t st1 cs l (signature_sub _ _ Hs)) as (_ & B).
        + rewrite (H1 (Len M)). looks.
        + intros u. rewrite (He u). specialize (H1 u). looks.
        + exact El.
        + apply B. rewrite (H1 (Idx M)). looks.
      - apply (vz_vdiv _ _ _ _ Hl Hx). lia.
      - rewrite E2. f_equal. symmetry. apply (Z.div_unique _ _ _ (x - y - 1)); [lia|].
        pose proof (Z.div_mod len x ltac:(lia)). lia.
    Qed.
  End Plain.

  Lemma block_dynamic_works p im ip : let b := apply (p_into_blocks_dynamic d M m p n) t in
    signature (View (VFix M k) b) <> None -> signature (View (VSlice d (vmul k n) n) t) <> None ->
    get (Len p) st = None -> get (Idx m) st = Some im -> get (Idx p) st = Some ip -> edited st ((Idx d, Some im) :: dropped [d; M; m; p]) st2 ->
    works_as (View (VFix M k) b) st (View (VSlice d (vmul k n) n) t) st2.
  Proof.
    intros b Hs Hs2 Ep Ei Eip He. destruct (blocks_dyn_neq _ _ _ _ _ _ (signature_sub _ _ Hs)) as (N1 & N2 & N3).
    destruct (edited_ex st [(Idx M, Some k); (Len M, None)]) as (st1 & H1).
    destruct (fix_follows M k b st st1 Hs H1) as (A & _). eapply works_comp; [exact A|].
    destruct (edited_ex st ((Idx d, Some (vadd (vmul k n) im)) :: dropped [d; M; m; p])) as (st' & H').
    destruct (into_blocks_dyn_works d M m p n t st1 st' k im ip (signature_sub _ _ Hs)) as (B & _).
    - rewrite (H1 (Len M)). looks.
    - rewrite (H1 (Len p)). looks.
    - rewrite (H1 (Idx M)). looks.
    - rewrite (H1 (Idx m)). looks.
    - rewrite (H1 (Idx p)). looks.
    - intros u. rewrite (H' u). specialize (H1 u). looks.
    - eapply works_comp; [exact B|]. apply works_sym.
      refine (proj1 (slice_follows d (vmul k n) n t st2 st' Hs2 _)). intros u. rewrite (H' u).
      assert (E : get (Idx d) st2 = Some im) by (rewrite (He (Idx d)); looks). unfold moved. rewrite E. cbn [option_map].
      rewrite (vadd_comm im). specialize (He u). looks.
  Qed.
End Tiles.
